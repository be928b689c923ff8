(** Proofs for C112. *)
From Coq Require Import ZArith Reals List Lia Lra.
From Flocq Require Import Core.Core IEEE754.BinarySingleNaN.
From Verif Require Import Outcome DoubleModel DoubleProofs DoubleFacts DoubleSpec MixerDoubleModel MixerDoubleSpec MixerDoubleProofs StorageDoubleModel StorageDoubleSpec StorageDoubleProofs SourceDoubleModel SourceDoubleSpec.
Import ListNotations.
Local Open Scope R_scope.
Local Existing Instance double_prec.
Local Existing Instance double_emax.
Local Existing Instance fe_valid.

Definition num (x : double) : Prop := is_finite x = true /\ 0 <= B2R x <= pw 1022.
Lemma num_quantity x : quantity_d x -> B2R x <= pw 1022 -> num x.
Proof. intros X B. split; [apply X|]. split; [apply q_nonneg, X|exact B]. Qed.
Lemma ltb_val (x y : double) : is_finite x = true -> is_finite y = true -> (Bltb x y = true <-> B2R x < B2R y) /\ (Bltb x y = false <-> B2R y <= B2R x).
Proof. intros X Y. rewrite Bltb_correct by assumption. destruct (Rlt_bool_spec (B2R x) (B2R y)); split; split; intros; try lra; try discriminate; reflexivity. Qed.
Lemma am_q l : Forall amount_d l -> Forall quantity_d l.
Proof. apply Forall_impl. intros a A. apply A. Qed.
Lemma not_zero a : amount_d a -> Bleb a (of_int 0) = false.
Proof.
  intros [A P]. destruct (f_int 0 ltac:(reflexivity)) as [F V]. rewrite Bleb_correct by (assumption || apply A). apply Rle_bool_false. rewrite V. exact P.
Qed.
(** One trade. *)
Lemma pop_ok s a : num s -> amount_d a -> B2R a <= B2R s ->
  pop_plain_d s a = Ok (dminus s a) /\ num (dminus s a) /\ B2R (dminus s a) = rnd (B2R s - B2R a) /\ B2R (dminus s a) <= B2R s /\
  Rabs (B2R (dminus s a) - (B2R s - B2R a)) <= u * B2R s.
Proof.
  intros (S & S0 & S1) A L. pose proof (q_nonneg a (proj1 A)) as A0. destruct (f_minus s a S (proj1 (proj1 A))) as [F V].
  { rewrite Rabs_pos_eq by lra. apply Rle_trans with (pw 1022); [lra|apply bpow_le; lia]. }
  assert (R0 : 0 <= rnd (B2R s - B2R a)) by (apply rnd_nonneg; lra).
  assert (R1 : rnd (B2R s - B2R a) <= B2R s) by (apply rnd_le_fmt; [apply fmt_double|lra]).
  unfold pop_plain_d. destruct (ltb_val s a S (proj1 (proj1 A))) as [_ [_ E]]. rewrite E by exact L. rewrite (not_zero a A). split; [reflexivity|].
  split; [split; [exact F|rewrite V; lra]|]. split; [exact V|]. rewrite V. split; [exact R1|].
  pose proof (rel_diff (B2R s) (B2R a) (fmt_double s) (fmt_double a)) as E1. rewrite (Rabs_pos_eq (B2R s - B2R a)) in E1 by lra.
  apply Rle_trans with (1 := E1). apply Rmult_le_compat_l; [apply bpow_ge_0|lra].
Qed.
Lemma pop_inv s a r : num s -> amount_d a -> pop_plain_d s a = Ok r -> B2R a <= B2R s /\ r = dminus s a.
Proof.
  intros (S & _) A H. unfold pop_plain_d in H. destruct (Bltb s a) eqn:E; [discriminate|]. rewrite (not_zero a A) in H. injection H as <-.
  apply (ltb_val s a S (proj1 (proj1 A))) in E. auto.
Qed.

(** With room for the rounding of every trade. *)
Lemma trades_room amts : forall s top, num s -> B2R s <= top -> Forall amount_d amts ->
  sum_of amts + INR (List.length amts) * u * top <= B2R s ->
  exists r, trades_d amts s = Ok r /\ num r /\ B2R r <= B2R s /\ Rabs (B2R r - (B2R s - sum_of amts)) <= INR (List.length amts) * u * top.
Proof.
  induction amts as [|a l IH]; intros s top N T Q H.
  - exists s. split; [reflexivity|]. split; [exact N|]. change (sum_of []) with 0. cbn [List.length INR]. split; [lra|]. rewrite Rminus_0_r, Rminus_diag_eq, Rabs_R0 by reflexivity. lra.
  - inversion Q as [|? ? A QL]; subst. rewrite sum_cons in *. cbn [List.length] in *. rewrite S_INR in *. pose proof (sum_q l (am_q l QL)) as L0. pose proof (q_nonneg a (proj1 A)) as A0.
    assert (U0 : 0 <= u) by apply bpow_ge_0. assert (T0 : 0 <= u * top) by (apply Rmult_le_pos; [exact U0|destruct N as (_ & N0 & _); lra]).
    pose proof (pos_INR (List.length l)) as P. assert (T1 : 0 <= INR (List.length l) * u * top) by (rewrite Rmult_assoc; apply Rmult_le_pos; assumption).
    destruct (pop_ok s a N A) as (E & N' & _ & L' & Er). { lra. }
    assert (Er' : Rabs (B2R (dminus s a) - (B2R s - B2R a)) <= u * top).
    { apply Rle_trans with (1 := Er). apply Rmult_le_compat_l; assumption. }
    apply Rabs_le_inv in Er'. destruct (IH (dminus s a) top N') as (r & R1 & R2 & R3 & R4); [lra|exact QL|lra|].
    exists r. unfold trades_d. cbn [loop]. rewrite E. cbn [bind]. split; [exact R1|]. split; [exact R2|]. split; [lra|].
    apply Rabs_le_inv in R4. apply Rabs_le. lra.
Qed.
Lemma fills_final stock amts : orderly stock amts ->
  sum_of amts + INR (List.length amts) * bpow radix2 (-53) * B2R stock <= B2R stock ->
  exists rest, trades_d amts stock = Ok rest /\ is_finite rest = true /\ 0 <= B2R rest /\
    Rabs (B2R rest - (B2R stock - sum_of amts)) <= INR (List.length amts) * bpow radix2 (-53) * B2R stock.
Proof.
  intros (Q & B & A) H. destruct (trades_room amts stock (B2R stock)) as (r & R1 & R2 & R3 & R4); try assumption; [apply num_quantity; assumption|lra|].
  exists r. split; [exact R1|]. split; [apply R2|]. split; [apply R2|exact R4].
Qed.
(** Two trades: the first remainder is at least any double that is at most the exact one. *)
Lemma two_final stock amts : orderly stock amts -> (List.length amts <= 2)%nat -> sum_of amts <= B2R stock ->
  exists rest, trades_d amts stock = Ok rest /\ is_finite rest = true /\ 0 <= B2R rest.
Proof.
  intros (Q & B & A) L H. pose proof (num_quantity stock Q B) as N.
  destruct amts as [|a [|b [|c l]]]; [| | |cbn in L; lia].
  - exists stock. split; [reflexivity|]. split; apply N.
  - inversion A as [|? ? A1 _]; subst. unfold sum_of in H. cbn [fold_right] in H. destruct (pop_ok stock a N A1) as (E & N' & _); [lra|].
    exists (dminus stock a). unfold trades_d. cbn [loop]. rewrite E. cbn [bind]. split; [reflexivity|]. split; apply N'.
  - inversion A as [|? ? A1 A2]; subst. inversion A2 as [|? ? B1 _]; subst. unfold sum_of in H. cbn [fold_right] in H.
    pose proof (q_nonneg b (proj1 B1)) as B0. destruct (pop_ok stock a N A1) as (E & N' & V & _); [lra|].
    destruct (pop_ok (dminus stock a) b N' B1) as (E' & N2 & _).
    { rewrite V. apply rnd_ge_fmt; [apply fmt_double|lra]. }
    exists (dminus (dminus stock a) b). unfold trades_d. cbn [loop]. rewrite E. cbn [bind]. rewrite E'. cbn [bind]. split; [reflexivity|]. split; apply N2.
Qed.
(** What was shipped exceeds the stock by rounding only. *)
Lemma shipped_bound amts : forall s top r, num s -> B2R s <= top -> Forall amount_d amts -> trades_d amts s = Ok r ->
  num r /\ B2R r <= B2R s /\ Rabs (B2R r - (B2R s - sum_of amts)) <= INR (List.length amts) * u * top.
Proof.
  induction amts as [|a l IH]; intros s top r N T Q H.
  - injection H as <-. split; [exact N|]. change (sum_of []) with 0. cbn [List.length INR]. split; [lra|]. rewrite Rminus_0_r, Rminus_diag_eq, Rabs_R0 by reflexivity. lra.
  - inversion Q as [|? ? A QL]; subst. unfold trades_d in H. cbn [loop] in H. destruct (pop_plain_d s a) as [s1|e|x|] eqn:E; cbn [bind] in H; try discriminate.
    destruct (pop_inv s a s1 N A E) as [L ->]. destruct (pop_ok s a N A L) as (_ & N' & _ & L' & Er).
    destruct (IH (dminus s a) top r N') as (R1 & R2 & R3); [lra|exact QL|exact H|].
    assert (Er' : Rabs (B2R (dminus s a) - (B2R s - B2R a)) <= u * top).
    { apply Rle_trans with (1 := Er). apply Rmult_le_compat_l; [apply bpow_ge_0|assumption]. }
    split; [exact R1|]. split; [lra|]. rewrite sum_cons. cbn [List.length]. rewrite S_INR. apply Rabs_le_inv in R3. apply Rabs_le_inv in Er'. apply Rabs_le. lra.
Qed.
Lemma life_flat t steps : forall s offers r, source_life_d t steps s = Ok (offers, r) -> trades_d (List.concat steps) s = Ok r.
Proof.
  induction steps as [|l ls IH]; intros s offers r H; cbn [source_life_d List.concat] in *.
  - injection H as _ <-. reflexivity.
  - destruct (trades_d l s) as [s1|e|x|] eqn:E; cbn [bind] in H; try discriminate.
    destruct (source_life_d t ls s1) as [[o r1]|e|x|] eqn:E1; cbn [bind] in H; try discriminate. injection H as _ <-.
    apply IH in E1 as E2. clear E1 IH. unfold trades_d in *. revert s E. induction l as [|a l IHl]; intros s E; cbn [loop app] in *.
    + injection E as <-. exact E2.
    + destruct (pop_plain_d s a) as [s2|e|x|]; cbn [bind] in *; try discriminate. apply IHl. exact E.
Qed.
Lemma never_more_final throughput stock steps offers rest : orderly stock (List.concat steps) ->
  source_life_d throughput steps stock = Ok (offers, rest) ->
  is_finite rest = true /\ 0 <= B2R rest <= B2R stock /\
  Rabs (B2R rest + sum_of (List.concat steps) - B2R stock) <= INR (List.length (List.concat steps)) * bpow radix2 (-53) * B2R stock.
Proof.
  intros (Q & B & A) H. apply life_flat in H. destruct (shipped_bound (List.concat steps) stock (B2R stock) rest) as (R1 & R2 & R3); try assumption; [apply num_quantity; assumption|lra|].
  split; [apply R1|]. split; [split; [apply R1|exact R2]|]. replace (B2R rest + sum_of (List.concat steps) - B2R stock) with (B2R rest - (B2R stock - sum_of (List.concat steps))) by ring. exact R3.
Qed.

(** ** Multiples of a power of two *)
Lemma minus_exact e (s a : double) : (-1074 <= e <= 900)%Z -> multiple e s -> multiple e a -> B2R s <= pw (e + 53) -> 0 <= B2R a <= B2R s ->
  rnd (B2R s - B2R a) = B2R s - B2R a /\ exists k, B2R s - B2R a = IZR k * pw e.
Proof.
  intros E [k K] [j J] B A. assert (W : B2R s - B2R a = IZR (k - j) * pw e) by (rewrite minus_IZR, K, J; ring).
  split; [|exists (k - j)%Z; exact W]. apply rnd_id. rewrite W. apply multiple_fmt; [lia|].
  assert (0 <= B2R s - B2R a <= pw (e + 53)) as Y by lra. rewrite W, (Z.add_comm e 53), bpow_plus in Y. pose proof (pw_small e) as P.
  assert (0 <= IZR (k - j)) as Y0 by (apply Rmult_le_reg_r with (1 := P); lra). assert (IZR (k - j) <= pw 53) as Y1 by (apply Rmult_le_reg_r with (1 := P); lra).
  apply le_IZR in Y0. change (pw 53) with (IZR (2 ^ 53)) in Y1. apply le_IZR in Y1. lia.
Qed.
Lemma trades_exact e amts : (-1074 <= e <= 900)%Z -> forall s, num s -> multiple e s -> B2R s <= pw (e + 53) -> Forall amount_d amts -> Forall (multiple e) amts ->
  sum_of amts <= B2R s -> exists r, trades_d amts s = Ok r /\ num r /\ multiple e r /\ B2R r = B2R s - sum_of amts.
Proof.
  intro E. induction amts as [|a l IH]; intros s N M B Q MA H.
  - exists s. split; [reflexivity|]. split; [exact N|]. split; [exact M|]. change (sum_of []) with 0. ring.
  - inversion Q as [|? ? A QL]; subst. inversion MA as [|? ? Ma ML]; subst. rewrite sum_cons in *. pose proof (sum_q l (am_q l QL)) as L0. pose proof (q_nonneg a (proj1 A)) as A0.
    destruct (pop_ok s a N A) as (P & N' & V & _ & _); [lra|]. destruct (minus_exact e s a E M Ma B) as [X [k Y]]; [lra|]. rewrite X in V.
    destruct (IH (dminus s a) N') as (r & R1 & R2 & R3 & R4); [exists k; rewrite V; exact Y|lra|exact QL|exact ML|lra|].
    exists r. unfold trades_d. cbn [loop]. rewrite P. cbn [bind]. split; [exact R1|]. split; [exact R2|]. split; [exact R3|]. lra.
Qed.
Lemma offer_val t s : is_finite t = true -> is_finite s = true -> B2R (offer_d t s) = Rmin (B2R t) (B2R s).
Proof.
  intros T S. unfold offer_d, dmin. destruct (Bltb s t) eqn:E; apply (ltb_val s t S T) in E; symmetry; [apply Rmin_right|apply Rmin_left]; lra.
Qed.
Lemma life_exact e t steps : (-1074 <= e <= 900)%Z -> is_finite t = true -> forall s, num s -> multiple e s -> B2R s <= pw (e + 53) ->
  Forall amount_d (List.concat steps) -> Forall (multiple e) (List.concat steps) -> within_offers (B2R t) (B2R s) steps ->
  exists offers r, source_life_d t steps s = Ok (offers, r) /\ B2R r = B2R s - sum_of (List.concat steps) /\ List.length offers = List.length steps /\
    forall before step after o, steps = before ++ step :: after -> nth_error offers (List.length before) = Some o ->
      B2R o = Rmin (B2R t) (B2R s - sum_of (List.concat before)).
Proof.
  intros E T. induction steps as [|l ls IH]; intros s N M B Q MA W.
  - exists [], s. split; [reflexivity|]. cbn [List.concat]. change (sum_of []) with 0. split; [ring|]. split; [reflexivity|].
    intros before step after o H. destruct before; discriminate.
  - cbn [List.concat] in *. apply Forall_app in Q as [Q1 Q2]. apply Forall_app in MA as [M1 M2].
    pose proof (W [] l ls eq_refl) as W0. cbn [List.concat] in W0. change (sum_of []) with 0 in W0. rewrite Rminus_0_r in W0.
    destruct (trades_exact e l E s N M B Q1 M1) as (s1 & P & N1 & Ms & V). { apply Rle_trans with (1 := W0). apply Rmin_r. }
    pose proof (sum_q l (am_q l Q1)) as L0.
    destruct (IH s1 N1 Ms) as (offers & r & R1 & R2 & R3 & R4); [lra|exact Q2|exact M2| |].
    { intros before step after H. specialize (W (l :: before) step after). cbn [List.concat app] in W. rewrite sum_app in W.
      rewrite V. replace (B2R s - sum_of l - sum_of (List.concat before)) with (B2R s - (sum_of l + sum_of (List.concat before))) by ring. apply W. rewrite H. reflexivity. }
    exists (offer_d t s :: offers), r. cbn [source_life_d]. rewrite P. cbn [bind]. rewrite R1. cbn [bind]. split; [reflexivity|].
    split; [rewrite R2, V, sum_app; ring|]. split; [cbn; congruence|].
    intros before step after o H O. destruct before as [|b before].
    + cbn in O. injection O as <-. cbn [List.concat]. change (sum_of []) with 0. rewrite Rminus_0_r. apply offer_val; [exact T|apply N].
    + cbn in H, O. injection H as -> H. rewrite (R4 before step after o H O). cbn [List.concat]. rewrite V, sum_app. f_equal. ring.
Qed.
Lemma grid_final e throughput stock steps : is_finite throughput = true -> orderly stock (List.concat steps) -> on_grid e stock (List.concat steps) ->
  within_offers (B2R throughput) (B2R stock) steps ->
  exists offers rest, source_life_d throughput steps stock = Ok (offers, rest) /\ B2R rest = B2R stock - sum_of (List.concat steps) /\
    List.length offers = List.length steps /\
    forall before step after o, steps = before ++ step :: after -> nth_error offers (List.length before) = Some o ->
      B2R o = Rmin (B2R throughput) (B2R stock - sum_of (List.concat before)).
Proof.
  intros T (Q & B & A) (E & M & G & MA) W. apply (life_exact e); try assumption. apply num_quantity; assumption.
Qed.
(** Bids. *)
Lemma bid_final throughput stock target : is_finite throughput = true -> is_finite stock = true -> is_finite target = true ->
  B2R (bid_d throughput stock target) = Rmin (B2R target) (Rmin (B2R throughput) (B2R stock)).
Proof.
  intros T S G. unfold bid_d. assert (is_finite (offer_d throughput stock) = true) as F by (unfold offer_d, dmin; destruct (Bltb stock throughput); assumption).
  rewrite <- offer_val by assumption. apply (offer_val target (offer_d throughput stock) G F).
Qed.
