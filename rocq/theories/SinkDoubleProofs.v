(** Proofs for C115. *)
From Coq Require Import ZArith Reals List Lia Lra.
From Flocq Require Import Core.Core IEEE754.BinarySingleNaN.
From Verif Require Import Outcome DoubleModel DoubleProofs DoubleFacts DoubleSpec MixerDoubleModel MixerDoubleSpec MixerDoubleProofs
  StorageDoubleSpec StorageDoubleProofs SourceDoubleProofs SinkDoubleModel SinkDoubleSpec.
Import ListNotations.
Local Open Scope R_scope.
Local Existing Instance double_prec.
Local Existing Instance double_emax.
Local Existing Instance fe_valid.

(** A stock of at most 2 ^ 1002. *)
Definition stock (q : double) : Prop := is_finite q = true /\ 0 <= B2R q <= pw 1002.
Lemma pw_2 e : pw (e + 1) = 2 * pw e. Proof. rewrite bpow_plus, Rmult_comm. reflexivity. Qed.
Lemma fin_zero : fin (of_int 0) 0. Proof. apply (f_int 0). reflexivity. Qed.
Lemma max0_val (x : double) : is_finite x = true -> fin (dmax (of_int 0) x) (Rmax 0 (B2R x)).
Proof. intro F. apply fin_max. split; [exact F|reflexivity]. Qed.

(** Space: within rounding of the exact one. *)
Lemma space_val size q : stock size -> stock q -> fin (sink_space_d size q) (Rmax 0 (rnd (B2R size - B2R q))).
Proof.
  intros (S & S0) (Q & Q0). destruct (f_minus size q S Q) as [F V].
  { apply Rabs_le. assert (pw 1002 <= pw 1023) by (apply bpow_le; lia). lra. }
  unfold sink_space_d. rewrite <- V. apply max0_val, F.
Qed.
Lemma space_low size q : stock size -> stock q -> B2R size - B2R q - u * B2R size <= B2R (sink_space_d size q) /\ 0 <= B2R (sink_space_d size q).
Proof.
  intros S Q. destruct (space_val size q S Q) as [_ V]. rewrite V. split; [|apply Rmax_l]. destruct S as (Fs & S0), Q as (Fq & Q0).
  assert (U0 : 0 <= u * B2R size) by (apply Rmult_le_pos; [apply bpow_ge_0|lra]).
  destruct (Rle_or_lt 0 (B2R size - B2R q)) as [H|H].
  - apply Rle_trans with (2 := Rmax_r _ _). pose proof (rel_diff (B2R size) (B2R q) (fmt_double size) (fmt_double q)) as E.
    rewrite (Rabs_pos_eq (B2R size - B2R q)) in E by exact H. apply Rabs_le_inv in E.
    assert (u * (B2R size - B2R q) <= u * B2R size) by (apply Rmult_le_compat_l; [apply bpow_ge_0|lra]). lra.
  - apply Rle_trans with (2 := Rmax_l _ _). lra.
Qed.
Lemma space_high size q : stock size -> stock q -> B2R q <= B2R size -> B2R (sink_space_d size q) <= B2R size - B2R q + u * B2R size.
Proof.
  intros S Q H. destruct (space_val size q S Q) as [_ V]. rewrite V. destruct S as (Fs & S0), Q as (Fq & Q0).
  pose proof (rel_diff (B2R size) (B2R q) (fmt_double size) (fmt_double q)) as E.
  rewrite (Rabs_pos_eq (B2R size - B2R q)) in E by lra. apply Rabs_le_inv in E.
  assert (u * (B2R size - B2R q) <= u * B2R size) by (apply Rmult_le_compat_l; [apply bpow_ge_0|lra]).
  assert (0 <= u * B2R size) by (apply Rmult_le_pos; [apply bpow_ge_0|lra]). apply Rmax_lub; lra.
Qed.
Lemma space_none size q : stock size -> stock q -> B2R size <= B2R q -> B2R (sink_space_d size q) = 0.
Proof.
  intros S Q H. destruct (space_val size q S Q) as [_ V]. rewrite V. apply Rmax_left. apply rnd_le_fmt; [apply generic_format_0|lra].
Qed.
Lemma space_exact_fit size q (m : double) : stock size -> stock q -> B2R m <= B2R size - B2R q -> B2R m <= B2R (sink_space_d size q).
Proof.
  intros S Q H. destruct (space_val size q S Q) as [_ V]. rewrite V. apply Rle_trans with (2 := Rmax_r _ _). apply rnd_ge_fmt; [apply fmt_double|exact H].
Qed.
Lemma available_val capacity size q : is_finite capacity = true -> stock size -> stock q ->
  fin (sink_available_d capacity size q) (Rmin (B2R capacity) (B2R (sink_space_d size q))).
Proof.
  intros C S Q. destruct (space_val size q S Q) as [F V]. destruct (max0_val _ F) as [F1 V1].
  assert (N : 0 <= B2R (sink_space_d size q)) by (apply space_low; assumption). rewrite Rmax_right in V1 by exact N.
  unfold sink_available_d. split; [unfold dmin; destruct (Bltb _ capacity); assumption|]. rewrite <- V1. apply (offer_val capacity); assumption.
Qed.

(** One delivery. *)
Lemma push_ok eps size q m : is_finite eps = true -> stock size -> stock q -> quantity_d m -> B2R m <= pw 1002 ->
  B2R m - B2R (sink_space_d size q) <= B2R eps ->
  sink_push_d eps size q m = Ok (dplus q m) /\ fin (dplus q m) (rnd (B2R q + B2R m)).
Proof.
  intros E S Q M B H. destruct (space_val size q S Q) as [F _]. pose proof (space_low size q S Q) as [_ N]. pose proof (q_nonneg m M) as M0.
  assert (P : pw 1002 + pw 1002 <= pw 1023). { assert (pw 1003 = 2 * pw 1002) by apply (pw_2 1002). assert (pw 1003 <= pw 1023) by (apply bpow_le; lia). lra. }
  assert (Sp : B2R (sink_space_d size q) <= pw 1002).
  { destruct (space_val size q S Q) as [_ V]. rewrite V. apply Rmax_lub; [apply bpow_ge_0|]. apply rnd_le_fmt; [apply fmt_pw; lia|]. destruct S as (_ & S0), Q as (_ & Q0). lra. }
  destruct (f_minus m (sink_space_d size q) (proj1 M) F) as [F1 V1]; [apply Rabs_le; lra|].
  destruct Q as (Fq & Q0). split; [|apply f_plus; [exact Fq|apply M|apply Rabs_le; lra]].
  unfold sink_push_d. destruct (ltb_val eps (dminus m (sink_space_d size q)) E F1) as [_ [_ L]]. rewrite L; [reflexivity|].
  rewrite V1. apply rnd_le_fmt; [apply fmt_double|exact H].
Qed.
Lemma push_inv eps size q m r : sink_push_d eps size q m = Ok r -> r = dplus q m.
Proof. unfold sink_push_d. destruct (Bltb _ _); [discriminate|]. intro H. injection H as <-. reflexivity. Qed.

(** Nothing delivered. *)
Lemma accept_zero eps size ms : is_finite eps = true -> 0 <= B2R eps -> stock size -> Forall quantity_d ms -> sum_of ms <= 0 -> forall q, stock q ->
  exists r, sink_accept_d eps size ms q = Ok r /\ stock r /\ B2R r = B2R q.
Proof.
  intros E E0 S. induction ms as [|m l IH]; intros A H q Q.
  - exists q. split; [reflexivity|]. split; [exact Q|reflexivity].
  - inversion A as [|? ? M AL]; subst. rewrite sum_cons in H. pose proof (sum_q l AL) as L0. pose proof (q_nonneg m M) as M0.
    assert (Z : B2R m = 0) by lra. destruct (push_ok eps size q m E S Q M) as (P & F & V).
    { rewrite Z. apply bpow_ge_0. } { pose proof (space_low size q S Q) as [_ N]. lra. }
    rewrite Z, Rplus_0_r in V. rewrite (rnd_id (B2R q)) in V by apply fmt_double.
    destruct (IH AL ltac:(lra) (dplus q m)) as (r & R1 & R2 & R3). { split; [exact F|]. rewrite V. apply Q. }
    exists r. unfold sink_accept_d. cbn [loop]. rewrite P. cbn [bind]. split; [exact R1|]. split; [exact R2|]. rewrite R3. exact V.
Qed.
(** The deliveries of a step: [j] have been made, of at most [k]. *)
Lemma accept_room eps size k ms : is_finite eps = true -> stock size -> B2R size <= pw 1000 -> (2 * INR k + 1) * u <= 1 -> (2 * INR k + 2) * u * B2R size <= B2R eps ->
  forall q j, stock q -> Forall quantity_d ms -> (j + List.length ms <= k)%nat ->
  B2R q + sum_of ms <= B2R size + (2 * INR j + 1) * u * B2R size ->
  exists r, sink_accept_d eps size ms q = Ok r /\ stock r /\ Rabs (B2R r - (B2R q + sum_of ms)) <= INR (List.length ms) * (2 * u * B2R size).
Proof.
  intros E S B Ku Ke. assert (U0 : 0 <= u) by apply bpow_ge_0. assert (S0 : 0 <= B2R size) by apply S. assert (US : 0 <= u * B2R size) by (apply Rmult_le_pos; assumption).
  assert (P2 : pw 1002 = 4 * pw 1000). { change (pw 1002) with (pw (1000 + 2)). rewrite bpow_plus. rewrite Rmult_comm. reflexivity. }
  induction ms as [|m l IH]; intros q j Q A L H.
  - exists q. split; [reflexivity|]. split; [exact Q|]. change (sum_of []) with 0. cbn [List.length INR]. rewrite Rplus_0_r, Rminus_diag_eq, Rabs_R0 by reflexivity. lra.
  - inversion A as [|? ? M AL]; subst. rewrite sum_cons in *. cbn [List.length] in *. rewrite S_INR in *. pose proof (sum_q l AL) as L0. pose proof (q_nonneg m M) as M0.
    assert (J : INR j + 1 <= INR k). { rewrite <- S_INR. apply le_INR. lia. } pose proof (pos_INR j) as J0.
    assert (J1 : (2 * INR j + 1) * u * B2R size <= B2R size).
    { rewrite <- (Rmult_1_l (B2R size)) at 2. apply Rmult_le_compat_r; [exact S0|]. apply Rle_trans with (2 := Ku). apply Rmult_le_compat_r; [exact U0|lra]. }
    assert (Q0 : 0 <= B2R q) by apply Q.
    destruct (push_ok eps size q m E S Q M) as (P & F & V).
    { lra. }
    { pose proof (space_low size q S Q) as [N _]. apply Rle_trans with (2 := Ke).
      assert ((2 * INR j + 2) * (u * B2R size) <= (2 * INR k + 2) * (u * B2R size)) by (apply Rmult_le_compat_r; lra). lra. }
    pose proof (rel_sum (B2R q) (B2R m) (fmt_double q) (fmt_double m)) as Er. rewrite <- V in Er. rewrite (Rabs_pos_eq (B2R q + B2R m)) in Er by lra.
    assert (Er' : u * (B2R q + B2R m) <= u * (2 * B2R size)) by (apply Rmult_le_compat_l; lra).
    apply Rabs_le_inv in Er.
    assert (Nn : 0 <= B2R (dplus q m)) by (rewrite V; apply rnd_nonneg; lra).
    assert (Up : B2R (dplus q m) <= pw 1002). { rewrite V. apply rnd_le_fmt; [apply fmt_pw; lia|]. lra. }
    destruct (IH (dplus q m) (Datatypes.S j)) as (r & R1 & R2 & R3); [split; [exact F|split; assumption]|exact AL|lia|rewrite S_INR; lra|].
    exists r. unfold sink_accept_d. cbn [loop]. rewrite P. cbn [bind]. split; [exact R1|]. split; [exact R2|].
    apply Rabs_le_inv in R3. apply Rabs_le. lra.
Qed.
Lemma accept_app eps size a b q : sink_accept_d eps size (a ++ b) q = (let* q1 := sink_accept_d eps size a q in sink_accept_d eps size b q1).
Proof.
  unfold sink_accept_d. revert q. induction a as [|m l IH]; intro q; [reflexivity|]. cbn [app loop]. destruct (sink_push_d eps size q m); cbn [bind]; [apply IH|reflexivity..].
Qed.
Lemma step_eq eps eg capacity size q e : sink_step_d eps eg capacity size q e =
  (let* r := sink_accept_d eps size (delivered e) q in Ok (r, {| so_available := sink_available_d capacity size q; so_request := sink_request_d eg capacity size q e |})).
Proof.
  unfold sink_step_d, delivered. rewrite accept_app. destruct (sink_accept_d eps size (sd_mats e) q); reflexivity.
Qed.

(** ** Invariant *)
Definition bounded (k : nat) (size q : double) : Prop := stock q /\ B2R q <= B2R size + (2 * INR k + 1) * u * B2R size.
Lemma len_small k : (Z.of_nat k <= 2 ^ 40)%Z -> (2 * INR k + 1) * u <= 1.
Proof.
  intro H. rewrite INR_IZR_INZ. apply IZR_le in H. change (IZR (2 ^ 40)) with 1099511627776 in H. rewrite u_val. lra.
Qed.
Lemma input_facts eps capacity size k : sink_input eps capacity size k ->
  is_finite eps = true /\ is_finite capacity = true /\ stock size /\ B2R size <= pw 1000 /\ (2 * INR k + 1) * u <= 1 /\ (2 * INR k + 2) * u * B2R size <= B2R eps /\ 0 <= B2R eps.
Proof.
  intros (E & C & Q & B & K & H). pose proof (q_nonneg size Q) as S0. split; [exact E|]. split; [exact C|].
  split; [split; [apply Q|]; split; [exact S0|]; apply Rle_trans with (1 := B); apply bpow_le; lia|]. split; [exact B|]. split; [apply len_small, K|]. split; [exact H|].
  apply Rle_trans with (2 := H). repeat apply Rmult_le_pos; [|apply bpow_ge_0|exact S0]. pose proof (pos_INR k). lra.
Qed.
(** What is requested is within the space available. *)
Lemma request_le eg capacity size q e r : is_finite capacity = true -> stock size -> stock q ->
  match sd_draw e with None => True | Some r => is_finite r = true /\ 0 <= B2R r <= B2R (sink_available_d capacity size q) end ->
  is_finite eg = true -> 0 <= B2R eg ->
  sink_request_d eg capacity size q e = Some r -> B2R eg < B2R r <= B2R (sink_space_d size q).
Proof.
  intros C S Q D G G0 H. destruct (available_val capacity size q C S Q) as [F V].
  assert (A : B2R (sink_available_d capacity size q) <= B2R (sink_space_d size q)) by (rewrite V; apply Rmin_r).
  unfold sink_request_d in H. destruct (Bltb eg _) eqn:L; [|discriminate]. injection H as <-. unfold sink_amt_d in *.
  destruct (sd_buys e).
  - destruct (sd_draw e) as [d|].
    + destruct D as [Fd D]. apply (ltb_val eg d G Fd) in L. lra.
    + apply (ltb_val eg _ G F) in L. lra.
  - destruct fin_zero as [F0 V0]. apply (ltb_val eg _ G F0) in L. rewrite V0 in L. lra.
Qed.
Lemma step_ok eps eg capacity size k q e : sink_input eps capacity size k -> is_finite eg = true -> 0 <= B2R eg -> bounded k size q ->
  respects k e {| so_available := sink_available_d capacity size q; so_request := sink_request_d eg capacity size q e |} ->
  exists r, sink_step_d eps eg capacity size q e = Ok (r, {| so_available := sink_available_d capacity size q; so_request := sink_request_d eg capacity size q e |}) /\
    bounded k size r /\ Rabs (B2R r - (B2R q + sum_of (delivered e))) <= INR (List.length (delivered e)) * (2 * u * B2R size).
Proof.
  intros I G G0 (Q & Bq) (L & A & R & D). cbn [so_request so_available] in R, D.
  destruct (input_facts _ _ _ _ I) as (E & C & S & B & Ku & Ke & E0).
  assert (U0 : 0 <= u) by apply bpow_ge_0. assert (S0 : 0 <= B2R size) by apply S. assert (US : 0 <= u * B2R size) by (apply Rmult_le_pos; assumption).
  assert (T : sum_of (delivered e) <= B2R (sink_space_d size q)).
  { destruct (sink_request_d eg capacity size q e) as [r|] eqn:X.
    - apply Rle_trans with (1 := R). apply (request_le eg capacity size q e r C S Q D G G0 X).
    - rewrite R. change (sum_of []) with 0. apply space_low; assumption. }
  rewrite step_eq. destruct (Rle_or_lt (B2R size) (B2R q)) as [H|H].
  - rewrite (space_none size q S Q H) in T. destruct (accept_zero eps size (delivered e) E E0 S A T q Q) as (r & R1 & R2 & R3).
    exists r. rewrite R1. cbn [bind]. split; [reflexivity|]. split; [split; [exact R2|rewrite R3; exact Bq]|].
    pose proof (sum_q _ A) as N. rewrite R3. replace (sum_of (delivered e)) with 0 by lra. rewrite Rplus_0_r, Rminus_diag_eq, Rabs_R0 by reflexivity.
    apply Rmult_le_pos; [apply pos_INR|lra].
  - pose proof (space_high size q S Q (Rlt_le _ _ H)) as Hs.
    destruct (accept_room eps size k (delivered e) E S B Ku Ke q 0%nat Q A ltac:(lia)) as (r & R1 & R2 & R3).
    { change (INR 0) with 0. lra. }
    exists r. rewrite R1. cbn [bind]. split; [reflexivity|]. split; [|exact R3]. split; [exact R2|].
    apply Rabs_le_inv in R3. apply le_INR in L.
    assert (INR (List.length (delivered e)) * (2 * u * B2R size) <= INR k * (2 * u * B2R size)) by (apply Rmult_le_compat_r; lra). lra.
Qed.
Lemma step_out eps eg capacity size q e r o : sink_step_d eps eg capacity size q e = Ok (r, o) ->
  o = {| so_available := sink_available_d capacity size q; so_request := sink_request_d eg capacity size q e |}.
Proof. rewrite step_eq. destruct (sink_accept_d _ _ _ _); cbn [bind]; intro H; [injection H as _ <-; reflexivity|discriminate..]. Qed.
Lemma life_bounded eps eg capacity size k es : sink_input eps capacity size k -> is_finite eg = true -> 0 <= B2R eg ->
  forall q r os, bounded k size q -> sink_life_d eps eg capacity size q es = Ok (r, os) -> Forall2 (respects k) es os ->
  bounded k size r /\ Rabs (B2R r - (B2R q + sum_of (all_delivered es))) <= INR (List.length (all_delivered es)) * (2 * u * B2R size).
Proof.
  intros I G G0. induction es as [|e es IH]; intros q r os Bq H R.
  - injection H as <- <-. split; [exact Bq|]. cbn [all_delivered flat_map List.length INR]. change (sum_of []) with 0. rewrite Rplus_0_r, Rminus_diag_eq, Rabs_R0 by reflexivity. lra.
  - cbn [sink_life_d] in H. destruct (sink_step_d eps eg capacity size q e) as [[q1 o]|x|x|] eqn:E; cbn [bind] in H; try discriminate.
    destruct (sink_life_d eps eg capacity size q1 es) as [[q2 os1]|x|x|] eqn:E1; cbn [bind] in H; try discriminate.
    injection H as <- <-. inversion R as [|? ? ? ? R1 R2]; subst.
    pose proof (step_out _ _ _ _ _ _ _ _ E) as ->.
    destruct (step_ok eps eg capacity size k q e I G G0 Bq R1) as (q' & E' & B' & D'). rewrite E in E'. injection E' as <-.
    destruct (IH q1 q2 os1 B' E1 R2) as (B2 & D2). split; [exact B2|].
    cbn [all_delivered flat_map]. fold (all_delivered es). rewrite sum_app, app_length, plus_INR. apply Rabs_le_inv in D', D2. apply Rabs_le. lra.
Qed.
Lemma start_bounded eps capacity size k : sink_input eps capacity size k -> bounded k size (of_int 0).
Proof.
  intro I. destruct (input_facts _ _ _ _ I) as (_ & _ & S & _). destruct fin_zero as [F V]. split; [split; [exact F|rewrite V; split; [lra|apply bpow_ge_0]]|].
  rewrite V. assert (0 <= (2 * INR k + 1) * u * B2R size); [|destruct S as (_ & S0); lra].
  repeat apply Rmult_le_pos; [pose proof (pos_INR k); lra|apply bpow_ge_0|apply S].
Qed.

(** ** Final statements *)
Lemma never_fails_final eps eg capacity size k es e qty os : sink_input eps capacity size k -> is_finite eg = true -> 0 <= B2R eg ->
  sink_life_d eps eg capacity size (of_int 0) es = Ok (qty, os) -> Forall2 (respects k) es os ->
  respects k e {| so_available := sink_available_d capacity size qty; so_request := sink_request_d eg capacity size qty e |} ->
  exists r o, sink_step_d eps eg capacity size qty e = Ok (r, o).
Proof.
  intros I G G0 H R Re. destruct (life_bounded _ _ _ _ _ _ I G G0 _ _ _ (start_bounded _ _ _ _ I) H R) as (B & _).
  destruct (step_ok eps eg capacity size k qty e I G G0 B Re) as (r & E & _). exists r. eexists. exact E.
Qed.
Lemma inventory_final eps eg capacity size k es qty os : sink_input eps capacity size k -> is_finite eg = true -> 0 <= B2R eg ->
  sink_life_d eps eg capacity size (of_int 0) es = Ok (qty, os) -> Forall2 (respects k) es os ->
  is_finite qty = true /\ 0 <= B2R qty <= B2R size + (2 * INR k + 1) * bpow radix2 (-53) * B2R size /\
  Rabs (B2R qty - sum_of (all_delivered es)) <= INR (List.length (all_delivered es)) * (2 * bpow radix2 (-53) * B2R size).
Proof.
  intros I G G0 H R. destruct (life_bounded _ _ _ _ _ _ I G G0 _ _ _ (start_bounded _ _ _ _ I) H R) as ((Q & B) & D).
  destruct fin_zero as [_ V]. rewrite V, Rplus_0_l in D. split; [apply Q|]. split; [split; [apply Q|exact B]|exact D].
Qed.
Lemma request_final eps eg capacity size k es e qty os r : sink_input eps capacity size k -> is_finite eg = true -> 0 <= B2R eg ->
  sink_life_d eps eg capacity size (of_int 0) es = Ok (qty, os) -> Forall2 (respects k) es os -> sd_draw e = None ->
  sink_request_d eg capacity size qty e = Some r ->
  is_finite r = true /\ B2R eg < B2R r <= B2R capacity /\ B2R qty < B2R size /\
  Rabs (B2R r - Rmin (B2R capacity) (B2R size - B2R qty)) <= bpow radix2 (-53) * B2R size.
Proof.
  intros I G G0 H R N X. destruct (life_bounded _ _ _ _ _ _ I G G0 _ _ _ (start_bounded _ _ _ _ I) H R) as ((Q & B) & _).
  destruct (input_facts _ _ _ _ I) as (E & C & S & _).
  assert (L : B2R eg < B2R r <= B2R (sink_space_d size qty)). { apply (request_le eg capacity size qty e r C S Q); try assumption. rewrite N. exact Logic.I. }
  destruct (available_val capacity size qty C S Q) as [F V].
  assert (Er : r = sink_available_d capacity size qty).
  { unfold sink_request_d, sink_amt_d in X. rewrite N in X. destruct (sd_buys e); destruct (Bltb _ _) eqn:Lb; try discriminate; injection X as <-; [reflexivity|].
    destruct fin_zero as [F0 V0]. apply (ltb_val eg _ G F0) in Lb. rewrite V0 in Lb. lra. }
  subst r. split; [exact F|]. split; [split; [apply L|rewrite V; apply Rmin_l]|].
  destruct (Rle_or_lt (B2R size) (B2R qty)) as [W|W]; [rewrite (space_none size qty S Q W) in L; lra|]. split; [exact W|]. rewrite V.
  pose proof (space_high size qty S Q (Rlt_le _ _ W)) as H1. pose proof (space_low size qty S Q) as [H2 _]. apply Rabs_le.
  assert (0 <= u * B2R size) by (apply Rmult_le_pos; [apply bpow_ge_0|apply S]).
  unfold Rmin. destruct (Rle_dec (B2R capacity) _), (Rle_dec (B2R capacity) _); lra.
Qed.
(** Far from full, whatever the size. *)
Lemma far_accept eps size ms : is_finite eps = true -> 0 <= B2R eps -> stock size -> B2R size <= pw 1000 -> forall q, stock q -> Forall quantity_d ms ->
  B2R q + sum_of ms + INR (List.length ms) * (u * B2R size) <= B2R size ->
  exists r, sink_accept_d eps size ms q = Ok r /\ stock r /\ B2R r <= B2R q + sum_of ms + INR (List.length ms) * (u * B2R size).
Proof.
  intros E E0 S B. assert (US : 0 <= u * B2R size) by (apply Rmult_le_pos; [apply bpow_ge_0|apply S]). assert (P : pw 1000 <= pw 1002) by (apply bpow_le; lia).
  induction ms as [|m l IH]; intros q Q A H.
  - exists q. split; [reflexivity|]. split; [exact Q|]. change (sum_of []) with 0. cbn [List.length INR]. lra.
  - inversion A as [|? ? M AL]; subst. rewrite sum_cons in *. cbn [List.length] in *. rewrite S_INR in *. pose proof (sum_q l AL) as L0. pose proof (q_nonneg m M) as M0.
    pose proof (pos_INR (List.length l)) as N. assert (NU : 0 <= INR (List.length l) * (u * B2R size)) by (apply Rmult_le_pos; assumption).
    assert (Q0 : 0 <= B2R q) by apply Q.
    destruct (push_ok eps size q m E S Q M) as (Pq & F & V); [lra| |].
    { pose proof (space_exact_fit size q m S Q) as X. lra. }
    pose proof (rel_sum (B2R q) (B2R m) (fmt_double q) (fmt_double m)) as Er. rewrite <- V in Er. rewrite (Rabs_pos_eq (B2R q + B2R m)) in Er by lra.
    assert (Er' : u * (B2R q + B2R m) <= u * B2R size) by (apply Rmult_le_compat_l; [apply bpow_ge_0|lra]). apply Rabs_le_inv in Er.
    assert (Nn : 0 <= B2R (dplus q m)) by (rewrite V; apply rnd_nonneg; lra).
    destruct (IH (dplus q m)) as (r & R1 & R2 & R3); [split; [exact F|lra]|exact AL|lra|].
    exists r. unfold sink_accept_d. cbn [loop]. rewrite Pq. cbn [bind]. split; [exact R1|]. split; [exact R2|]. lra.
Qed.
Lemma far_life eps eg capacity size es : is_finite eps = true -> 0 <= B2R eps -> stock size -> B2R size <= pw 1000 -> forall q, stock q -> Forall quantity_d (all_delivered es) ->
  B2R q + sum_of (all_delivered es) + INR (List.length (all_delivered es)) * (u * B2R size) <= B2R size ->
  exists r os, sink_life_d eps eg capacity size q es = Ok (r, os).
Proof.
  intros E E0 S B. assert (US : 0 <= u * B2R size) by (apply Rmult_le_pos; [apply bpow_ge_0|apply S]).
  induction es as [|e es IH]; intros q Q A H.
  - exists q, []. reflexivity.
  - cbn [all_delivered flat_map] in *. fold (all_delivered es) in *. apply Forall_app in A as [A1 A2]. rewrite sum_app, app_length, plus_INR in H.
    pose proof (sum_q _ A2) as L0. pose proof (pos_INR (List.length (all_delivered es))) as N.
    assert (NU : 0 <= INR (List.length (all_delivered es)) * (u * B2R size)) by (apply Rmult_le_pos; assumption).
    destruct (far_accept eps size (delivered e) E E0 S B q Q A1) as (r & R1 & R2 & R3); [lra|].
    destruct (IH r R2 A2) as (r' & os & R4); [lra|]. do 2 eexists. cbn [sink_life_d]. rewrite step_eq, R1. cbn [bind]. rewrite R4. cbn [bind]. reflexivity.
Qed.
Lemma far_final eps eg capacity size es : is_finite eps = true -> 0 <= B2R eps -> quantity_d size -> B2R size <= bpow radix2 1000 ->
  Forall quantity_d (all_delivered es) ->
  sum_of (all_delivered es) + INR (List.length (all_delivered es)) * (bpow radix2 (-53) * B2R size) <= B2R size ->
  exists qty os, sink_life_d eps eg capacity size (of_int 0) es = Ok (qty, os).
Proof.
  intros E E0 Q B A H. destruct fin_zero as [F V]. apply far_life; try assumption.
  - split; [apply Q|]. split; [apply q_nonneg, Q|]. apply Rle_trans with (1 := B). apply bpow_le. lia.
  - split; [exact F|]. rewrite V. split; [lra|apply bpow_ge_0].
  - rewrite V. lra.
Qed.
(** On a grid nothing is rounded. *)
Lemma plus_exact e (size s a : double) : (-1074 <= e <= 900)%Z -> multiple e s -> multiple e a -> B2R size <= pw (e + 53) -> 0 <= B2R s -> 0 <= B2R a -> B2R s + B2R a <= B2R size ->
  rnd (B2R s + B2R a) = B2R s + B2R a /\ exists k, B2R s + B2R a = IZR k * pw e.
Proof.
  intros E [k K] [j J] B S0 A0 A. assert (W : B2R s + B2R a = IZR (k + j) * pw e) by (rewrite plus_IZR, K, J; ring).
  split; [|exists (k + j)%Z; exact W]. apply rnd_id. rewrite W. apply multiple_fmt; [lia|].
  assert (0 <= B2R s + B2R a <= pw (e + 53)) as Y by lra. rewrite W, (Z.add_comm e 53), bpow_plus in Y. pose proof (pw_small e) as P.
  assert (0 <= IZR (k + j)) as Y0 by (apply Rmult_le_reg_r with (1 := P); lra). assert (IZR (k + j) <= pw 53) as Y1 by (apply Rmult_le_reg_r with (1 := P); lra).
  apply le_IZR in Y0. change (pw 53) with (IZR (2 ^ 53)) in Y1. apply le_IZR in Y1. lia.
Qed.
Lemma accept_exact e eps size ms : (-1074 <= e <= 900)%Z -> is_finite eps = true -> 0 <= B2R eps -> stock size -> B2R size <= pw (e + 53) ->
  forall q, stock q -> multiple e q -> Forall quantity_d ms -> Forall (multiple e) ms -> B2R q + sum_of ms <= B2R size ->
  exists r, sink_accept_d eps size ms q = Ok r /\ stock r /\ multiple e r /\ B2R r = B2R q + sum_of ms.
Proof.
  intros G E E0 S B. induction ms as [|m l IH]; intros q Q Mq A MA H.
  - exists q. split; [reflexivity|]. split; [exact Q|]. split; [exact Mq|]. change (sum_of []) with 0. ring.
  - inversion A as [|? ? M AL]; subst. inversion MA as [|? ? Mm ML]; subst. rewrite sum_cons in *. pose proof (sum_q l AL) as L0. pose proof (q_nonneg m M) as M0.
    assert (Q0 : 0 <= B2R q) by apply Q. assert (S1 : B2R size <= pw 1002) by apply S.
    destruct (push_ok eps size q m E S Q M) as (P & F & V); [lra|pose proof (space_exact_fit size q m S Q); lra|].
    destruct (plus_exact e size q m G Mq Mm B Q0 M0 ltac:(lra)) as [X [k Y]]. rewrite X in V.
    destruct (IH (dplus q m)) as (r & R1 & R2 & R3 & R4); [split; [exact F|rewrite V; lra]|exists k; rewrite V; exact Y|exact AL|exact ML|lra|].
    exists r. unfold sink_accept_d. cbn [loop]. rewrite P. cbn [bind]. split; [exact R1|]. split; [exact R2|]. split; [exact R3|]. lra.
Qed.
Lemma life_exact_d e eps eg capacity size es : (-1074 <= e <= 900)%Z -> is_finite eps = true -> 0 <= B2R eps -> is_finite capacity = true -> stock size -> multiple e size -> B2R size <= pw (e + 53) ->
  forall q, stock q -> multiple e q -> B2R q <= B2R size -> Forall quantity_d (all_delivered es) -> Forall (multiple e) (all_delivered es) ->
  (forall before x after, es = before ++ x :: after -> sum_of (delivered x) <= B2R size - B2R q - sum_of (all_delivered before)) ->
  exists r os, sink_life_d eps eg capacity size q es = Ok (r, os) /\ B2R r = B2R q + sum_of (all_delivered es) /\ List.length os = List.length es /\
    forall before x after o, es = before ++ x :: after -> nth_error os (List.length before) = Some o ->
      B2R (so_available o) = Rmin (B2R capacity) (B2R size - B2R q - sum_of (all_delivered before)).
Proof.
  intros G E E0 C S Ms B. induction es as [|x es IH]; intros q Q Mq L A MA W.
  - exists q, []. split; [reflexivity|]. split; [change (sum_of (all_delivered [])) with 0; ring|]. split; [reflexivity|]. intros before x after o H. destruct before; discriminate.
  - cbn [all_delivered flat_map] in *. fold (all_delivered es) in *. apply Forall_app in A as [A1 A2]. apply Forall_app in MA as [M1 M2]. rewrite sum_app.
    assert (Wx : sum_of (delivered x) <= B2R size - B2R q). { specialize (W [] x es eq_refl). change (sum_of (all_delivered [])) with 0 in W. lra. }
    pose proof (sum_q _ A1) as D0.
    destruct (accept_exact e eps size (delivered x) G E E0 S B q Q Mq A1 M1) as (r & R1 & R2 & R3 & R4); [lra|].
    destruct (IH r R2 R3) as (r' & os & R5 & R6 & R7 & R8); [lra|exact A2|exact M2| |].
    { intros before y after H. specialize (W (x :: before) y after). rewrite H in W. specialize (W eq_refl). cbn [all_delivered flat_map] in W. fold (all_delivered before) in W. rewrite sum_app in W. lra. }
    do 2 eexists. cbn [sink_life_d]. rewrite step_eq, R1. cbn [bind]. rewrite R5. cbn [bind]. split; [reflexivity|]. split; [lra|]. split; [cbn [List.length]; rewrite R7; reflexivity|].
    intros before y after o H N. destruct before as [|b before].
    + cbn [List.length nth_error] in N. injection N as <-. cbn [so_available]. destruct (available_val capacity size q C S Q) as [_ V]. rewrite V.
      destruct (space_val size q S Q) as [_ V1]. assert (Q0 : 0 <= B2R q) by apply Q. destruct (minus_exact e size q G Ms Mq B ltac:(lra)) as [X _]. rewrite V1, X.
      change (sum_of (all_delivered [])) with 0. rewrite Rminus_0_r. rewrite (Rmax_right 0) by lra. reflexivity.
    + injection H as <- H. cbn [List.length nth_error] in N. rewrite (R8 before y after o H N), R4. cbn [all_delivered flat_map]. fold (all_delivered before). rewrite sum_app. f_equal. ring.
Qed.
Lemma exact_final e eps eg capacity size es : is_finite eps = true -> 0 <= B2R eps -> is_finite capacity = true -> quantity_d size ->
  Forall quantity_d (all_delivered es) -> sink_grid e size (all_delivered es) -> within_space (B2R size) es ->
  exists qty os, sink_life_d eps eg capacity size (of_int 0) es = Ok (qty, os) /\ B2R qty = sum_of (all_delivered es) /\ List.length os = List.length es /\
    forall before x after o, es = before ++ x :: after -> nth_error os (List.length before) = Some o ->
      B2R (so_available o) = Rmin (B2R capacity) (B2R size - sum_of (all_delivered before)).
Proof.
  intros E E0 C Q A (G & Ms & B & MA) W. destruct fin_zero as [F V]. pose proof (q_nonneg size Q) as S0.
  assert (S : stock size). { split; [apply Q|]. split; [exact S0|]. apply Rle_trans with (1 := B). apply bpow_le. lia. }
  destruct (life_exact_d e eps eg capacity size es G E E0 C S Ms B (of_int 0)) as (r & os & R1 & R2 & R3 & R4); try assumption.
  - split; [exact F|]. rewrite V. split; [lra|apply bpow_ge_0].
  - exists 0%Z. rewrite V. ring.
  - intros before x after H. specialize (W before x after H). rewrite V. lra.
  - exists r, os. split; [exact R1|]. split; [rewrite R2, V; ring|]. split; [exact R3|]. intros before x after o H N. rewrite (R4 before x after o H N), V. f_equal. ring.
Qed.
