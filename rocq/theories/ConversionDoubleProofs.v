(** Proofs for C120. *)
From Coq Require Import ZArith Reals List Lia Lra.
From Flocq Require Import Core.Core IEEE754.BinarySingleNaN.
From Verif Require Import Outcome DoubleModel DoubleProofs DoubleFacts DoubleSpec MixerDoubleModel MixerDoubleSpec MixerDoubleProofs
  StorageDoubleSpec StorageDoubleProofs SourceDoubleModel SourceDoubleSpec SourceDoubleProofs SinkDoubleModel SinkDoubleProofs
  ConversionDoubleModel ConversionDoubleSpec.
Import ListNotations.
Local Open Scope R_scope.
Local Existing Instance double_prec.
Local Existing Instance double_emax.
Local Existing Instance fe_valid.

Lemma pos_sign (x : double) : 0 < B2R x -> Bsign x = false.
Proof.
  destruct x as [s|s| |s m e H]; cbn [B2R Bsign]; try lra. destruct s; [|reflexivity]. intro L. exfalso.
  assert (F2R (Float radix2 (Z.neg m) e) <= 0) by (apply F2R_le_0; cbn; lia). cbn [cond_Zopp Z.opp] in L. lra.
Qed.
Lemma pos_amount (x : double) : is_finite x = true -> 0 < B2R x -> amount_d x.
Proof. intros F L. split; [split; [exact F|apply pos_sign, L]|exact L]. Qed.

(** A stock [q] that is [net] up to [c] roundings, in a history that receives [T] kg. *)
Definition near (T c : R) (q : double) (net : R) : Prop := is_finite q = true /\ 0 <= B2R q /\ Rabs (B2R q - net) <= c * (2 * u * T).
Lemma near_half T c q net : 0 <= T -> c * (4 * u) <= 1 -> near T c q net -> net - / 2 * T <= B2R q <= net + / 2 * T.
Proof.
  intros T0 C (_ & _ & N). apply Rabs_le_inv in N.
  assert (c * (4 * u) * (/ 2 * T) <= 1 * (/ 2 * T)) by (apply Rmult_le_compat_r; [lra|exact C]). lra.
Qed.
Lemma near_add T c q net m : 0 <= T <= pw 1000 -> c * (4 * u) <= 1 -> near T c q net -> quantity_d m -> net + B2R m <= 3 * / 2 * T ->
  near T (c + 1) (dplus q m) (net + B2R m).
Proof.
  intros [T0 T1] C N M B. pose proof (near_half T c q net T0 C N) as H. destruct N as (F & Q0 & N). pose proof (q_nonneg m M) as M0.
  assert (P : 2 * T <= pw 1023). { assert (pw 1001 = 2 * pw 1000) by apply (pw_2 1000). assert (pw 1001 <= pw 1023) by (apply bpow_le; lia). lra. }
  destruct (f_plus q m F (proj1 M)) as [F1 V1]; [apply Rabs_le; lra|]. unfold near. rewrite V1.
  split; [exact F1|]. split; [apply rnd_nonneg; lra|].
  pose proof (rel_sum (B2R q) (B2R m) (fmt_double q) (fmt_double m)) as E. rewrite (Rabs_pos_eq (B2R q + B2R m)) in E by lra.
  assert (u * (B2R q + B2R m) <= u * (2 * T)) by (apply Rmult_le_compat_l; [apply bpow_ge_0|lra]).
  apply Rabs_le_inv in E. apply Rabs_le_inv in N. apply Rabs_le. lra.
Qed.
Lemma near_pop T c q net a : 0 <= T <= pw 1000 -> c * (4 * u) <= 1 -> near T c q net -> amount_d a -> B2R a <= B2R q -> net <= 3 * / 2 * T ->
  pop_plain_d q a = Ok (dminus q a) /\ near T (c + 1) (dminus q a) (net - B2R a).
Proof.
  intros [T0 T1] C N A L B. pose proof (near_half T c q net T0 C N) as H. destruct N as (F & Q0 & N).
  assert (P : 2 * T <= pw 1022). { assert (pw 1001 = 2 * pw 1000) by apply (pw_2 1000). assert (pw 1001 <= pw 1022) by (apply bpow_le; lia). lra. }
  destruct (pop_ok q a) as (E & (F1 & N1) & _ & _ & Er); [split; [exact F|lra]|exact A|exact L|]. split; [exact E|].
  split; [exact F1|]. split; [lra|]. assert (u * B2R q <= u * (2 * T)) by (apply Rmult_le_compat_l; [apply bpow_ge_0|lra]).
  apply Rabs_le_inv in Er. apply Rabs_le_inv in N. apply Rabs_le. lra.
Qed.
Lemma near_weaken T c c' q net : 0 <= T -> c <= c' -> near T c q net -> near T c' q net.
Proof.
  intros T0 C (F & Q & N). split; [exact F|]. split; [exact Q|]. apply Rle_trans with (1 := N). apply Rmult_le_compat_r; [|exact C].
  repeat apply Rmult_le_pos; [lra|apply bpow_ge_0|exact T0].
Qed.
Lemma near_accept T eps size ms : 0 <= T <= pw 1000 -> Forall quantity_d ms -> forall c q net r, (c + INR (List.length ms)) * (4 * u) <= 1 -> 0 <= c ->
  near T c q net -> net + sum_of ms <= 3 * / 2 * T -> sink_accept_d eps size ms q = Ok r -> near T (c + INR (List.length ms)) r (net + sum_of ms).
Proof.
  intro T0. assert (U : 0 < u) by apply bpow_gt_0. induction 1 as [|m l M A IH]; intros c q net r C C0 N B H.
  - injection H as <-. change (sum_of []) with 0. cbn [List.length INR]. rewrite !Rplus_0_r. exact N.
  - rewrite sum_cons in *. cbn [List.length] in *. rewrite S_INR in *. pose proof (sum_q l A) as L0. pose proof (q_nonneg m M) as M0. pose proof (pos_INR (List.length l)) as P.
    unfold sink_accept_d in H. cbn [loop] in H. destruct (sink_push_d eps size q m) as [q1|x|x|] eqn:E; cbn [bind] in H; try discriminate.
    apply push_inv in E. subst q1.
    assert (C1 : c * (4 * u) <= 1). { apply Rle_trans with (2 := C). apply Rmult_le_compat_r; lra. }
    pose proof (near_add T c q net m T0 C1 N M ltac:(lra)) as N1.
    replace (c + (INR (List.length l) + 1)) with (c + 1 + INR (List.length l)) in * by ring. rewrite <- Rplus_assoc.
    apply (IH (c + 1) (dplus q m)); [exact C|lra|exact N1|lra|exact H].
Qed.
Lemma near_trades T amts : 0 <= T <= pw 1000 -> Forall amount_d amts -> forall c q net r, (c + INR (List.length amts)) * (4 * u) <= 1 -> 0 <= c ->
  near T c q net -> net <= 3 * / 2 * T -> trades_d amts q = Ok r -> near T (c + INR (List.length amts)) r (net - sum_of amts).
Proof.
  intro T0. assert (U : 0 < u) by apply bpow_gt_0. induction 1 as [|a l A AL IH]; intros c q net r C C0 N B H.
  - injection H as <-. change (sum_of []) with 0. cbn [List.length INR]. rewrite Rplus_0_r, Rminus_0_r. exact N.
  - rewrite sum_cons in *. cbn [List.length] in *. rewrite S_INR in *. pose proof (sum_q l (am_q l AL)) as L0. pose proof (proj2 A) as A0. pose proof (pos_INR (List.length l)) as P.
    unfold trades_d in H. cbn [loop] in H. destruct (pop_plain_d q a) as [q1|x|x|] eqn:E; cbn [bind] in H; try discriminate.
    assert (C1 : c * (4 * u) <= 1). { apply Rle_trans with (2 := C). apply Rmult_le_compat_r; lra. }
    assert (Nq : num q). { pose proof (near_half T c q net (proj1 T0) C1 N). destruct N as (F & Q0 & _). split; [exact F|]. split; [exact Q0|].
      assert (pw 1001 = 2 * pw 1000) by apply (pw_2 1000). assert (pw 1001 <= pw 1022) by (apply bpow_le; lia). lra. }
    destruct (pop_inv q a q1 Nq A E) as [L ->]. destruct (near_pop T c q net a T0 C1 N A L B) as [_ N1].
    replace (c + (INR (List.length l) + 1)) with (c + 1 + INR (List.length l)) in * by ring.
    replace (net - (B2R a + sum_of l)) with (net - B2R a - sum_of l) by ring.
    apply (IH (c + 1) (dminus q a)); [exact C|lra|exact N1|lra|exact H].
Qed.

(** ** One conversion *)
Lemma min_val (x y : double) : is_finite x = true -> is_finite y = true -> B2R (dmin x y) = Rmin (B2R x) (B2R y) /\ is_finite (dmin x y) = true.
Proof. intros X Y. split; [apply (offer_val x y X Y)|unfold dmin; destruct (Bltb y x); assumption]. Qed.
Lemma zero_ltb (x : double) : is_finite x = true -> 0 <= B2R x -> Bltb (of_int 0) x = false -> B2R x = 0.
Proof. intros F H E. destruct fin_zero as [Z V]. apply (ltb_val _ _ Z F) in E. rewrite V in E. lra. Qed.
Definition amt (m : option double) : R := match m with Some x => B2R x | None => 0 end.
(** What is converted is not rounded. *)
Lemma convert_exactly throughput s : amount_d throughput -> is_finite (cd_in s) = true -> 0 <= B2R (cd_in s) -> B2R (cd_in s) <= pw 1022 ->
  exists s1 mv, convert_d throughput s = Ok (s1, mv) /\ amt mv = Rmin (B2R (cd_in s)) (B2R throughput) /\
    match mv with
    | Some x => 0 < B2R (cd_in s) /\ amount_d x /\ B2R x <= B2R (cd_in s) /\ pop_plain_d (cd_in s) x = Ok (cd_in s1) /\ cd_in s1 = dminus (cd_in s) x /\ cd_out s1 = dplus (cd_out s) x
    | None => B2R (cd_in s) = 0 /\ s1 = s
    end.
Proof.
  intros A F Q0 Q1. unfold convert_d. destruct (Bltb (of_int 0) (cd_in s)) eqn:E.
  - destruct fin_zero as [Z V]. apply (ltb_val _ _ Z F) in E. rewrite V in E. destruct (min_val (cd_in s) throughput F (proj1 (proj1 A))) as [W G].
    assert (X : amount_d (dmin (cd_in s) throughput)). { apply pos_amount; [exact G|]. rewrite W. apply Rmin_pos; [exact E|apply A]. }
    assert (L : B2R (dmin (cd_in s) throughput) <= B2R (cd_in s)) by (rewrite W; apply Rmin_l).
    destruct (pop_ok (cd_in s) (dmin (cd_in s) throughput)) as (P & _); [split; [exact F|split; assumption]|exact X|exact L|].
    rewrite P. cbn [bind]. do 2 eexists. split; [reflexivity|]. cbn [amt cd_in cd_out]. split; [exact W|]. auto 8.
  - apply zero_ltb in E; [|exact F|exact Q0]. exists s, None. split; [reflexivity|]. cbn [amt]. split; [|auto].
    rewrite E. symmetry. apply Rmin_left. destruct A as [_ A]. lra.
Qed.
(** The state of a history that received [T] kg in all, [rcv] of them so far, converted [mvd] and sold [shp]. *)
Definition course (T c : R) (s : conv_d) (rcv mvd shp : R) : Prop :=
  near T c (cd_in s) (rcv - mvd) /\ near T c (cd_out s) (mvd - shp) /\ 0 <= rcv <= T /\ 0 <= mvd /\ 0 <= shp.
Lemma convert_course T c throughput s rcv mvd shp : 0 <= T <= pw 1000 -> 0 <= c -> (c + 1) * (4 * u) <= 1 -> amount_d throughput -> course T c s rcv mvd shp ->
  exists s1 mv, convert_d throughput s = Ok (s1, mv) /\ amt mv = Rmin (B2R (cd_in s)) (B2R throughput) /\ course T (c + 1) s1 rcv (mvd + amt mv) shp /\
    (mv = None -> B2R (cd_in s) = 0) /\ (forall x, mv = Some x -> amount_d x).
Proof.
  intros T0 C0 C A (N1 & N2 & R0 & M0 & S0). assert (U : 0 < u) by apply bpow_gt_0. assert (Ccc : c * (4 * u) <= 1). { apply Rle_trans with (2 := C). apply Rmult_le_compat_r; lra. }
  pose proof (near_half T c _ _ (proj1 T0) Ccc N1) as H1. pose proof N1 as (F & Q0 & _).
  destruct (convert_exactly throughput s A F Q0) as (s1 & mv & E & V & D).
  { assert (pw 1001 = 2 * pw 1000) by apply (pw_2 1000). assert (pw 1001 <= pw 1022) by (apply bpow_le; lia). lra. }
  exists s1, mv. split; [exact E|]. split; [exact V|]. destruct mv as [x|]; cbn [amt] in *.
  - destruct D as (L0 & X & L & P & D1 & D2). pose proof (proj2 X) as X0.
    destruct (near_pop T c (cd_in s) (rcv - mvd) x T0 Ccc N1 X L) as [_ N3]; [lra|].
    rewrite <- D1 in N3. pose proof (near_half T (c + 1) _ _ (proj1 T0) C N3) as H3. pose proof N3 as (_ & Q3 & _).
    pose proof (near_add T c (cd_out s) (mvd - shp) x T0 Ccc N2 (proj1 X)) as N4. rewrite <- D2 in N4.
    split; [|split; [discriminate|]].
    + split; [replace (rcv - (mvd + B2R x)) with (rcv - mvd - B2R x) by ring; exact N3|]. split; [replace (mvd + B2R x - shp) with (mvd - shp + B2R x) by ring; apply N4; lra|]. lra.
    + intros y Y. injection Y as <-. exact X.
  - destruct D as (Z & ->). rewrite Rplus_0_r. split; [|split; [auto|discriminate]].
    split; [apply (near_weaken T c); [lra|lra|exact N1]|]. split; [apply (near_weaken T c); [lra|lra|exact N2]|]. lra.
Qed.
Lemma step_course T c eps throughput capacity s e s' o rcv mvd shp : 0 <= T <= pw 1000 -> 0 <= c ->
  (c + 1 + INR (List.length (ce_receipts e)) + INR (List.length (ce_sales e))) * (4 * u) <= 1 -> amount_d throughput ->
  Forall quantity_d (ce_receipts e) -> Forall amount_d (ce_sales e) -> rcv + sum_of (ce_receipts e) <= T -> course T c s rcv mvd shp ->
  conv_step_d eps throughput capacity s e = Ok (s', o) ->
  course T (c + 1 + INR (List.length (ce_receipts e)) + INR (List.length (ce_sales e))) s' (rcv + sum_of (ce_receipts e)) (mvd + sum_of (moved o)) (shp + sum_of (ce_sales e)) /\
  co_input o = cd_in s /\ amt (co_moved o) = Rmin (B2R (cd_in s)) (B2R throughput) /\ (co_moved o = None -> B2R (cd_in s) = 0).
Proof.
  intros T0 C0 C A QR QS Rr K H. assert (U : 0 < u) by apply bpow_gt_0. pose proof (pos_INR (List.length (ce_receipts e))) as P1. pose proof (pos_INR (List.length (ce_sales e))) as P2.
  assert (C1 : (c + 1) * (4 * u) <= 1). { apply Rle_trans with (2 := C). apply Rmult_le_compat_r; lra. }
  destruct (convert_course T c throughput s rcv mvd shp T0 C0 C1 A K) as (s1 & mv & E & V & K1 & Nn & Ax).
  unfold conv_step_d in H. rewrite E in H. cbn [bind] in H.
  destruct (trades_d (ce_sales e) (cd_out s1)) as [out|x|x|] eqn:Et; cbn [bind] in H; try discriminate.
  destruct (sink_accept_d eps capacity (ce_receipts e) (cd_in s1)) as [inp|x|x|] eqn:Ea; cbn [bind] in H; try discriminate.
  injection H as <- <-. cbn [co_input co_moved].
  assert (Mv : sum_of (moved {| co_input := cd_in s; co_moved := mv; co_offer := cd_out s1; co_request := conv_request_d capacity s1 |}) = amt mv).
  { unfold moved. cbn [co_moved]. destruct mv; unfold sum_of; cbn [fold_right amt]; ring. }
  rewrite Mv. split; [|auto]. destruct K1 as (N1 & N2 & R0 & M0 & S0).
  pose proof (sum_q _ QR) as SR. pose proof (sum_q _ (am_q _ QS)) as SS.
  pose proof (near_half T (c + 1) _ _ (proj1 T0) C1 N1) as H1. pose proof N1 as (_ & Q1 & _).
  assert (C2 : (c + 1 + INR (List.length (ce_receipts e))) * (4 * u) <= 1). { apply Rle_trans with (2 := C). apply Rmult_le_compat_r; lra. }
  assert (C3 : (c + 1 + INR (List.length (ce_sales e))) * (4 * u) <= 1). { apply Rle_trans with (2 := C). apply Rmult_le_compat_r; lra. }
  pose proof (near_accept T eps capacity (ce_receipts e) T0 QR (c + 1) _ _ inp C2 ltac:(lra) N1 ltac:(lra) Ea) as N3.
  pose proof (near_trades T (ce_sales e) T0 QS (c + 1) _ _ out C3 ltac:(lra) N2 ltac:(lra) Et) as N4.
  split; [|split].
  - replace (rcv + sum_of (ce_receipts e) - (mvd + amt mv)) with (rcv - (mvd + amt mv) + sum_of (ce_receipts e)) by ring. cbn [cd_in].
    apply (near_weaken T (c + 1 + INR (List.length (ce_receipts e)))); [lra|lra|exact N3].
  - replace (mvd + amt mv - (shp + sum_of (ce_sales e))) with (mvd + amt mv - shp - sum_of (ce_sales e)) by ring. cbn [cd_out].
    apply (near_weaken T (c + 1 + INR (List.length (ce_sales e)))); [lra|lra|exact N4].
  - lra.
Qed.
Lemma ops_cons e es : INR (operations (e :: es)) = 1 + INR (List.length (ce_receipts e)) + INR (List.length (ce_sales e)) + INR (operations es).
Proof.
  unfold operations, all_receipts, all_sales. cbn [flat_map List.length]. rewrite !app_length, !plus_INR, S_INR. ring.
Qed.
Definition converts (throughput : double) (o : conv_out_d) : Prop :=
  is_finite (co_input o) = true /\ 0 <= B2R (co_input o) /\ amt (co_moved o) = Rmin (B2R (co_input o)) (B2R throughput) /\ (co_moved o = None -> B2R (co_input o) = 0).
Lemma life_course T eps throughput capacity es : 0 <= T <= pw 1000 -> amount_d throughput -> forall c s s' os rcv mvd shp, 0 <= c ->
  (c + INR (operations es)) * (4 * u) <= 1 -> Forall quantity_d (all_receipts es) -> Forall amount_d (all_sales es) -> rcv + sum_of (all_receipts es) <= T ->
  course T c s rcv mvd shp -> conv_life_d eps throughput capacity s es = Ok (s', os) ->
  course T (c + INR (operations es)) s' (rcv + sum_of (all_receipts es)) (mvd + sum_of (all_moved os)) (shp + sum_of (all_sales es)) /\ Forall (converts throughput) os.
Proof.
  intros T0 A. assert (U : 0 < u) by apply bpow_gt_0. induction es as [|e es IH]; intros c s s' os rcv mvd shp C0 C QR QS Rr K H.
  - injection H as <- <-. change (sum_of (all_receipts [])) with 0. change (sum_of (all_sales [])) with 0. change (sum_of (all_moved [])) with 0. change (INR (operations [])) with 0.
    rewrite !Rplus_0_r. split; [exact K|constructor].
  - cbn [conv_life_d] in H. destruct (conv_step_d eps throughput capacity s e) as [[s1 o]|x|x|] eqn:E; cbn [bind] in H; try discriminate.
    destruct (conv_life_d eps throughput capacity s1 es) as [[s2 os2]|x|x|] eqn:E2; cbn [bind] in H; try discriminate. injection H as <- <-.
    rewrite ops_cons in *. change (all_receipts (e :: es)) with (ce_receipts e ++ all_receipts es) in *.
    change (all_sales (e :: es)) with (ce_sales e ++ all_sales es) in *. change (all_moved (o :: os2)) with (moved o ++ all_moved os2).
    apply Forall_app in QR as [QR1 QR2]. apply Forall_app in QS as [QS1 QS2]. rewrite !sum_app in *. pose proof (sum_q _ QR2) as S2. pose proof (sum_q _ QR1) as S1.
    pose proof (pos_INR (operations es)) as P0. pose proof (pos_INR (List.length (ce_receipts e))) as P1. pose proof (pos_INR (List.length (ce_sales e))) as P2.
    assert (C1 : (c + 1 + INR (List.length (ce_receipts e)) + INR (List.length (ce_sales e))) * (4 * u) <= 1). { apply Rle_trans with (2 := C). apply Rmult_le_compat_r; lra. }
    destruct (step_course T c eps throughput capacity s e s1 o rcv mvd shp T0 C0 C1 A QR1 QS1 ltac:(lra) K E) as (K1 & I1 & V1 & Z1).
    destruct (IH (c + 1 + INR (List.length (ce_receipts e)) + INR (List.length (ce_sales e))) s1 s2 os2 (rcv + sum_of (ce_receipts e)) (mvd + sum_of (moved o)) (shp + sum_of (ce_sales e))) as [K2 W2]; try assumption; try lra.
    split.
    + rewrite <- !Rplus_assoc. exact K2.
    + constructor; [|exact W2]. unfold converts. rewrite I1. destruct K as ((F & Q0 & _) & _). auto.
Qed.
Lemma empty_course T : 0 <= T -> course T 0 conv_empty_d 0 0 0.
Proof.
  intro T0. destruct fin_zero as [F V]. unfold course, near. cbn [cd_in cd_out conv_empty_d]. rewrite V, Rminus_0_r, Rminus_0_r, Rabs_R0. repeat split; try assumption; lra.
Qed.
Lemma ops_small es : (Z.of_nat (operations es) <= 2 ^ 40)%Z -> (0 + INR (operations es)) * (4 * u) <= 1.
Proof.
  intro H. rewrite INR_IZR_INZ. apply IZR_le in H. change (IZR (2 ^ 40)) with 1099511627776 in H. rewrite u_val. lra.
Qed.
Lemma ordinary_course eps throughput capacity es s os : amount_d throughput -> ordinary es -> conv_life_d eps throughput capacity conv_empty_d es = Ok (s, os) ->
  course (sum_of (all_receipts es)) (INR (operations es)) s (sum_of (all_receipts es)) (sum_of (all_moved os)) (sum_of (all_sales es)) /\ Forall (converts throughput) os.
Proof.
  intros A (QR & QS & B & L) H. pose proof (sum_q _ QR) as S0.
  destruct (life_course (sum_of (all_receipts es)) eps throughput capacity es ltac:(lra) A 0 conv_empty_d s os 0 0 0) as [K W]; try assumption; try lra.
  - apply ops_small, L.
  - apply empty_course, S0.
  - rewrite !Rplus_0_l in K. auto.
Qed.
Lemma balance_final eps throughput capacity es s os : amount_d throughput -> ordinary es -> conv_life_d eps throughput capacity conv_empty_d es = Ok (s, os) ->
  is_finite (cd_in s) = true /\ 0 <= B2R (cd_in s) /\ is_finite (cd_out s) = true /\ 0 <= B2R (cd_out s) /\
  Rabs (B2R (cd_in s) - (sum_of (all_receipts es) - sum_of (all_moved os))) <= INR (operations es) * (2 * bpow radix2 (-53) * sum_of (all_receipts es)) /\
  Rabs (B2R (cd_out s) - (sum_of (all_moved os) - sum_of (all_sales es))) <= INR (operations es) * (2 * bpow radix2 (-53) * sum_of (all_receipts es)).
Proof.
  intros A O H. destruct (ordinary_course _ _ _ _ _ _ A O H) as [((F1 & N1 & D1) & (F2 & N2 & D2) & _) _]. auto 8.
Qed.
Lemma throughput_final eps throughput capacity es s os : amount_d throughput -> ordinary es -> conv_life_d eps throughput capacity conv_empty_d es = Ok (s, os) ->
  Forall (fun o => match co_moved o with
                   | Some x => B2R x = Rmin (B2R (co_input o)) (B2R throughput)
                   | None => B2R (co_input o) = 0
                   end) os.
Proof.
  intros A O H. destruct (ordinary_course _ _ _ _ _ _ A O H) as [_ W]. apply Forall_impl with (2 := W). intros o (_ & _ & V & Z).
  destruct (co_moved o); [exact V|apply Z; reflexivity].
Qed.

(** ** A step is not refused *)
Lemma conv_never_fails_final eps throughput capacity k es e s os s1 mv : conv_input eps capacity k -> amount_d throughput -> ordinary es ->
  conv_life_d eps throughput capacity conv_empty_d es = Ok (s, os) -> convert_d throughput s = Ok (s1, mv) -> honours k (cd_out s1) (conv_request_d capacity s1) e ->
  exists s2 o, conv_step_d eps throughput capacity s e = Ok (s2, o).
Proof.
  intros (E & Qc & B & Hk & Ke) A O H C (QS & HS & QR & L & HR). destruct (ordinary_course _ _ _ _ _ _ A O H) as [K _].
  pose proof O as (QR0 & _ & T1 & Ls). pose proof (sum_q _ QR0) as T0. set (T := sum_of (all_receipts es)) in *.
  assert (C1 : (INR (operations es) + 1) * (4 * u) <= 1).
  { rewrite INR_IZR_INZ. apply IZR_le in Ls. change (IZR (2 ^ 40)) with 1099511627776 in Ls. rewrite u_val. lra. }
  destruct (convert_course T (INR (operations es)) throughput s T (sum_of (all_moved os)) (sum_of (all_sales es)) ltac:(lra) (pos_INR _) C1 A K) as (s1' & mv' & E1 & _ & K1 & _).
  rewrite C in E1. injection E1 as <- <-. destruct K1 as (N1 & N2 & R0 & M0 & S0).
  pose proof (near_half T _ _ _ T0 C1 N1) as H1. pose proof (near_half T _ _ _ T0 C1 N2) as H2. pose proof N1 as (F1 & Q1 & _). pose proof N2 as (F2 & Q2 & _).
  assert (P1 : pw 1001 = 2 * pw 1000) by apply (pw_2 1000). assert (P2 : pw 1001 <= pw 1002) by (apply bpow_le; lia). assert (P3 : pw 1001 <= pw 1022) by (apply bpow_le; lia).
  destruct (trades_room (ce_sales e) (cd_out s1) (B2R (cd_out s1))) as (out & Et & _); [split; [exact F2|lra]|lra|exact QS|exact HS|].
  assert (St : stock (cd_in s1)) by (split; [exact F1|lra]).
  pose proof (q_nonneg capacity Qc) as Cap0. assert (Sc : stock capacity) by (split; [apply Qc|]; assert (pw 1000 <= pw 1002) by (apply bpow_le; lia); lra).
  assert (Acc : exists inp, sink_accept_d eps capacity (ce_receipts e) (cd_in s1) = Ok inp).
  { assert (U0 : 0 <= u) by apply bpow_ge_0. assert (US : 0 <= u * B2R capacity) by (apply Rmult_le_pos; assumption).
    unfold conv_request_d in HR. destruct (f_minus capacity (cd_in s1) (proj1 Qc) F1) as [Fa Va].
    { apply Rabs_le. assert (pw 1002 <= pw 1023) by (apply bpow_le; lia). destruct Sc as (_ & Sc). lra. }
    destruct (Bleb (dminus capacity (cd_in s1)) (of_int 0)) eqn:Ez.
    - rewrite HR. exists (cd_in s1). reflexivity.
    - destruct fin_zero as [Fz Vz]. apply (leb_val _ _ Fa Fz) in Ez. rewrite Vz in Ez.
      assert (Lt : B2R (cd_in s1) < B2R capacity).
      { destruct (Rlt_or_le (B2R (cd_in s1)) (B2R capacity)) as [Y|Y]; [exact Y|]. exfalso. assert (rnd (B2R capacity - B2R (cd_in s1)) <= 0) by (apply rnd_le_fmt; [apply generic_format_0|lra]). lra. }
      destruct (accept_room eps capacity k (ce_receipts e) E Sc B (len_small k Hk) Ke (cd_in s1) 0%nat St QR ltac:(lia)) as (inp & Ei & _).
      + pose proof (rel_diff (B2R capacity) (B2R (cd_in s1)) (fmt_double capacity) (fmt_double (cd_in s1))) as Er. rewrite (Rabs_pos_eq (B2R capacity - B2R (cd_in s1))) in Er by lra.
        rewrite <- Va in Er. apply Rabs_le_inv in Er. assert (u * (B2R capacity - B2R (cd_in s1)) <= u * B2R capacity) by (apply Rmult_le_compat_l; lra). cbn [INR]. lra.
      + exists inp. exact Ei. }
  destruct Acc as (inp & Ea). unfold conv_step_d. rewrite C. cbn [bind]. rewrite Et. cbn [bind]. rewrite Ea. cbn [bind]. do 2 eexists. reflexivity.
Qed.

(** ** On a grid nothing is rounded *)
Lemma sum_exact e (top : R) (s a : double) : (-1074 <= e <= 900)%Z -> multiple e s -> multiple e a -> top <= pw (e + 53) -> 0 <= B2R s -> 0 <= B2R a -> B2R s + B2R a <= top ->
  rnd (B2R s + B2R a) = B2R s + B2R a /\ exists k, B2R s + B2R a = IZR k * pw e.
Proof.
  intros E [k K] [j J] B S0 A0 A. assert (W : B2R s + B2R a = IZR (k + j) * pw e) by (rewrite plus_IZR, K, J; ring).
  split; [|exists (k + j)%Z; exact W]. apply rnd_id. rewrite W. apply multiple_fmt; [lia|].
  assert (0 <= B2R s + B2R a <= pw (e + 53)) as Y by lra. rewrite W, (Z.add_comm e 53), bpow_plus in Y. pose proof (pw_small e) as P.
  assert (0 <= IZR (k + j)) as Y0 by (apply Rmult_le_reg_r with (1 := P); lra). assert (IZR (k + j) <= pw 53) as Y1 by (apply Rmult_le_reg_r with (1 := P); lra).
  apply le_IZR in Y0. change (pw 53) with (IZR (2 ^ 53)) in Y1. apply le_IZR in Y1. lia.
Qed.
Lemma accept_grid e eps size top ms : (-1074 <= e <= 900)%Z -> is_finite eps = true -> 0 <= B2R eps -> stock size -> top <= pw (e + 53) -> top <= pw 1000 ->
  forall q, stock q -> multiple e q -> Forall quantity_d ms -> Forall (multiple e) ms -> B2R q + sum_of ms <= B2R size -> B2R q + sum_of ms <= top ->
  exists r, sink_accept_d eps size ms q = Ok r /\ stock r /\ multiple e r /\ B2R r = B2R q + sum_of ms.
Proof.
  intros G E E0 S B B1. induction ms as [|m l IH]; intros q Q Mq A MA H H1.
  - exists q. split; [reflexivity|]. split; [exact Q|]. split; [exact Mq|]. change (sum_of []) with 0. ring.
  - inversion A as [|? ? M AL]; subst. inversion MA as [|? ? Mm ML]; subst. rewrite sum_cons in *. pose proof (sum_q l AL) as L0. pose proof (q_nonneg m M) as M0.
    assert (Q0 : 0 <= B2R q) by apply Q. assert (S1 : B2R size <= pw 1002) by apply S.
    destruct (push_ok eps size q m E S Q M) as (P & F & V); [lra|pose proof (space_exact_fit size q m S Q); lra|].
    destruct (sum_exact e top q m G Mq Mm B Q0 M0 ltac:(lra)) as [X [k Y]]. rewrite X in V.
    destruct (IH (dplus q m)) as (r & R1 & R2 & R3 & R4); [split; [exact F|rewrite V; lra]|exists k; rewrite V; exact Y|exact AL|exact ML|lra|lra|].
    exists r. unfold sink_accept_d. cbn [loop]. rewrite P. cbn [bind]. split; [exact R1|]. split; [exact R2|]. split; [exact R3|]. lra.
Qed.
Lemma life_grid e eps throughput capacity top es : (-1074 <= e <= 900)%Z -> is_finite eps = true -> 0 <= B2R eps -> amount_d throughput -> multiple e throughput ->
  stock capacity -> top <= pw (e + 53) -> top <= pw 1000 ->
  forall s, stock (cd_in s) -> stock (cd_out s) -> multiple e (cd_in s) -> multiple e (cd_out s) -> Forall quantity_d (all_receipts es) -> Forall amount_d (all_sales es) ->
  Forall (multiple e) (all_receipts es) -> Forall (multiple e) (all_sales es) -> B2R (cd_in s) + B2R (cd_out s) + sum_of (all_receipts es) <= top ->
  exact_within (B2R throughput) (B2R capacity) (B2R (cd_in s)) (B2R (cd_out s)) es ->
  exists s' os, conv_life_d eps throughput capacity s es = Ok (s', os) /\
    (map (fun o => sum_of (moved o)) os, (B2R (cd_in s'), B2R (cd_out s'))) = exact_course (B2R throughput) (B2R (cd_in s)) (B2R (cd_out s)) es.
Proof.
  intros G E E0 A Mt Sc B B1. assert (P1 : pw 1000 <= pw 1002) by (apply bpow_le; lia). assert (P2 : pw 1000 <= pw 1022) by (apply bpow_le; lia). assert (P3 : pw 1000 <= pw 1023) by (apply bpow_le; lia).
  induction es as [|x es IH]; intros s S1 S2 M1 M2 QR QS MR MS L W.
  - exists s, []. split; reflexivity.
  - change (all_receipts (x :: es)) with (ce_receipts x ++ all_receipts es) in *. change (all_sales (x :: es)) with (ce_sales x ++ all_sales es) in *.
    apply Forall_app in QR as [QR1 QR2]. apply Forall_app in QS as [QS1 QS2]. apply Forall_app in MR as [MR1 MR2]. apply Forall_app in MS as [MS1 MS2]. rewrite sum_app in L.
    pose proof (sum_q _ QR1) as SR1. pose proof (sum_q _ QR2) as SR2. pose proof (sum_q _ (am_q _ QS1)) as SS1.
    cbn [exact_within exact_course] in *. set (X := Rmin (B2R (cd_in s)) (B2R throughput)) in *. destruct W as (Ws & Wr & W).
    assert (I0 : 0 <= B2R (cd_in s)) by apply S1. assert (O0 : 0 <= B2R (cd_out s)) by apply S2.
    destruct (convert_exactly throughput s A (proj1 S1) I0) as (s1 & mv & C & V & D); [lra|]. fold X in V.
    assert (X0 : 0 <= X) by (apply Rmin_glb; [exact I0|destruct A; lra]). assert (Xi : X <= B2R (cd_in s)) by apply Rmin_l.
    assert (T : stock (cd_in s1) /\ multiple e (cd_in s1) /\ B2R (cd_in s1) = B2R (cd_in s) - X /\ stock (cd_out s1) /\ multiple e (cd_out s1) /\ B2R (cd_out s1) = B2R (cd_out s) + X).
    { destruct mv as [y|]; cbn [amt] in V.
      - destruct D as (_ & Y & Ly & _ & D1 & D2).
        assert (My : multiple e y). { destruct M1 as [k1 K1]. destruct Mt as [k2 K2]. assert (X = B2R (cd_in s) \/ X = B2R throughput) as [Z|Z] by (unfold X, Rmin; destruct (Rle_dec (B2R (cd_in s)) (B2R throughput)); auto); [exists k1|exists k2]; congruence. }
        destruct (minus_exact e (cd_in s) y G M1 My) as [Em [k Ek]]; [lra|lra|].
        destruct (f_minus (cd_in s) y (proj1 S1) (proj1 (proj1 Y))) as [Fm Vm]; [apply Rabs_le; lra|]. rewrite Em in Vm.
        destruct (sum_exact e top (cd_out s) y G M2 My B O0) as [Ep [k' Ek']]; [lra|lra|].
        destruct (f_plus (cd_out s) y (proj1 S2) (proj1 (proj1 Y))) as [Fp Vp]; [apply Rabs_le; lra|]. rewrite Ep in Vp.
        rewrite D1, D2. unfold stock, multiple. rewrite Vm, Vp. repeat split; try assumption; try lra; [exists k; exact Ek|exists k'; exact Ek'].
      - destruct D as (Z & ->). assert (X = 0) by lra. repeat split; try assumption; try lra; try apply S1; try apply S2. }
    destruct T as (T1 & T2 & T3 & T4 & T5 & T6).
    destruct (trades_exact e (ce_sales x) G (cd_out s1)) as (out & Et & No & Mo & Vo); [split; [apply T4|lra]|exact T5|lra|exact QS1|exact MS1|lra|].
    destruct (accept_grid e eps capacity top (ce_receipts x) G E E0 Sc B B1 (cd_in s1) T1 T2 QR1 MR1) as (inp & Ea & Si & Mi & Vi); [lra|lra|].
    rewrite T6 in Vo. rewrite T3 in Vi.
    destruct (IH {| cd_in := inp; cd_out := out |}) as (s' & os & R1 & R2); cbn [cd_in cd_out]; try assumption.
    + split; [apply No|]. rewrite Vo. split; lra.
    + rewrite Vi, Vo. lra.
    + rewrite Vi, Vo. exact W.
    + cbn [conv_life_d]. unfold conv_step_d. rewrite C. cbn [bind]. rewrite Et. cbn [bind]. rewrite Ea. cbn [bind]. rewrite R1. cbn [bind].
      do 2 eexists. split; [reflexivity|]. cbn [cd_in cd_out] in R2. rewrite Vi, Vo in R2. rewrite <- R2. cbn [fst snd map]. f_equal. f_equal.
      unfold moved at 1. cbn [co_moved]. rewrite <- V. destruct mv; unfold sum_of; cbn [fold_right amt]; ring.
Qed.
Lemma grid_exact_final e eps throughput capacity es : is_finite eps = true -> 0 <= B2R eps -> amount_d throughput -> quantity_d capacity -> B2R capacity <= bpow radix2 1000 ->
  ordinary es -> conv_grid e throughput es -> exact_within (B2R throughput) (B2R capacity) 0 0 es ->
  exists s os, conv_life_d eps throughput capacity conv_empty_d es = Ok (s, os) /\
    (map (fun o => sum_of (moved o)) os, (B2R (cd_in s), B2R (cd_out s))) = exact_course (B2R throughput) 0 0 es.
Proof.
  intros E E0 A Qc Bc (QR & QS & B1 & _) (G & Mt & MR & MS & B) W. destruct fin_zero as [F V].
  assert (St : stock (of_int 0)) by (split; [exact F|]; rewrite V; split; [lra|apply bpow_ge_0]). assert (M0 : multiple e (of_int 0)) by (exists 0%Z; rewrite V; ring).
  assert (Sc : stock capacity) by (split; [apply Qc|]; split; [apply q_nonneg, Qc|]; apply Rle_trans with (1 := Bc); apply bpow_le; lia).
  destruct (life_grid e eps throughput capacity (sum_of (all_receipts es)) es G E E0 A Mt Sc B B1 conv_empty_d St St M0 M0 QR QS MR MS) as (s & os & R1 & R2);
    change (cd_in conv_empty_d) with (of_int 0) in *; change (cd_out conv_empty_d) with (of_int 0) in *; rewrite ?V in *.
  - lra.
  - exact W.
  - exists s, os. split; [exact R1|exact R2].
Qed.
