(** C115: requests and deliveries of Sink in double precision.  The axioms below are those of the standard library's real
    numbers, which Flocq's proofs use. *)
From Coq Require Import ZArith Reals QArith Qreals List Lia Lra.
From Flocq Require Import Core.Core IEEE754.BinarySingleNaN.
From Verif Require Import Outcome DoubleModel DoubleProofs DoubleFacts DoubleSpec MixerDoubleModel MixerDoubleSpec SeparationsDoubleProofs StorageDoubleSpec
  SourceDoubleProps SinkDoubleModel SinkDoubleSpec SinkDoubleProofs.
Import ListNotations.
Local Open Scope R_scope.

(** ** C115.  A sink whose tolerance covers the rounding of a step's deliveries never refuses deliveries that are together
    within its request.  Missing: larger sinks, see C115_refuted. *)
Theorem C115_never_refuses_partial : forall eps eg capacity size k es e qty os,
  sink_input eps capacity size k -> is_finite eg = true -> 0 <= B2R eg ->
  sink_life_d eps eg capacity size (of_int 0) es = Ok (qty, os) -> Forall2 (respects k) es os ->
  respects k e {| so_available := sink_available_d capacity size qty; so_request := sink_request_d eg capacity size qty e |} ->
  exists qty1 o, sink_step_d eps eg capacity size qty e = Ok (qty1, o).
Proof. exact never_fails_final. Qed.
Print Assumptions C115_never_refuses_partial.

(** The stock it reports is never above the size by more than rounding, and is what was delivered up to rounding. *)
Theorem C115_inventory : forall eps eg capacity size k es qty os,
  sink_input eps capacity size k -> is_finite eg = true -> 0 <= B2R eg ->
  sink_life_d eps eg capacity size (of_int 0) es = Ok (qty, os) -> Forall2 (respects k) es os ->
  is_finite qty = true /\ 0 <= B2R qty <= B2R size + (2 * INR k + 1) * bpow radix2 (-53) * B2R size /\
  Rabs (B2R qty - sum_of (all_delivered es)) <= INR (List.length (all_delivered es)) * (2 * bpow radix2 (-53) * B2R size).
Proof. exact inventory_final. Qed.
Print Assumptions C115_inventory.

(** A request that is not random is never above the capacity, is made only below the size, and is the smaller of the capacity
    and the exact space, up to one unit of 2 ^ -53 of the size. *)
Theorem C115_request : forall eps eg capacity size k es e qty os r,
  sink_input eps capacity size k -> is_finite eg = true -> 0 <= B2R eg ->
  sink_life_d eps eg capacity size (of_int 0) es = Ok (qty, os) -> Forall2 (respects k) es os -> sd_draw e = None ->
  sink_request_d eg capacity size qty e = Some r ->
  is_finite r = true /\ B2R eg < B2R r <= B2R capacity /\ B2R qty < B2R size /\
  Rabs (B2R r - Rmin (B2R capacity) (B2R size - B2R qty)) <= bpow radix2 (-53) * B2R size.
Proof. exact request_final. Qed.
Print Assumptions C115_request.

(** A sink of any size, as with the default of 1e299 kg, takes every history of deliveries that stays below its size by one
    unit of 2 ^ -53 of it for each of them, with any tolerance. *)
Theorem C115_far_from_full : forall eps eg capacity size es,
  is_finite eps = true -> 0 <= B2R eps -> quantity_d size -> B2R size <= bpow radix2 1000 -> Forall quantity_d (all_delivered es) ->
  sum_of (all_delivered es) + INR (List.length (all_delivered es)) * (bpow radix2 (-53) * B2R size) <= B2R size ->
  exists qty os, sink_life_d eps eg capacity size (of_int 0) es = Ok (qty, os).
Proof. exact far_final. Qed.
Print Assumptions C115_far_from_full.

(** Without rounding, for a size and deliveries that are multiples of a power of two, the size at most 2 ^ 53 of it: deliveries
    that fit are taken with any tolerance, and the stock and the space offered at each step are exact. *)
Theorem C115_exact : forall e eps eg capacity size es,
  is_finite eps = true -> 0 <= B2R eps -> is_finite capacity = true -> quantity_d size ->
  Forall quantity_d (all_delivered es) -> sink_grid e size (all_delivered es) -> within_space (B2R size) es ->
  exists qty os, sink_life_d eps eg capacity size (of_int 0) es = Ok (qty, os) /\ B2R qty = sum_of (all_delivered es) /\ List.length os = List.length es /\
    forall before x after o, es = before ++ x :: after -> nth_error os (List.length before) = Some o ->
      B2R (so_available o) = Rmin (B2R capacity) (B2R size - sum_of (all_delivered before)).
Proof. exact exact_final. Qed.
Print Assumptions C115_exact.

(** Worked case: a sink for 10 kg, at most 6 kg a step; it gets 3 and 2 kg, waits for a step, gets 4 kg, and still asks for 1 kg.
    The tolerances are 1e-6. *)
Definition sk_eps : double := ddiv (of_int 1) (of_int 1000000).
Definition sk_steps : list sink_env_d :=
  [{| sd_buys := true; sd_draw := None; sd_mats := [of_int 3]; sd_prods := [of_int 2] |};
   {| sd_buys := false; sd_draw := None; sd_mats := []; sd_prods := [] |};
   {| sd_buys := true; sd_draw := Some (of_int 4); sd_mats := [of_int 4]; sd_prods := [] |}].
Definition sk_next : sink_env_d := {| sd_buys := true; sd_draw := None; sd_mats := []; sd_prods := [of_int 1] |}.
(** A double in units of 2 ^ -80. *)
Definition sk_scale (x : double) : Z := match x with B754_finite b m e _ => (cond_Zopp b (Zpos m) * 2 ^ (e + 80))%Z | _ => 0%Z end.
Lemma sk_scaled x : match x with B754_finite _ _ e _ => (-80 <=? e)%Z | _ => false end = true -> B2R x = IZR (sk_scale x) * bpow radix2 (-80).
Proof.
  destruct x as [| | |b m e H]; try discriminate. intro E. apply Z.leb_le in E. cbn [sk_scale B2R]. unfold F2R. cbn [Fnum Fexp].
  rewrite mult_IZR. change 2%Z with (radix_val radix2). rewrite IZR_Zpower by lia. rewrite Rmult_assoc, <- bpow_plus. f_equal. f_equal. lia.
Qed.
Lemma sk_eps_val : is_finite sk_eps = true /\ bpow radix2 (-20) <= B2R sk_eps.
Proof.
  assert (F : is_finite sk_eps = true) by (vm_compute; reflexivity). split; [exact F|].
  pose proof (sk_scaled sk_eps ltac:(vm_compute; reflexivity)) as V. assert (L : (2 ^ 60 <= sk_scale sk_eps)%Z) by (vm_compute; congruence).
  revert V L. generalize (sk_scale sk_eps). intros z -> L. apply IZR_le in L. change 2%Z with (radix_val radix2) in L. rewrite IZR_Zpower in L by lia.
  change (-20)%Z with (60 + -80)%Z. rewrite bpow_plus. apply Rmult_le_compat_r; [apply bpow_ge_0|exact L].
Qed.
Lemma sk_q n : (0 < n < 2 ^ 53)%Z -> (match of_int n with B754_zero s | B754_finite s _ _ _ => s | _ => true end) = false -> quantity_d (of_int n).
Proof. intros H S. apply (sd_int n H S). Qed.
Lemma sk_input : sink_input sk_eps (of_int 6) (of_int 10) 2.
Proof.
  destruct sk_eps_val as [F L]. assert (P : bpow radix2 4 = 16) by reflexivity. assert (P2 : bpow radix2 4 <= bpow radix2 1000) by (apply bpow_le; lia).
  split; [exact F|]. split; [apply f_int; lia|]. split; [apply sk_q; [lia|vm_compute; reflexivity]|]. rewrite (sd_val 10 eq_refl). split; [lra|]. split; [lia|].
  cbn [INR]. assert (bpow radix2 (-53) * 64 <= bpow radix2 (-20)); [|pose proof (bpow_gt_0 radix2 (-53)); lra].
  change 64 with (bpow radix2 6). rewrite <- bpow_plus. apply bpow_le. lia.
Qed.
Lemma sk_case : match sink_life_d sk_eps sk_eps (of_int 6) (of_int 10) (of_int 0) sk_steps with
  | Ok (q, [{| so_available := a1; so_request := Some r1 |}; {| so_available := a2; so_request := None |}; {| so_available := a3; so_request := Some r3 |}]) =>
      Beqb q (of_int 9) && Beqb a1 (of_int 6) && Beqb r1 (of_int 6) && Beqb a2 (of_int 5) && Beqb a3 (of_int 5) && Beqb r3 (of_int 4) &&
      match sink_request_d sk_eps (of_int 6) (of_int 10) q sk_next with Some r => Beqb r (of_int 1) | None => false end
  | _ => false
  end%bool = true.
Proof. vm_compute. reflexivity. Qed.
Lemma sk_eqb x n : (Z.abs n <? 2 ^ 53)%Z = true -> Beqb x (of_int n) = true -> is_finite x = true /\ B2R x = IZR n.
Proof.
  intros H E. apply Z.ltb_lt in H. destruct (f_int n H) as [F V].
  assert (Fx : is_finite x = true) by (destruct x as [s|s| |s m e B], (of_int n) as [s'|s'| |s' m' e' B']; try reflexivity; try discriminate; destruct s; discriminate).
  split; [exact Fx|]. rewrite <- V. rewrite Beqb_correct in E by assumption. destruct (Req_bool_spec (B2R x) (B2R (of_int n))); [assumption|discriminate].
Qed.
Example C115_case : sink_input sk_eps (of_int 6) (of_int 10) 2 /\ is_finite sk_eps = true /\ 0 <= B2R sk_eps /\
  exists qty os, sink_life_d sk_eps sk_eps (of_int 6) (of_int 10) (of_int 0) sk_steps = Ok (qty, os) /\ Forall2 (respects 2) sk_steps os /\ B2R qty = 9 /\
    respects 2 sk_next {| so_available := sink_available_d (of_int 6) (of_int 10) qty; so_request := sink_request_d sk_eps (of_int 6) (of_int 10) qty sk_next |} /\
    exists r, sink_request_d sk_eps (of_int 6) (of_int 10) qty sk_next = Some r /\ B2R r = 1.
Proof.
  split; [exact sk_input|]. destruct sk_eps_val as [F L]. split; [exact F|]. split; [pose proof (bpow_gt_0 radix2 (-20)); lra|].
  pose proof sk_case as H. assert (Qs : quantity_d (of_int 1) /\ quantity_d (of_int 2) /\ quantity_d (of_int 3) /\ quantity_d (of_int 4)).
  { repeat match goal with |- _ /\ _ => split end; apply sk_q; try lia; vm_compute; reflexivity. }
  unfold sk_steps, sk_next in *.
  pose proof (sd_val 1 eq_refl) as V1. pose proof (sd_val 2 eq_refl) as V2. pose proof (sd_val 3 eq_refl) as V3. pose proof (sd_val 4 eq_refl) as V4.
  pose proof (proj1 (f_int 4 ltac:(lia))) as F4.
  assert (E9 := fun x => sk_eqb x 9 eq_refl). assert (E6 := fun x => sk_eqb x 6 eq_refl). assert (E5 := fun x => sk_eqb x 5 eq_refl). assert (E4 := fun x => sk_eqb x 4 eq_refl). assert (E1 := fun x => sk_eqb x 1 eq_refl).
  revert H Qs V1 V2 V3 V4 F4 E9 E6 E5 E4 E1. generalize (of_int 9) (of_int 5) (of_int 6) (of_int 10) (of_int 0) (of_int 1) (of_int 2) (of_int 3) (of_int 4) sk_eps.
  intros c9 c5 c6 c10 c0 c1 c2 c3 c4 eps H (Q1 & Q2 & Q3 & Q4) V1 V2 V3 V4 F4 E9 E6 E5 E4 E1.
  destruct (sink_life_d eps eps c6 c10 c0 _) as [[q os]|x|x|]; [|discriminate H ..].
  exists q, os. split; [reflexivity|].
  destruct os as [|[a1 [r1|]] [|[a2 [r2|]] [|[a3 [r3|]] [|o os]]]]; try discriminate H.
  destruct (sink_request_d eps c6 c10 q _) as [r|]; [|rewrite Bool.andb_false_r in H; discriminate H].
  repeat rewrite Bool.andb_true_iff in H. destruct H as ((((((H1 & H2) & H3) & H4) & H5) & H6) & H7).
  apply E9 in H1 as (_ & H1). apply E6 in H2 as (_ & H2), H3 as (_ & H3). apply E5 in H4 as (_ & H4), H5 as (_ & H5). apply E4 in H6 as (_ & H6). apply E1 in H7 as (_ & H7).
  unfold respects, delivered. cbn [so_request so_available sd_mats sd_prods sd_draw app List.length]. unfold sum_of. cbn [fold_right].
  split; [repeat apply Forall2_cons; try apply Forall2_nil; cbn [so_request so_available sd_mats sd_prods sd_draw app List.length fold_right]|].
  - split; [lia|]. split; [repeat (apply Forall_cons; [assumption|]); apply Forall_nil|]. split; [lra|exact I].
  - split; [lia|]. split; [apply Forall_nil|]. split; [reflexivity|exact I].
  - split; [lia|]. split; [repeat (apply Forall_cons; [assumption|]); apply Forall_nil|]. split; [lra|]. split; [exact F4|lra].
  - split; [exact H1|]. split; [|exists r; split; [reflexivity|exact H7]].
    split; [lia|]. split; [repeat (apply Forall_cons; [assumption|]); apply Forall_nil|]. split; [lra|exact I].
Qed.
Example C115_far_case : is_finite sk_eps = true /\ 0 <= B2R sk_eps /\ quantity_d (of_int 10) /\ B2R (of_int 10) <= bpow radix2 1000 /\
  Forall quantity_d (all_delivered sk_steps) /\
  sum_of (all_delivered sk_steps) + INR (List.length (all_delivered sk_steps)) * (bpow radix2 (-53) * B2R (of_int 10)) <= B2R (of_int 10).
Proof.
  destruct sk_eps_val as [F L]. split; [exact F|]. split; [pose proof (bpow_gt_0 radix2 (-20)); lra|]. split; [apply sk_q; [lia|vm_compute; reflexivity]|].
  assert (P : bpow radix2 4 = 16) by reflexivity. assert (P2 : bpow radix2 4 <= bpow radix2 1000) by (apply bpow_le; lia).
  assert (P3 : bpow radix2 (-53) <= bpow radix2 (-10)) by (apply bpow_le; lia). assert (P4 : bpow radix2 (-10) = / 1024) by reflexivity.
  rewrite (sd_val 10 eq_refl). split; [lra|]. unfold sk_steps, all_delivered, delivered. cbn [flat_map sd_mats sd_prods app List.length INR].
  split; [repeat (apply Forall_cons; [apply sk_q; [lia|vm_compute; reflexivity]|]); apply Forall_nil|].
  unfold sum_of. cbn [fold_right]. rewrite (sd_val 3 eq_refl), (sd_val 2 eq_refl), (sd_val 4 eq_refl). lra.
Qed.

Lemma sk_m n : (Z.abs n <? 2 ^ 53)%Z = true -> multiple 0 (of_int n).
Proof. intro H. exists n. rewrite (sd_val n H). cbn. ring. Qed.
Example C115_exact_case : sink_grid 0 (of_int 10) (all_delivered sk_steps) /\ within_space (B2R (of_int 10)) sk_steps.
Proof.
  assert (P : bpow radix2 4 = 16) by reflexivity. assert (P2 : bpow radix2 4 <= bpow radix2 (0 + 53)) by (apply bpow_le; lia).
  split.
  - split; [lia|]. split; [apply sk_m; reflexivity|]. split; [rewrite (sd_val 10 eq_refl); lra|].
    unfold sk_steps, all_delivered, delivered. cbn [flat_map sd_mats sd_prods app]. repeat (apply Forall_cons; [apply sk_m; reflexivity|]). apply Forall_nil.
  - rewrite (sd_val 10 eq_refl). unfold sk_steps. pose proof (sd_val 2 eq_refl) as V2. pose proof (sd_val 3 eq_refl) as V3. pose proof (sd_val 4 eq_refl) as V4.
    revert V2 V3 V4. generalize (of_int 2) (of_int 3) (of_int 4). intros b a c V2 V3 V4 before x after E.
    destruct before as [|b1 [|b2 [|b3 before]]]; cbn [app] in E; [injection E as <- _|injection E as <- <- _|injection E as <- <- <- _|injection E as _ _ _ E; destruct before; discriminate];
      unfold all_delivered, delivered, sum_of; cbn [flat_map app sd_mats sd_prods fold_right]; lra.
Qed.

(** A sink for 2 ^ 36 kg with a tolerance of 1e-6: one step of four deliveries that together are exactly its request. *)
Definition sk_unit : double := ddiv (of_int 1) (of_int 16777216).
Definition sk_big : list double :=
  [of_int 34359738368; dmult (of_int 96) sk_unit; dmult (of_int 96) sk_unit; dminus (of_int 34359738368) (dmult (of_int 192) sk_unit)].
(** In large sinks, deliveries within the request can fail: the last one raises an exception. *)
Theorem C115_refuted : exists eps capacity size e,
  nearest eps (Q2R (1 # 1000000)) /\ is_finite capacity = true /\ quantity_d size /\ B2R size = IZR (2 ^ 36) /\
  respects 4 e {| so_available := sink_available_d capacity size (of_int 0); so_request := sink_request_d eps capacity size (of_int 0) e |} /\
  sink_life_d eps eps capacity size (of_int 0) [e] = Throw ValueError.
Proof.
  exists (ddiv (of_int 1) (of_int 1000000)), (of_int (2 ^ 36)), (of_int (2 ^ 36)), {| sd_buys := true; sd_draw := None; sd_mats := sk_big; sd_prods := [] |}.
  split; [apply (read_decimal 1 1000000); reflexivity|]. split; [apply f_int; lia|]. split; [apply sk_q; [lia|vm_compute; reflexivity]|]. split; [apply sd_val; reflexivity|].
  split.
  - split; [unfold delivered, sk_big; cbn [sd_mats sd_prods app List.length]; lia|].
    split; [unfold delivered, sk_big; cbn [sd_mats sd_prods app]; repeat (apply Forall_cons; [split; vm_compute; reflexivity|]); apply Forall_nil|]. split; [|exact I].
    cbn [so_request]. unfold delivered, sk_big. cbn [sd_mats sd_prods app].
    pose proof (sk_scaled (of_int 34359738368) ltac:(vm_compute; reflexivity)) as VA. pose proof (sk_scaled (dmult (of_int 96) sk_unit) ltac:(vm_compute; reflexivity)) as VB.
    pose proof (sk_scaled (dminus (of_int 34359738368) (dmult (of_int 192) sk_unit)) ltac:(vm_compute; reflexivity)) as VD.
    assert (sk_scale (of_int 34359738368) + (sk_scale (dmult (of_int 96) sk_unit) + (sk_scale (dmult (of_int 96) sk_unit) + sk_scale (dminus (of_int 34359738368) (dmult (of_int 192) sk_unit)))) = 2 ^ 116)%Z as S by (vm_compute; reflexivity).
    assert (R : match sink_request_d (ddiv (of_int 1) (of_int 1000000)) (of_int (2 ^ 36)) (of_int (2 ^ 36)) (of_int 0) {| sd_buys := true; sd_draw := None; sd_mats := sk_big; sd_prods := [] |} with
                | Some r => Beqb r (of_int (2 ^ 36)) | None => false end = true) by (vm_compute; reflexivity).
    assert (E36 := fun x => sk_eqb x (2 ^ 36) eq_refl). unfold sk_big in R.
    revert VA VB VD S R E36. generalize (of_int 34359738368) (dmult (of_int 96) sk_unit). generalize (dminus (of_int 34359738368) (dmult (of_int 192) sk_unit)).
    generalize (of_int (2 ^ 36)) (of_int 0) (ddiv (of_int 1) (of_int 1000000)).
    intros s z eps d a b VA VB VD S R E36. destruct (sink_request_d _ _ _ _ _) as [r|]; [|discriminate R]. apply E36 in R as (_ & R). rewrite R.
    unfold sum_of. cbn [fold_right]. rewrite VA, VB, VD. apply (f_equal IZR) in S. rewrite !plus_IZR in S.
    change (2 ^ 116)%Z with (radix_val radix2 ^ 116)%Z in S. rewrite IZR_Zpower in S by lia. change (2 ^ 36)%Z with (radix_val radix2 ^ 36)%Z. rewrite IZR_Zpower by lia.
    rewrite Rplus_0_r, <- !Rmult_plus_distr_r, S, <- bpow_plus. apply bpow_le. lia.
  - vm_compute. reflexivity.
Qed.
Print Assumptions C115_refuted.
