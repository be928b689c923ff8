(** C117: the SWU and feed account of Enrichment in double precision.  The axioms below are those of the standard library's real
    numbers, which Flocq's proofs use. *)
From Coq Require Import ZArith Reals QArith Qreals List Lia Lra.
From Flocq Require Import Core.Core IEEE754.BinarySingleNaN.
From Verif Require Import Outcome DoubleModel DoubleProofs DoubleFacts DoubleSpec MixerDoubleModel MixerDoubleSpec SeparationsDoubleProofs StorageDoubleSpec
  SourceDoubleProps SinkDoubleProps SwuDoubleModel SwuDoubleSpec SwuDoubleProofs.
Import ListNotations.
Local Open Scope R_scope.

(** ** C117.  Steps whose enrichments need together no more SWU than the capacity, with the rounding of each to spare, are
    never refused.  Missing: steps that need the whole capacity, when one rounding exceeds the tolerance, see C117_refuted. *)
Theorem C117_never_refused_partial : forall eg capacity a steps,
  swu_input eg capacity -> Forall (fun ts => swu_trades ts /\ swu_within eg capacity ts) steps ->
  exists os, swu_life_d eg capacity a steps = Ok os.
Proof. intros eg capacity a steps I H. exact (life_ok eg capacity steps I H a). Qed.
Print Assumptions C117_never_refused_partial.

(** The SWU and feed recorded for a step with enrichments are what these took, up to rounding: nothing of earlier steps. *)
Theorem C117_recorded : forall eg capacity a steps os,
  Forall swu_trades steps -> swu_life_d eg capacity a steps = Ok os -> Forall2 account_of steps os.
Proof. intros eg capacity a steps os H. exact (life_account eg capacity steps H a os). Qed.
Print Assumptions C117_recorded.

(** In every step that passes, the SWU taken are within the capacity, the tolerance and rounding. *)
Theorem C117_limit : forall eg capacity a steps os,
  swu_input eg capacity -> Forall swu_trades steps -> swu_life_d eg capacity a steps = Ok os ->
  Forall (fun ts => sum_of (map fst ts) <=
    B2R capacity + B2R eg + 2 * INR (List.length ts) * bpow radix2 (-53) * (B2R capacity + sum_of (map fst ts))) steps.
Proof. intros eg capacity a steps os I H. exact (life_limit eg capacity steps I H a os). Qed.
Print Assumptions C117_limit.

(** Worked case: a capacity of 10 SWU a step; 3 and 4 SWU for 5 and 6 kg of feed, a quiet step, then 9 SWU for 7 kg. *)
Definition sw_start : swu_account := {| sa_left := of_int 0; sa_swu := of_int 0; sa_feed := of_int 0 |}.
Definition sw_steps : list (list (double * double)) := [[(of_int 3, of_int 5); (of_int 4, of_int 6)]; []; [(of_int 9, of_int 7)]].
Lemma sw_input : swu_input sk_eps (of_int 10).
Proof.
  destruct sk_eps_val as [F L]. split; [exact F|]. split; [pose proof (bpow_gt_0 radix2 (-20)); lra|]. split; [apply sk_q; [lia|vm_compute; reflexivity]|].
  assert (E : (sk_scale sk_eps <= 2 ^ 80)%Z) by (vm_compute; congruence). pose proof (sk_scaled sk_eps ltac:(vm_compute; reflexivity)) as V.
  revert V E. generalize (sk_scale sk_eps). intros z V E. apply IZR_le in E. change 2%Z with (radix_val radix2) in E. rewrite IZR_Zpower in E by lia.
  assert (B2R sk_eps <= 1). { rewrite V. change 1 with (bpow radix2 (80 + -80)). rewrite bpow_plus. apply Rmult_le_compat_r; [apply bpow_ge_0|exact E]. }
  rewrite (sd_val 10 eq_refl). assert (P : bpow radix2 4 = 16) by reflexivity. assert (bpow radix2 4 <= bpow radix2 1000) by (apply bpow_le; lia). lra.
Qed.
Example C117_case : swu_input sk_eps (of_int 10) /\ Forall (fun ts => swu_trades ts /\ swu_within sk_eps (of_int 10) ts) sw_steps /\
  match swu_life_d sk_eps (of_int 10) sw_start sw_steps with
  | Ok [(s1, f1); (s2, f2); (s3, f3)] => Beqb s1 (of_int 7) && Beqb f1 (of_int 11) && Beqb s2 (of_int 7) && Beqb f2 (of_int 11) && Beqb s3 (of_int 9) && Beqb f3 (of_int 7)
  | _ => false
  end%bool = true.
Proof.
  split; [exact sw_input|]. split; [|vm_compute; reflexivity].
  destruct sw_input as (_ & E0 & _ & E1). rewrite (sd_val 10 eq_refl) in E1. destruct sk_eps_val as [_ _].
  assert (P : bpow radix2 4 = 16) by reflexivity. assert (P2 : bpow radix2 4 <= bpow radix2 1000) by (apply bpow_le; lia).
  assert (P3 : bpow radix2 (-53) <= bpow radix2 (-10)) by (apply bpow_le; lia). assert (P4 : bpow radix2 (-10) = / 1024) by reflexivity.
  pose proof (bpow_gt_0 radix2 (-53)) as P5. pose proof (Rmult_le_compat_r (B2R sk_eps) _ _ E0 P3) as P6. rewrite P4 in P6.
  pose proof (sd_val 3 eq_refl) as V3. pose proof (sd_val 4 eq_refl) as V4. pose proof (sd_val 5 eq_refl) as V5. pose proof (sd_val 6 eq_refl) as V6.
  pose proof (sd_val 7 eq_refl) as V7. pose proof (sd_val 9 eq_refl) as V9. pose proof (sd_val 10 eq_refl) as V10.
  unfold sw_steps, swu_trades, swu_within.
  repeat (apply Forall_cons; [split; [split; [cbn [List.length]; lia|]; split; [repeat (apply Forall_cons; [cbn [fst snd]; split; apply sk_q; try lia; vm_compute; reflexivity|]); apply Forall_nil|]|];
    unfold sum_of; cbn [map fst snd fold_right List.length INR]; rewrite ?V3, ?V4, ?V5, ?V6, ?V7, ?V9, ?V10; try split; lra|]).
  apply Forall_nil.
Qed.

(** A plant of 2 ^ 36 SWU a step with a tolerance of 1e-6: four enrichments that together need exactly its capacity. *)
Definition sw_big : list (double * double) :=
  map (fun s => (s, of_int 1)) [dmult (of_int 96) sk_unit; dmult (of_int 96) sk_unit; of_int 34359738368; dminus (of_int 34359738368) (dmult (of_int 192) sk_unit)].
(** In large plants, enrichments within the capacity can fail: the step raises an exception. *)
Theorem C117_refuted : exists eg capacity ts,
  nearest eg (Q2R (1 # 1000000)) /\ quantity_d capacity /\ B2R capacity = IZR (2 ^ 36) /\ swu_trades ts /\ List.length ts = 4%nat /\
  sum_of (map fst ts) = B2R capacity /\
  swu_life_d eg capacity sw_start [ts] = Throw ValueError.
Proof.
  exists (ddiv (of_int 1) (of_int 1000000)), (of_int (2 ^ 36)), sw_big.
  split; [apply (read_decimal 1 1000000); reflexivity|]. split; [apply sk_q; [lia|vm_compute; reflexivity]|]. split; [apply sd_val; reflexivity|].
  assert (SM : sum_of (map fst sw_big) = IZR (2 ^ 36)).
  { unfold sw_big. cbn [map fst].
    pose proof (sk_scaled (of_int 34359738368) ltac:(vm_compute; reflexivity)) as VA. pose proof (sk_scaled (dmult (of_int 96) sk_unit) ltac:(vm_compute; reflexivity)) as VB.
    pose proof (sk_scaled (dminus (of_int 34359738368) (dmult (of_int 192) sk_unit)) ltac:(vm_compute; reflexivity)) as VD.
    assert (sk_scale (dmult (of_int 96) sk_unit) + (sk_scale (dmult (of_int 96) sk_unit) + (sk_scale (of_int 34359738368) + sk_scale (dminus (of_int 34359738368) (dmult (of_int 192) sk_unit)))) = 2 ^ 116)%Z as Z by (vm_compute; reflexivity).
    revert VA VB VD Z. generalize (of_int 34359738368) (dmult (of_int 96) sk_unit). generalize (dminus (of_int 34359738368) (dmult (of_int 192) sk_unit)).
    intros d a b VA VB VD Z. unfold sum_of. cbn [fold_right]. rewrite VA, VB, VD. apply (f_equal IZR) in Z. rewrite !plus_IZR in Z.
    change (2 ^ 116)%Z with (radix_val radix2 ^ 116)%Z in Z. rewrite IZR_Zpower in Z by lia. change (2 ^ 36)%Z with (radix_val radix2 ^ 36)%Z. rewrite IZR_Zpower by lia.
    rewrite Rplus_0_r, <- !Rmult_plus_distr_r, Z, <- bpow_plus. reflexivity. }
  assert (B : bpow radix2 36 <= bpow radix2 1000) by (apply bpow_le; lia).
  split; [|split; [reflexivity|split; [rewrite SM; symmetry; apply sd_val; reflexivity|vm_compute; reflexivity]]].
  split; [unfold sw_big; cbn [map List.length]; lia|]. split.
  - unfold sw_big. cbn [map]. repeat (apply Forall_cons; [cbn [fst snd]; split; (split; vm_compute; reflexivity)|]). apply Forall_nil.
  - split.
    + rewrite SM. change (2 ^ 36)%Z with (radix_val radix2 ^ 36)%Z. rewrite IZR_Zpower by lia. exact B.
    + unfold sw_big, sum_of. cbn [map snd fold_right]. rewrite (sd_val 1 eq_refl). assert (P : bpow radix2 4 = 16) by reflexivity.
      assert (bpow radix2 4 <= bpow radix2 1000) by (apply bpow_le; lia). lra.
Qed.
Print Assumptions C117_refuted.
