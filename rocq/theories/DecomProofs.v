(** What a reactor holds when it says that it can be decommissioned (C143): the proofs. *)
From Coq Require Import Lia Lqa Permutation.
From Verif Require Import Outcome KernelMaterial KernelResBuf KernelFacts ReactorModel ReactorSpec
  ReactorProofs ReactorTradeProofs ReactorHistory ReactorCycle ReactorTrace ReactorFuel ReactorRetire ReactorGlue.
Local Open Scope Z_scope.

Definition stocked (s : rx_state) : Prop := rb_items (core s) = [] -> rb_items (fresh s) = [].
Lemma zlen_nil {A} (l : list A) : zlen l = 0 -> l = [].
Proof. destruct l; [auto|]. unfold zlen. cbn. lia. Qed.
Lemma check_spec s : check_decom s = true <-> rb_items (core s) = [] /\ rb_items (spent s) = [].
Proof.
  unfold check_decom, rb_count. rewrite andb_true_iff, !Z.eqb_eq. split.
  - intros [A B]. split; apply zlen_nil; assumption.
  - intros [-> ->]. split; reflexivity.
Qed.
Lemma stocked_check s : stocked s -> check_decom s = true -> assemblies s = [].
Proof. intros S H. apply check_spec in H as [A B]. unfold assemblies. rewrite (S A), A, B. reflexivity. Qed.

Section Step.
Variables (eps : Q) (recipe : string -> option comp) (cfg : rx_cfg).
Hypothesis eps_nonneg : (0 <= eps)%Q.
Hypothesis Hcfg : config_consistent cfg.
Hypothesis Hknown : recipes_known recipe cfg.
Hypothesis Hcore : 1 <= n_core cfg.
Notation inv := (reactor_ok recipe cfg).
Lemma ticked_stocked t s s1 ev : inv s -> stocked s -> retired cfg t = false -> tick eps recipe cfg t s = Ok (s1, ev) -> stocked s1.
Proof.
  intros I S R E. destruct (tick_spec eps recipe cfg eps_nonneg Hcfg Hknown t s I R) as (s' & ev' & E' & _ & T). rewrite E in E'. injection E' as <- <-.
  intro C. rewrite (tr_core _ _ _ _ _ T) in C. rewrite (tr_fresh _ _ _ _ _ T). apply app_eq_nil in C as [C1 C2]. unfold nloaded in *. destruct (cycle_t cfg <=? cyc s) eqn:L.
  - rewrite C1 in *. change (zlen (@nil mat)) with 0 in *. set (n := Z.min (n_core cfg - 0) (rb_count (fresh s))) in *.
    destruct (rb_items (fresh s)) as [|m l] eqn:F; [rewrite skipn_nil; reflexivity|]. exfalso. assert (1 <= n) by (unfold n, rb_count, zlen; rewrite F; cbn [List.length]; lia).
    destruct (Z.to_nat n) eqn:Z; [lia|discriminate C2].
  - change (Z.to_nat 0) with 0%nat. cbn [skipn]. apply S. assert (SU : success cfg s = false) by (unfold success, attempt; rewrite L; reflexivity). unfold core2 in C1. rewrite SU in C1.
    apply zlen_nil. pose proof (core1_len recipe cfg s) as Q. rewrite C1 in Q. unfold rb_count in Q. symmetry. exact Q.
Qed.
Lemma exchanged_stocked t s e o : inv s -> step_contract eps recipe cfg t s e -> rx_step eps recipe cfg t s e = Ok o -> stocked (o_ticked o) -> stocked (o_state o).
Proof.
  intros I C E S. destruct (gen_step eps recipe cfg eps_nonneg Hcfg Hknown t s e o I C E) as (s3 & ev1 & ev2 & ev3 & ev4 & _ & I1 & _ & _ & _ & _ & _ & _ & _ & _ & _ & (c & d & ->) & _ & (K1 & K2) & _).
  unfold stocked. cbn [core fresh upd_cyc]. rewrite K1, K2. intro N. apply app_eq_nil in N as [N1 N2]. rewrite (S N1). cbn [app]. unfold rb_count in N2 |- *. rewrite N1 in *. change (zlen (@nil mat)) with 0 in *.
  destruct (map snd (e_deliv e)) as [|m l] eqn:M; [apply skipn_nil|]. exfalso. assert (Z : 1 <= zlen (e_deliv e)) by (unfold zlen; rewrite <- (map_length snd), M; cbn [List.length]; lia).
  destruct (Z.to_nat (Z.min (zlen (e_deliv e)) (n_core cfg - 0))) eqn:T; [lia|discriminate N2].
Qed.
End Step.

Lemma retired_later cfg t t' : t' <= t -> retired cfg t = false -> retired cfg t' = false.
Proof. unfold retired. intros L H. destruct (exit_t cfg =? -1); cbn [negb andb] in *; [reflexivity|]. apply Z.ltb_ge in H. apply Z.ltb_ge. lia. Qed.

Lemma operating_empty eps recipe cfg t0 s0 es os : rx_history eps recipe cfg t0 s0 es os -> 1 <= n_core cfg -> (rb_items (core s0) = [] -> rb_items (fresh s0) = []) ->
  forall i o, nth_error os i = Some o -> retired cfg (t0 + Z.of_nat i) = false ->
  (check_decom (o_ticked o) = true -> assemblies (o_ticked o) = []) /\ (check_decom (o_state o) = true -> assemblies (o_state o) = []).
Proof.
  intros H NC S0. assert (H' := H). destruct H' as [A1 A2 A3 A4 A5 A6].
  assert (X : forall i o, nth_error os i = Some o -> retired cfg (t0 + Z.of_nat i) = false -> stocked (state_before s0 os i) -> stocked (o_ticked o) /\ stocked (o_state o)).
  { intros i o N R S. destruct (step_of t0 s0 es os H i o N) as (e & _ & E & I & C).
    destruct (gen_step eps recipe cfg A1 A2 A3 _ _ e o I C E) as (s3 & ev1 & ev2 & ev3 & ev4 & T & _).
    pose proof (ticked_stocked eps recipe cfg A1 A2 A3 NC _ _ _ _ I S R T) as S1. split; [exact S1|]. exact (exchanged_stocked eps recipe cfg A1 A2 A3 NC _ _ _ _ I C E S1). }
  assert (Y : forall i o, nth_error os i = Some o -> retired cfg (t0 + Z.of_nat i) = false -> stocked (state_before s0 os i)).
  { induction i as [|i IH]; intros o N R; [exact S0|]. cbn [state_before]. destruct (nth_error os i) as [o'|] eqn:N'; [|exact S0].
    assert (R' : retired cfg (t0 + Z.of_nat i) = false) by (eapply retired_later; [|exact R]; lia). apply (X i o' N' R'). exact (IH o' eq_refl R'). }
  intros i o N R. destruct (X i o N R (Y i o N R)) as [B1 B2]. split; apply stocked_check; assumption.
Qed.
Lemma retired_empty eps recipe cfg t0 s0 es os : rx_history eps recipe cfg t0 s0 es os ->
  forall i o, nth_error os i = Some o -> retired cfg (t0 + Z.of_nat i) = true -> check_decom (o_state o) = true -> assemblies (o_state o) = [] \/ zlen (o_shipped o) = n_spent cfg.
Proof.
  intros H i o N R K. assert (H' := H). destruct H' as [A1 A2 A3 A4 A5 A6]. destruct (step_of t0 s0 es os H i o N) as (e & _ & E & I & C).
  destruct (retirement t0 s0 es os H i o N R) as (_ & _ & _ & (core' & _ & _ & gone & unused & _ & _ & _ & _ & _ & D) & F1 & F2 & _).
  apply check_spec in K as [K1 K2]. destruct D as [D|D].
  - left. unfold assemblies. rewrite F2, D, K1, K2. reflexivity.
  - right. destruct (gen_step eps recipe cfg A1 A2 A3 _ _ e o I C E) as (s3 & ev1 & ev2 & ev3 & ev4 & _ & _ & _ & _ & _ & _ & _ & _ & _ & _ & _ & (c & d & ES) & _ & _ & _ & P & _).
    rewrite ES in K2. cbn [spent upd_cyc] in K2. rewrite K2, app_nil_r in P. apply Permutation_length in P. rewrite map_length in P. unfold zlen in *. rewrite <- D. lia.
Qed.
Lemma scheduled_empty eps recipe cfg t0 s0 es os : rx_history eps recipe cfg t0 s0 es os -> 1 <= n_spent cfg ->
  forall i o, nth_error os i = Some o -> retired cfg (t0 + Z.of_nat i) = true -> has EvSchedDecom o -> assemblies (o_ticked o) = [] /\ assemblies (o_state o) = [].
Proof.
  intros H NS i o N R V. assert (H' := H). destruct H' as [A1 A2 A3 A4 A5 A6]. destruct (step_of t0 s0 es os H i o N) as (e & _ & E & I & C).
  destruct (retirement t0 s0 es os H i o N R) as (_ & _ & _ & _ & F1 & F2 & _ & F4). pose proof (F4 NS V) as Z. split; [exact Z|]. unfold assemblies in *.
  apply app_eq_nil in Z as [Z1 Z]. apply app_eq_nil in Z as [Z2 Z3].
  destruct (gen_step eps recipe cfg A1 A2 A3 _ _ e o I C E) as (s3 & ev1 & ev2 & ev3 & ev4 & _ & _ & _ & _ & _ & _ & _ & _ & _ & _ & _ & (c & d & ES) & _ & _ & _ & P & _).
  assert (S : rb_items (spent (o_state o)) = []).
  { rewrite ES. cbn [spent upd_cyc]. rewrite Z3 in P. apply Permutation_sym in P || idtac. destruct (rb_items (spent s3)) as [|m l]; [reflexivity|]. exfalso. apply Permutation_length in P. rewrite app_length in P. cbn [List.length] in P. lia. }
  rewrite F1, F2, Z1, Z2, S. reflexivity.
Qed.
