(** Reactor: the calendar of a well supplied reactor. *)
From Coq Require Import Lia Lqa Permutation.
From Verif Require Import Outcome KernelMaterial KernelResBuf KernelFacts ReactorModel ReactorSpec
  ReactorProofs ReactorTradeProofs ReactorHistory ReactorCycle ReactorTrace ReactorGlue.
Local Open Scope Z_scope.

Section Calendar.
Context {eps : Q} {recipe : string -> option comp} {cfg : rx_cfg}.
Variables (t0 : Z) (s0 : rx_state) (es : list rx_env) (os : list rx_out).
Hypothesis H : rx_history eps recipe cfg t0 s0 es os.
Hypothesis Hcyc : 1 <= cycle_t cfg.
Hypothesis Href : 0 <= refuel_t cfg.
Notation P := (cycle_t cfg + refuel_t cfg).
Notation st := (state_before s0 os).

Lemma rel i o : nth_error os i = Some o -> retired cfg (t0 + Z.of_nat i) = false ->
  exists e s3, nth_error es i = Some e /\ reactor_ok recipe cfg (st i) /\ step_rel recipe cfg (t0 + Z.of_nat i) (st i) e o s3.
Proof.
  intros N R. destruct (step_of _ _ _ _ H i o N) as (e & Ne & E & I & SC). pose proof H as [h1 h2 h3 h4 h5 h6].
  destruct (step_spec eps recipe cfg h1 h2 h3 _ _ _ _ I R SC E) as (s3 & SR). eauto.
Qed.
Lemma next i o : nth_error os i = Some o -> st (S i) = o_state o.
Proof. intro N. cbn. rewrite N. reflexivity. Qed.
Lemma mod_succ k : 0 <= k -> (k + 1) mod P = if (k mod P + 1 =? P) then 0 else k mod P + 1.
Proof.
  intro K. pose proof (Z.mod_pos_bound k P ltac:(lia)) as B. pose proof (Z.div_mod k P ltac:(lia)) as D.
  destruct (k mod P + 1 =? P) eqn:E.
  - apply Z.eqb_eq in E. symmetry. apply (Z.mod_unique_pos _ _ (k / P + 1)); lia.
  - apply Z.eqb_neq in E. symmetry. apply (Z.mod_unique_pos _ _ (k / P)); lia.
Qed.

(** What a step in phase [p] of the calendar looks like. *)
Definition in_phase (p : Z) (o : rx_out) : Prop :=
  (has EvCycleStart o <-> p = 0) /\
  power_record o = [if p <? cycle_t cfg then power_cap cfg else 0%Q].
Definition after_phase (p : Z) (s : rx_state) : Prop :=
  cyc s = p + 1 /\ disch s = (cycle_t cfg <=? p) /\ (p < cycle_t cfg -> full cfg s = true).

Lemma start_phase t s e o s3 : step_rel recipe cfg t s e o s3 -> cyc1 cfg s3 = 0 -> full cfg s3 = true ->
  (ReactorCycle.restart cfg s3 = true \/ disch s3 = false) -> in_phase 0 o /\ after_phase 0 (o_state o).
Proof.
  intros R C F D. unfold in_phase, after_phase.
  rewrite (has_start _ _ _ _ _ _ _ R), (power_rec _ _ _ _ _ _ _ R), (final_cyc _ _ _ _ _ _ _ R), (final_disch _ _ _ _ _ _ _ R).
  unfold on_power. rewrite C, F. replace (0 <? cycle_t cfg) with true by (symmetry; apply Z.ltb_lt; lia).
  replace (cycle_t cfg <=? 0) with false by (symmetry; apply Z.leb_gt; lia). cbn.
  split; [split; [tauto|reflexivity]|]. split; [reflexivity|]. split.
  - destruct D as [-> | ->]; [reflexivity|]. destruct (ReactorCycle.restart cfg s3); reflexivity.
  - intros _. unfold full. rewrite (final_core _ _ _ _ _ _ _ R). exact F.
Qed.

Lemma next_phase t s e o s3 p : step_rel recipe cfg t s e o s3 -> reactor_ok recipe cfg s -> 0 <= p < P ->
  after_phase p s -> ~ has EvDischargeFailed o -> (p + 1 = P -> core_full cfg (o_state o)) ->
  let q := if p + 1 =? P then 0 else p + 1 in in_phase q o /\ after_phase q (o_state o).
Proof.
  intros R I Hp (A1 & A2 & A3) ND FU q.
  pose proof (s3_cyc _ _ _ _ _ _ _ R) as C3. pose proof (s3_disch _ _ _ _ _ _ _ R) as D3.
  rewrite (has_dfail _ _ _ _ _ _ _ R) in ND.
  assert (SU : success cfg s = (cycle_t cfg =? p + 1)).
  { destruct (success cfg s) eqn:S.
    - unfold success, attempt in S. apply andb_prop in S as [S _]. apply andb_prop in S as [S1 S2].
      apply Z.leb_le in S1. rewrite A2 in S2. apply negb_true_iff in S2. apply Z.leb_gt in S2.
      symmetry. apply Z.eqb_eq. lia.
    - symmetry. apply Z.eqb_neq. intro C. apply ND. split; [|reflexivity]. unfold attempt. rewrite A1, A2, C, Z.leb_refl.
      replace (p + 1 <=? p) with false by (symmetry; apply Z.leb_gt; lia). reflexivity. }
  assert (DD : disch s3 = (cycle_t cfg <=? p + 1)).
  { rewrite D3, A2, SU. destruct (cycle_t cfg <=? p) eqn:X, (cycle_t cfg =? p + 1) eqn:Y, (cycle_t cfg <=? p + 1) eqn:Z; cbn; auto;
    repeat match goal with h : (_ <=? _) = true |- _ => apply Z.leb_le in h | h : (_ <=? _) = false |- _ => apply Z.leb_gt in h
      | h : (_ =? _) = true |- _ => apply Z.eqb_eq in h | h : (_ =? _) = false |- _ => apply Z.eqb_neq in h end; lia. }
  destruct (p + 1 =? P) eqn:E; subst q.
  - apply Z.eqb_eq in E. specialize (FU E). apply full_iff in FU.
    assert (F3 : full cfg s3 = true) by (unfold full in *; rewrite <- (final_core _ _ _ _ _ _ _ R); exact FU).
    assert (RS : ReactorCycle.restart cfg s3 = true).
    { unfold ReactorCycle.restart. rewrite C3, A1, E, F3, DD, Z.leb_refl. cbn. apply Z.leb_le. lia. }
    apply (start_phase _ _ _ _ _ R); auto. unfold cyc1. rewrite RS. reflexivity.
  - apply Z.eqb_neq in E.
    assert (RS : ReactorCycle.restart cfg s3 = false).
    { unfold ReactorCycle.restart. rewrite C3, A1. replace (P <=? p + 1) with false by (symmetry; apply Z.leb_gt; lia). reflexivity. }
    assert (C1 : cyc1 cfg s3 = p + 1) by (unfold cyc1; rewrite RS, C3; exact A1).
    assert (F3 : p + 1 < cycle_t cfg -> full cfg s3 = true).
    { intro L. destruct (core_keeps _ _ _ _ _ _ _ I R) as (_ & F & _); auto.
      - rewrite SU. apply Z.eqb_neq. lia.
      - apply A3. lia. }
    unfold in_phase, after_phase.
    rewrite (has_start _ _ _ _ _ _ _ R), (power_rec _ _ _ _ _ _ _ R), (final_cyc _ _ _ _ _ _ _ R), (final_disch _ _ _ _ _ _ _ R).
    unfold on_power. rewrite C1, RS, DD. replace (0 <? p + 1) with true by (symmetry; apply Z.ltb_lt; lia).
    replace (0 <=? p + 1) with true by (symmetry; apply Z.leb_le; lia). cbn [orb andb].
    split; [split|split; [|split]].
    + split; [intros []; lia|lia].
    + destruct (p + 1 <? cycle_t cfg) eqn:L; [|reflexivity]. apply Z.ltb_lt in L. rewrite (F3 L). reflexivity.
    + reflexivity.
    + reflexivity.
    + intro L. unfold full. rewrite (final_core _ _ _ _ _ _ _ R). exact (F3 L).
Qed.

Lemma calendar_from i o : cycle_ok cfg s0 -> nth_error os i = Some o -> has EvCycleStart o ->
  forall j, (i <= j)%nat -> retired cfg (t0 + Z.of_nat j) = false ->
  (forall m om, (i < m <= j)%nat -> nth_error os m = Some om ->
     ~ has EvDischargeFailed om /\ (Z.of_nat (m - i) mod P = 0 -> core_full cfg (o_state om))) ->
  forall oj, nth_error os j = Some oj ->
  in_phase (Z.of_nat (j - i) mod P) oj /\ after_phase (Z.of_nat (j - i) mod P) (o_state oj).
Proof.
  intros CO N HS j L. remember (j - i)%nat as k eqn:K. revert j L K. induction k as [|k IH]; intros j L K R A oj Nj.
  - replace j with i in * by lia. assert (oj = o) as -> by congruence.
    destruct (rel i o N R) as (e & s3 & Ne & I & SR). apply (has_start _ _ _ _ _ _ _ SR) in HS as HS'. destruct HS' as (C & F).
    cbn [Z.of_nat]. rewrite Z.mod_0_l by lia. apply (start_phase _ _ _ _ _ SR); auto.
    destruct (ReactorCycle.restart cfg s3) eqn:RS; [left; reflexivity|right].
    unfold cyc1 in C. rewrite RS in C. rewrite (s3_cyc _ _ _ _ _ _ _ SR) in C. rewrite (s3_disch _ _ _ _ _ _ _ SR).
    assert (CK : cycle_ok cfg (st i)).
    { pose proof H as [h1 h2 h3 h4 h5 h6]. eapply (cycle_ok_at eps recipe cfg h1 h2 h3 t0 s0 es os h4 h5 h6); eauto.
      - apply Nat.lt_le_incl. apply nth_error_Some. congruence.
      - intros. eapply retired_mono; [|exact R]. lia. }
    destruct CK as (_ & CK). destruct (disch (st i)); [specialize (CK eq_refl); lia|]. cbn.
    unfold success, attempt. rewrite C. replace (cycle_t cfg <=? 0) with false by (symmetry; apply Z.leb_gt; lia). reflexivity.
  - assert (Lj : (j < List.length os)%nat) by (apply nth_error_Some; congruence).
    destruct (nth_error os (j - 1)) as [op|] eqn:Np; [|apply nth_error_None in Np; lia].
    destruct (IH (j - 1)%nat ltac:(lia) ltac:(lia)) with (oj := op) as (_ & AP); auto.
    + eapply retired_mono; [|exact R]. lia.
    + intros m om Hm Nm. apply A; auto. lia.
    + destruct (rel j oj Nj R) as (e & s3 & Ne & I & SR).
      assert (ES : st j = o_state op) by (replace j with (S (j - 1)) by lia; apply next; exact Np).
      rewrite ES in I, SR. destruct (A j oj ltac:(lia) Nj) as (ND & FU).
      replace (Z.of_nat (S k)) with (Z.of_nat k + 1) by lia. rewrite mod_succ by lia.
      apply (next_phase _ _ _ _ _ _ SR I); auto.
      * apply Z.mod_pos_bound. lia.
      * intro E. apply FU. replace (j - i)%nat with (S k) by lia. replace (Z.of_nat (S k)) with (Z.of_nat k + 1) by lia.
        rewrite mod_succ by lia. rewrite E, Z.eqb_refl. reflexivity.
Qed.

Lemma calendar i o : cycle_ok cfg s0 -> nth_error os i = Some o -> has EvCycleStart o ->
  forall j oj, (i <= j)%nat -> nth_error os j = Some oj -> retired cfg (t0 + Z.of_nat j) = false ->
  (forall m om, (i < m <= j)%nat -> nth_error os m = Some om ->
     ~ has EvDischargeFailed om /\ (Z.of_nat (m - i) mod P = 0 -> core_full cfg (o_state om))) ->
  (has EvCycleStart oj <-> Z.of_nat (j - i) mod P = 0) /\
  power_record oj = [if Z.of_nat (j - i) mod P <? cycle_t cfg then power_cap cfg else 0%Q].
Proof. intros CO N HS j oj L Nj R A. apply (calendar_from i o CO N HS j L R A oj Nj). Qed.

(** Filled orders fill the core. *)
Lemma filled i o e : nth_error os i = Some o -> nth_error es i = Some e -> exit_t cfg = -1 ->
  zlen (e_deliv e) = zlen (o_reqs o) -> core_full cfg (o_state o).
Proof.
  intros N Ne X D. assert (R : retired cfg (t0 + Z.of_nat i) = false) by (unfold retired; rewrite X; reflexivity).
  destruct (rel i o N R) as (e' & s3 & Ne' & I & SR). assert (e' = e) as -> by congruence.
  destruct (ordering _ _ _ _ H i o N) as (n & p & E1 & _ & E2 & _). specialize (E2 X).
  unfold core_full. rewrite (final_core _ _ _ _ _ _ _ SR), (sr_core _ _ _ _ _ _ _ SR).
  assert (D2 : zlen (e_deliv e) = free_positions cfg (o_ticked o)).
  { rewrite D, E1. unfold zlen at 1. rewrite repeat_length. exact E2. }
  unfold free_positions in D2. pose proof (ok_limits _ _ _ (sr_inv1 _ _ _ _ _ _ _ SR)) as (L1 & L2 & L3).
  fold (rb_count (core (o_ticked o))) in *. rewrite Z.min_r by lia.
  unfold zlen. rewrite app_length, firstn_length, map_length. fold (zlen (rb_items (core (o_ticked o)))).
  unfold rb_count in *. unfold zlen in *. lia.
Qed.

Lemma supplied : exit_t cfg = -1 -> cyc s0 = 0 -> disch s0 = false -> rb_items (spent s0) = [] ->
  Z.min (n_batch cfg) (n_core cfg) <= n_spent cfg ->
  (forall i e o, nth_error es i = Some e -> nth_error os i = Some o ->
     zlen (e_deliv e) = zlen (o_reqs o) /\ rb_items (spent (o_state o)) = []) ->
  forall j o, nth_error os j = Some o ->
  (has EvCycleStart o <-> Z.of_nat j mod P = 0) /\
  power_record o = [if Z.of_nat j mod P <? cycle_t cfg then power_cap cfg else 0%Q].
Proof.
  intros X C0 D0 S0 B A. assert (NR : forall t, retired cfg t = false) by (intro; unfold retired; rewrite X; reflexivity).
  assert (G : forall j o, nth_error os j = Some o -> core_full cfg (o_state o) /\ ~ has EvDischargeFailed o).
  { intros j o N. destruct (rel j o N (NR _)) as (e & s3 & Ne & I & SR).
    split; [apply (filled j o e N Ne X); apply (A j e o Ne N)|].
    rewrite (has_dfail _ _ _ _ _ _ _ SR). intros (AT & SU). unfold success in SU. rewrite AT in SU. cbn in SU. apply Z.leb_gt in SU.
    assert (SP : rb_items (spent (st j)) = []).
    { destruct j as [|j]; [exact S0|]. cbn. destruct (nth_error os j) as [op|] eqn:Np; [|exact S0].
      assert (exists ep, nth_error es j = Some ep) as (ep & Nep).
      { destruct (nth_error es j) eqn:Q; [eauto|]. apply nth_error_None in Q. assert (S j < List.length es)%nat by (apply nth_error_Some; congruence). lia. }
      apply (A j ep op Nep Np). }
    unfold rb_count at 1 in SU. rewrite SP in SU. cbn in SU. unfold kbatch in SU.
    pose proof (ok_limits _ _ _ I) as (_ & L & _). unfold rb_count in SU. lia. }
  intros j o N.
  assert (exists o0, nth_error os 0 = Some o0) as (o0 & N0).
  { destruct (nth_error os 0) eqn:Q; [eauto|]. apply nth_error_None in Q. assert (j < List.length os)%nat by (apply nth_error_Some; congruence). lia. }
  assert (HS : has EvCycleStart o0).
  { destruct (rel 0%nat o0 N0 (NR _)) as (e & s3 & Ne & I & SR). apply (has_start _ _ _ _ _ _ _ SR).
    destruct (G _ _ N0) as (F & _). apply full_iff in F.
    assert (C3 : cyc s3 = 0) by (rewrite (s3_cyc _ _ _ _ _ _ _ SR); exact C0).
    split; [unfold cyc1; destruct (ReactorCycle.restart cfg s3); auto|].
    unfold full in *. rewrite <- (final_core _ _ _ _ _ _ _ SR). exact F. }
  replace j with (j - 0)%nat at 1 2 by lia.
  apply (calendar 0%nat o0); auto; try lia.
  - split; [lia|]. congruence.
  - intros m om _ Nm. destruct (G _ _ Nm). auto.
Qed.
End Calendar.

(** Checking a concrete history *)
Lemma combine_nth_error {A B} (l : list A) : forall (m : list B) i x y,
  nth_error l i = Some x -> nth_error m i = Some y -> In (x, y) (combine l m).
Proof.
  induction l as [|a l IH]; intros [|b m] [|i] x y N1 N2; cbn in *; try discriminate.
  - left. congruence.
  - right. eapply IH; eauto.
Qed.
Lemma supplied_check es os :
  forallb (fun eo => (zlen (e_deliv (fst eo)) =? zlen (o_reqs (snd eo))) &&
      match rb_items (spent (o_state (snd eo))) with [] => true | _ => false end)%bool (combine es os) = true ->
  forall i e o, nth_error es i = Some e -> nth_error os i = Some o ->
     zlen (e_deliv e) = zlen (o_reqs o) /\ rb_items (spent (o_state o)) = [].
Proof.
  intros C i e o N1 N2. rewrite forallb_forall in C. specialize (C _ (combine_nth_error _ _ _ _ _ N1 N2)). cbn in C.
  apply andb_prop in C as (A & B). apply Z.eqb_eq in A. split; [exact A|].
  destruct (rb_items (spent (o_state o))); [reflexivity|discriminate].
Qed.
