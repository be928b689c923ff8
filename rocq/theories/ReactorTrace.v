(** Reactor: properties of histories. *)
From Coq Require Import Lia Lqa Permutation.
From Verif Require Import Outcome KernelMaterial KernelResBuf KernelFacts ReactorModel ReactorSpec ReactorProofs ReactorTradeProofs ReactorHistory ReactorCycle.
Local Open Scope Z_scope.

Section Trace.
Variable eps : Q.
Variable recipe : string -> option comp.
Variable cfg : rx_cfg.
Hypothesis eps_nonneg : (0 <= eps)%Q.
Hypothesis Hcfg : config_consistent cfg.
Hypothesis Hknown : recipes_known recipe cfg.
Notation inv := (reactor_ok recipe cfg).
Notation step := (rx_step eps recipe cfg).
Notation run := (rx_run eps recipe cfg).
Notation contract := (run_contract eps recipe cfg).

Lemma retired_mono t t' : t <= t' -> retired cfg t' = false -> retired cfg t = false.
Proof.
  unfold retired. destruct (exit_t cfg =? -1); simpl; auto. intros L H. apply Z.ltb_ge in H. apply Z.ltb_ge. lia.
Qed.

Lemma run_nth es : forall t s os i o, inv s -> contract t s es -> run t s es = Ok os -> nth_error os i = Some o ->
  exists e, nth_error es i = Some e /\ step (t + Z.of_nat i) (state_before s os i) e = Ok o /\
    inv (state_before s os i) /\ step_contract eps recipe cfg (t + Z.of_nat i) (state_before s os i) e.
Proof.
  induction es as [|e es IH]; intros t s os i o I HC H N; simpl in H.
  - inversion H; subst. destruct i; discriminate.
  - destruct HC as [H1 H2].
    destruct (step_ok eps recipe cfg eps_nonneg Hcfg Hknown t s e I H1) as (o0 & E & I1 & I2 & _).
    rewrite E in H. cbn [bind] in H. apply bind_ok in H as (os' & E' & H). inversion H; subst os; clear H.
    destruct i as [|i].
    + simpl in N. inversion N; subst o0. exists e. simpl. rewrite Z.add_0_r. auto.
    + simpl in N. destruct (IH (t + 1) (o_state o0) os' i o I2 (H2 o0 E) E' N) as (e' & N' & S' & I' & C').
      exists e'. split; auto. replace (t + Z.of_nat (S i)) with (t + 1 + Z.of_nat i) by lia.
      assert (state_before s (o0 :: os') (S i) = state_before (o_state o0) os' i) as ->.
      { destruct i; simpl; auto. destruct (nth_error os' i) eqn:E2; auto.
        exfalso. assert (nth_error os' (S i) <> None) by congruence. apply nth_error_Some in H.
        apply nth_error_None in E2. lia. }
      auto.
Qed.

(** Context for a history. *)
Variables (t0 : Z) (s0 : rx_state) (es : list rx_env) (os : list rx_out).
Hypothesis I0 : inv s0.
Hypothesis C0 : contract t0 s0 es.
Hypothesis R0 : run t0 s0 es = Ok os.
Notation st := (state_before s0 os).
Notation tm i := (t0 + Z.of_nat i).

Lemma nth_rel i o : nth_error os i = Some o -> retired cfg (tm i) = false ->
  exists e s3, nth_error es i = Some e /\ step_rel recipe cfg (tm i) (st i) e o s3 /\ st (S i) = o_state o.
Proof.
  intros N Hr. destruct (run_nth es t0 s0 os i o I0 C0 R0 N) as (e & Ne & S & I & C).
  destruct (step_spec eps recipe cfg eps_nonneg Hcfg Hknown _ _ _ _ I Hr C S) as (s3 & R).
  exists e, s3. split; auto. split; auto. simpl. rewrite N. auto.
Qed.

Lemma nth_inv i o : nth_error os i = Some o -> inv (st i).
Proof. intros N. destruct (run_nth es t0 s0 os i o I0 C0 R0 N) as (e & Ne & S & I & C). auto. Qed.

(** Facts read off a step *)
Lemma in_filter (f : event -> bool) ev l : f ev = true -> (In ev l <-> In ev (filter f l)).
Proof. intro H. rewrite filter_In. tauto. Qed.

Lemma has_start t s e o s3 : step_rel recipe cfg t s e o s3 ->
  (has EvCycleStart o <-> cyc1 cfg s3 = 0 /\ full cfg s3 = true).
Proof.
  intro R. unfold has. rewrite (in_filter is_start) by auto. rewrite (starts _ _ _ _ _ _ _ R).
  destruct (cyc1 cfg s3 =? 0) eqn:E; simpl.
  - apply Z.eqb_eq in E. destruct (full cfg s3); simpl; intuition congruence.
  - apply Z.eqb_neq in E. simpl. intuition congruence.
Qed.

Lemma starts_cycle_has o : starts_cycle o = true <-> has EvCycleStart o.
Proof.
  unfold starts_cycle, has. rewrite existsb_exists. split.
  - intros (x & H & E). destruct x; try discriminate. auto.
  - intro H. exists EvCycleStart. auto.
Qed.

Lemma has_end t s e o s3 : step_rel recipe cfg t s e o s3 -> (has EvCycleEnd o <-> cyc s = cycle_t cfg).
Proof.
  intro R. unfold has. rewrite (in_filter is_end) by auto. rewrite (ends _ _ _ _ _ _ _ R).
  destruct (cyc s =? cycle_t cfg) eqn:E; simpl.
  - apply Z.eqb_eq in E. tauto.
  - apply Z.eqb_neq in E. tauto.
Qed.

Lemma has_disch t s e o s3 n : step_rel recipe cfg t s e o s3 ->
  (has (EvDischarge n) o <-> success cfg s = true /\ n = kbatch cfg s).
Proof.
  intro R. unfold has. rewrite (in_filter is_disch) by auto. rewrite (proj1 (dischs _ _ _ _ _ _ _ R)).
  destruct (success cfg s); simpl; split; try tauto; try (intros [H|[]]; inversion H; auto); intros [H1 H2]; subst; auto; discriminate.
Qed.

Lemma has_dfail t s e o s3 : step_rel recipe cfg t s e o s3 ->
  (has EvDischargeFailed o <-> attempt cfg s = true /\ success cfg s = false).
Proof.
  intro R. unfold has. rewrite (in_filter is_dfail) by auto. rewrite (proj2 (dischs _ _ _ _ _ _ _ R)).
  destruct (attempt cfg s), (success cfg s); simpl; intuition congruence.
Qed.

Lemma power_rec t s e o s3 : step_rel recipe cfg t s e o s3 ->
  power_record o = [if on_power cfg s3 then power_cap cfg else 0%Q].
Proof.
  intro R. unfold power_record. pose proof (powers _ _ _ _ _ _ _ R) as P.
  assert (forall l, List.concat (map (fun e => match e with EvPower q => [q] | _ => [] end) l) =
     List.concat (map (fun e => match e with EvPower q => [q] | _ => [] end) (filter is_power l))) as G.
  { induction l as [|x l IH]; simpl; auto. rewrite IH. destruct x; simpl; auto. }
  rewrite G, P. reflexivity.
Qed.

Lemma side_rec t s e o s3 : step_rel recipe cfg t s e o s3 ->
  side_record o = if hybrid s3 then map (fun pq => (fst pq, if on_power cfg s3 then snd pq else 0%Q))
                        (combine (side_products cfg) (side_qty cfg)) else [].
Proof.
  intro R. unfold side_record. pose proof (sides _ _ _ _ _ _ _ R) as P.
  assert (forall l, List.concat (map (fun e => match e with EvSide p q => [(p, q)] | _ => [] end) l) =
     List.concat (map (fun e => match e with EvSide p q => [(p, q)] | _ => [] end) (filter is_side l))) as G.
  { induction l as [|x l IH]; simpl; auto. rewrite IH. destruct x; simpl; auto. }
  rewrite G, P. destruct (hybrid s3); auto. unfold side_events. rewrite map_map. simpl.
  induction (combine _ _); simpl; congruence.
Qed.

(** Numbers after a step *)
Lemma final_cyc t s e o s3 : step_rel recipe cfg t s e o s3 ->
  cyc (o_state o) = if ((0 <? cyc1 cfg s3) || full cfg s3)%bool then cyc1 cfg s3 + 1 else cyc1 cfg s3.
Proof. intro R. rewrite (sr_final _ _ _ _ _ _ _ R). reflexivity. Qed.
Lemma final_disch t s e o s3 : step_rel recipe cfg t s e o s3 ->
  disch (o_state o) = if restart cfg s3 then false else disch s3.
Proof. intro R. rewrite (sr_final _ _ _ _ _ _ _ R). reflexivity. Qed.
Lemma final_core t s e o s3 : step_rel recipe cfg t s e o s3 -> core (o_state o) = core s3.
Proof. intro R. rewrite (sr_final _ _ _ _ _ _ _ R). reflexivity. Qed.
Lemma s3_cyc t s e o s3 : step_rel recipe cfg t s e o s3 -> cyc s3 = cyc s.
Proof.
  intro R. rewrite (sr_cyc _ _ _ _ _ _ _ R). destruct (sr_tick _ _ _ _ _ _ _ R) as (ev1 & T & _).
  apply (tr_cyc _ _ _ _ _ T).
Qed.
Lemma s3_disch t s e o s3 : step_rel recipe cfg t s e o s3 -> disch s3 = (disch s || success cfg s)%bool.
Proof.
  intro R. rewrite (sr_disch _ _ _ _ _ _ _ R). destruct (sr_tick _ _ _ _ _ _ _ R) as (ev1 & T & _).
  apply (tr_disch _ _ _ _ _ T).
Qed.
Lemma s3_hybrid t s e o s3 : step_rel recipe cfg t s e o s3 -> hybrid s3 = hybrid s.
Proof.
  intro R. rewrite (sr_hybrid _ _ _ _ _ _ _ R). destruct (sr_tick _ _ _ _ _ _ _ R) as (ev1 & T & _).
  apply (tr_hybrid _ _ _ _ _ T).
Qed.

(** A full core without successful discharge keeps its contents (up to burning). *)
Lemma core_keeps t s e o s3 : inv s -> step_rel recipe cfg t s e o s3 -> success cfg s = false -> full cfg s = true ->
  rb_items (core s3) = core1 recipe cfg s /\ full cfg s3 = true /\ core (o_ticked o) = core (o_ticked o).
Proof.
  intros I R Hs Hf. destruct (sr_tick _ _ _ _ _ _ _ R) as (ev1 & T & _).
  pose proof (tr_core _ _ _ _ _ T) as E. unfold core2 in E. rewrite Hs in E.
  assert (nloaded recipe cfg s = 0) as En.
  { unfold nloaded. destruct (cycle_t cfg <=? cyc s); auto. unfold core2. rewrite Hs, core1_len.
    unfold full in Hf. apply Z.eqb_eq in Hf. rewrite Hf, Z.sub_diag.
    pose proof (zlen_nonneg (rb_items (fresh s))). unfold rb_count. lia. }
  rewrite En in E. simpl in E. rewrite app_nil_r in E.
  assert (rb_count (core (o_ticked o)) = n_core cfg) as Ec.
  { unfold rb_count at 1. rewrite E, core1_len. apply Z.eqb_eq. exact Hf. }
  pose proof (sr_core _ _ _ _ _ _ _ R) as E3. rewrite Ec, Z.sub_diag in E3.
  pose proof (zlen_nonneg (e_deliv e)). rewrite Z.min_r in E3 by lia. simpl in E3. rewrite app_nil_r, E in E3.
  split; auto. split; auto. unfold full, rb_count. rewrite E3, core1_len. exact Hf.
Qed.

(** ** Invariant of the cycle counter *)
Lemma cycle_ok_step t s e o s3 : 1 <= cycle_t cfg -> step_rel recipe cfg t s e o s3 -> cycle_ok cfg s -> cycle_ok cfg (o_state o).
Proof.
  intros Hc R (A & B). unfold cycle_ok.
  rewrite (final_cyc _ _ _ _ _ R), (final_disch _ _ _ _ _ R). unfold cyc1 in *. rewrite (s3_cyc _ _ _ _ _ R) in *. rewrite (s3_disch _ _ _ _ _ R) in *.
  destruct (restart cfg s3) eqn:Er.
  - split; [|discriminate]. destruct (_ || _)%bool; lia.
  - split.
    + destruct ((0 <? cyc s) || full cfg s3)%bool; lia.
    + intro H. apply orb_prop in H as [H|H].
      * apply B in H. destruct ((0 <? cyc s) || full cfg s3)%bool; lia.
      * unfold success, attempt in H. apply andb_prop in H as [H _]. apply andb_prop in H as [H _].
        apply Z.leb_le in H. replace (0 <? cyc s) with true by (symmetry; apply Z.ltb_lt; lia). simpl. lia.
Qed.

Lemma full_iff s : full cfg s = true <-> core_full cfg s.
Proof. apply Z.eqb_eq. Qed.

Lemma burning_full_step t s e o s3 : inv s -> step_rel recipe cfg t s e o s3 -> 0 <= cyc s -> burning_full cfg s -> burning_full cfg (o_state o).
Proof.
  intros I R A D. unfold burning_full. rewrite <- full_iff.
  assert (full cfg (o_state o) = full cfg s3) as -> by (unfold full; rewrite (final_core _ _ _ _ _ R); auto).
  rewrite (final_cyc _ _ _ _ _ R), (final_disch _ _ _ _ _ R). unfold cyc1 in *. rewrite (s3_cyc _ _ _ _ _ R) in *. rewrite (s3_disch _ _ _ _ _ R) in *.
  destruct (restart cfg s3) eqn:Er.
  - intros _ _. unfold restart in Er. apply andb_prop in Er as [Er E2]. apply andb_prop in Er as [_ E3]. auto.
  - intros H1 H2. apply orb_false_elim in H2 as [H2 H3].
    destruct (0 <? cyc s) eqn:E0.
    + apply Z.ltb_lt in E0. apply (core_keeps _ _ _ _ _ I R H3). apply full_iff. auto.
    + apply Z.ltb_ge in E0. destruct (full cfg s3); auto. simpl in H1. lia.
Qed.

Lemma cycle_ok_at i : 1 <= cycle_t cfg -> cycle_ok cfg s0 -> (i <= List.length os)%nat ->
  (forall k, (k < i)%nat -> retired cfg (tm k) = false) -> cycle_ok cfg (st i).
Proof.
  intros Hc H0. induction i as [|i IH]; intros L Hr; [exact H0|].
  destruct (nth_error os i) as [o|] eqn:N; [|apply nth_error_None in N; lia].
  destruct (nth_rel i o N) as (e & s3 & Ne & R & ->); [apply Hr; lia|].
  eapply cycle_ok_step; eauto. apply IH; [lia|]. intros; apply Hr; lia.
Qed.

Lemma burning_full_at i : 1 <= cycle_t cfg -> cycle_ok cfg s0 -> burning_full cfg s0 -> (i <= List.length os)%nat ->
  (forall k, (k < i)%nat -> retired cfg (tm k) = false) -> burning_full cfg (st i).
Proof.
  intros Hc H0 H1. induction i as [|i IH]; intros L Hr; [exact H1|].
  destruct (nth_error os i) as [o|] eqn:N; [|apply nth_error_None in N; lia].
  destruct (nth_rel i o N) as (e & s3 & Ne & R & ->); [apply Hr; lia|].
  apply (burning_full_step _ _ _ _ _ (nth_inv _ _ N) R).
  - apply (cycle_ok_at i Hc H0); [lia|]. intros; apply Hr; lia.
  - apply IH; [lia|]. intros; apply Hr; lia.
Qed.

Lemma not_retired_before i k : retired cfg (tm i) = false -> (k <= i)%nat -> retired cfg (tm k) = false.
Proof. intros H L. eapply retired_mono; [|exact H]. lia. Qed.

(** ** Power and side products *)
Lemma nonneg_cyc_at i : 0 <= cyc s0 -> (i <= List.length os)%nat ->
  (forall k, (k < i)%nat -> retired cfg (tm k) = false) -> 0 <= cyc (st i).
Proof.
  intros H0. induction i as [|i IH]; intros L Hr; [exact H0|].
  destruct (nth_error os i) as [o|] eqn:N; [|apply nth_error_None in N; lia].
  destruct (nth_rel i o N) as (e & s3 & Ne & R & ->); [apply Hr; lia|].
  assert (0 <= cyc (st i)) by (apply IH; [lia|]; intros; apply Hr; lia).
  rewrite (final_cyc _ _ _ _ _ R). unfold cyc1. rewrite (s3_cyc _ _ _ _ _ R).
  destruct (restart cfg s3); destruct (_ || _)%bool; lia.
Qed.

Lemma since_snoc b l o : since_start b (l ++ [o]) =
  if starts_cycle o then Some 0 else option_map (Z.add 1) (since_start b l).
Proof. revert b; induction l as [|x l IH]; intro b; simpl; auto. Qed.

Lemma firstn_snoc {A} (l : list A) i o : nth_error l i = Some o -> firstn (S i) l = firstn i l ++ [o].
Proof.
  revert i; induction l as [|x l IH]; intros [|i] H; simpl in *; try discriminate.
  - inversion H; auto.
  - rewrite (IH i H). auto.
Qed.

Lemma since_cyc i : 0 <= cyc s0 -> (i <= List.length os)%nat ->
  (forall k, (k < i)%nat -> retired cfg (tm k) = false) ->
  cyc (st i) = match since_start (since_initial (cyc s0)) (firstn i os) with None => 0 | Some k => k + 1 end /\
  (forall k, since_start (since_initial (cyc s0)) (firstn i os) = Some k -> 0 <= k).
Proof.
  intros H0. induction i as [|i IH]; intros L Hr.
  - simpl. unfold since_initial. destruct (cyc s0 =? 0) eqn:E.
    + apply Z.eqb_eq in E. split; [auto|discriminate].
    + apply Z.eqb_neq in E. split; [lia|]. intros k Hk. inversion Hk. lia.
  - destruct (nth_error os i) as [o|] eqn:N; [|apply nth_error_None in N; lia].
    destruct (nth_rel i o N) as (e & s3 & Ne & R & ->); [apply Hr; lia|].
    destruct IH as [IH1 IH2]; [lia|intros; apply Hr; lia|].
    assert (0 <= cyc (st i)) as Hn by (apply (nonneg_cyc_at i H0); [lia|]; intros; apply Hr; lia).
    rewrite (firstn_snoc _ _ _ N), since_snoc.
    pose proof (has_start _ _ _ _ _ R) as HS. rewrite <- starts_cycle_has in HS.
    rewrite (final_cyc _ _ _ _ _ R).
    destruct (starts_cycle o) eqn:E.
    + destruct HS as [HS _]. destruct (HS eq_refl) as [E1 E2]. rewrite E1, E2. simpl. split; auto.
      intros k Hk. inversion Hk; lia.
    + assert (restart cfg s3 = false) as Er.
      { destruct (restart cfg s3) eqn:Er; auto. exfalso. destruct HS as [_ HS].
        discriminate HS. unfold cyc1. rewrite Er. split; auto.
        unfold restart in Er. apply andb_prop in Er as [Er _]. apply andb_prop in Er as [_ Er]. auto. }
      unfold cyc1 in *. rewrite Er in *. rewrite (s3_cyc _ _ _ _ _ R) in *. rewrite IH1 in *.
      destruct (since_start _ _) as [k|] eqn:Es; cbn [option_map].
      * specialize (IH2 k eq_refl). replace (0 <? k + 1) with true by (symmetry; apply Z.ltb_lt; lia). cbn [orb].
        split; [lia|]. intros k' Hk'. assert (k' = 1 + k) by congruence. lia.
      * assert (full cfg s3 = false) as ->.
        { destruct (full cfg s3); auto. exfalso. destruct HS as [_ HS]. discriminate HS; auto. }
        simpl. split; [auto|discriminate].
Qed.

Lemma power_iff i o : 0 <= cyc s0 -> nth_error os i = Some o -> retired cfg (tm i) = false ->
  let running := core_full cfg (o_state o) /\
                 exists k, since_start (since_initial (cyc s0)) (firstn (S i) os) = Some k /\ k < cycle_t cfg in
  exists b : bool, (b = true <-> running) /\
    power_record o = [if b then power_cap cfg else 0%Q] /\
    side_record o = if hybrid (st i) then map (fun pq => (fst pq, if b then snd pq else 0%Q))
                        (combine (side_products cfg) (side_qty cfg)) else [].
Proof.
  intros H0 N Hr running. destruct (nth_rel i o N Hr) as (e & s3 & Ne & R & E).
  exists (on_power cfg s3). split; [|split; [apply (power_rec _ _ _ _ _ R)|]].
  2: { rewrite (side_rec _ _ _ _ _ R), (s3_hybrid _ _ _ _ _ R). auto. }
  assert (i < List.length os)%nat as L by (apply nth_error_Some; congruence).
  destruct (since_cyc i H0) as [S1 S2]; [lia|intros; eapply not_retired_before; eauto; lia|].
  assert (0 <= cyc (st i)) as Hn by (apply (nonneg_cyc_at i H0); [lia|]; intros; eapply not_retired_before; eauto; lia).
  unfold running. rewrite (firstn_snoc _ _ _ N), since_snoc.
  pose proof (has_start _ _ _ _ _ R) as HS. rewrite <- starts_cycle_has in HS.
  unfold core_full. rewrite (final_core _ _ _ _ _ R). fold (rb_count (core s3)).
  rewrite <- Z.eqb_eq. fold (full cfg s3).
  unfold on_power. rewrite !andb_true_iff, Z.leb_le, Z.ltb_lt.
  destruct (starts_cycle o) eqn:Es.
  - destruct HS as [HS _]. destruct (HS eq_refl) as [E1 E2]. rewrite E1. split.
    + intros ((A & B) & D). split; auto. exists 0. auto.
    + intros (A & k & Hk & B). inversion Hk; subst. auto with zarith.
  - assert (restart cfg s3 = false) as Er.
    { destruct (restart cfg s3) eqn:Er; auto. exfalso. destruct HS as [_ HS].
      discriminate HS. unfold cyc1. rewrite Er. split; auto.
      unfold restart in Er. apply andb_prop in Er as [Er _]. apply andb_prop in Er as [_ Er]. auto. }
    unfold cyc1 in *. rewrite Er in *. rewrite (s3_cyc _ _ _ _ _ R) in *. rewrite S1 in *.
    destruct (since_start _ (firstn i os)) as [k|]; cbn [option_map].
    + specialize (S2 k eq_refl). split.
      * intros ((A & B) & D). split; auto. exists (1 + k). split; auto. lia.
      * intros (A & k' & Hk & B). assert (k' = 1 + k) by congruence. repeat split; auto; lia.
    + split.
      * intros ((A & B) & D). exfalso. destruct HS as [_ HS]. discriminate HS; auto.
      * intros (A & k' & Hk & B). discriminate.
Qed.

(** ** A started cycle runs for its length *)
Lemma nth_some i : (i < List.length os)%nat -> exists o, nth_error os i = Some o.
Proof. intro L. destruct (nth_error os i) eqn:E; eauto. apply nth_error_None in E. lia. Qed.

Lemma cycle_runs i o : 1 <= cycle_t cfg -> cycle_ok cfg s0 -> nth_error os i = Some o -> retired cfg (tm i) = false -> has EvCycleStart o ->
  forall k ok, 0 <= Z.of_nat k < cycle_t cfg -> nth_error os (i + k) = Some ok -> retired cfg (tm (i + k)) = false ->
    power_record ok = [power_cap cfg] /\ rb_items (core (o_state ok)) = rb_items (core (o_state o)) /\
    cyc (o_state ok) = Z.of_nat k + 1 /\ core_full cfg (o_state ok) /\ (0 < k -> ~ has EvCycleStart ok)%nat /\
    (0 < k -> ~ has EvCycleEnd ok)%nat.
Proof.
  intros Hc H0 N Hr HS. induction k as [|k IH]; intros ok Hk Nk Hrk.
  - rewrite Nat.add_0_r in *. assert (ok = o) as -> by congruence.
    destruct (nth_rel i o N Hr) as (e & s3 & Ne & R & E).
    apply (has_start _ _ _ _ _ R) in HS as [E1 E2].
    rewrite (power_rec _ _ _ _ _ R), (final_cyc _ _ _ _ _ R). unfold core_full. rewrite (final_core _ _ _ _ _ R).
    unfold on_power. rewrite E1, E2. replace (0 <? cycle_t cfg) with true by (symmetry; apply Z.ltb_lt; lia).
    simpl. repeat split; auto; try lia. apply Z.eqb_eq. exact E2.
  - assert (i + S k < List.length os)%nat as L by (apply nth_error_Some; congruence).
    destruct (nth_some (i + k)) as (op & Np); [lia|].
    assert (retired cfg (tm (i + k)) = false) as Hrp by (eapply not_retired_before; eauto; lia).
    destruct (IH op) as (P1 & P2 & P3 & P4 & P5 & P6); auto; [lia|].
    destruct (nth_rel (i + S k) ok Nk Hrk) as (e & s3 & Ne & R & E).
    assert (st (i + S k) = o_state op) as Es by (rewrite Nat.add_succ_r; simpl; rewrite Np; auto).
    assert (cycle_ok cfg (o_state op)) as [K1 K2].
    { rewrite <- Es. apply cycle_ok_at; auto; [lia|]. intros; eapply not_retired_before; eauto; lia. }
    rewrite Es in R. pose proof (nth_inv _ _ Nk) as Ii. rewrite Es in Ii.
    assert (success cfg (o_state op) = false) as Hsu.
    { unfold success, attempt. replace (cycle_t cfg <=? cyc (o_state op)) with false; auto.
      symmetry. apply Z.leb_gt. lia. }
    assert (full cfg (o_state op) = true) as Hf by (apply Z.eqb_eq; exact P4).
    destruct (core_keeps _ _ _ _ _ Ii R Hsu Hf) as (Kc1 & Kc2 & _).
    assert (core1 recipe cfg (o_state op) = rb_items (core (o_state op))) as Kc.
    { unfold core1. replace (cyc (o_state op) =? cycle_t cfg) with false; auto. symmetry. apply Z.eqb_neq. lia. }
    assert (disch (o_state op) = false) as Ed.
    { destruct (disch (o_state op)); auto. specialize (K2 eq_refl). lia. }
    assert (Hcyc : cyc s3 = Z.of_nat k + 1) by (rewrite (s3_cyc _ _ _ _ _ R); auto).
    assert (cyc1 cfg s3 = Z.of_nat k + 1) as C1.
    { unfold cyc1. destruct (restart cfg s3) eqn:Er; auto. exfalso. unfold restart in Er.
      apply andb_prop in Er as [_ Er]. rewrite (s3_disch _ _ _ _ _ R), Hsu, Ed in Er. discriminate. }
    rewrite (power_rec _ _ _ _ _ R), (final_cyc _ _ _ _ _ R). unfold core_full. rewrite (final_core _ _ _ _ _ R).
    unfold on_power. rewrite C1, Kc2. rewrite orb_true_r.
    replace (Z.of_nat k + 1 <? cycle_t cfg) with true by (symmetry; apply Z.ltb_lt; lia).
    replace (0 <=? Z.of_nat k + 1) with true by (symmetry; apply Z.leb_le; lia).
    cbn [andb]. split; auto. split; [rewrite Kc1, Kc; auto|]. split; [lia|]. split; [apply full_iff; auto|].
    split; intros _ HH.
    + apply (has_start _ _ _ _ _ R) in HH as [HH _]. lia.
    + apply (has_end _ _ _ _ _ R) in HH. lia.
Qed.

Lemma cycle_ends i o ok : 1 <= cycle_t cfg -> cycle_ok cfg s0 -> nth_error os i = Some o -> has EvCycleStart o ->
  nth_error os (i + Z.to_nat (cycle_t cfg)) = Some ok -> retired cfg (tm (i + Z.to_nat (cycle_t cfg))) = false ->
  has EvCycleEnd ok /\ power_record ok = [0%Q] \/ has EvCycleEnd ok /\ has EvCycleStart ok /\ power_record ok = [power_cap cfg].
Proof.
  intros Hc H0 N HS Nk Hrk.
  assert (retired cfg (tm i) = false) as Hr by (eapply not_retired_before; eauto; lia).
  assert (i + Z.to_nat (cycle_t cfg) < List.length os)%nat as L by (apply nth_error_Some; congruence).
  set (k := (Z.to_nat (cycle_t cfg) - 1)%nat).
  replace (i + Z.to_nat (cycle_t cfg))%nat with (S (i + k)) in * by (unfold k; lia).
  assert (Z.of_nat k = cycle_t cfg - 1) as Hkz by (unfold k; lia).
  destruct (nth_some (i + k)) as (op & Np); [lia|].
  assert (retired cfg (tm (i + k)) = false) as Hrp by (eapply not_retired_before; [exact Hrk|lia]).
  destruct (cycle_runs i o Hc H0 N Hr HS k op) as (P1 & P2 & P3 & P4 & P5 & P6); auto; [lia|].
  destruct (nth_rel _ ok Nk Hrk) as (e & s3 & Ne & R & E).
  assert (st (S (i + k)) = o_state op) as Es by (simpl; rewrite Np; auto).
  rewrite Es in R.
  assert (has EvCycleEnd ok) as HE by (apply (has_end _ _ _ _ _ R); lia).
  rewrite (power_rec _ _ _ _ _ R), (has_start _ _ _ _ _ R). unfold on_power, cyc1.
  rewrite (s3_cyc _ _ _ _ _ R).
  destruct (restart cfg s3) eqn:Er.
  - right. unfold restart in Er. apply andb_prop in Er as [Er _]. apply andb_prop in Er as [_ Er]. rewrite Er.
    replace (0 <? cycle_t cfg) with true by (symmetry; apply Z.ltb_lt; lia). simpl. auto.
  - left. split; auto. replace (cyc (o_state op) <? cycle_t cfg) with false by (symmetry; apply Z.ltb_ge; lia).
    rewrite andb_false_r. auto.
Qed.

(** ** No restart before refuelling is complete *)
Lemma after_end i o : 1 <= cycle_t cfg -> cycle_ok cfg s0 -> nth_error os i = Some o -> has EvCycleEnd o ->
  forall k, (i + k < List.length os)%nat -> retired cfg (tm (i + k)) = false ->
  (forall m om, (i <= m < i + k)%nat -> nth_error os m = Some om -> ~ has EvCycleStart om) ->
  cyc (st (i + k)) = cycle_t cfg + Z.of_nat k /\
  (disch (st (i + k)) = true -> exists m om n, (i <= m < i + k)%nat /\ nth_error os m = Some om /\ has (EvDischarge n) om).
Proof.
  intros Hc H0 N HE. induction k as [|k IH]; intros L Hr HN.
  - rewrite Nat.add_0_r in *. destruct (nth_rel i o N Hr) as (e & s3 & Ne & R & E).
    apply (has_end _ _ _ _ _ R) in HE. split; [lia|].
    intro Hd. destruct (cycle_ok_at i) as [_ K]; auto; [lia|intros; eapply not_retired_before; eauto; lia|].
    specialize (K Hd). lia.
  - assert (retired cfg (tm (i + k)) = false) as Hrp by (eapply not_retired_before; [exact Hr|lia]).
    destruct IH as [I1 I2]; auto; [lia|intros; eapply HN; eauto; lia|].
    destruct (nth_some (i + k)) as (op & Np); [lia|].
    destruct (nth_rel (i + k) op Np Hrp) as (e & s3 & Ne & R & E).
    rewrite Nat.add_succ_r, E.
    assert (~ has EvCycleStart op) as HNs by (eapply HN; eauto; lia).
    rewrite (has_start _ _ _ _ _ R) in HNs.
    assert (restart cfg s3 = false) as Er.
    { destruct (restart cfg s3) eqn:Er; auto. exfalso. apply HNs. unfold cyc1. rewrite Er. split; auto.
      unfold restart in Er. apply andb_prop in Er as [Er _]. apply andb_prop in Er as [_ Er]. auto. }
    rewrite (final_cyc _ _ _ _ _ R), (final_disch _ _ _ _ _ R), Er. unfold cyc1. rewrite Er.
    rewrite (s3_cyc _ _ _ _ _ R), (s3_disch _ _ _ _ _ R).
    replace (0 <? cyc (st (i + k))) with true by (symmetry; apply Z.ltb_lt; lia). simpl. split; [lia|].
    intro H. apply orb_prop in H as [H|H].
    + destruct (I2 H) as (m & om & n & A & B & D). exists m, om, n. split; [lia|auto].
    + exists (i + k)%nat, op, (kbatch cfg (st (i + k))). split; [lia|]. split; auto.
      apply (has_disch _ _ _ _ _ _ R). auto.
Qed.

Lemma restart_complete i j o o' : 1 <= cycle_t cfg -> cycle_ok cfg s0 -> (i <= j)%nat ->
  nth_error os i = Some o -> nth_error os j = Some o' -> retired cfg (tm j) = false ->
  has EvCycleEnd o -> has EvCycleStart o' ->
  (forall m om, (i <= m < j)%nat -> nth_error os m = Some om -> ~ has EvCycleStart om) ->
  refuel_t cfg <= Z.of_nat (j - i) /\ core_full cfg (o_state o') /\
  exists m om n, (i <= m <= j)%nat /\ nth_error os m = Some om /\ has (EvDischarge n) om.
Proof.
  intros Hc H0 Lij N N' Hr HE HS HN.
  assert (j < List.length os)%nat as L by (apply nth_error_Some; congruence).
  replace j with (i + (j - i))%nat in * by lia. set (k := (j - i)%nat) in *.
  destruct (after_end i o Hc H0 N HE k L Hr HN) as [A B].
  destruct (nth_rel _ o' N' Hr) as (e & s3 & Ne & R & E).
  apply (has_start _ _ _ _ _ R) in HS as [E1 E2].
  unfold core_full. rewrite (final_core _ _ _ _ _ R). fold (core_full cfg s3). rewrite <- full_iff.
  unfold cyc1 in E1. rewrite (s3_cyc _ _ _ _ _ R) in E1.
  destruct (restart cfg s3) eqn:Er; [|lia].
  unfold restart in Er. apply andb_prop in Er as [Er Ed]. apply andb_prop in Er as [Er _].
  apply Z.leb_le in Er. rewrite (s3_cyc _ _ _ _ _ R), A in Er.
  replace (i + k - i)%nat with k by lia. split; [lia|]. split; auto.
  rewrite (s3_disch _ _ _ _ _ R) in Ed. apply orb_prop in Ed as [Ed|Ed].
  - destruct (B Ed) as (m & om & n & M1 & M2 & M3). exists m, om, n. split; [lia|auto].
  - exists (i + k)%nat, o', (kbatch cfg (st (i + k))). split; [lia|]. split; auto. apply (has_disch _ _ _ _ _ _ R). auto.
Qed.

(** ** Failed discharge *)
Lemma failed_discharge i o : 1 <= cycle_t cfg -> nth_error os i = Some o -> has EvDischargeFailed o ->
  forall k ok, nth_error os (i + k) = Some ok -> retired cfg (tm (i + k)) = false ->
  (forall m om n, (i <= m <= i + k)%nat -> nth_error os m = Some om -> ~ has (EvDischarge n) om) ->
  power_record ok = [0%Q] /\ ~ has EvCycleStart ok /\ has EvDischargeFailed ok /\
  cycle_t cfg <= cyc (o_state ok) /\ disch (o_state ok) = false.
Proof.
  intros Hc N HF. 
  assert (forall k ok, nth_error os (i + k) = Some ok -> retired cfg (tm (i + k)) = false ->
    (forall m om n, (i <= m <= i + k)%nat -> nth_error os m = Some om -> ~ has (EvDischarge n) om) ->
    cycle_t cfg <= cyc (st (i + k)) -> disch (st (i + k)) = false ->
    power_record ok = [0%Q] /\ ~ has EvCycleStart ok /\ has EvDischargeFailed ok /\
    cycle_t cfg <= cyc (o_state ok) /\ disch (o_state ok) = false) as G.
  { intros k ok Nk Hr HN Hcy Hd. destruct (nth_rel _ ok Nk Hr) as (e & s3 & Ne & R & E).
    assert (success cfg (st (i + k)) = false) as Hs.
    { destruct (success cfg (st (i + k))) eqn:Hs; auto. exfalso.
      apply (HN (i + k)%nat ok (kbatch cfg (st (i + k)))); auto; [lia|]. apply (has_disch _ _ _ _ _ _ R). auto. }
    assert (restart cfg s3 = false) as Er.
    { unfold restart. rewrite (s3_disch _ _ _ _ _ R), Hs, Hd. simpl. apply andb_false_r. }
    rewrite (power_rec _ _ _ _ _ R), (has_start _ _ _ _ _ R), (has_dfail _ _ _ _ _ R).
    rewrite (final_cyc _ _ _ _ _ R), (final_disch _ _ _ _ _ R), Er. unfold on_power, cyc1. rewrite Er.
    rewrite (s3_cyc _ _ _ _ _ R), (s3_disch _ _ _ _ _ R), Hs, Hd.
    replace (cyc (st (i + k)) <? cycle_t cfg) with false by (symmetry; apply Z.ltb_ge; lia).
    rewrite andb_false_r. simpl. split; auto. split; [lia|]. split.
    - unfold attempt. rewrite Hd. replace (cycle_t cfg <=? cyc (st (i + k))) with true by (symmetry; apply Z.leb_le; lia). auto.
    - split; auto. destruct (_ || _)%bool; lia. }
  induction k as [|k IH]; intros ok Nk Hr HN.
  - apply (G 0%nat); auto; rewrite Nat.add_0_r in *; assert (ok = o) as -> by congruence;
      destruct (nth_rel i o N Hr) as (e & s3 & Ne & R & E); apply (has_dfail _ _ _ _ _ R) in HF as [HF _];
      unfold attempt in HF; apply andb_prop in HF as [A B].
    + apply Z.leb_le; auto.
    + destruct (disch (st i)); auto.
  - assert (i + S k < List.length os)%nat as L by (apply nth_error_Some; congruence).
    destruct (nth_some (i + k)) as (op & Np); [lia|].
    assert (retired cfg (tm (i + k)) = false) as Hrp by (eapply not_retired_before; [exact Hr|lia]).
    destruct (IH op Np Hrp) as (P1 & P2 & P3 & P4 & P5); [intros; eapply HN; eauto; lia|].
    assert (st (i + S k) = o_state op) as Es by (rewrite Nat.add_succ_r; simpl; rewrite Np; auto).
    apply (G (S k)); auto; rewrite Es; auto.
Qed.
End Trace.
