(** Reactor: the lemmas in the form the property theorems state them. *)
From Coq Require Import Lia Lqa Permutation.
From Verif Require Import Outcome KernelMaterial KernelResBuf KernelFacts ReactorModel ReactorSpec
  ReactorProofs ReactorTradeProofs ReactorHistory ReactorCycle ReactorTrace ReactorFuel ReactorRetire.
Local Open Scope Z_scope.

Section Glue.
Context {eps : Q} {recipe : string -> option comp} {cfg : rx_cfg}.

Lemma run_prefix es : forall t s os k, run_contract eps recipe cfg t s es -> rx_run eps recipe cfg t s es = Ok os ->
  run_contract eps recipe cfg t s (firstn k es) /\ rx_run eps recipe cfg t s (firstn k es) = Ok (firstn k os).
Proof.
  induction es as [|e es IH]; intros t s os k HC H; simpl in *.
  - inversion H. destruct k; simpl; auto.
  - destruct k as [|k]; simpl; auto. destruct HC as [H1 H2].
    apply bind_ok in H as (o & E & H). apply bind_ok in H as (os' & E' & H). injection H as <-.
    destruct (IH _ _ os' k (H2 o E) E') as [A B]. split; [split; auto|].
    + intros o' Eo. rewrite E in Eo. injection Eo as <-. auto.
    + rewrite E. cbn [bind]. rewrite B. auto.
Qed.

Lemma end_state_firstn s os : forall k, (k <= List.length os)%nat -> end_state s (firstn k os) = state_before s os k.
Proof.
  unfold end_state. intros k L. destruct k as [|k]; simpl; auto.
  destruct (nth_error os k) as [o|] eqn:N; [|apply nth_error_None in N; lia].
  assert (firstn (S k) os = firstn k os ++ [o]) as E.
  { clear L. revert k N. induction os as [|x os IH]; intros k N; destruct k; simpl in *; try discriminate.
    - injection N as ->. destruct os; auto.
    - f_equal. apply IH; auto. }
  change (match os with [] => [] | a :: l => a :: firstn k l end) with (firstn (S k) os). rewrite E, map_app. simpl. apply last_last.
Qed.

Section History.
Variables (t0 : Z) (s0 : rx_state) (es : list rx_env) (os : list rx_out).
Hypothesis H : rx_history eps recipe cfg t0 s0 es os.

Lemma accounting k : (k <= List.length os)%nat ->
  Permutation (map tag (assemblies s0) ++ map (fun d => tag (snd d)) (List.concat (map e_deliv (firstn k es))))
              (map (fun d => tag (snd d)) (List.concat (map o_shipped (firstn k os))) ++ map tag (assemblies (state_before s0 os k))) /\
  (NoDup (map m_id (assemblies s0 ++ map snd (List.concat (map e_deliv (firstn k es))))) ->
   NoDup (map m_id (map snd (List.concat (map o_shipped (firstn k os))) ++ assemblies (state_before s0 os k)))).
Proof.
  intro L. destruct H as [A B C D E F].
  destruct (run_prefix _ _ _ _ k E F) as [E' F'].
  pose proof (run_accounting eps recipe cfg A B C _ _ _ D E' _ F') as P.
  change (final s0 (firstn k os)) with (end_state s0 (firstn k os)) in P. rewrite end_state_firstn in P by auto.
  split; [exact P|]. intro N.
  assert (forall l : list mat, map m_id l = map fst (map tag l)) as T by (intro l; rewrite map_map; apply map_ext; auto).
  rewrite T in *. eapply Permutation_NoDup; [|exact N]. apply Permutation_map.
  rewrite !map_app, !map_map. exact P.
Qed.

Lemma step_of i o : nth_error os i = Some o ->
  exists e, nth_error es i = Some e /\ rx_step eps recipe cfg (t0 + Z.of_nat i) (state_before s0 os i) e = Ok o /\
    reactor_ok recipe cfg (state_before s0 os i) /\ step_contract eps recipe cfg (t0 + Z.of_nat i) (state_before s0 os i) e.
Proof. destruct H as [h_eps0 h_cfg0 h_known0 h_start0 h_contract0 h_run0]. eapply run_nth; eauto. Qed.

Lemma ticked_ok i o : nth_error os i = Some o -> reactor_ok recipe cfg (o_ticked o).
Proof.
  intro N. destruct (step_of i o N) as (e & _ & E & I & C). destruct H as [h_eps0 h_cfg0 h_known0 h_start0 h_contract0 h_run0].
  destruct (step_ok eps recipe cfg h_eps0 h_cfg0 h_known0 _ _ _ I C) as (o' & E' & I' & _). rewrite E in E'. injection E' as <-. auto.
Qed.

Lemma retired_silent i o : nth_error os i = Some o -> retired cfg (t0 + Z.of_nat i) = true ->
  power_record o = [] /\ side_record o = [] /\ ~ has EvCycleStart o /\ ~ has EvCycleEnd o /\ o_reqs o = [].
Proof.
  intros N Hr. destruct (step_of i o N) as (e & _ & E & I & C). destruct H as [h_eps0 h_cfg0 h_known0 h_start0 h_contract0 h_run0].
  destruct (retired_step eps recipe cfg h_eps0 h_cfg0 h_known0 _ _ _ _ I C E Hr) as (Q & _ & F & _).
  destruct (quiet_power o F) as (P1 & P2 & P3 & P4). auto.
Qed.

Lemma power i o : 0 <= cyc s0 -> nth_error os i = Some o ->
  (retired cfg (t0 + Z.of_nat i) = true -> power_record o = [] /\ side_record o = []) /\
  (retired cfg (t0 + Z.of_nat i) = false ->
   exists b : bool,
     (b = true <-> core_full cfg (o_state o) /\
                   exists k, since_start (since_initial (cyc s0)) (firstn (S i) os) = Some k /\ k < cycle_t cfg) /\
     power_record o = [if b then power_cap cfg else 0%Q] /\
     side_record o = (if hybrid (state_before s0 os i)
       then map (fun pq => (fst pq, if b then snd pq else 0%Q)) (combine (side_products cfg) (side_qty cfg)) else [])).
Proof.
  intros Hc N. split; intro Hr.
  - destruct (retired_silent i o N Hr) as (A & B & _). auto.
  - destruct H as [h_eps0 h_cfg0 h_known0 h_start0 h_contract0 h_run0]. eapply power_iff; eauto.
Qed.

Lemma cycle i o : 1 <= cycle_t cfg -> cycle_ok cfg s0 -> nth_error os i = Some o -> has EvCycleStart o ->
  (forall k ok, 0 <= Z.of_nat k < cycle_t cfg -> nth_error os (i + k) = Some ok -> retired cfg (t0 + Z.of_nat (i + k)) = false ->
     power_record ok = [power_cap cfg] /\ rb_items (core (o_state ok)) = rb_items (core (o_state o)) /\ core_full cfg (o_state ok) /\
     ((0 < k)%nat -> ~ has EvCycleStart ok /\ ~ has EvCycleEnd ok)) /\
  (forall ok, nth_error os (i + Z.to_nat (cycle_t cfg)) = Some ok -> retired cfg (t0 + Z.of_nat (i + Z.to_nat (cycle_t cfg))) = false ->
     has EvCycleEnd ok /\ (power_record ok = [0%Q] \/ has EvCycleStart ok /\ power_record ok = [power_cap cfg])).
Proof.
  intros Hc Ho N Hs. assert (H' := H). destruct H' as [h_eps0 h_cfg0 h_known0 h_start0 h_contract0 h_run0].
  assert (retired cfg (t0 + Z.of_nat i) = false) as Hr.
  { destruct (retired cfg (t0 + Z.of_nat i)) eqn:E; auto. destruct (retired_silent i o N E) as (_ & _ & F & _). tauto. }
  split.
  - intros k ok Hk Nk Hrk.
    destruct (cycle_runs eps recipe cfg h_eps0 h_cfg0 h_known0 _ _ _ _ h_start0 h_contract0 h_run0 i o Hc Ho N Hr Hs k ok Hk Nk Hrk)
      as (A & B & _ & D & E & F). repeat split; auto.
  - intros ok Nk Hrk.
    destruct (cycle_ends eps recipe cfg h_eps0 h_cfg0 h_known0 _ _ _ _ h_start0 h_contract0 h_run0 i o ok Hc Ho N Hs Nk Hrk) as [[A B]|(A & B & D)]; auto.
Qed.

Lemma start_not_retired i o : nth_error os i = Some o -> has EvCycleStart o -> retired cfg (t0 + Z.of_nat i) = false.
Proof.
  intros N Hs. destruct (retired cfg (t0 + Z.of_nat i)) eqn:E; auto. destruct (retired_silent i o N E) as (_ & _ & F & _). tauto.
Qed.
Lemma end_not_retired i o : nth_error os i = Some o -> has EvCycleEnd o -> retired cfg (t0 + Z.of_nat i) = false.
Proof.
  intros N Hs. destruct (retired cfg (t0 + Z.of_nat i)) eqn:E; auto. destruct (retired_silent i o N E) as (_ & _ & _ & F & _). tauto.
Qed.

Lemma restart i j o o' : 1 <= cycle_t cfg -> cycle_ok cfg s0 -> (i <= j)%nat ->
  nth_error os i = Some o -> nth_error os j = Some o' -> has EvCycleEnd o -> has EvCycleStart o' ->
  (forall m om, (i <= m < j)%nat -> nth_error os m = Some om -> ~ has EvCycleStart om) ->
  refuel_t cfg <= Z.of_nat (j - i) /\ core_full cfg (o_state o') /\
  exists m om n, (i <= m <= j)%nat /\ nth_error os m = Some om /\ has (EvDischarge n) om.
Proof.
  intros Hc Ho L Ni Nj He Hs HN. pose proof (start_not_retired j o' Nj Hs). destruct H as [h_eps0 h_cfg0 h_known0 h_start0 h_contract0 h_run0].
  eapply restart_complete; eauto.
Qed.

(** During an outage the core is refilled from the fresh inventory as far as possible. *)
Lemma refilled i k o ok : 1 <= cycle_t cfg -> cycle_ok cfg s0 -> nth_error os i = Some o -> has EvCycleEnd o ->
  nth_error os (i + k) = Some ok -> retired cfg (t0 + Z.of_nat (i + k)) = false ->
  (forall m om, (i <= m < i + k)%nat -> nth_error os m = Some om -> ~ has EvCycleStart om) ->
  core_full cfg (o_ticked ok) \/ rb_items (fresh (o_ticked ok)) = [].
Proof.
  intros Hc Ho Ni He Nk Hr HN. assert (H' := H). destruct H' as [h_eps0 h_cfg0 h_known0 h_start0 h_contract0 h_run0].
  assert (i + k < List.length os)%nat as Lk by (apply nth_error_Some; congruence).
  destruct (after_end eps recipe cfg h_eps0 h_cfg0 h_known0 _ _ _ _ h_start0 h_contract0 h_run0 i o Hc Ho Ni He k Lk Hr HN) as [Ec _].
  destruct (nth_rel eps recipe cfg h_eps0 h_cfg0 h_known0 _ _ _ _ h_start0 h_contract0 h_run0 _ _ Nk Hr) as (e & s3 & _ & R & _).
  destruct (sr_tick _ _ _ _ _ _ _ R) as (ev1 & T & _).
  pose proof (tr_core _ _ _ _ _ T) as Tc. pose proof (tr_fresh _ _ _ _ _ T) as Tf.
  set (s := state_before s0 os (i + k)) in *.
  pose proof (zlen_nonneg (rb_items (fresh s))) as Z0.
  pose proof (sr_inv1 _ _ _ _ _ _ _ R) as I1. destruct (ok_limits _ _ _ I1) as (L1 & L2 & L3).
  unfold nloaded in Tc, Tf. replace (cycle_t cfg <=? cyc s) with true in * by (symmetry; apply Z.leb_le; lia).
  set (free := n_core cfg - zlen (core2 recipe cfg s)) in *.
  assert (0 <= free) as Hf.
  { unfold free. rewrite Tc, zlen_app in L2. pose proof (zlen_nonneg (firstn (Z.to_nat (Z.min free (rb_count (fresh s)))) (rb_items (fresh s)))). lia. }
  unfold rb_count in *. destruct (Z.le_gt_cases (zlen (rb_items (fresh s))) free) as [C|C].
  - right. rewrite Tf, Z.min_r by lia. unfold zlen. rewrite Nat2Z.id. apply skipn_all.
  - left. unfold core_full. rewrite Tc, zlen_app, Z.min_l by lia. unfold free in *. unfold zlen in *. rewrite firstn_length. lia.
Qed.

Lemma burn i o : nth_error os i = Some o -> has EvCycleEnd o ->
  let s := state_before s0 os i in
  exists burned rest gone loaded n, n = Z.to_nat (Z.min (n_batch cfg) (zlen (rb_items (core s)))) /\
    Forall2 (burned_in recipe s) (firstn n (rb_items (core s))) burned /\ rest = skipn n (rb_items (core s)) /\
    rb_items (spent (o_ticked o)) = rb_items (spent s) ++ gone /\
    gone ++ rb_items (core (o_ticked o)) = burned ++ rest ++ loaded /\
    rb_items (fresh s) = loaded ++ rb_items (fresh (o_ticked o)) /\
    (gone = [] \/ gone = burned).
Proof.
  intros N He s. pose proof (end_not_retired i o N He) as Hr. assert (H' := H). destruct H' as [h_eps0 h_cfg0 h_known0 h_start0 h_contract0 h_run0].
  destruct (nth_rel eps recipe cfg h_eps0 h_cfg0 h_known0 _ _ _ _ h_start0 h_contract0 h_run0 _ _ N Hr) as (e & s3 & _ & R & _).
  pose proof (nth_inv eps recipe cfg h_eps0 h_cfg0 h_known0 _ _ _ _ h_start0 h_contract0 h_run0 _ _ N) as I.
  fold s in R, I.
  destruct (sr_tick _ _ _ _ _ _ _ R) as (ev1 & T & _).
  pose proof (tr_core _ _ _ _ _ T) as Tc. pose proof (tr_fresh _ _ _ _ _ T) as Tf. pose proof (tr_spent _ _ _ _ _ T) as Ts.
  pose proof (proj1 (has_end _ _ _ _ _ _ _ R) He) as HE.
  pose proof (kbatch_range cfg h_cfg0 s) as Hk.
  set (n := Z.to_nat (kbatch cfg s)).
  assert (core1 recipe cfg s = map (ReactorProofs.burn recipe s) (firstn n (rb_items (core s))) ++ skipn n (rb_items (core s))) as E1.
  { unfold core1. rewrite HE, Z.eqb_refl. auto. }
  exists (map (ReactorProofs.burn recipe s) (firstn n (rb_items (core s)))), (skipn n (rb_items (core s))), (moved recipe cfg s),
    (firstn (Z.to_nat (nloaded recipe cfg s)) (rb_items (fresh s))), n.
  split; auto. split.
  { eapply burn_all; eauto. intros m Hm. apply in_core. eapply firstn_In; eauto. }
  split; auto. split; auto. rewrite Tc, Tf, firstn_skipn. unfold moved, core2. destruct (success cfg s).
  - fold n. rewrite !app_assoc, firstn_skipn, E1. split; auto. split; auto. right.
    rewrite firstn_app. rewrite map_length, firstn_length.
    assert (List.length (rb_items (core s)) = Z.to_nat (rb_count (core s))) as L by (unfold rb_count, zlen; lia).
    rewrite L. replace (n - Nat.min n (Z.to_nat (rb_count (core s))))%nat with 0%nat by (unfold n; lia).
    simpl. rewrite app_nil_r. apply firstn_all2. rewrite map_length, firstn_length. lia.
  - simpl. rewrite E1, <- app_assoc. auto.
Qed.

(** No composition changes except at a cycle end or at retirement. *)
Lemma no_burn i o : nth_error os i = Some o -> retired cfg (t0 + Z.of_nat i) = false -> ~ has EvCycleEnd o ->
  let s := state_before s0 os i in
  exists gone loaded,
    rb_items (spent (o_ticked o)) = rb_items (spent s) ++ gone /\
    gone ++ rb_items (core (o_ticked o)) = rb_items (core s) ++ loaded /\
    rb_items (fresh s) = loaded ++ rb_items (fresh (o_ticked o)).
Proof.
  intros N Hr He s. assert (H' := H). destruct H' as [h_eps0 h_cfg0 h_known0 h_start0 h_contract0 h_run0].
  destruct (nth_rel eps recipe cfg h_eps0 h_cfg0 h_known0 _ _ _ _ h_start0 h_contract0 h_run0 _ _ N Hr) as (e & s3 & _ & R & _).
  fold s in R. destruct (sr_tick _ _ _ _ _ _ _ R) as (ev1 & T & _).
  pose proof (tr_core _ _ _ _ _ T) as Tc. pose proof (tr_fresh _ _ _ _ _ T) as Tf. pose proof (tr_spent _ _ _ _ _ T) as Ts.
  assert (cyc s <> cycle_t cfg) as HE by (intro; apply He, (has_end _ _ _ _ _ _ _ R); auto).
  assert (core1 recipe cfg s = rb_items (core s)) as E1.
  { unfold core1. apply Z.eqb_neq in HE. rewrite HE. auto. }
  exists (moved recipe cfg s), (firstn (Z.to_nat (nloaded recipe cfg s)) (rb_items (fresh s))).
  split; auto. rewrite Tc, Tf, firstn_skipn. split; auto. unfold moved, core2. destruct (success cfg s).
  - rewrite !app_assoc, firstn_skipn, E1. auto.
  - simpl. rewrite E1. auto.
Qed.

Lemma batch i j o o' n : 1 <= cycle_t cfg -> cycle_ok cfg s0 -> burning_full cfg s0 -> (i <= j)%nat ->
  nth_error os i = Some o -> has EvCycleEnd o -> nth_error os j = Some o' -> has (EvDischarge n) o' ->
  retired cfg (t0 + Z.of_nat j) = false ->
  (forall m om k, (i <= m < j)%nat -> nth_error os m = Some om -> ~ has (EvDischarge k) om) ->
  n = Z.min (n_batch cfg) (n_core cfg) /\
  exists batch, rb_items (spent (o_ticked o')) = rb_items (spent (state_before s0 os j)) ++ batch /\
    Forall2 (burned_in recipe (state_before s0 os i)) (firstn (Z.to_nat n) (rb_items (core (state_before s0 os i)))) batch.
Proof. intros. destruct H as [h_eps0 h_cfg0 h_known0 h_start0 h_contract0 h_run0]. eapply burned_is_discharged; eauto. Qed.

Lemma discharge i o : nth_error os i = Some o -> retired cfg (t0 + Z.of_nat i) = false ->
  let s := state_before s0 os i in
  (forall n, has (EvDischarge n) o ->
     n = Z.min (n_batch cfg) (zlen (rb_items (core s))) /\ n <= n_spent cfg - zlen (rb_items (spent s)) /\
     exists batch kept loaded, List.length batch = Z.to_nat n /\
       map tag (rb_items (core s)) = map tag (batch ++ kept) /\
       rb_items (core (o_ticked o)) = kept ++ loaded /\
       rb_items (fresh s) = loaded ++ rb_items (fresh (o_ticked o)) /\
       rb_items (spent (o_ticked o)) = rb_items (spent s) ++ batch) /\
  (has EvDischargeFailed o ->
     n_spent cfg - zlen (rb_items (spent s)) < Z.min (n_batch cfg) (zlen (rb_items (core s))) /\
     (forall n, ~ has (EvDischarge n) o) /\
     exists core' loaded, map tag core' = map tag (rb_items (core s)) /\
       rb_items (core (o_ticked o)) = core' ++ loaded /\
       rb_items (fresh s) = loaded ++ rb_items (fresh (o_ticked o)) /\
       rb_items (spent (o_ticked o)) = rb_items (spent s)) /\
  (~ has EvDischargeFailed o -> (forall n, ~ has (EvDischarge n) o) ->
     rb_items (spent (o_ticked o)) = rb_items (spent s)).
Proof.
  intros N Hr. destruct H as [h_eps0 h_cfg0 h_known0 h_start0 h_contract0 h_run0].
  destruct (nth_rel eps recipe cfg h_eps0 h_cfg0 h_known0 _ _ _ _ h_start0 h_contract0 h_run0 _ _ N Hr) as (e & s3 & _ & R & _).
  eapply discharge_step; eauto.
Qed.

Lemma no_power_until_discharged i o : 1 <= cycle_t cfg -> nth_error os i = Some o -> has EvDischargeFailed o ->
  forall k ok, nth_error os (i + k) = Some ok -> retired cfg (t0 + Z.of_nat (i + k)) = false ->
  (forall m om n, (i <= m <= i + k)%nat -> nth_error os m = Some om -> ~ has (EvDischarge n) om) ->
  power_record ok = [0%Q] /\ ~ has EvCycleStart ok /\ has EvDischargeFailed ok.
Proof.
  intros Hc N Hf k ok Nk Hr HN. destruct H as [h_eps0 h_cfg0 h_known0 h_start0 h_contract0 h_run0].
  destruct (failed_discharge eps recipe cfg h_eps0 h_cfg0 h_known0 _ _ _ _ h_start0 h_contract0 h_run0 i o Hc N Hf k ok Nk Hr HN) as (A & B & C & _).
  auto.
Qed.

Lemma shipping i o c : nth_error os i = Some o ->
  Forall (fun b => In (bp_commod b) (outcommods cfg) /\
            (bp_cap b == qty_of (waiting cfg (o_ticked o) (bp_commod b)))%Q /\
            Forall (fun jm => In (snd jm) (waiting cfg (o_ticked o) (bp_commod b))) (bp_bids b)) (o_bids o) /\
  waiting cfg (o_ticked o) c = shipped_on c (o_shipped o) ++ waiting cfg (o_state o) c /\
  exists new, waiting cfg (o_ticked o) c = waiting cfg (state_before s0 os i) c ++ new.
Proof.
  intros N. destruct (step_of i o N) as (e & _ & E & I & C). destruct H as [h_eps0 h_cfg0 h_known0 h_start0 h_contract0 h_run0].
  destruct (step_queue eps recipe cfg h_eps0 h_cfg0 h_known0 _ _ _ _ c I C E) as ((new & _ & Q1) & Q2).
  split; [exact (bids_held eps recipe cfg h_eps0 h_cfg0 h_known0 _ _ _ _ I C E)|]. split; [exact Q2|]. eexists; exact Q1.
Qed.

Lemma queue c : exists later,
  shipped_on c (List.concat (map o_shipped os)) ++ waiting cfg (end_state s0 os) c = waiting cfg s0 c ++ later.
Proof. destruct H as [h_eps0 h_cfg0 h_known0 h_start0 h_contract0 h_run0]. eapply run_queue; eauto. Qed.

Lemma commodity i j e o' d c m : nth_error es i = Some e -> In d (e_deliv e) -> (i < j)%nat ->
  nth_error os j = Some o' -> In (c, m) (o_shipped o') -> m_id m = m_id (snd d) ->
  (forall k ok r, (i < k < j)%nat -> nth_error os k = Some ok -> In r (o_shipped ok) -> m_id (snd r) <> m_id (snd d)) ->
  exists n, first_position cfg n (fst d) /\ nth_error (outcommods cfg) n = Some c.
Proof.
  intros Ne Hd L Nj Hm Em HN.
  destruct (nth_error os i) as [o|] eqn:Ni.
  - destruct H as [h_eps0 h_cfg0 h_known0 h_start0 h_contract0 h_run0]. eapply leaves_where_it_belongs; eauto.
  - apply nth_error_None in Ni. assert (j < List.length os)%nat by (apply nth_error_Some; congruence). lia.
Qed.

Lemma ordering i o : nth_error os i = Some o ->
  exists n p, o_reqs o = repeat p n /\
    Z.of_nat n <= free_positions cfg (o_ticked o) /\
    (exit_t cfg = -1 -> Z.of_nat n = free_positions cfg (o_ticked o)) /\
    (retired cfg (t0 + Z.of_nat i) = true -> n = 0%nat) /\
    (free_positions cfg (o_ticked o) = 0 -> n = 0%nat) /\
    List.length p = List.length (incommods cfg) /\
    (forall j r, nth_error p j = Some r -> exists rn,
       nth_error (incommods cfg) j = Some (r_commod r) /\ nth_error (prefs (o_ticked o)) j = Some (r_pref r) /\
       nth_error (inrecipes (o_ticked o)) j = Some rn /\ recipe rn = Some (r_comp r) /\ r_qty r = assem cfg).
Proof.
  intro N. destruct (step_of i o N) as (e & _ & E & I & C). destruct H as [h_eps0 h_cfg0 h_known0 h_start0 h_contract0 h_run0].
  destruct (orders eps recipe cfg h_eps0 h_cfg0 h_known0 _ _ _ _ I E) as (p & E1 & Hn & I1 & Lp & Hp).
  destruct (order_size_bounds recipe cfg (t0 + Z.of_nat i) _ I1) as (B1 & B2 & B3 & B4).
  exists (Z.to_nat (order_size cfg (t0 + Z.of_nat i) (o_ticked o))), p.
  split; auto. rewrite Z2Nat.id by auto. split; auto. split; auto.
  split; [intro Hr; rewrite (B2 Hr); auto|]. split; [intro Hr; rewrite (B4 Hr); auto|]. auto.
Qed.

Lemma need i o n : 1 <= cycle_t cfg -> cycle_ok cfg s0 -> 0 < cycle_t cfg + refuel_t cfg -> exit_t cfg <> -1 ->
  nth_error os i = Some o -> retired cfg (t0 + Z.of_nat i) = false ->
  refuellings_left cfg (t0 + Z.of_nat i) (o_ticked o) n ->
  fuel_missing cfg (o_ticked o) n - (n_fresh cfg - zlen (rb_items (fresh (o_ticked o)))) <= zlen (o_reqs o).
Proof.
  intros Hc Ho Hp Hx N Hr Hn. assert (H' := H). destruct H' as [h_eps0 h_cfg0 h_known0 h_start0 h_contract0 h_run0].
  destruct (step_of i o N) as (e & _ & E & I & C).
  destruct (orders eps recipe cfg h_eps0 h_cfg0 h_known0 _ _ _ _ I E) as (p & E1 & Hnn & I1 & Lp & _).
  assert (0 <= cyc (o_ticked o)) as Hcy.
  { destruct (nth_rel eps recipe cfg h_eps0 h_cfg0 h_known0 _ _ _ _ h_start0 h_contract0 h_run0 _ _ N Hr) as (e' & s3 & _ & R & _).
    destruct (sr_tick _ _ _ _ _ _ _ R) as (ev1 & T & _). rewrite (tr_cyc _ _ _ _ _ T).
    assert (i < List.length os)%nat as L by (apply nth_error_Some; congruence).
    apply (cycle_ok_at eps recipe cfg h_eps0 h_cfg0 h_known0 _ _ _ _ h_start0 h_contract0 h_run0 i Hc Ho); [lia|].
    intros k Lk. eapply retired_mono; [|exact Hr]. lia. }
  pose proof (order_need recipe cfg h_cfg0 _ _ n I1 Hcy Hp Hx Hr Hn) as B. cbn zeta in B.
  rewrite E1. assert (forall k, zlen (repeat p k) = Z.of_nat k) as L by (intro; unfold zlen; rewrite repeat_length; auto).
  rewrite L, Z2Nat.id by auto. unfold fuel_missing. exact B.
Qed.

Lemma tables i o : nth_error os i = Some o -> retired cfg (t0 + Z.of_nat i) = false ->
  let t := t0 + Z.of_nat i in let s := state_before s0 os i in
  table_follows cfg (pc_times cfg) (pc_commods cfg) (pc_vals cfg) t (prefs s) (prefs (o_ticked o)) /\
  table_follows cfg (rc_times cfg) (rc_commods cfg) (rc_in cfg) t (inrecipes s) (inrecipes (o_ticked o)) /\
  table_follows cfg (rc_times cfg) (rc_commods cfg) (rc_out cfg) t (outrecipes s) (outrecipes (o_ticked o)) /\
  prefs (o_state o) = prefs (o_ticked o) /\ inrecipes (o_state o) = inrecipes (o_ticked o) /\
  outrecipes (o_state o) = outrecipes (o_ticked o).
Proof.
  intros N Hr t s. destruct (step_of i o N) as (e & _ & E & I & C). destruct H as [h_eps0 h_cfg0 h_known0 h_start0 h_contract0 h_run0].
  destruct (step_tables eps recipe cfg h_eps0 h_cfg0 h_known0 _ _ _ _ I E Hr) as (A & B & D).
  destruct (step_tables_after eps recipe cfg h_eps0 h_cfg0 h_known0 _ _ _ _ I C E) as (A' & B' & D'). repeat split; try apply A; try apply B; try apply D; auto.
Qed.

Lemma half_up_spec n : 2 * half_up n = n \/ 2 * half_up n = n + 1.
Proof. unfold half_up. pose proof (Z.div_mod (- n) 2 ltac:(lia)). pose proof (Z.mod_pos_bound (- n) 2 ltac:(lia)). lia. Qed.

Lemma retirement i o : nth_error os i = Some o -> retired cfg (t0 + Z.of_nat i) = true ->
  let s := state_before s0 os i in
  power_record o = [] /\ side_record o = [] /\ o_reqs o = [] /\
  (exists core',
     (t0 + Z.of_nat i <> exit_t cfg + 1 -> core' = rb_items (core s)) /\
     (t0 + Z.of_nat i = exit_t cfg + 1 -> exists n burned, retire_burn cfg n /\
        Forall2 (burned_in recipe s) (firstn (Z.to_nat n) (rb_items (core s))) burned /\
        core' = burned ++ skipn (Z.to_nat n) (rb_items (core s))) /\
     exists gone unused,
       core' = gone ++ rb_items (core (o_ticked o)) /\
       rb_items (fresh s) = unused ++ rb_items (fresh (o_ticked o)) /\
       rb_items (spent (o_ticked o)) = rb_items (spent s) ++ gone ++ unused /\
       ((exists q, zlen gone = q * n_batch cfg) \/ rb_items (core (o_ticked o)) = []) /\
       (rb_items (core (o_ticked o)) = [] \/
        n_spent cfg - zlen (rb_items (spent s) ++ gone) < Z.min (n_batch cfg) (zlen (rb_items (core (o_ticked o))))) /\
       (rb_items (fresh (o_ticked o)) = [] \/ zlen (rb_items (spent (o_ticked o))) = n_spent cfg)) /\
  rb_items (core (o_state o)) = rb_items (core (o_ticked o)) /\
  rb_items (fresh (o_state o)) = rb_items (fresh (o_ticked o)) /\
  (has EvSchedDecom o <-> rb_items (core (o_ticked o)) = [] /\ rb_items (spent (o_ticked o)) = []) /\
  (1 <= n_spent cfg -> has EvSchedDecom o -> assemblies (o_ticked o) = []).
Proof.
  intros N Hr s. destruct (retired_silent i o N Hr) as (P1 & P2 & _ & _ & P3).
  destruct (step_of i o N) as (e & _ & E & I & C). fold s in E, I, C. assert (H' := H). destruct H' as [h_eps0 h_cfg0 h_known0 h_start0 h_contract0 h_run0].
  destruct (retired_step eps recipe cfg h_eps0 h_cfg0 h_known0 _ _ _ _ I C E Hr)
    as (_ & _ & _ & (n & m & Hn & Hm & A1 & A2 & A3 & AQ & A4 & A5) & B1 & B2 & D).
  assert (forall l : list mat, zlen l = 0 -> l = []) as Z0 by (intros [|? ?]; auto; unfold zlen; simpl; lia).
  assert (rb_items (fresh (o_ticked o)) = [] \/ zlen (rb_items (spent (o_ticked o))) = n_spent cfg) as A5'.
  { destruct A5 as [A5|A5]; [left; apply Z0; exact A5|right; exact A5]. }
  split; auto. split; auto. split; auto. split; [|split; auto; split; auto; split; auto].
  - exists (rcore1 recipe cfg (t0 + Z.of_nat i) s). split; [|split].
    + intro Hne. unfold rcore1. apply Z.eqb_neq in Hne. rewrite Hne. auto.
    + intro Heq. unfold rcore1. rewrite Heq, Z.eqb_refl.
      set (n0 := if decom_all cfg then n_core cfg else half_up (n_core cfg)).
      assert (burn_count cfg s = Z.min n0 (rb_count (core s))) as Eb by reflexivity.
      assert (firstn (Z.to_nat (burn_count cfg s)) (rb_items (core s)) = firstn (Z.to_nat n0) (rb_items (core s)) /\
              skipn (Z.to_nat (burn_count cfg s)) (rb_items (core s)) = skipn (Z.to_nat n0) (rb_items (core s))) as [F1 F2].
      { rewrite Eb. unfold rb_count, zlen. destruct (Z.le_gt_cases n0 (Z.of_nat (List.length (rb_items (core s))))).
        - rewrite Z.min_l by lia. auto.
        - rewrite Z.min_r by lia. rewrite Nat2Z.id, firstn_all, skipn_all. split; symmetry; [apply firstn_all2|apply skipn_all2]; lia. }
      exists n0, (map (ReactorProofs.burn recipe s) (firstn (Z.to_nat n0) (rb_items (core s)))).
      split; [|split].
      * unfold retire_burn, n0. destruct (decom_all cfg); auto. apply half_up_spec.
      * eapply burn_all; eauto. intros x Hx. apply in_core. eapply firstn_In; eauto.
      * rewrite F1, F2. auto.
    + assert (zlen (firstn (Z.to_nat n) (rcore1 recipe cfg (t0 + Z.of_nat i) s)) = n) as Lg.
      { unfold zlen in *. rewrite firstn_length. lia. }
      exists (firstn (Z.to_nat n) (rcore1 recipe cfg (t0 + Z.of_nat i) s)), (firstn (Z.to_nat m) (rb_items (fresh s))).
      rewrite A1, A2, !firstn_skipn. split; auto. split; auto. split; auto. split; [|split].
      * rewrite Lg. destruct AQ as [AQ|AQ]; auto. right. rewrite <- A1. apply Z0. rewrite A1.
        unfold zlen in *. rewrite skipn_length. pose proof (rcore1_len recipe cfg (t0 + Z.of_nat i) s) as L. unfold zlen in L. lia.
      * rewrite zlen_app, Lg. destruct A4 as [A4|A4]; [left; rewrite <- A1; apply Z0; exact A4|right]. rewrite <- A1. exact A4.
      * rewrite <- A2. exact A5'.
  - intros Hs Hd. apply D in Hd as [D1 D2]. unfold assemblies. rewrite D1, D2.
    destruct A5' as [A5'|A5']; [rewrite A5'; auto|]. rewrite D2 in A5'. unfold zlen in A5'. simpl in A5'. lia.
Qed.

Lemma drained : retired cfg t0 = true -> n_batch cfg <= n_spent cfg -> rb_items (spent s0) = [] ->
  Forall (fun o => rb_items (spent (o_state o)) = []) os ->
  zlen (rb_items (core s0)) + zlen (rb_items (fresh s0)) < zlen es ->
  Exists (has EvSchedDecom) os.
Proof. intros. destruct H as [h_eps0 h_cfg0 h_known0 h_start0 h_contract0 h_run0]. eapply drains; eauto. Qed.
End History.

(** ** Start-up *)
Lemma enter_notify_iff s : (exists s', enter_notify cfg s = Ok s') <-> change_tables_agree cfg.
Proof.
  unfold enter_notify, change_tables_agree. destruct (_ && _)%bool eqn:E.
  - repeat (apply andb_prop in E as [E ?]). repeat match goal with h : Nat.eqb _ _ = true |- _ => apply Nat.eqb_eq in h end.
    split; auto. intros _. eauto.
  - split; [intros (s' & ?); discriminate|]. intros (A & B & C & D & F). exfalso.
    apply Nat.eqb_eq in A, B, C, D, F. rewrite A, B, C, D, F in E. discriminate.
Qed.
Lemma enter_notify_else s : ~ change_tables_agree cfg -> enter_notify cfg s = Throw ValueError.
Proof.
  intro N. rewrite <- (enter_notify_iff s) in N. unfold enter_notify in *. destruct (_ && _)%bool; auto. exfalso. eauto.
Qed.

Lemma new_ok inr outr pf c : config_consistent cfg -> 0 <= c ->
  List.length inr = List.length (incommods cfg) -> List.length outr = List.length (incommods cfg) ->
  (pf = [] \/ List.length pf = List.length (incommods cfg)) ->
  Forall (fun r => recipe r <> None) (inr ++ outr) ->
  exists s, enter_notify cfg (rx_new cfg inr outr pf c) = Ok s /\ reactor_ok recipe cfg s /\ cycle_ok cfg s /\
    (c = 0 -> burning_full cfg s) /\ (hybrid s = true <-> side_products cfg <> []).
Proof.
  intros Hcfg Hc L1 L2 L3 F.
  assert (change_tables_agree cfg) as A by (destruct Hcfg; repeat split; auto).
  apply (proj2 (enter_notify_iff (rx_new cfg inr outr pf c))) in A as (s & E). exists s. split; auto.
  unfold enter_notify in E. destruct (_ && _)%bool; [|discriminate]. injection E as <-.
  destruct Hcfg.
  assert (forall n, 0 <= n -> zlen (@nil mat) <= n) as Z0 by (intros; unfold zlen; simpl; lia).
  assert (List.length (match pf with [] => map (fun _ => default_pref) (outcommods cfg) | _ => pf end) = List.length (incommods cfg)) as L4.
  { destruct pf; [rewrite map_length; auto|]. destruct L3 as [L3|L3]; [discriminate|auto]. }
  split; [|split; [|split]].
  - destruct pf; destruct (side_products cfg); constructor; simpl in *; try (repeat split; auto; fail); try (repeat split; auto; reflexivity); auto; try constructor.
  - destruct pf; destruct (side_products cfg); split; simpl; auto; discriminate.
  - intros ->. destruct pf; destruct (side_products cfg); intro; simpl in *; lia.
  - destruct pf; destruct (side_products cfg); simpl; split; congruence.
Qed.

(** ** Starvation: a reactor whose fresh inventory could hold more than its remaining life needs never orders *)
Lemma never_orders es : forall t s os, rx_history eps recipe cfg t s es os ->
  1 <= cycle_t cfg -> 0 <= refuel_t cfg -> 1 <= n_core cfg -> exit_t cfg <> -1 ->
  rb_items (core s) = [] -> rb_items (fresh s) = [] -> cyc s = 0 -> disch s = false ->
  (forall n, 0 <= n -> refuellings_left cfg t s n -> n * n_batch cfg + n_core cfg <= n_fresh cfg) ->
  Forall (fun o => o_reqs o = [] /\ Forall (fun q => q = 0%Q) (power_record o)) os.
Proof.
  induction es as [|e es IH]; intros t s os H Hc Hrf Hn Hx Ec Ef Ecy Ed Hneed.
  - destruct H as [h_eps0 h_cfg0 h_known0 h_start0 h_contract0 h_run0]. simpl in h_run0. injection h_run0 as <-. constructor.
  - pose proof (h_run _ _ _ _ _ _ _ H) as HR. simpl in HR.
    apply bind_ok in HR as (o & E & HR). apply bind_ok in HR as (os' & E' & HR). injection HR as <-.
    assert (H' := H). destruct H' as [h_eps0 h_cfg0 h_known0 h_start0 h_contract0 h_run0]. destruct h_contract0 as [C1 C2].
    assert (nth_error (o :: os') 0 = Some o) as N0 by auto.
    assert (t + Z.of_nat 0 = t) as T0 by lia.
    destruct (gen_step eps recipe cfg h_eps0 h_cfg0 h_known0 t s e o h_start0 C1 E)
      as (s3 & ev1 & ev2 & ev3 & ev4 & G1 & I1 & I3 & I4 & Mv & X & G2 & G6 & EV & V3 & D3 & (c & d & G7) & Ld & (Hc3 & Hf3) & _).
    set (nn := Z.max 0 (- (- (exit_t cfg - t + 1 - (cycle_t cfg + refuel_t cfg - 0)) / (cycle_t cfg + refuel_t cfg)))).
    assert (refuellings_left cfg t s nn) as RL.
    { unfold refuellings_left. rewrite Ecy. set (per := cycle_t cfg + refuel_t cfg) in *.
      set (a := exit_t cfg - t + 1 - (per - 0)) in *.
      pose proof (Z.div_mod (- a) per ltac:(lia)) as DM. pose proof (Z.mod_pos_bound (- a) per ltac:(lia)) as MB.
      set (q := - (- a / per)) in *. assert (a <= q * per /\ q * per < a + per) as [Q1 Q2] by (unfold q; nia).
      unfold nn. split; [lia|]. split; [nia|]. intros m Hm Hle. assert (a <= m * per) by (unfold a; lia). nia. }
    pose proof (Hneed nn ltac:(unfold nn; lia) RL) as Hnn.
    assert (1 <= n_batch cfg) as Hb by (apply h_cfg0).
    assert (rb_items (core (o_ticked o)) = [] /\ rb_items (fresh (o_ticked o)) = [] /\ (retired cfg t = false -> cyc (o_ticked o) = 0 /\ disch (o_ticked o) = false)) as (Tc & Tf & Tcy).
    { destruct (retired cfg t) eqn:Hr.
      - destruct (retired_step eps recipe cfg h_eps0 h_cfg0 h_known0 _ _ _ _ h_start0 C1 E Hr) as (_ & _ & _ & (n & m & Hn0 & Hm0 & A1 & A2 & _) & _).
        pose proof (rcore1_len recipe cfg t s) as L. rewrite Ec in L.
        assert (rcore1 recipe cfg t s = []) as R1 by (destruct (rcore1 recipe cfg t s); auto; unfold zlen in L; simpl in L; lia).
        rewrite A1, A2, R1, Ef, !skipn_nil. repeat split; auto; discriminate.
      - destruct (step_spec eps recipe cfg h_eps0 h_cfg0 h_known0 t s e o h_start0 Hr C1 E) as (s3' & R).
        destruct (sr_tick _ _ _ _ _ _ _ R) as (ev & T & _).
        pose proof (tr_core _ _ _ _ _ T) as Uc. pose proof (tr_fresh _ _ _ _ _ T) as Uf.
        rewrite Ef in Uc, Uf. rewrite skipn_nil in Uf. rewrite firstn_nil, app_nil_r in Uc.
        assert (core1 recipe cfg s = []) as C0.
        { pose proof (core1_len recipe cfg s) as L. unfold rb_count in L. rewrite Ec in L. destruct (core1 recipe cfg s); auto. unfold zlen in L. simpl in L. lia. }
        unfold core2 in Uc. rewrite C0 in Uc. split; [destruct (success cfg s); rewrite ?skipn_nil in Uc; auto|]. split; auto.
        intros _. split; [rewrite (tr_cyc _ _ _ _ _ T); auto|]. rewrite (tr_disch _ _ _ _ _ T), Ed. simpl.
        unfold success, attempt. rewrite Ecy. replace (cycle_t cfg <=? 0) with false by (symmetry; apply Z.leb_gt; lia). auto. }
    assert (o_reqs o = []) as RQ.
    { destruct (orders eps recipe cfg h_eps0 h_cfg0 h_known0 _ _ _ _ h_start0 E) as (p & E1 & Hnn1 & _).
      rewrite E1. replace (order_size cfg t (o_ticked o)) with 0; auto. symmetry.
      unfold order_size. destruct (retired cfg t) eqn:Hr; auto. destruct (Tcy eq_refl) as [Tcy1 _].
      apply Z.eqb_neq in Hx. rewrite Hx. unfold rb_count. rewrite Tcy1, Tc, Tf. change (zlen (@nil mat)) with 0.
      assert (0 <= n_fresh cfg) by apply h_cfg0. unfold nn in Hnn.
      set (q := - (- (exit_t cfg - t + 1 - (cycle_t cfg + refuel_t cfg - 0)) / (cycle_t cfg + refuel_t cfg))) in *. nia. }
    assert (e_deliv e = []) as DE.
    { rewrite RQ in Ld. unfold zlen in Ld. simpl in Ld. destruct (e_deliv e); auto. simpl in Ld. lia. }
    rewrite DE in Hc3, Hf3. simpl in Hc3, Hf3. rewrite firstn_nil, app_nil_r in Hc3. rewrite skipn_nil, app_nil_r in Hf3.
    constructor.
    + split; auto. destruct (retired cfg t) eqn:Hr.
      * rewrite <- T0 in Hr. destruct (retired_silent t s (e :: es) (o :: os') H 0%nat o N0 Hr) as (-> & _). constructor.
      * destruct (step_spec eps recipe cfg h_eps0 h_cfg0 h_known0 t s e o h_start0 Hr C1 E) as (s3' & R).
        rewrite (power_rec _ _ _ _ _ _ _ R).
        assert (on_power cfg s3' = false) as ->; [|repeat constructor].
        unfold on_power, full. pose proof (sr_core _ _ _ _ _ _ _ R) as U. rewrite DE in U. simpl in U. rewrite firstn_nil, app_nil_r in U.
        unfold rb_count. rewrite U, Tc. change (zlen (@nil mat)) with 0.
        replace (0 =? n_core cfg) with false by (symmetry; apply Z.eqb_neq; lia). rewrite !andb_false_r. auto.
    + assert (retired cfg t = true \/ cyc (o_state o) = 0 /\ disch (o_state o) = false) as [Hr|[K1 K2]].
      { destruct (retired cfg t) eqn:Hr; auto. right.
        destruct (step_spec eps recipe cfg h_eps0 h_cfg0 h_known0 t s e o h_start0 Hr C1 E) as (s3' & R).
        pose proof (sr_core _ _ _ _ _ _ _ R) as U. rewrite DE in U. simpl in U. rewrite firstn_nil, app_nil_r in U.
        destruct (Tcy eq_refl) as [Y1 Y2].
        rewrite (sr_final _ _ _ _ _ _ _ R). simpl. unfold cyc1, ReactorCycle.restart, full.
        unfold rb_count. rewrite U, Tc. change (zlen (@nil mat)) with 0. rewrite (sr_cyc _ _ _ _ _ _ _ R), (sr_disch _ _ _ _ _ _ _ R), Y1, Y2.
        replace (0 =? n_core cfg) with false by (symmetry; apply Z.eqb_neq; lia). rewrite !andb_false_r. auto. }
      * (* retired: nothing happens any more *)
        apply Forall_forall. intros o' Ho'. apply In_nth_error in Ho' as (i & Ni).
        assert (retired cfg (t + Z.of_nat (S i)) = true) as Hr'.
        { eapply retired_later; [|exact Hr]. lia. }
        destruct (retired_silent t s (e :: es) (o :: os') H (S i) o' Ni Hr') as (A & _ & _ & _ & B). rewrite A. auto.
      * apply (IH (t + 1) (o_state o) os').
        -- constructor; auto.
        -- auto.
        -- auto.
        -- auto.
        -- auto.
        -- rewrite G7. simpl. rewrite Hc3; auto.
        -- rewrite G7. simpl. rewrite Hf3; auto.
        -- auto.
        -- auto.
        -- intros n Hn0 RL'. destruct RL' as (_ & _ & RL3). destruct RL as (Z1 & Z2 & _). rewrite K1 in RL3. rewrite Ecy in Z2.
           assert (n <= nn) by (apply RL3; auto; lia). nia.
Qed.
End Glue.
