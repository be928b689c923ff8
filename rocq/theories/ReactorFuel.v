(** Reactor: which fuel is burned, discharged and shipped; orders; changes; retirement. *)
From Coq Require Import Lia Lqa Permutation.
From Verif Require Import Outcome KernelMaterial KernelResBuf KernelFacts ReactorModel ReactorSpec ReactorProofs ReactorTradeProofs ReactorHistory ReactorCycle ReactorTrace.
Local Open Scope Z_scope.

Section Fuel.
Variable eps : Q.
Variable recipe : string -> option comp.
Variable cfg : rx_cfg.
Hypothesis eps_nonneg : (0 <= eps)%Q.
Hypothesis Hcfg : config_consistent cfg.
Hypothesis Hknown : recipes_known recipe cfg.
Notation inv := (reactor_ok recipe cfg).
Notation step := (rx_step eps recipe cfg).
Notation run := (rx_run eps recipe cfg).
Notation contract := (run_contract eps recipe cfg).

Lemma burn_in s m : inv s -> In m (assemblies s) -> burned_in recipe s m (burn recipe s m).
Proof.
  intros I Hm. destruct (outrecipe_ok recipe cfg s m I Hm) as (r & c & _ & H1 & H2 & H3).
  split; [apply burn_tag|]. exists r, c. rewrite H3. auto.
Qed.

Lemma burn_all s l : inv s -> (forall m, In m l -> In m (assemblies s)) ->
  Forall2 (burned_in recipe s) l (map (burn recipe s) l).
Proof.
  intros I. induction l as [|m l IH]; intro H; simpl; constructor.
  - apply burn_in; auto. apply H; simpl; auto.
  - apply IH. intros; apply H; simpl; auto.
Qed.

Lemma in_core s m : In m (rb_items (core s)) -> In m (assemblies s).
Proof. unfold assemblies. rewrite !in_app_iff. auto. Qed.

(** ** One non-retired step seen from the fuel *)
Lemma discharge_step t s e o s3 : step_rel recipe cfg t s e o s3 ->
  (forall n, has (EvDischarge n) o ->
     n = Z.min (n_batch cfg) (zlen (rb_items (core s))) /\ n <= n_spent cfg - zlen (rb_items (spent s)) /\
     exists batch kept loaded,
       List.length batch = Z.to_nat n /\
       map tag (rb_items (core s)) = map tag (batch ++ kept) /\
       rb_items (core (o_ticked o)) = kept ++ loaded /\
       rb_items (fresh s) = loaded ++ rb_items (fresh (o_ticked o)) /\
       rb_items (spent (o_ticked o)) = rb_items (spent s) ++ batch) /\
  (has EvDischargeFailed o ->
     n_spent cfg - zlen (rb_items (spent s)) < Z.min (n_batch cfg) (zlen (rb_items (core s))) /\
     (forall n, ~ has (EvDischarge n) o) /\
     exists core' loaded, map tag core' = map tag (rb_items (core s)) /\
       rb_items (core (o_ticked o)) = core' ++ loaded /\
       rb_items (fresh s) = loaded ++ rb_items (fresh (o_ticked o)) /\
       rb_items (spent (o_ticked o)) = rb_items (spent s)) /\
  (~ has EvDischargeFailed o -> (forall n, ~ has (EvDischarge n) o) ->
     rb_items (spent (o_ticked o)) = rb_items (spent s)).
Proof.
  intro R. destruct (sr_tick _ _ _ _ _ _ _ R) as (ev1 & T & _).
  pose proof (tr_core _ _ _ _ _ T) as Tc. pose proof (tr_fresh _ _ _ _ _ T) as Tf. pose proof (tr_spent _ _ _ _ _ T) as Ts.
  assert (map tag (core1 recipe cfg s) = map tag (rb_items (core s))) as Et.
  { unfold core1. destruct (cyc s =? cycle_t cfg); auto. rewrite map_app, map_tag_burn, <- map_app, firstn_skipn. auto. }
  pose proof (kbatch_range cfg Hcfg s) as Hk.
  split; [|split].
  - intros n Hn. apply (has_disch _ _ _ _ _ _ _ _ R) in Hn as [Hs ->].
    split; [reflexivity|]. split.
    { unfold success in Hs. apply andb_prop in Hs as [_ Hs]. apply Z.leb_le in Hs. exact Hs. }
    exists (firstn (Z.to_nat (kbatch cfg s)) (core1 recipe cfg s)), (skipn (Z.to_nat (kbatch cfg s)) (core1 recipe cfg s)), (firstn (Z.to_nat (nloaded recipe cfg s)) (rb_items (fresh s))).
    rewrite firstn_skipn. split; [|split; [auto|split; [|split]]].
    + rewrite firstn_length. pose proof (core1_len recipe cfg s) as L. unfold zlen in L. lia.
    + rewrite Tc. unfold core2. rewrite Hs. auto.
    + rewrite Tf, firstn_skipn. auto.
    + rewrite Ts. unfold moved. rewrite Hs. auto.
  - intro Hn. apply (has_dfail _ _ _ _ _ _ _ R) in Hn as [Ha Hs]. split; [|split].
    + unfold success in Hs. rewrite Ha in Hs. simpl in Hs. apply Z.leb_gt in Hs. exact Hs.
    + intros n Hn. apply (has_disch _ _ _ _ _ _ _ _ R) in Hn as [Hs' _]. congruence.
    + exists (core1 recipe cfg s), (firstn (Z.to_nat (nloaded recipe cfg s)) (rb_items (fresh s))).
      split; auto. split; [|split].
      * rewrite Tc. unfold core2. rewrite Hs. auto.
      * rewrite Tf, firstn_skipn. auto.
      * rewrite Ts. unfold moved. rewrite Hs, app_nil_r. auto.
  - intros H1 H2. rewrite Ts. unfold moved. destruct (success cfg s) eqn:Hs; [|apply app_nil_r].
    exfalso. apply (H2 (kbatch cfg s)). apply (has_disch _ _ _ _ _ _ _ _ R). auto.
Qed.

(** The burn at a cycle end. *)
Lemma burn_step t s e o s3 : inv s -> step_rel recipe cfg t s e o s3 -> has EvCycleEnd o ->
  exists burned rest n, n = Z.to_nat (Z.min (n_batch cfg) (zlen (rb_items (core s)))) /\
    Forall2 (burned_in recipe s) (firstn n (rb_items (core s))) burned /\ rest = skipn n (rb_items (core s)) /\
    (exists gone loaded, rb_items (spent (o_ticked o)) = rb_items (spent s) ++ gone /\
       gone ++ rb_items (core (o_ticked o)) = burned ++ rest ++ loaded /\
       (gone = [] \/ gone = burned)).
Proof.
  intros I R HE. apply (has_end _ _ _ _ _ _ _ R) in HE.
  destruct (sr_tick _ _ _ _ _ _ _ R) as (ev1 & T & _).
  pose proof (tr_core _ _ _ _ _ T) as Tc. pose proof (tr_spent _ _ _ _ _ T) as Ts.
  pose proof (kbatch_range cfg Hcfg s) as Hk.
  set (n := Z.to_nat (kbatch cfg s)).
  assert (core1 recipe cfg s = map (burn recipe s) (firstn n (rb_items (core s))) ++ skipn n (rb_items (core s))) as E1.
  { unfold core1. rewrite HE, Z.eqb_refl. auto. }
  exists (map (burn recipe s) (firstn n (rb_items (core s)))), (skipn n (rb_items (core s))), n.
  split; auto. split.
  { apply burn_all; auto. intros m Hm. apply in_core. eapply firstn_In; eauto. }
  split; auto. exists (moved recipe cfg s), (firstn (Z.to_nat (nloaded recipe cfg s)) (rb_items (fresh s))).
  split; auto. rewrite Tc. unfold moved, core2. destruct (success cfg s).
  - fold n. rewrite !app_assoc, firstn_skipn, E1. split; auto. right.
    rewrite firstn_app. rewrite map_length, firstn_length.
    assert (List.length (rb_items (core s)) = Z.to_nat (rb_count (core s))) as L by (unfold rb_count, zlen; lia).
    rewrite L. replace (n - Nat.min n (Z.to_nat (rb_count (core s))))%nat with 0%nat by (unfold n; lia).
    simpl. rewrite app_nil_r. apply firstn_all2. rewrite map_length, firstn_length. lia.
  - simpl. rewrite E1, <- app_assoc. auto.
Qed.

(** ** The batch burned at a cycle end is the batch discharged afterwards *)
Section History.
Variables (t0 : Z) (s0 : rx_state) (es : list rx_env) (os : list rx_out).
Hypothesis I0 : inv s0.
Hypothesis C0 : contract t0 s0 es.
Hypothesis R0 : run t0 s0 es = Ok os.
Notation st := (state_before s0 os).
Notation tm i := (t0 + Z.of_nat i).

Lemma waiting_discharge i o : 1 <= cycle_t cfg -> cycle_ok cfg s0 -> burning_full cfg s0 ->
  nth_error os i = Some o -> has EvCycleEnd o ->
  forall k, (i + S k <= List.length os)%nat -> retired cfg (tm (i + k)) = false ->
  (forall m om n, (i <= m < i + S k)%nat -> nth_error os m = Some om -> ~ has (EvDischarge n) om) ->
  rb_items (core (st (i + S k))) = core1 recipe cfg (st i) /\ full cfg (st (i + S k)) = true /\
  disch (st (i + S k)) = false /\ cyc (st (i + S k)) = cycle_t cfg + Z.of_nat (S k) .
Proof.
  intros Hc H0 H1 N HE. induction k as [|k IH]; intros L Hr HN.
  - rewrite Nat.add_0_r in Hr. replace (i + 1)%nat with (S i) in * by lia.
    destruct (nth_rel eps recipe cfg eps_nonneg Hcfg Hknown _ _ _ _ I0 C0 R0 i o N Hr) as (e & s3 & Ne & R & E).
    rewrite E. pose proof (proj1 (has_end _ _ _ _ _ _ _ R) HE) as Ec.
    assert (forall k, (k < i)%nat -> retired cfg (tm k) = false) as Hrb.
    { intros k Hk. eapply (retired_mono cfg); [|exact Hr]. lia. }
    pose proof (cycle_ok_at eps recipe cfg eps_nonneg Hcfg Hknown _ _ _ _ I0 C0 R0 i Hc H0 ltac:(lia) Hrb) as [_ K].
    pose proof (burning_full_at eps recipe cfg eps_nonneg Hcfg Hknown _ _ _ _ I0 C0 R0 i Hc H0 H1 ltac:(lia) Hrb) as B.
    assert (disch (st i) = false) as Ed by (destruct (disch (st i)); auto; specialize (K eq_refl); lia).
    assert (full cfg (st i) = true) as Ef by (apply full_iff; apply B; auto; lia).
    assert (success cfg (st i) = false) as Es.
    { destruct (success cfg (st i)) eqn:Es; auto. exfalso. apply (HN i o (kbatch cfg (st i))); try lia; auto.
      apply (has_disch _ _ _ _ _ _ _ _ R). auto. }
    destruct (core_keeps recipe cfg _ _ _ _ _ (nth_inv eps recipe cfg eps_nonneg Hcfg Hknown _ _ _ _ I0 C0 R0 i o N) R Es Ef) as (G1 & G2 & _).
    assert (restart cfg s3 = false) as Er.
    { unfold restart. rewrite (s3_disch recipe cfg _ _ _ _ _ R), Ed, Es. apply andb_false_r. }
    rewrite (final_core recipe cfg _ _ _ _ _ R). split; auto. split.
    { unfold full. rewrite (final_core recipe cfg _ _ _ _ _ R). exact G2. }
    rewrite (final_disch recipe cfg _ _ _ _ _ R), (final_cyc recipe cfg _ _ _ _ _ R). unfold cyc1. rewrite Er.
    rewrite (s3_disch recipe cfg _ _ _ _ _ R), (s3_cyc recipe cfg _ _ _ _ _ R), Ed, Es, G2, orb_true_r.
    split; auto. lia.
  - assert (retired cfg (tm (i + k)) = false) as Hrp by (eapply (retired_mono cfg); [|exact Hr]; lia).
    destruct IH as (A1 & A2 & A3 & A4); try lia; auto; [intros; eapply HN; eauto; lia|].
    destruct (nth_error os (i + S k)) as [op|] eqn:Np; [|apply nth_error_None in Np; lia].
    destruct (nth_rel eps recipe cfg eps_nonneg Hcfg Hknown _ _ _ _ I0 C0 R0 (i + S k) op Np Hr) as (e & s3 & Ne & R & E).
    replace (i + S (S k))%nat with (S (i + S k)) by lia. rewrite E.
    assert (success cfg (st (i + S k)) = false) as Es.
    { destruct (success cfg (st (i + S k))) eqn:Es; auto. exfalso. apply (HN (i + S k)%nat op (kbatch cfg (st (i + S k)))); try lia; auto.
      apply (has_disch _ _ _ _ _ _ _ _ R). auto. }
    destruct (core_keeps recipe cfg _ _ _ _ _ (nth_inv eps recipe cfg eps_nonneg Hcfg Hknown _ _ _ _ I0 C0 R0 _ op Np) R Es A2) as (G1 & G2 & _).
    assert (restart cfg s3 = false) as Er.
    { unfold restart. rewrite (s3_disch recipe cfg _ _ _ _ _ R), A3, Es. apply andb_false_r. }
    rewrite (final_core recipe cfg _ _ _ _ _ R), G1. split.
    { unfold core1 at 1. replace (cyc (st (i + S k)) =? cycle_t cfg) with false; auto. symmetry. apply Z.eqb_neq. lia. }
    split. { unfold full. rewrite (final_core recipe cfg _ _ _ _ _ R). exact G2. }
    rewrite (final_disch recipe cfg _ _ _ _ _ R), (final_cyc recipe cfg _ _ _ _ _ R). unfold cyc1. rewrite Er.
    rewrite (s3_disch recipe cfg _ _ _ _ _ R), (s3_cyc recipe cfg _ _ _ _ _ R), A3, Es, G2, orb_true_r.
    split; auto. lia.
Qed.

Lemma burned_is_discharged i j o o' n : 1 <= cycle_t cfg -> cycle_ok cfg s0 -> burning_full cfg s0 -> (i <= j)%nat ->
  nth_error os i = Some o -> has EvCycleEnd o -> nth_error os j = Some o' -> has (EvDischarge n) o' ->
  retired cfg (tm j) = false ->
  (forall m om k, (i <= m < j)%nat -> nth_error os m = Some om -> ~ has (EvDischarge k) om) ->
  n = Z.min (n_batch cfg) (n_core cfg) /\
  exists batch, rb_items (spent (o_ticked o')) = rb_items (spent (st j)) ++ batch /\
    Forall2 (burned_in recipe (st i)) (firstn (Z.to_nat n) (rb_items (core (st i)))) batch.
Proof.
  intros Hc H0 H1 Lij N HE N' HD Hr HN.
  assert (j < List.length os)%nat as L by (apply nth_error_Some; congruence).
  assert (retired cfg (tm i) = false) as Hri by (eapply (retired_mono cfg); [|exact Hr]; lia).
  assert (forall k, (k < i)%nat -> retired cfg (tm k) = false) as Hrb.
  { intros k Hk. eapply (retired_mono cfg); [|exact Hr]. lia. }
  destruct (nth_rel eps recipe cfg eps_nonneg Hcfg Hknown _ _ _ _ I0 C0 R0 i o N Hri) as (e & s3 & Ne & R & E).
  pose proof (proj1 (has_end _ _ _ _ _ _ _ R) HE) as Ec.
  pose proof (cycle_ok_at eps recipe cfg eps_nonneg Hcfg Hknown _ _ _ _ I0 C0 R0 i Hc H0 ltac:(lia) Hrb) as [_ K].
  pose proof (burning_full_at eps recipe cfg eps_nonneg Hcfg Hknown _ _ _ _ I0 C0 R0 i Hc H0 H1 ltac:(lia) Hrb) as B.
  assert (disch (st i) = false) as Ed by (destruct (disch (st i)); auto; specialize (K eq_refl); lia).
  assert (full cfg (st i) = true) as Ef by (apply full_iff; apply B; auto; lia).
  assert (core1 recipe cfg (st i) = map (burn recipe (st i)) (firstn (Z.to_nat (kbatch cfg (st i))) (rb_items (core (st i)))) ++ skipn (Z.to_nat (kbatch cfg (st i))) (rb_items (core (st i)))) as E1.
  { unfold core1. rewrite Ec, Z.eqb_refl. auto. }
  assert (kbatch cfg (st i) = Z.min (n_batch cfg) (n_core cfg)) as Ek.
  { unfold kbatch. unfold full in Ef. apply Z.eqb_eq in Ef. rewrite Ef. auto. }
  destruct (nth_rel eps recipe cfg eps_nonneg Hcfg Hknown _ _ _ _ I0 C0 R0 j o' N' Hr) as (e' & s3' & Ne' & R' & E').
  apply (has_disch _ _ _ _ _ _ _ _ R') in HD as [Hs ->].
  destruct (sr_tick _ _ _ _ _ _ _ R') as (ev1 & T & _). pose proof (tr_spent _ _ _ _ _ T) as Ts.
  unfold moved in Ts. rewrite Hs in Ts.
  assert (core1 recipe cfg (st j) = core1 recipe cfg (st i) /\ kbatch cfg (st j) = kbatch cfg (st i)) as [Ecj Ekj].
  { destruct (Nat.eq_dec i j) as [<-|Hne]; auto.
    pose (k := (j - S i)%nat). assert (j = i + S k)%nat as Ej by (unfold k; lia).
    destruct (waiting_discharge i o Hc H0 H1 N HE k) as (A1 & A2 & A3 & A4); try lia; auto; [|intros; eapply HN; eauto; lia|].
    { eapply (retired_mono cfg); [|exact Hr]. lia. }
    rewrite <- Ej in *. split.
    - unfold core1 at 1. replace (cyc (st j) =? cycle_t cfg) with false; auto. symmetry. apply Z.eqb_neq. lia.
    - rewrite Ek. unfold kbatch. unfold full in A2. apply Z.eqb_eq in A2. rewrite A2. auto. }
  rewrite Ekj. split; auto.
  exists (firstn (Z.to_nat (kbatch cfg (st i))) (core1 recipe cfg (st i))). rewrite Ecj, Ekj in Ts. split; auto.
  set (n := Z.to_nat (kbatch cfg (st i))) in *. rewrite E1.
  pose proof (kbatch_range cfg Hcfg (st i)) as Hk.
  assert (firstn n (map (burn recipe (st i)) (firstn n (rb_items (core (st i)))) ++ skipn n (rb_items (core (st i)))) =
          map (burn recipe (st i)) (firstn n (rb_items (core (st i))))) as ->.
  { rewrite firstn_app. rewrite map_length, firstn_length.
    assert (List.length (rb_items (core (st i))) = Z.to_nat (rb_count (core (st i)))) as Ln by (unfold rb_count, zlen; lia).
    rewrite Ln. replace (n - Nat.min n (Z.to_nat (rb_count (core (st i)))))%nat with 0%nat by (unfold n; lia).
    simpl. rewrite app_nil_r. apply firstn_all2. rewrite map_length, firstn_length. lia. }
  apply burn_all.
  - apply (nth_inv eps recipe cfg eps_nonneg Hcfg Hknown _ _ _ _ I0 C0 R0 i o N).
  - intros m Hm. apply in_core. eapply firstn_In; eauto.
Qed.
End History.
End Fuel.
