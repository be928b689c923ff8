(** Reactor: saving and loading. *)
From Coq Require Import Lia Lqa.
From Verif Require Import Outcome KernelMaterial KernelResBuf KernelBuf KernelFacts ReactorModel ReactorSpec
  ReactorProofs ReactorTradeProofs ReactorHistory ReactorCycle ReactorTrace ReactorGlue RestartModel.
Local Open Scope Z_scope.

(** What no operation of a reactor changes. *)
Definition kept (s s' : rx_state) : Prop :=
  rb_cap (fresh s') = rb_cap (fresh s) /\ rb_cap (core s') = rb_cap (core s) /\ rb_cap (spent s') = rb_cap (spent s) /\
  hybrid s' = hybrid s.
Lemma kept_refl s : kept s s. Proof. repeat split. Qed.
Lemma kept_trans s1 s2 s3 : kept s1 s2 -> kept s2 s3 -> kept s1 s3.
Proof. unfold kept. intuition congruence. Qed.

Lemma pushv_cap eps b ms b' : rb_pushv eps b ms = Ok b' -> rb_cap b' = rb_cap b.
Proof. unfold rb_pushv. destruct (Qltb _ _); intro H; inversion H. reflexivity. Qed.
Lemma push_cap eps b m b' : rb_push eps b m = Ok b' -> rb_cap b' = rb_cap b.
Proof. unfold rb_push. destruct (Qltb _ _); intro H; inversion H. reflexivity. Qed.
Lemma popn_cap b n ms b' : rb_popn b n = Ok (ms, b') -> rb_cap b' = rb_cap b.
Proof. unfold rb_popn. destruct (_ || _)%bool; intro H; inversion H. reflexivity. Qed.
Lemma pop_cap b m b' : rb_pop b = Ok (m, b') -> rb_cap b' = rb_cap b.
Proof. unfold rb_pop. destruct (rb_items b); intro H; inversion H. reflexivity. Qed.

Lemma loop_kept {A S} (R : S -> S -> Prop) (f : S -> A -> outcome S) :
  (forall s, R s s) -> (forall a b c, R a b -> R b c -> R a c) -> (forall s a s', f s a = Ok s' -> R s s') ->
  forall l s s', loop f l s = Ok s' -> R s s'.
Proof.
  intros HR HT HF l. induction l as [|a l IH]; intros s s' H; simpl in H.
  - inversion H; subst; auto.
  - apply bind_ok in H as (s1 & E & H). eauto.
Qed.

Section Kept.
Variables (eps : Q) (recipe : string -> option comp) (cfg : rx_cfg).

Lemma transmute_kept n s s' ev : transmute_core eps recipe n s = Ok (s', ev) -> kept s s'.
Proof.
  unfold transmute_core. intro H. apply bind_ok in H as ([old c1] & E1 & H). apply bind_ok in H as (c2 & E2 & H).
  apply bind_ok in H as (c3 & E3 & H). apply bind_ok in H as (items & _ & H). injection H as <- _.
  apply popn_cap in E1. apply pushv_cap in E2.
  assert (rb_cap c3 = rb_cap c2) as E4.
  { destruct (_ <? _); [|congruence]. apply bind_ok in E3 as ([r c'] & P & E3). apply popn_cap in P. apply pushv_cap in E3. congruence. }
  unfold kept; simpl. repeat split; congruence.
Qed.
Lemma peek_kept s mp s' : peek_spent eps cfg s = Ok (mp, s') -> kept s s'.
Proof.
  unfold peek_spent. intro H. apply bind_ok in H as ([ms b1] & E1 & H). apply bind_ok in H as (b2 & E2 & H).
  apply bind_ok in H as (mp' & _ & H). injection H as <- <-. apply popn_cap in E1. apply pushv_cap in E2.
  unfold kept; simpl. repeat split; congruence.
Qed.
Lemma discharge_kept s s' ev ok : ReactorModel.discharge eps cfg s = Ok (s', ev, ok) -> kept s s'.
Proof.
  unfold ReactorModel.discharge. destruct (_ <? _); intro H.
  - injection H as <- _ _. apply kept_refl.
  - apply bind_ok in H as ([ms c1] & E1 & H). apply bind_ok in H as (sp & E2 & H).
    apply bind_ok in H as ([s2 evs] & E3 & H). injection H as <- _ _.
    apply (loop_kept (fun a b => kept (fst a) (fst b))) in E3.
    + simpl in E3. eapply kept_trans; [|exact E3]. apply popn_cap in E1. apply pushv_cap in E2.
      unfold kept; simpl. repeat split; congruence.
    + intro. apply kept_refl.
    + intros a b c. apply kept_trans.
    + intros [s0 e0] a [s3 e3] E. apply bind_ok in E as ([mp s4] & P & E). injection E as <- _. simpl. eapply peek_kept; eauto.
Qed.
Lemma load_kept s s' ev : load eps cfg s = Ok (s', ev) -> kept s s'.
Proof.
  unfold load. destruct (_ =? _); intro H.
  - injection H as <- _. apply kept_refl.
  - apply bind_ok in H as ([ms f1] & E1 & H). apply bind_ok in H as (c1 & E2 & H). injection H as <- _.
    apply popn_cap in E1. apply pushv_cap in E2. unfold kept; simpl. repeat split; congruence.
Qed.
Lemma drain_core_kept fuel : forall s s' ev, drain_core eps cfg fuel s = Ok (s', ev) -> kept s s'.
Proof.
  induction fuel as [|k IH]; intros s s' ev; simpl; destruct (_ <? _); intro H; try discriminate;
    try (injection H as <- _; apply kept_refl).
  apply bind_ok in H as ([[s1 e1] ok] & E & H). apply discharge_kept in E. destruct ok.
  - apply bind_ok in H as ([s2 e2] & E2 & H). injection H as <- _. apply IH in E2. eapply kept_trans; eauto.
  - injection H as <- _. auto.
Qed.
Lemma drain_fresh_kept fuel : forall s s', drain_fresh eps cfg fuel s = Ok s' -> kept s s'.
Proof.
  induction fuel as [|k IH]; intros s s'; simpl; destruct (_ && _)%bool; intro H; try discriminate;
    try (injection H as <-; apply kept_refl).
  apply bind_ok in H as ([m f1] & E1 & H). apply bind_ok in H as (sp & E2 & H). apply IH in H.
  eapply kept_trans; [|exact H]. apply pop_cap in E1. apply push_cap in E2. unfold kept; simpl. repeat split; congruence.
Qed.
Lemma tick_kept t s s' ev : tick eps recipe cfg t s = Ok (s', ev) -> kept s s'.
Proof.
  unfold tick. destruct (retired cfg t).
  - unfold tick_retired. intro H. apply bind_ok in H as ([s1 e1] & E1 & H). apply bind_ok in H as ([s2 e2] & E2 & H).
    apply bind_ok in H as (s3 & E3 & H). injection H as <- _.
    assert (kept s s1) by (destruct (_ =? _); [eapply transmute_kept; eauto|injection E1 as <- _; apply kept_refl]).
    apply drain_core_kept in E2. apply drain_fresh_kept in E3. eauto using kept_trans.
  - intro H. apply bind_ok in H as ([s1 e1] & E1 & H). apply bind_ok in H as ([s2 e2] & E2 & H).
    apply bind_ok in H as ([s3 e3] & E3 & H). apply bind_ok in H as (s4 & E4 & H). injection H as <- _.
    assert (kept s s1).
    { destruct (_ =? _); [|injection E1 as <- _; apply kept_refl].
      apply bind_ok in E1 as ([a b] & E & E1). injection E1 as <- _. eapply transmute_kept; eauto. }
    assert (kept s1 s2).
    { destruct (_ && _)%bool; [|injection E2 as <- _; apply kept_refl].
      apply bind_ok in E2 as ([[a b] c] & E & E2). injection E2 as <- _. apply discharge_kept in E. exact E. }
    assert (kept s2 s3) by (destruct (cycle_t cfg <=? cyc s2); [eapply load_kept; eauto|injection E3 as <- _; apply kept_refl]).
    assert (kept s3 s4).
    { unfold apply_changes in E4. apply bind_ok in E4 as (s5 & E5 & E4).
      apply (loop_kept kept) in E5; [|apply kept_refl|apply kept_trans|].
      - apply (loop_kept kept) in E4; [eapply kept_trans; eauto|apply kept_refl|apply kept_trans|].
        intros a i b. unfold recipe_change. intro E. apply bind_ok in E as (ct & _ & E).
        destruct (negb (t =? ct)); [injection E as <-; apply kept_refl|]. apply bind_ok in E as (c & _ & E).
        destruct (find_commod _ _ _); [|injection E as <-; apply kept_refl].
        apply bind_ok in E as (x1 & _ & E). apply bind_ok in E as (x2 & _ & E). apply bind_ok in E as (x3 & _ & E).
        apply bind_ok in E as (x4 & _ & E). injection E as <-. repeat split.
      - intros a i b. unfold pref_change. intro E. apply bind_ok in E as (ct & _ & E).
        destruct (negb (t =? ct)); [injection E as <-; apply kept_refl|]. apply bind_ok in E as (c & _ & E).
        destruct (find_commod _ _ _); [|injection E as <-; apply kept_refl].
        apply bind_ok in E as (x1 & _ & E). apply bind_ok in E as (x2 & _ & E). injection E as <-. repeat split. }
    eauto using kept_trans.
Qed.
Lemma trade_kept picks s s' r : trade_phase eps cfg picks s = Ok (s', r) -> kept s s'.
Proof.
  unfold trade_phase. destruct picks as [|p ps]; [intro H; injection H as <- _; apply kept_refl|].
  generalize (p :: ps). clear p ps. intros ps. unfold get_trades. intro H.
  apply bind_ok in H as ([mp s1] & E1 & H). apply bind_ok in H as ([[mp2 s2] r2] & E2 & H).
  apply bind_ok in H as (s3 & E3 & H). injection H as <- _.
  assert (kept s s1).
  { unfold pop_spent in E1. apply bind_ok in E1 as ([ms b1] & P & E1). apply bind_ok in E1 as (mm & _ & E1).
    injection E1 as _ <-. apply popn_cap in P. unfold kept; simpl. repeat split; congruence. }
  apply (loop_kept (fun a b => kept (snd (fst a)) (snd (fst b)))) in E2; [|intro; apply kept_refl|intros ? ? ?; apply kept_trans|].
  2: { intros [[m0 s0] r0] c [[m4 s4] r4]. unfold serve_trade. destruct (rev _); [discriminate|]. intro E. injection E as _ <- _. repeat split. }
  simpl in E2. unfold push_spent in E3.
  apply (loop_kept kept) in E3; [|apply kept_refl|apply kept_trans|].
  2: { intros a x b E. apply bind_ok in E as (bb & P & E). injection E as <-. apply pushv_cap in P. unfold kept; simpl. repeat split; congruence. }
  eauto using kept_trans.
Qed.
Lemma deliver_kept ds s s' ev : deliver_phase eps cfg ds s = Ok (s', ev) -> kept s s'.
Proof.
  unfold deliver_phase. destruct ds as [|d ds]; [intro H; injection H as <- _; apply kept_refl|].
  unfold accept_trades. intro H. apply bind_ok in H as (s1 & E & H). injection H as <- _.
  apply (loop_kept kept) in E; auto using kept_refl; [eauto using kept_trans|].
  intros a x b. unfold accept_one, index_res. intro P. apply bind_ok in P as (s2 & Q & P).
  destruct (find_commod _ _ _); [|discriminate]. injection Q as <-.
  destruct (_ <? _); apply bind_ok in P as (bb & R & P); injection P as <-; apply push_cap in R;
    unfold kept; simpl in *; repeat split; congruence.
Qed.
Lemma tock_kept t s s' ev : tock cfg t s = Ok (s', ev) -> kept s s'.
Proof.
  unfold tock. destruct (retired cfg t); [intro H; injection H as <- _; apply kept_refl|]. intro H.
  apply bind_ok in H as (e2 & _ & H). injection H as <- _.
  repeat match goal with |- context [if ?b then _ else _] => destruct b end; repeat split.
Qed.
Lemma step_kept t s e o : rx_step eps recipe cfg t s e = Ok o -> kept s (o_state o).
Proof.
  intro H. apply step_split in H as (ev1 & ev2 & s2 & s3 & ev3 & ev4 & T & _ & _ & P & D & K & _).
  apply tick_kept in T. apply trade_kept in P. apply deliver_kept in D. apply tock_kept in K. eauto using kept_trans.
Qed.
Lemma run_kept es : forall t s os k, rx_run eps recipe cfg t s es = Ok os -> (k <= List.length os)%nat ->
  kept s (state_before s os k) /\
  rx_run eps recipe cfg (t + Z.of_nat k) (state_before s os k) (skipn k es) = Ok (skipn k os).
Proof.
  induction es as [|e es IH]; intros t s os k H L; simpl in H.
  - injection H as <-. simpl in L. assert (k = O) as -> by lia. split; [apply kept_refl|reflexivity].
  - apply bind_ok in H as (o & E & H). apply bind_ok in H as (os' & E' & H). injection H as <-.
    destruct k as [|k].
    + split; [apply kept_refl|]. rewrite Z.add_0_r. simpl. rewrite E. cbn [bind]. rewrite E'. reflexivity.
    + simpl in L. destruct (IH (t + 1) (o_state o) os' k E' ltac:(lia)) as [A B].
      assert (state_before s (o :: os') (S k) = state_before (o_state o) os' k) as ->.
      { destruct k as [|j]; [reflexivity|]. simpl. destruct (nth_error os' j) eqn:N; auto.
        apply nth_error_None in N. lia. }
      split; [eapply kept_trans; [eapply step_kept; eauto|exact A]|].
      replace (t + Z.of_nat (S k)) with (t + 1 + Z.of_nat k) by lia. exact B.
Qed.

(** ** Saving and loading *)
Hypothesis eps_nonneg : (0 <= eps)%Q.
Hypothesis Hcfg : config_consistent cfg.

Lemma rb_save_ok N b : ubuf N (assem cfg) b -> rb_save eps b = Ok (rb_items b, b).
Proof.
  intro U. unfold rb_save. rewrite popn_ok by (unfold rb_count, zlen; lia). cbn [bind].
  replace (Z.to_nat (rb_count b)) with (List.length (rb_items b)) by (unfold rb_count, zlen; lia).
  rewrite firstn_all, skipn_all.
  destruct U as (C & F & L).
  destruct (ubuf_pushv eps N (assem cfg) {| rb_cap := rb_cap b; rb_items := [] |} (rb_items b) eps_nonneg (cc_assem cfg Hcfg)) as [P _]; auto.
  - repeat split; simpl; auto. unfold rb_count, zlen in *. simpl. lia.
  - rewrite P. destruct b. reflexivity.
Qed.
Lemma rb_refill N b : ubuf N (assem cfg) b -> rb_cap b = (inject_Z N * assem cfg)%Q ->
  rb_pushv eps {| rb_cap := (inject_Z N * assem cfg)%Q; rb_items := [] |} (rb_items b) = Ok b.
Proof.
  intros (C & F & L) E.
  destruct (ubuf_pushv eps N (assem cfg) {| rb_cap := (inject_Z N * assem cfg)%Q; rb_items := [] |} (rb_items b) eps_nonneg (cc_assem cfg Hcfg)) as [P _]; auto.
  - repeat split; simpl; auto; try reflexivity. unfold rb_count, zlen in *. simpl. lia.
  - rewrite P. simpl. rewrite <- E. destruct b. reflexivity.
Qed.
Lemma init_ok : init_from cfg = Ok tt.
Proof.
  unfold init_from. pose proof (cc_side cfg Hcfg) as L. rewrite <- L.
  assert (forall l, (forall i, In i l -> (i < List.length (side_qty cfg))%nat) ->
    loop (fun _ i => let* _ := vec_at (side_qty cfg) i in Ok tt) l tt = Ok tt) as G.
  { induction l as [|i l IH]; intro B; [reflexivity|]. simpl. unfold vec_at at 1.
    destruct (nth_error (side_qty cfg) i) eqn:N; [|apply nth_error_None in N; specialize (B i (or_introl eq_refl)); lia].
    cbn [bind]. apply IH. intros j J. apply B. right; auto. }
  apply G. intros i I. apply in_seq in I. lia.
Qed.

Lemma reload s : reactor_ok recipe cfg s ->
  rb_cap (fresh s) = (inject_Z (n_fresh cfg) * assem cfg)%Q -> rb_cap (core s) = (inject_Z (n_core cfg) * assem cfg)%Q ->
  rb_cap (spent s) = (inject_Z (n_spent cfg) * assem cfg)%Q -> (side_products cfg = [] -> hybrid s = false) ->
  exists v, rx_save eps s = Ok (v, s) /\ rx_load eps cfg v = Ok s.
Proof.
  intros I C1 C2 C3 HY. destruct (inv_ubufs _ _ _ I) as (U1 & U2 & U3).
  unfold rx_save. rewrite (rb_save_ok _ _ U1), (rb_save_ok _ _ U2), (rb_save_ok _ _ U3). cbn [bind].
  eexists. split; [destruct s; reflexivity|]. unfold rx_load. cbn -[enter_notify rb_pushv rx_new init_from].
  rewrite init_ok. cbn [bind]. unfold rx_new at 1 2 3. cbn [fresh core spent upd_hybrid upd_idx upd_cyc].
  rewrite (rb_refill _ _ U1 C1). cbn [bind]. rewrite (rb_refill _ _ U2 C2). cbn [bind]. rewrite (rb_refill _ _ U3 C3). cbn [bind].
  unfold enter_notify. cbn [prefs].
  pose proof (ok_tables _ _ _ I) as (_ & _ & T).
  destruct (prefs s) as [|p ps] eqn:EP.
  { exfalso. apply (cc_fuels cfg Hcfg). simpl in T. destruct (incommods cfg); [auto|discriminate]. }
  rewrite (cc_rc1 _ Hcfg), (cc_rc2 _ Hcfg), (cc_rc3 _ Hcfg), (cc_pc1 _ Hcfg), (cc_pc2 _ Hcfg), !PeanoNat.Nat.eqb_refl.
  cbn [andb]. f_equal. destruct s. cbn in *. subst.
  destruct (side_products cfg) eqn:SP; cbn; [rewrite HY by auto|]; reflexivity.
Qed.
End Kept.

Theorem restart_final eps recipe cfg inr outr pf c t0 s0 es os k :
  enter_notify cfg (rx_new cfg inr outr pf c) = Ok s0 -> rx_history eps recipe cfg t0 s0 es os -> (k <= List.length os)%nat ->
  exists v, rx_save eps (state_before s0 os k) = Ok (v, state_before s0 os k) /\
    exists s', rx_load eps cfg v = Ok s' /\ s' = state_before s0 os k /\
    rx_run eps recipe cfg (t0 + Z.of_nat k) s' (skipn k es) = Ok (skipn k os).
Proof.
  intros E H L. destruct H as [A B C D F G].
  destruct (run_kept eps recipe cfg es t0 s0 os k G L) as [(K1 & K2 & K3 & K4) R].
  assert (reactor_ok recipe cfg (state_before s0 os k)) as I.
  { destruct k as [|k]; [exact D|]. simpl. destruct (nth_error os k) as [o|] eqn:N; [|exact D].
    destruct (run_ok eps recipe cfg A B C es t0 s0 D F) as (os' & E' & FA & _). rewrite G in E'. injection E' as <-.
    rewrite Forall_forall in FA. apply FA. eapply nth_error_In; eauto. }
  assert (rb_cap (fresh s0) = (inject_Z (n_fresh cfg) * assem cfg)%Q /\ rb_cap (core s0) = (inject_Z (n_core cfg) * assem cfg)%Q /\
    rb_cap (spent s0) = (inject_Z (n_spent cfg) * assem cfg)%Q /\ (side_products cfg = [] -> hybrid s0 = false)) as (C1 & C2 & C3 & C4).
  { clear -E. unfold enter_notify in E. destruct (_ && _)%bool; [|discriminate]. injection E as <-.
    destruct pf; destruct (side_products cfg); cbn; repeat split; auto; discriminate. }
  destruct (reload eps recipe cfg A B _ I) as (v & S1 & S2); try congruence.
  { intro N. rewrite K4. auto. }
  exists v. split; auto. exists (state_before s0 os k). auto.
Qed.
