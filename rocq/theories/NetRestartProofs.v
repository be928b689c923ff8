(** C131: saving and loading whole networks. *)
From Coq Require Import Lia Lqa.
From Verif Require Import Outcome KernelMaterial KernelResBuf KernelBuf KernelFacts KernelMass NetworkSpec SimulationSpec SimulationProofs SimulationNetwork.
From Verif Require Import LedgerSpec LedgerProofs RestartModel NetRestartSpec.
From Verif Require ReactorModel ReactorSpec StorageModel StorageSpec SinkModel SinkSpec SinkProofs SourceModel SourceProofs RestartProofs RestartReactor.
Local Open Scope Q_scope.

(** What a restart needs beyond [good]. *)
Definition keeps (w : world) (package unit : string -> bool) (f : fac) : Prop :=
  match f with
  | Stor c _ => exists en, StorageModel.st_enter (w_recipe w) package unit c = Ok en
  | Srce _ s => b_cap (SourceModel.ss_inv s) = None
  | Snk c s => ~ SinkSpec.random_frequency c /\ SinkModel.ks_next s = (-1)%Z
  | Reac c s => rb_cap (ReactorModel.fresh s) = inject_Z (ReactorModel.n_fresh c) * ReactorModel.assem c /\
      rb_cap (ReactorModel.core s) = inject_Z (ReactorModel.n_core c) * ReactorModel.assem c /\
      rb_cap (ReactorModel.spent s) = inject_Z (ReactorModel.n_spent c) * ReactorModel.assem c /\
      (ReactorModel.side_products c = [] -> ReactorModel.hybrid s = false)
  | _ => False
  end.
Lemma deployed_keeps w p u t f : deployed w t f -> savable w p u f -> keeps w p u f.
Proof.
  destruct f as [c s|c s|c s|c s|c s|c s]; cbn [deployed savable keeps]; try contradiction.
  - intros _ H. exact H.
  - intros (_ & B) _. destruct (SourceProofs.build_facts _ _ _ _ B) as (k & E & _). rewrite E. reflexivity.
  - intros (_ & _ & _ & _ & g & E) NR. split; [exact NR|]. destruct (SinkProofs.enter_facts _ _ _ _ E) as (_ & _ & N). rewrite SinkProofs.next_buy_none in N by exact NR. exact N.
  - intros _ (inr & outr & pf & k & E). unfold ReactorModel.enter_notify in E. destruct (_ && _)%bool; [|discriminate]. injection E as <-.
    destruct pf; destruct (ReactorModel.side_products c); cbn; repeat split; auto; discriminate.
Qed.
Lemma step_keeps w p u t g f S R f' ms : keeps w p u f -> fstep w t g f S R = Ok (f', ms) -> keeps w p u f'.
Proof.
  destruct f as [c s|c s|c s|c s|c s|c s]; cbn [keeps fstep]; try contradiction; intros K H.
  - apply bind_ok in H as ([s' o] & _ & H). injection H as <- _. exact K.
  - apply bind_ok in H as ([s' o] & T & H). injection H as <- _. cbn [keeps].
    match type of T with SourceModel.sr_step ?a ?b ?r ?d ?x ?e = _ => assert (E : SourceModel.sr_run a b r d x [e] = Ok (s', [o])) by (cbn [SourceModel.sr_run]; rewrite T; reflexivity) end.
    exact (RestartProofs.source_cap _ _ _ _ _ _ _ _ K E).
  - apply bind_ok in H as ([s' o] & T & H). injection H as <- _. cbn [keeps]. destruct K as [NR N]. split; [exact NR|].
    match type of T with SinkModel.sk_step ?a ?b ?r ?d ?t ?x ?e = _ => assert (E : SinkModel.sk_run a b r d t x [e] = Ok (s', [o])) by (cbn [SinkModel.sk_run]; rewrite T; reflexivity) end.
    exact (RestartProofs.sink_next _ _ _ _ NR _ _ _ _ _ N E).
  - apply bind_ok in H as (o & T & H). injection H as <- _. cbn [keeps]. apply RestartReactor.step_kept in T as (A & B & C & D). rewrite A, B, C, D. exact K.
Qed.
Lemma chronicle_keeps w p u t id fs ever gone : chronicle w t id fs ever gone -> Forall (savable w p u) ever -> Forall (keeps w p u) fs.
Proof.
  induction 1 as [id|t id fs ever gone f H IH D|t id a f b ever gone H IH|t id fs ever gone gs ds fs' sent H IH G O (L1 & L2 & N)]; intro SV.
  - constructor.
  - apply Forall_app in SV as [S1 S2]. inversion S2; subst. apply Forall_app. split; [exact (IH S1)|]. constructor; [|constructor]. eapply deployed_keeps; eassumption.
  - specialize (IH SV). apply Forall_app in IH as [A B]. inversion B; subst. apply Forall_app. split; assumption.
  - specialize (IH SV). apply Forall_forall. intros f' I. apply In_nth_error in I as (i & N'). destruct (nth_error fs i) as [f|] eqn:E.
    + rewrite Forall_forall in IH. exact (step_keeps _ _ _ _ _ _ _ _ _ _ (IH f (nth_error_In _ _ E)) (N i f f' E N')).
    + apply nth_error_None in E. assert (X : nth_error fs' i <> None) by congruence. apply nth_error_Some in X. lia.
Qed.

(** ** One facility *)
Definition alike (w : world) (t : Z) (f f' : fac) : Prop :=
  inside f' = inside f /\ forall g, publish w t g f' = publish w t g f /\ forall S R, fstep w t g f' S R = fstep w t g f S R.
Lemma alike_refl w t f : alike w t f f.
Proof. split; [reflexivity|]. intro g. split; reflexivity. Qed.
Lemma own_prefs c : StorageModel.sc_in_prefs c <> [] -> forall (recipe : string -> option comp) p u en, StorageModel.st_enter recipe p u c = Ok en -> StorageModel.en_prefs en = StorageModel.sc_in_prefs c.
Proof.
  intros N recipe p u en. unfold StorageModel.st_enter. intro H. apply bind_ok in H as (pol & _ & H). apply bind_ok in H as (k & _ & H). apply bind_ok in H as (ps & P & H).
  destruct (negb (p _)); [discriminate|]. destruct (negb (u _)); [discriminate|]. destruct (StorageModel.sc_out_commods c) as [|o [|]]; try discriminate. injection H as <-. cbn.
  destruct (StorageModel.sc_in_prefs c) as [|x l]; [contradiction N; reflexivity|]. cbn [List.length Nat.eqb] in P. match type of P with (if ?b then _ else _) = _ => destruct b end; [|discriminate]. injection P as <-. reflexivity.
Qed.
Lemma with_own_prefs c : st_with_prefs c (StorageModel.sc_in_prefs c) = c.
Proof. destruct c. reflexivity. Qed.
Lemma one_restart w p u t id f : world_ok w -> good w t id f -> keeps w p u f ->
  (exists f1 f', restarts w p u t f f1 f') /\ forall f1 f', restarts w p u t f f1 f' -> f1 = f /\ alike w t f f'.
Proof.
  intros (EP & _) G K. destruct f as [c s|c s|c s|c s|c s|c s]; cbn [good keeps] in *; try contradiction.
  - (* storage *)
    destruct K as (en & E). destruct G as ((CL & CN & _) & _). assert (PN : StorageModel.sc_in_prefs c <> []) by (intro X; rewrite X in CL; destruct (StorageModel.sc_in_commods c); [congruence|discriminate]).
    destruct (RestartProofs.storage_enter _ _ _ _ _ E) as (E2 & _ & (o & I)).
    assert (LD : st_load (w_recipe w) p u c (st_save (StorageModel.en_prefs en) s) = Ok (en, s)) by (unfold st_load; rewrite I; cbn [bind tv_prefs st_save]; rewrite E2; destruct s; reflexivity).
    split.
    + exists (Stor c s), (Stor (st_with_prefs c (StorageModel.en_prefs en)) s). eapply restarts_stor; eassumption.
    + intros f1 f' H. inversion H as [c0 s0 en1 en' s' E1 L| | |]; subst. rewrite E in E1. injection E1 as <-. rewrite LD in L. injection L as <- <-.
      rewrite (own_prefs _ PN _ _ _ _ E), with_own_prefs. split; [reflexivity|apply alike_refl].
  - (* source *)
    assert (SV : sr_save (w_eps w) s = Ok (b_items (SourceModel.ss_inv s), s)). { unfold sr_save. rewrite RestartProofs.save_unlimited by exact K. cbn [bind]. destruct s. reflexivity. }
    assert (LD : sr_load (w_eps w) (b_items (SourceModel.ss_inv s)) = Ok s). { unfold sr_load. rewrite RestartProofs.fits_unlimited. cbn [bind]. destruct s as [[k l]]. cbn in K. subst k. reflexivity. }
    split.
    + exists (Srce c s), (Srce c s). eapply restarts_srce; eassumption.
    + intros f1 f' H. inversion H as [|c0 s0 v s1 s' E1 L| |]; subst. rewrite SV in E1. injection E1 as <- <-. rewrite LD in L. injection L as <-. split; [reflexivity|apply alike_refl].
  - (* sink *)
    destruct K as [NR N]. destruct G as (HC & HM & CN & RC & [P1 P2] & B & _).
    assert (PV : sk_pushv (w_eps w) c (SinkModel.ks_inv s) = Ok (SinkModel.ks_inv s)).
    { unfold sk_pushv. assert (X : Qltb (w_eps w) (SinkModel.rsrcs_qty (SinkModel.ks_inv s) - Qmax 0 (SinkModel.kc_max_inv c)) = false).
      { unfold Qltb. apply negb_false_iff, Qle_bool_iff. unfold SinkSpec.held in B. unfold SinkModel.rsrcs_qty. pose proof (Q.le_max_r 0 (SinkModel.kc_max_inv c)). lra. }
      rewrite X. reflexivity. }
    assert (SV : sk_save (w_eps w) c s = Ok ({| kv_prefs := SinkModel.ks_prefs s; kv_inv := SinkModel.ks_inv s |}, s)) by (unfold sk_save; rewrite PV; cbn [bind]; destruct s; reflexivity).
    assert (LD : forall g, exists a, sk_load (w_eps w) c g t {| kv_prefs := SinkModel.ks_prefs s; kv_inv := SinkModel.ks_inv s |} =
      Ok {| SinkModel.ks_prefs := SinkModel.ks_prefs s; SinkModel.ks_inv := SinkModel.ks_inv s; SinkModel.ks_amt := a; SinkModel.ks_next := (-1)%Z |}).
    { intro g. unfold sk_load. cbn [kv_inv kv_prefs]. rewrite PV. cbn [bind]. rewrite RestartProofs.sink_enter by exact P2. rewrite SinkProofs.next_buy_none by exact NR. eexists. reflexivity. }
    split.
    + set (g := {| SinkModel.g_uniform_real := fun lo _ => lo; SinkModel.g_normal_real := fun _ _ lo _ => lo; SinkModel.g_uniform_int := fun lo _ => lo; SinkModel.g_normal_int := fun _ _ lo _ => lo |}).
      destruct (LD g) as (a & L). exists (Snk c s). eexists. exact (restarts_snk w p u t c s _ s _ g SV L).
    + intros f1 f' H. inversion H as [| |c0 s0 v s1 s' g E1 L|]; subst. rewrite SV in E1. injection E1 as <- <-. destruct (LD g) as (a & L2). rewrite L2 in L. injection L as <-.
      split; [reflexivity|]. split; [reflexivity|]. intro g0. set (s' := SinkModel.Build_sk_state _ _ _ _).
      assert (T : SinkModel.sk_tick (w_eg w) c (g_rng g0) t s' = SinkModel.sk_tick (w_eg w) c (g_rng g0) t s).
      { unfold SinkModel.sk_tick. rewrite N. reflexivity. }
      split; [cbn [publish]; rewrite T; reflexivity|]. intros S R. cbn [fstep].
      rewrite (RestartProofs.sink_step (w_eps w) (w_eg w) (w_recipe w) c t s s'); [reflexivity|reflexivity|reflexivity|symmetry; exact N].
  - (* reactor *)
    destruct K as (C1 & C2 & C3 & HY). destruct G as (CC & _ & RO & _). destruct (RestartReactor.reload _ _ _ EP CC _ RO C1 C2 C3 HY) as (v & SV & LD).
    split.
    + exists (Reac c s), (Reac c s). eapply restarts_reac; eassumption.
    + intros f1 f' H. inversion H as [| | |c0 s0 v1 s1 s' E1 L]; subst. rewrite SV in E1. injection E1 as <- <-. rewrite LD in L. injection L as <-. split; [reflexivity|apply alike_refl].
Qed.

(** ** The network *)
Lemma nstep_alike w t id gs fs fs' ds fs2 sent : List.length fs' = List.length fs -> (forall i f f', nth_error fs i = Some f -> nth_error fs' i = Some f' -> alike w t f f') ->
  nstep w t id gs fs ds fs2 sent -> nstep w t id gs fs' ds fs2 sent.
Proof.
  intros L A (N1 & N2 & N3). split; [exact N1|]. split; [congruence|]. intros i f' f2 E' E2. destruct (nth_error fs i) as [f|] eqn:E.
  - destruct (A i f f' E E') as [_ X]. destruct (X (gs i)) as [_ Y]. rewrite Y. exact (N3 i f f2 E E2).
  - apply nth_error_None in E. assert (X : nth_error fs' i <> None) by congruence. apply nth_error_Some in X. lia.
Qed.
Lemma alike_sym w t f f' : alike w t f f' -> alike w t f' f.
Proof. intros [A B]. split; [auto|]. intro g. destruct (B g) as [X Y]. split; auto. Qed.

Theorem net_restart w p u t id fs ever gone : world_ok w -> chronicle w t id fs ever gone -> Forall (savable w p u) ever ->
  (exists fs1 fs', net_restarts w p u t fs fs1 fs') /\
  forall fs1 fs', net_restarts w p u t fs fs1 fs' ->
    fs1 = fs /\ map inside fs' = map inside fs /\
    (forall gs i f f', nth_error fs i = Some f -> nth_error fs' i = Some f' -> publish w t (gs i) f' = publish w t (gs i) f) /\
    (forall gs ds fs2 sent, nstep w t id gs fs' ds fs2 sent <-> nstep w t id gs fs ds fs2 sent).
Proof.
  intros W H SV. pose proof (chronicle_keeps _ _ _ _ _ _ _ _ H SV) as K. destruct (reached_good w W _ _ _ (chronicle_reached _ _ _ _ _ _ H)) as [_ G]. unfold all_good in G.
  rewrite Forall_forall in K, G.
  assert (O : forall i f, nth_error fs i = Some f -> (exists f1 f', restarts w p u t f f1 f') /\ forall f1 f', restarts w p u t f f1 f' -> f1 = f /\ alike w t f f').
  { intros i f E. apply nth_error_In in E. apply (one_restart w p u t id); auto. }
  split.
  - destruct (list_of_all (fun _ f x => restarts w p u t f (fst x) (snd x)) fs 0) as (l & L & P).
    { intros i f E. destruct (O i f E) as [(f1 & f' & R) _]. exists (f1, f'). exact R. }
    exists (map fst l), (map snd l). split; [rewrite map_length; exact L|]. split; [rewrite map_length; exact L|]. intros i f f1 f' E E1 E2.
    rewrite nth_error_map in E1, E2. destruct (nth_error l i) as [x|] eqn:X; [|discriminate]. injection E1 as <-. injection E2 as <-. exact (P i f x E X).
  - intros fs1 fs' (L1 & L2 & P).
    assert (Q1 : forall i f f', nth_error fs i = Some f -> nth_error fs' i = Some f' -> nth_error fs1 i = Some f /\ alike w t f f').
    { intros i f f' E E'. destruct (nth_error fs1 i) as [f1|] eqn:E1.
      - destruct (O i f E) as [_ X]. destruct (X f1 f' (P i f f1 f' E E1 E')) as [-> A]. auto.
      - apply nth_error_None in E1. assert (X : nth_error fs i <> None) by congruence. apply nth_error_Some in X. lia. }
    assert (Q2 : forall i f f', nth_error fs i = Some f -> nth_error fs' i = Some f' -> alike w t f f') by (intros i f f' E E'; apply (Q1 i f f' E E')).
    split; [|split; [|split]].
    + apply nth_error_ext'. intro i. destruct (nth_error fs i) as [f|] eqn:E.
      * destruct (nth_error fs' i) as [f'|] eqn:E'; [exact (proj1 (Q1 i f f' E E'))|]. apply nth_error_None in E'. assert (X : nth_error fs i <> None) by congruence. apply nth_error_Some in X. lia.
      * apply nth_error_None in E. apply nth_error_None. lia.
    + apply nth_error_ext'. intro i. rewrite !nth_error_map. destruct (nth_error fs i) as [f|] eqn:E.
      * destruct (nth_error fs' i) as [f'|] eqn:E'; [cbn; f_equal; apply (Q2 i f f' E E')|]. apply nth_error_None in E'. assert (X : nth_error fs i <> None) by congruence. apply nth_error_Some in X. lia.
      * apply nth_error_None in E. rewrite (proj2 (nth_error_None fs' i)) by lia. reflexivity.
    + intros gs i f f' E E'. destruct (Q2 i f f' E E') as [_ X]. apply X.
    + intros gs ds fs2 sent. split; apply nstep_alike; try congruence.
      * intros i f' f E' E. apply alike_sym, (Q2 i f f' E E').
      * exact Q2.
Qed.
