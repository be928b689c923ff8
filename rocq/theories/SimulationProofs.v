(** C128: what each facility does in an orderly exchange. *)
From Coq Require Import Lia Lqa Permutation.
From Verif Require Import Outcome KernelMaterial KernelResBuf KernelBuf KernelFacts KernelMass NetworkSpec SimulationSpec CausalitySpec.
From Verif Require ReactorModel ReactorSpec StorageModel StorageSpec ConversionModel ConversionSpec MixerModel MixerSpec SinkModel SinkSpec SourceModel SourceSpec.
From Verif Require ConversionProofs StorageProofs StorageGlue MixerProofs MixerRun SinkProofs SourceProofs NetworkProofs CausalityProofs EnrichmentSpec.
Local Open Scope Q_scope.

(** ** Trades *)
Lemma sales_none n ds : sales_ok n ds -> n_offers n = [] -> ds = [].
Proof. intros [H _] E. destruct ds as [|d ds]; [reflexivity|]. inversion H as [|? ? (_ & _ & _ & o & I & _) _]; subst. rewrite E in I. destruct I. Qed.
Lemma filter_all {A} (f : A -> bool) l : Forall (fun x => f x = true) l -> filter f l = l.
Proof. induction 1 as [|x l H _ IH]; [reflexivity|]. cbn. rewrite H, IH. reflexivity. Qed.
Lemma sales_one n ds o : sales_ok n ds -> n_offers n = [o] -> total ds <= of_limit o.
Proof.
  intros [H L] E. specialize (L o). rewrite E in L. specialize (L (or_introl eq_refl)). rewrite filter_all in L; [exact L|].
  eapply Forall_impl; [|exact H]. intros d (_ & _ & _ & o' & I & C & _). rewrite E in I. destruct I as [<-|[]]. apply String.eqb_eq. congruence.
Qed.
Lemma sales_pos n ds : sales_ok n ds -> Forall (fun q => 0 < q) (map t_amt ds).
Proof. intros [H _]. apply Forall_map. eapply Forall_impl; [|exact H]. intros d P. apply P. Qed.
Lemma buys_none n ds : buys_ok n ds -> n_asks n = [] -> ds = [].
Proof. intros [H _] E. destruct ds as [|d ds]; [reflexivity|]. inversion H as [|? ? X _]; subst. rewrite E in X. destruct (t_slot d); discriminate. Qed.
Lemma buys_one n ds a q : buys_ok n ds -> n_asks n = [a] -> ak_limit a = Some q -> ds = [] \/ total ds <= q.
Proof.
  intros [H B] E L. specialize (B 0%nat a). rewrite E in B. specialize (B eq_refl). cbv zeta in B. destruct B as [_ B]. specialize (B q L).
  rewrite filter_all in B. { destruct ds; [left; reflexivity|right; apply B; discriminate]. }
  eapply Forall_impl; [|exact H]. intros d X. rewrite E in X. cbn [flat_map] in X. cbn [slots]. rewrite app_nil_r in *.
  rewrite nth_error_map, X. reflexivity.
Qed.

(** Parcels as agreed. *)
Definition as_agreed (id id' : Z) (x : trade * mat) : Prop :=
  0 < t_amt (fst x) /\ m_qty (snd x) == t_amt (fst x) /\ mat_ok (snd x) /\ (id <= m_id (snd x) < id')%Z.
Lemma got_total id id' R : Forall (as_agreed id id') R -> qty_of (map snd R) == total (map fst R).
Proof.
  induction 1 as [|x R (_ & E & _) _ IH]; [reflexivity|]. cbn [map]. rewrite qty_of_cons. unfold total in *. cbn [map].
  change (qsum (t_amt (fst x) :: map t_amt (map fst R))) with (t_amt (fst x) + qsum (map t_amt (map fst R))). rewrite E, IH. reflexivity.
Qed.
Lemma got_ok id id' R : Forall (as_agreed id id') R -> mats_ok (map snd R).
Proof. intro H. apply Forall_map. eapply Forall_impl; [|exact H]. intros x (_ & _ & O & _). exact O. Qed.

(** ** What is known of each facility of a network *)
Definition real (m : mat) : Prop := Forall (fun x => 0 <= snd x) (m_comp m) /\ 0 < csum (m_comp m).
Definition good (w : world) (t id : Z) (f : fac) : Prop :=
  match f with
  | Conv c s => 0 < ConversionModel.vc_throughput c /\
      (0 <= ConversionModel.vc_capacity c -> qty_of (ConversionModel.vs_input s) <= ConversionModel.vc_capacity c) /\
      exists es os, mats_ok (ConversionSpec.cv_received es) /\ ConversionModel.cv_run (w_eps w) c ConversionModel.cv_empty es = Ok (s, os)
  | Stor c s => StorageSpec.st_cfg_ok c /\ (StorageModel.sc_discrete c = true \/ 0 < StorageModel.sc_throughput c) /\
      (0 <= StorageModel.sc_max_inv c -> qty_of (inside f) <= StorageModel.sc_max_inv c) /\
      exists es os, StorageSpec.st_history es /\ Forall (fun e => (StorageModel.se_time e < t)%Z) es /\ StorageModel.st_run (w_eps w) c StorageModel.st_empty es = Ok (s, os)
  | Mixr c s => MixerSpec.mx_sensible c /\ MixerProofs.mx_inv c s /\ MixerRun.caps_ok c s /\ MixerSpec.mx_within c s
  | Srce c s => SourceProofs.sr_good s /\ qty_of (inside f) <= SourceModel.sc_inv_size c /\ (SourceModel.sc_recipe c = ""%string \/ exists r, SourceModel.sc_recipe c <> ""%string /\ w_recipe w (SourceModel.sc_recipe c) = Some r /\
        mats_ok (b_items (SourceModel.ss_inv s)) /\ Forall (SourceSpec.made_of r) (b_items (SourceModel.ss_inv s)))
  | Snk c s => 0 <= SinkModel.kc_capacity c /\ 0 <= SinkModel.kc_max_inv c /\ SinkModel.kc_commods c <> [] /\
      (SinkModel.kc_recipe c = ""%string \/ w_recipe w (SinkModel.kc_recipe c) <> None) /\
      SinkProofs.prefs_ok c s /\ SinkSpec.held s <= SinkModel.kc_max_inv c /\ mats_ok (inside f)
  | Reac c s => ReactorSpec.config_consistent c /\ ReactorSpec.recipes_known (w_recipe w) c /\ ReactorSpec.reactor_ok (w_recipe w) c s /\
      Forall (fun m => (m_id m < id)%Z) (ReactorSpec.assemblies s) /\ Forall real (ReactorSpec.assemblies s)
  end.
Definition balanced (f f' : fac) (ms : list mat) (R : list (trade * mat)) : Prop :=
  (inert f <-> inert f') /\
  qty_of (inside f') + qty_of ms == qty_of (inside f) + qty_of (map snd R) /\
  (inert f -> forall n, mass_in n (inside f') + mass_in n ms == mass_in n (inside f) + mass_in n (map snd R)).
Definition as_sold (d : trade) (m : mat) : Prop := m_qty m == t_amt d /\ mat_ok m.

(** Served: the facility answers; whatever it is sold, it ships; whatever is delivered, it accepts. *)
Definition works (w : world) (t id id' : Z) (g : signal) (f : fac) : Prop :=
  exists n, publish w t g f = Ok n /\
  forall S R, sales_ok n S -> buys_ok n (map fst R) -> Forall (as_agreed id id') R -> NoDup (map (fun x => m_id (snd x)) R) ->
  exists f' ms, fstep w t g f S R = Ok (f', ms) /\ Forall2 as_sold S ms /\ good w (t + 1) id' f' /\ balanced f f' ms R.

(** ** Shipments do not depend on deliveries (C127) *)
Lemma one_agree {A} (o o' : A) : agree_until 1 [o] [o'] -> o = o'.
Proof. unfold agree_until. cbn. congruence. Qed.
Lemma ships_same w t g f S R R' f1 ms1 f2 ms2 : fstep w t g f S R = Ok (f1, ms1) -> fstep w t g f S R' = Ok (f2, ms2) -> ms1 = ms2.
Proof.
  destruct f as [c s|c s|c s|c s|c s|c s]; cbn [fstep]; intros H H'.
  - apply bind_ok in H as ([x o] & T & H). apply bind_ok in H' as ([x' o'] & T' & H'). injection H as _ <-. injection H' as _ <-. f_equal. apply one_agree.
    match type of T with ConversionModel.cv_step ?e ?c ?s ?a = _ => assert (E1 : ConversionModel.cv_run e c s ([] ++ a :: []) = Ok (x, [o])) by (cbn; rewrite T; reflexivity) end.
    match type of T' with ConversionModel.cv_step ?e ?c ?s ?a = _ => assert (E2 : ConversionModel.cv_run e c s ([] ++ a :: []) = Ok (x', [o'])) by (cbn; rewrite T'; reflexivity) end.
    refine (CausalityProofs.cv_causal _ _ _ _ _ _ _ _ _ _ _ _ _ E1 E2). split; reflexivity.
  - apply bind_ok in H as ([x o] & T & H). apply bind_ok in H' as ([x' o'] & T' & H'). injection H as _ <-. injection H' as _ <-. apply one_agree.
    match type of T with StorageModel.st_step ?e ?c ?s ?a = _ => assert (E1 : StorageModel.st_run e c s ([] ++ a :: []) = Ok (x, [o])) by (cbn [app StorageModel.st_run]; rewrite T; reflexivity) end.
    match type of T' with StorageModel.st_step ?e ?c ?s ?a = _ => assert (E2 : StorageModel.st_run e c s ([] ++ a :: []) = Ok (x', [o'])) by (cbn [app StorageModel.st_run]; rewrite T'; reflexivity) end.
    refine (CausalityProofs.st_causal _ _ _ _ _ _ _ _ _ _ _ _ _ E1 E2). reflexivity.
  - apply bind_ok in H as ([x o] & T & H). apply bind_ok in H' as ([x' o'] & T' & H'). injection H as _ <-. injection H' as _ <-. f_equal. apply one_agree.
    match type of T with MixerModel.mx_step ?e ?c ?s ?a = _ => assert (E1 : MixerModel.mx_run e c s ([] ++ a :: []) = Ok (x, [o])) by (cbn [app MixerModel.mx_run]; rewrite T; reflexivity) end.
    match type of T' with MixerModel.mx_step ?e ?c ?s ?a = _ => assert (E2 : MixerModel.mx_run e c s ([] ++ a :: []) = Ok (x', [o'])) by (cbn [app MixerModel.mx_run]; rewrite T'; reflexivity) end.
    refine (CausalityProofs.mx_causal _ _ _ _ _ _ _ _ _ _ _ _ _ E1 E2). reflexivity.
  - congruence.
  - apply bind_ok in H as ([x o] & T & H). apply bind_ok in H' as ([x' o'] & T' & H'). congruence.
  - apply bind_ok in H as (o & T & H). apply bind_ok in H' as (o' & T' & H'). injection H as _ <-. injection H' as _ <-.
    assert (E : rx_shown o = rx_shown o').
    { apply one_agree.
      match type of T with ReactorModel.rx_step ?e ?r ?c ?t ?s ?a = _ => assert (E1 : ReactorModel.rx_run e r c t s ([] ++ a :: []) = Ok [o]) by (cbn [app ReactorModel.rx_run]; rewrite T; reflexivity) end.
      match type of T' with ReactorModel.rx_step ?e ?r ?c ?t ?s ?a = _ => assert (E2 : ReactorModel.rx_run e r c t s ([] ++ a :: []) = Ok [o']) by (cbn [app ReactorModel.rx_run]; rewrite T'; reflexivity) end.
      refine (CausalityProofs.rx_causal _ _ _ _ _ _ _ _ _ _ _ _ _ E1 E2). split; reflexivity. }
    unfold rx_shown in E. congruence.
Qed.

(** ** Conversion *)
Lemma cv_snoc eps c e : forall es s s1 os s2 o, ConversionModel.cv_run eps c s es = Ok (s1, os) -> ConversionModel.cv_step eps c s1 e = Ok (s2, o) ->
  ConversionModel.cv_run eps c s (es ++ [e]) = Ok (s2, os ++ [o]).
Proof.
  induction es as [|a es IH]; intros s s1 os s2 o H T; cbn [app ConversionModel.cv_run] in *.
  - injection H as <- <-. rewrite T. reflexivity.
  - apply bind_ok in H as ([x p] & T1 & H). apply bind_ok in H as ([y os1] & R & H). injection H as <- <-. rewrite T1. cbn [bind].
    rewrite (IH _ _ _ _ _ R T). reflexivity.
Qed.
Lemma cv_bids_limit s reqs b : ConversionModel.cv_bids s reqs = Ok b -> match b with Some (_, q) => q = qty_of (ConversionModel.vs_output s) | None => True end.
Proof.
  unfold ConversionModel.cv_bids. destruct (Qle_bool _ 0); intro H; [injection H as <-; exact I|].
  apply bind_ok in H as (bs & _ & H). injection H as <-. reflexivity.
Qed.
Lemma sold_shape (S : list trade) ms qs : qs = map t_amt S -> Forall2 (fun m q => m_qty m == q) ms qs -> mats_ok ms -> Forall2 as_sold S ms.
Proof.
  intros -> H. revert ms H. induction S as [|d S IH]; intros ms H O; cbn [map] in H; inversion H as [|m q ms' qs' A B]; subst; constructor.
  - inversion O; subst. split; assumption.
  - inversion O; subst. apply IH; assumption.
Qed.
Lemma conv_works w t id id' g c s : world_ok w -> good w t id (Conv c s) -> works w t id id' g (Conv c s).
Proof.
  intros (EP & _) (TP & IC & es & os & O & R0).
  set (rq := g_reqs g (ConversionModel.vc_outcommod c)).
  assert (TN : 0 <= ConversionModel.vc_throughput c) by lra.
  assert (SN : ConversionProofs.cv_sane s) by (apply (ConversionProofs.cv_run_facts _ _ _ _ _ _ ConversionProofs.cv_empty_sane O TN R0)).
  assert (OS : forall sl R, mats_ok (map snd R) -> mats_ok (ConversionSpec.cv_received (es ++ [ {| ConversionModel.ve_reqs := rq; ConversionModel.ve_sales := sl; ConversionModel.ve_receipts := map (@snd trade mat) R |} ]))).
  { intros sl R H. unfold ConversionSpec.cv_received. rewrite flat_map_app. apply Forall_app. split; [exact O|]. cbn. rewrite app_nil_r. exact H. }
  (* the notice *)
  destruct (ConversionProofs.conv_step_ok _ _ _ _ _ _ EP TP (OS [] [] (Forall_nil _)) R0) as (s0 & o0 & T0 & _).
  { constructor. } { cbn. destruct SN as (A & B & _). pose proof (mats_qty_nonneg _ A). pose proof (mats_qty_nonneg _ B). assert (0 <= Qmin (ConversionModel.vc_throughput c) (qty_of (ConversionModel.vs_input s))) by (apply Q.min_glb; lra). lra. }
  { left. reflexivity. }
  destruct (fun X => ConversionProofs.cv_step_inv _ _ _ _ _ _ SN X TN T0) as (TK & SN1 & _ & _ & _ & _ & BD & _); [constructor|].
  cbn [ConversionModel.ve_reqs] in BD. destruct (ConversionProofs.tick_facts _ _ _ SN TN TK) as (_ & QO & QI & _).
  pose proof (cv_bids_limit _ _ _ BD) as LB.
  unfold works. cbn [publish]. rewrite TK. cbn [bind]. fold rq. rewrite BD. cbn [bind]. eexists. split; [reflexivity|].
  intros S R HS HR AR _.
  set (e := {| ConversionModel.ve_reqs := rq; ConversionModel.ve_sales := map t_amt S; ConversionModel.ve_receipts := map snd R |}).
  assert (OR : mats_ok (ConversionSpec.cv_received (es ++ [e]))) by (exact (OS _ R (got_ok _ _ _ AR))).
  destruct (ConversionProofs.conv_step_ok _ _ _ e _ _ EP TP OR R0) as (s' & o & T & SH).
  { apply (sales_pos _ _ HS). }
  { cbn. rewrite <- QO. destruct (ConversionModel.vo_bids o0) as [[bs q]|].
    - subst q. apply (sales_one _ _ _ HS eq_refl).
    - rewrite (sales_none _ _ HS eq_refl). cbn. apply mats_qty_nonneg, SN1. }
  { cbn. rewrite <- QI. unfold ConversionModel.cv_requests in HR. destruct (Qle_bool (ConversionModel.cv_available c (ConversionModel.vo_ticked o0)) 0).
    - left. apply buys_none in HR; [|reflexivity]. destruct R; [reflexivity|discriminate].
    - destruct (buys_one _ _ _ _ HR eq_refl eq_refl) as [N|L]; [left; destruct R; [reflexivity|discriminate]|right].
      rewrite (got_total _ _ _ AR). exact L. }
  destruct (fun X => ConversionProofs.cv_step_inv _ _ _ _ _ _ SN X TN T) as (_ & _ & _ & MS & _); [exact (got_ok _ _ _ AR)|].
  exists (Conv c s'), (ConversionModel.vo_shipped o). cbn [fstep]. fold rq. fold e. rewrite T. split; [reflexivity|].
  split; [apply (sold_shape _ _ _ eq_refl SH MS)|].
  pose proof (cv_snoc _ _ _ _ _ _ _ _ _ R0 T) as R1. split.
  - split; [exact TP|]. split; [|exists (es ++ [e]), (os ++ [o]); auto]. intro CP. specialize (IC CP).
    assert (N1 : 0 <= Qmin (ConversionModel.vc_throughput c) (qty_of (ConversionModel.vs_input s))) by (apply Q.min_glb; [exact TN|apply mats_qty_nonneg, SN]).
    destruct (fun X => ConversionProofs.cv_step_inv _ _ _ _ _ _ SN X TN T) as (TK' & (SI & _) & _ & _ & _ & AC & _); [exact (got_ok _ _ _ AR)|].
    rewrite TK in TK'. injection TK' as E1. rewrite <- E1 in SI, AC. destruct (ConversionProofs.cv_accept_facts _ _ _ _ _ SI (got_ok _ _ _ AR) AC) as (_ & _ & B3 & _).
    cbn [ConversionModel.ve_receipts e] in B3. unfold ConversionModel.cv_requests, ConversionModel.cv_available in HR.
    destruct (Qle_bool (ConversionModel.vc_capacity c - qty_of (ConversionModel.vs_input (ConversionModel.vo_ticked o0))) 0).
    + apply buys_none in HR; [|reflexivity]. destruct R; [|discriminate]. cbn [map] in B3. rewrite qty_of_nil in B3. lra.
    + pose proof (got_total _ _ _ AR) as GT. destruct (buys_one _ _ _ _ HR eq_refl eq_refl) as [N|L].
      * destruct R; [|discriminate]. cbn [map] in B3. rewrite qty_of_nil in B3. lra.
      * lra.
  - destruct (ConversionProofs.conv_conserved _ _ _ _ _ TN O R0) as [Q0 M0]. destruct (ConversionProofs.conv_conserved _ _ _ _ _ TN OR R1) as [Q1 M1].
    unfold ConversionSpec.cv_received, ConversionSpec.cv_shipped in *. rewrite !flat_map_app in Q1. cbn [flat_map] in Q1. rewrite !app_nil_r in Q1.
    split; [cbn; tauto|]. cbn [inside]. split.
    + rewrite !qty_of_app in *. cbn [ConversionModel.ve_receipts e] in Q1. lra.
    + intros _ n. specialize (M0 n). specialize (M1 n). rewrite !flat_map_app in M1. cbn [flat_map] in M1. rewrite !app_nil_r in M1. rewrite !mass_in_app in *. cbn [ConversionModel.ve_receipts e] in M1. lra.
Qed.
