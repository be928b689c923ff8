(** C129, C130: sizes and accounts in the networks of SimulationSpec.v. *)
From Coq Require Import Lia Lqa.
From Verif Require Import Outcome KernelMaterial KernelResBuf KernelBuf KernelFacts KernelMass NetworkSpec SimulationSpec SimulationProofs SimulationNetwork LedgerSpec.
From Verif Require ReactorModel ReactorSpec StorageModel StorageSpec StorageProofs ConversionModel ConversionSpec ConversionProofs StorageGlue MixerModel MixerSpec MixerProofs MixerRun SinkModel SinkSpec SinkProofs SourceModel SourceSpec SourceProofs.
Local Open Scope Q_scope.

Lemma good_bounds w t id f : good w t id f -> in_bounds f.
Proof.
  destruct f as [c s|c s|c s|c s|c s|c s]; cbn [good in_bounds].
  - intros (_ & A & _). exact A.
  - intros (_ & _ & A & _). exact A.
  - intros (_ & _ & _ & A & B). split; [exact A|]. intros i st b H1 H2. apply (B i st b). split; assumption.
  - intros (_ & A & _). exact A.
  - intros (_ & _ & _ & _ & _ & A & _). exact A.
  - intros (_ & _ & A & _). destruct (ReactorSpec.ok_limits _ _ _ A) as (L1 & L2 & L3). split; [exact L1|]. split; [exact L2|]. split; [exact L3|]. exact (ReactorSpec.ok_sizes _ _ _ A).
Qed.
Lemma bounds w t id fs : world_ok w -> reached w t id fs -> Forall in_bounds fs.
Proof.
  intros W H. destruct (reached_good w W _ _ _ H) as [_ A]. unfold all_good in A. eapply Forall_impl; [|exact A]. intros f. apply good_bounds.
Qed.

(** ** Sound material *)
Lemma good_sound w t id f : good w t id f -> inert f -> mats_ok (inside f).
Proof.
  destruct f as [c s|c s|c s|c s|c s|c s]; cbn [good inside inert].
  - intros (TP & _ & es & os & O & R0) _. assert (TN : 0 <= ConversionModel.vc_throughput c) by lra.
    destruct (proj1 (ConversionProofs.cv_run_facts _ _ _ _ _ _ ConversionProofs.cv_empty_sane O TN R0)) as (A & B & _). apply Forall_app. split; assumption.
  - intros (_ & _ & _ & es & os & HI & _ & R0) _. pose proof (StorageGlue.regroup_arrivals _ _ _ _ _ HI R0) as G. apply StorageProofs.regroup_ok in G; [|apply HI].
    apply Forall_app in G as [_ G]. exact G.
  - intros (_ & (_ & _ & B & O & _) & _) _. unfold MixerSpec.mx_held. apply Forall_app. split; [apply Forall_flat_map; exact B|exact O].
  - intros (_ & _ & [E|(r & _ & _ & O & _)]) N; [contradiction|exact O].
  - intros (_ & _ & _ & _ & _ & _ & O) _. exact O.
  - intros _ [].
Qed.

(** ** The books *)
Lemma chronicle_reached w t id fs ever gone : chronicle w t id fs ever gone -> reached w t id fs.
Proof. induction 1; [constructor|apply deploying; assumption|apply (retiring _ _ _ _ f); assumption|eapply stepping; eassumption]. Qed.
Lemma reached_chronicle w t id fs : reached w t id fs -> exists ever gone, chronicle w t id fs ever gone.
Proof.
  induction 1 as [id|t id fs f _ (e & g & H) D|t id a f b _ (e & g & H)|t id fs gs ds fs' sent _ (e & g & H) G O N].
  - exists [], []. constructor.
  - exists (e ++ [f]), g. apply hired; assumption.
  - exists e, (g ++ [f]). apply fired. exact H.
  - exists e, g. eapply lived; eassumption.
Qed.
Lemma declared_right w t f : world_ok w -> deployed w t f -> qty_of (inside f) == declared f.
Proof.
  intros (EP & _). destruct f as [c s|c s|c s|c s|c s|c s]; cbn [deployed declared inside].
  - intros (_ & ->). reflexivity.
  - intros (_ & _ & ->). reflexivity.
  - intros (A & B). rewrite (MixerRun.enter_new _ _ EP) in B. injection B as <-. unfold MixerSpec.mx_held, MixerRun.mx_started.
    cbn [MixerModel.xs_bufs MixerModel.xs_output b_items]. rewrite app_nil_r. induction (MixerModel.xc_streams c) as [|x l IH]; [reflexivity|exact IH].
  - intros (A & B). destruct (SourceProofs.build_facts _ _ _ _ B) as (k & E & _). rewrite E. cbn [b_items]. rewrite qty_of_cons, qty_of_nil. cbn [m_qty]. lra.
  - intros (_ & _ & _ & _ & g & E). destruct (SinkProofs.enter_facts _ _ _ _ E) as (_ & I & _). rewrite I. reflexivity.
  - intros (_ & _ & _ & ->). reflexivity.
Qed.
Lemma stock_app a b : stock (a ++ b) = stock a ++ stock b.
Proof. apply flat_map_app. Qed.
Lemma stock_one f : stock [f] = inside f.
Proof. unfold stock. cbn. apply app_nil_r. Qed.
Lemma stock_cons f l : stock (f :: l) = inside f ++ stock l.
Proof. reflexivity. Qed.

Lemma accounts w t id fs ever gone : world_ok w -> chronicle w t id fs ever gone -> qty_of (stock fs) + qty_of (stock gone) == qsum (map declared ever).
Proof.
  intros W H. induction H as [id|t id fs ever gone f H IH D|t id a f b ever gone H IH|t id fs ever gone gs ds fs' sent H IH G O N].
  - reflexivity.
  - rewrite stock_app, stock_one, qty_of_app, map_app, SinkProofs.qsum_app, <- IH. cbn [map]. change (qsum [declared f]) with (declared f + 0). rewrite (declared_right _ _ _ W D). ring.
  - rewrite <- IH, !stock_app, stock_one, stock_cons, !qty_of_app. ring.
  - destruct (conserved _ _ _ _ _ _ _ _ W (chronicle_reached _ _ _ _ _ _ H) G O N) as [E _]. rewrite E. exact IH.
Qed.
Lemma accounts_nuclide w t id fs ever gone : world_ok w -> chronicle w t id fs ever gone -> Forall inert ever ->
  (Forall inert fs /\ mats_ok (stock gone)) /\ forall n, mass_in n (stock fs) + mass_in n (stock gone) == mass_in n (stock ever).
Proof.
  intros W H. induction H as [id|t id fs ever gone f H IH D|t id a f b ever gone H IH|t id fs ever gone gs ds fs' sent H IH G O N]; intro I.
  - split; [split; constructor|]. intro n. reflexivity.
  - apply Forall_app in I as [I If]. destruct (IH I) as [[A B] C]. split; [split; [apply Forall_app; split; assumption|exact B]|].
    intro n. rewrite !stock_app, !mass_in_app, <- C. ring.
  - destruct (IH I) as [[A B] C]. apply Forall_app in A as [A1 A2]. inversion A2 as [|? ? A3 A4]; subst. split; [split; [apply Forall_app; split; assumption|]|].
    + rewrite stock_app, stock_one. apply Forall_app. split; [exact B|]. destruct (reached_good w W _ _ _ (chronicle_reached _ _ _ _ _ _ H)) as [_ GD].
      apply Forall_app in GD as [_ GD]. inversion GD; subst. eapply good_sound; eassumption.
    + intro n. rewrite <- C, !stock_app, stock_one, stock_cons, !mass_in_app. ring.
  - destruct (IH I) as [[A B] C]. destruct (reached_good w W _ _ _ (chronicle_reached _ _ _ _ _ _ H)) as [T GD].
    destruct (nstep_exists w t id gs fs ds W T G GD O) as (fs2 & s2 & N2 & _ & _ & _ & Q2). destruct (nstep_functional _ _ _ _ _ _ _ _ _ _ (proj1 O) N N2) as [-> _].
    destruct (Q2 A) as [Q3 Q4]. split; [split; assumption|]. intro n. rewrite Q4. apply C.
Qed.
Lemma stock_sound w t id fs : world_ok w -> reached w t id fs -> Forall inert fs -> mats_ok (stock fs).
Proof.
  intros W H I. destruct (reached_good w W _ _ _ H) as [_ GD]. unfold all_good in GD. apply Forall_flat_map. rewrite Forall_forall in *. intros f F. apply (good_sound w t id); auto.
Qed.
Lemma ever_deployed w t id fs ever gone : chronicle w t id fs ever gone -> Forall (fun f => exists t0, deployed w t0 f) ever.
Proof. induction 1; [constructor|apply Forall_app; split; [assumption|constructor; eauto]|assumption|assumption]. Qed.
Lemma brought_none w n t f : world_ok w -> deployed w t f -> brings_no w n f -> inert f -> mass_in n (inside f) == 0.
Proof.
  intros W D B I. assert (Z : inside f = [] -> mass_in n (inside f) == 0) by (intros ->; reflexivity).
  destruct f as [c s|c s|c s|c s|c s|c s]; cbn [deployed brings_no inside inert] in *.
  - destruct D as (_ & ->). reflexivity.
  - destruct D as (_ & _ & ->). reflexivity.
  - destruct D as (A & D). destruct W as (EP & _). rewrite (MixerRun.enter_new _ _ EP) in D. injection D as <-. apply Z. unfold MixerSpec.mx_held, MixerRun.mx_started.
    cbn [MixerModel.xs_bufs MixerModel.xs_output b_items]. rewrite app_nil_r. clear. induction (MixerModel.xc_streams c) as [|x l IH]; [reflexivity|exact IH].
  - destruct D as (A & D). destruct B as (r & R & E). destruct (SourceProofs.build_facts _ _ _ _ D) as (k & S & _ & K). specialize (K I). rewrite R in K. injection K as <-.
    rewrite S. cbn [b_items]. rewrite mass_in_cons, mass_in_nil. destruct W as (_ & _ & RO). destruct (RO _ _ R) as [_ RS]. unfold mass_of. cbn [m_qty m_comp]. rewrite cget_cnorm by exact RS. rewrite E.
    unfold Qdiv. ring.
  - destruct D as (_ & _ & _ & _ & g & E). destruct (SinkProofs.enter_facts _ _ _ _ E) as (_ & J & _). apply Z. rewrite J. reflexivity.
  - destruct I.
Qed.
Lemma foreign_none w n t id fs ever gone : world_ok w -> chronicle w t id fs ever gone -> Forall inert ever -> Forall (brings_no w n) ever ->
  mass_in n (stock fs) == 0.
Proof.
  intros W H I B. destruct (accounts_nuclide _ _ _ _ _ _ W H I) as [[A O] C]. specialize (C n).
  pose proof (mass_in_nonneg n _ (stock_sound _ _ _ _ W (chronicle_reached _ _ _ _ _ _ H) A)) as N1. pose proof (mass_in_nonneg n _ O) as N2.
  assert (Z : mass_in n (stock ever) == 0).
  { pose proof (ever_deployed _ _ _ _ _ _ H) as D. clear -W D I B. induction ever as [|f l IH]; [reflexivity|]. inversion D as [|? ? (t0 & D1) D2]; inversion I; inversion B; subst.
    rewrite stock_cons, mass_in_app, (brought_none _ _ _ _ W D1) by assumption. rewrite IH by assumption. ring. }
  lra.
Qed.
