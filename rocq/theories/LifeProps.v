(** Property C136: what a facility lives through in a network (SimulationSpec.v) is a history as the theorems about a single facility of its archetype assume it; so all of them hold for every
    facility of every network.  Statements use SimulationSpec.v, LifeSpec.v and the specifications of the archetypes; proofs are a single [exact]; the examples follow the networks of
    SimulationProps.v and LedgerProps.v. *)
From Coq Require Import Lia Lqa.
From Verif Require Import Outcome KernelMaterial KernelResBuf KernelBuf KernelFacts KernelMass NetworkSpec SimulationSpec SimulationCheck SimulationProps LedgerSpec LedgerProps LifeSpec LifeProofs LifeReactor.
From Verif Require ReactorModel ReactorSpec StorageModel StorageSpec ConversionModel ConversionSpec MixerModel MixerSpec SinkModel SinkSpec SourceModel SourceSpec.
Local Open Scope Q_scope.

(** Every facility of every network has a diary, *)
Theorem C136_diaries : forall w t id fs, world_ok w -> reached w t id fs -> forall i f, nth_error fs i = Some f -> exists t0 f0 ps, diary w t0 t id fs i f0 ps.
Proof. exact has_diary. Qed.
Print Assumptions C136_diaries.
(** which for a reactor is a history as C01 to C13, C57, C97 to C100 and the other theorems about reactors assume it; *)
Theorem C136_reactor : forall w t0 t id fs i c s0 ps, world_ok w -> diary w t0 t id fs i (Reac c s0) ps ->
  exists os, ReactorSpec.rx_history (w_eps w) (w_recipe w) c t0 s0 (map reac_day ps) os /\ nth_error fs i = Some (Reac c (ReactorSpec.end_state s0 os)) /\
    Forall2 (reac_page c) ps os /\ t = (t0 + Z.of_nat (List.length ps))%Z /\ ReactorSpec.assemblies s0 = [].
Proof. exact reac_life. Qed.
Print Assumptions C136_reactor.
(** for a conversion facility one as C52, C53 and C60 to C62 assume it, *)
Theorem C136_conversion : forall w t0 t id fs i c s0 ps, world_ok w -> diary w t0 t id fs i (Conv c s0) ps ->
  exists s os, ConversionModel.cv_run (w_eps w) c ConversionModel.cv_empty (map (conv_day c) ps) = Ok (s, os) /\ mats_ok (ConversionSpec.cv_received (map (conv_day c) ps)) /\
    nth_error fs i = Some (Conv c s) /\ map pg_sent ps = map ConversionModel.vo_shipped os.
Proof. exact conv_life. Qed.
Print Assumptions C136_conversion.
(** for a storage one as C14 to C20, C58 and C59 assume it, *)
Theorem C136_storage : forall w t0 t id fs i c s0 ps, world_ok w -> diary w t0 t id fs i (Stor c s0) ps ->
  exists s os, StorageModel.st_run (w_eps w) c StorageModel.st_empty (map stor_day ps) = Ok (s, os) /\ StorageSpec.st_history (map stor_day ps) /\ StorageSpec.st_cfg_ok c /\
    nth_error fs i = Some (Stor c s) /\ map pg_sent ps = map StorageModel.so_sold os.
Proof. exact stor_life. Qed.
Print Assumptions C136_storage.
(** for a mixer one as C31 to C33 and C66 to C68 assume it, *)
Theorem C136_mixer : forall w t0 t id fs i c s0 ps, world_ok w -> diary w t0 t id fs i (Mixr c s0) ps ->
  exists s os, MixerSpec.mx_lived (w_eps w) c (map mixr_day ps) s os /\ MixerSpec.mx_sensible c /\ MixerSpec.mx_sane (map mixr_day ps) /\ MixerSpec.exchanges_ok (w_eps w) c s0 (map mixr_day ps) /\
    nth_error fs i = Some (Mixr c s) /\ map pg_sent ps = map MixerModel.xo_shipped os.
Proof. exact mixr_life. Qed.
Print Assumptions C136_mixer.
(** for a source one as C50, C51 and C81 assume it, *)
Theorem C136_source : forall w t0 t id fs i c s0 ps, world_ok w -> diary w t0 t id fs i (Srce c s0) ps ->
  exists s os, SourceSpec.sr_lived (w_eps w) (w_eg w) (w_recipe w) c (map srce_day ps) s os /\ Forall SourceSpec.env_ok (map srce_day ps) /\
    nth_error fs i = Some (Srce c s) /\ map pg_sent ps = map (fun o => map snd (SourceModel.so_sent o)) os.
Proof. exact srce_life. Qed.
Print Assumptions C136_source.
(** and for a sink one as C47, C48 and C77 to C79 assume it. *)
Theorem C136_sink : forall w t0 t id fs i c s0 ps, world_ok w -> diary w t0 t id fs i (Snk c s0) ps ->
  exists g s os, SinkSpec.sk_lived (w_eps w) (w_eg w) (w_recipe w) c g t0 (map snk_day ps) s os /\ SinkSpec.rngs_ok (map snk_day ps) /\ SinkSpec.fair (map snk_day ps) os /\
    nth_error fs i = Some (Snk c s) /\ Forall (fun p => pg_sent p = []) ps.
Proof. exact snk_life. Qed.
Print Assumptions C136_sink.

(** ** The reactor and the sink of the network of SimulationProps.v *)
Definition lf_page (t id : Z) (i : nat) (fs : list fac) (ds : list trade) (fs' : list fac) (sent : list mat) : page :=
  {| pg_time := t; pg_told := sm_sig i; pg_said := get {| n_offers := []; n_asks := [] |} (publish sm_w t (sm_sig i) (nth i fs (Reac sm_rx sm_rx0))); pg_sold := sold_by i ds;
     pg_got := filter (fun x => Nat.eqb (t_to (fst x)) i) (combine ds (renumber id sent));
     pg_sent := map snd (filter (fun x => Nat.eqb (t_from (fst x)) i) (combine ds sent)); pg_now := nth i fs' (Reac sm_rx sm_rx0) |}.
Definition lf_pages (i : nat) : list page := [lf_page 0 0 i sm_fs0 sm_ds0 sm_fs1 sm_sent0; lf_page 1 1 i sm_fs1 sm_ds1 sm_fs2 sm_sent1].
Example lf_deployed : forall f, In f sm_fs0 -> deployed sm_w 0 f.
Proof.
  intros f [<-|[<-|[<-|[]]]].
  - split; [cbn; lra|reflexivity].
  - split; [split; cbn; (lia || lra || reflexivity || discriminate || (left; reflexivity) || idtac)|]. split; [constructor|]. split; [|reflexivity].
    split; cbn; try (repeat split; (lia || reflexivity)); try constructor; repeat constructor; discriminate.
  - split; [cbn; lra|]. split; [cbn; lra|]. split; [discriminate|]. split; [left; reflexivity|]. exists sm_rng. reflexivity.
Qed.
Example lf_source : reached sm_w 0 0 [Srce sm_src sm_src0].
Proof. apply (deploying sm_w 0 0 []); [constructor|]. apply lf_deployed. left. reflexivity. Qed.
Example lf_diary : diary sm_w 0 2 3 sm_fs2 1 (Reac sm_rx sm_rx0) (lf_pages 1).
Proof.
  assert (D0 : diary sm_w 0 0 0 sm_fs0 1 (Reac sm_rx sm_rx0) []).
  { apply (another_begun sm_w 0 0 0 [Srce sm_src sm_src0; Reac sm_rx sm_rx0] 1 (Reac sm_rx sm_rx0) [] (Snk sm_sink sm_sink0)); [|apply lf_deployed; right; right; left; reflexivity].
    apply (begun sm_w 0 0 [Srce sm_src sm_src0] (Reac sm_rx sm_rx0) lf_source). apply lf_deployed. right. left. reflexivity. }
  pose proof (continued sm_w 0 0 0 sm_fs0 1 (Reac sm_rx sm_rx0) [] sm_sig sm_ds0 sm_fs1 sm_sent0 (nth 1 sm_fs0 (Reac sm_rx sm_rx0)) (pg_said (lf_page 0 0 1 sm_fs0 sm_ds0 sm_fs1 sm_sent0)) (nth 1 sm_fs1 (Reac sm_rx sm_rx0))
    D0 sm_signals sm_orderly0 sm_step0 eq_refl eq_refl eq_refl) as D1.
  exact (continued sm_w 0 1 1 sm_fs1 1 (Reac sm_rx sm_rx0) _ sm_sig sm_ds1 sm_fs2 sm_sent1 (nth 1 sm_fs1 (Reac sm_rx sm_rx0)) (pg_said (lf_page 1 1 1 sm_fs1 sm_ds1 sm_fs2 sm_sent1)) (nth 1 sm_fs2 (Reac sm_rx sm_rx0))
    D1 sm_signals sm_orderly1 sm_step1 eq_refl eq_refl eq_refl).
Qed.
Example lf_diary_sink : diary sm_w 0 2 3 sm_fs2 2 (Snk sm_sink sm_sink0) (lf_pages 2).
Proof.
  assert (D0 : diary sm_w 0 0 0 sm_fs0 2 (Snk sm_sink sm_sink0) []).
  { apply (begun sm_w 0 0 [Srce sm_src sm_src0; Reac sm_rx sm_rx0] (Snk sm_sink sm_sink0)); [|apply lf_deployed; right; right; left; reflexivity].
    apply (deploying sm_w 0 0 [Srce sm_src sm_src0] (Reac sm_rx sm_rx0) lf_source). apply lf_deployed. right. left. reflexivity. }
  pose proof (continued sm_w 0 0 0 sm_fs0 2 (Snk sm_sink sm_sink0) [] sm_sig sm_ds0 sm_fs1 sm_sent0 (nth 2 sm_fs0 (Reac sm_rx sm_rx0)) (pg_said (lf_page 0 0 2 sm_fs0 sm_ds0 sm_fs1 sm_sent0)) (nth 2 sm_fs1 (Reac sm_rx sm_rx0))
    D0 sm_signals sm_orderly0 sm_step0 eq_refl eq_refl eq_refl) as D1.
  exact (continued sm_w 0 1 1 sm_fs1 2 (Snk sm_sink sm_sink0) _ sm_sig sm_ds1 sm_fs2 sm_sent1 (nth 2 sm_fs1 (Reac sm_rx sm_rx0)) (pg_said (lf_page 1 1 2 sm_fs1 sm_ds1 sm_fs2 sm_sent1)) (nth 2 sm_fs2 (Reac sm_rx sm_rx0))
    D1 sm_signals sm_orderly1 sm_step1 eq_refl eq_refl eq_refl).
Qed.
Definition lf_outs : list ReactorModel.rx_out := get [] (ReactorModel.rx_run (w_eps sm_w) (w_recipe sm_w) sm_rx 0 sm_rx0 (map reac_day (lf_pages 1))).
Example C136_case : world_ok sm_w /\ diary sm_w 0 2 3 sm_fs2 1 (Reac sm_rx sm_rx0) (lf_pages 1) /\ diary sm_w 0 2 3 sm_fs2 2 (Snk sm_sink sm_sink0) (lf_pages 2) /\
  map (fun p => List.length (pg_got p)) (lf_pages 1) = [1; 1]%nat /\ map (fun p => map m_qty (map snd (pg_got p))) (lf_pages 2) = [[]; [10]] /\
  map ReactorSpec.power_record lf_outs = [[5]; [5]].
Proof. split; [exact sm_world|]. split; [exact lf_diary|]. split; [exact lf_diary_sink|]. vm_compute. repeat split. Qed.

(** So, in any network: a reactor without retirement date whose orders are all filled and whose spent fuel is all taken away in the step it is offered produces power according to plan from the step it
    is deployed on. *)
Theorem C136_supplied : forall w t0 t id fs i c s0 ps os, world_ok w -> diary w t0 t id fs i (Reac c s0) ps -> (1 <= ReactorModel.cycle_t c)%Z -> (0 <= ReactorModel.refuel_t c)%Z ->
  (ReactorModel.exit_t c = -1)%Z -> (ReactorModel.cyc s0 = 0)%Z -> ReactorModel.disch s0 = false -> (Z.min (ReactorModel.n_batch c) (ReactorModel.n_core c) <= ReactorModel.n_spent c)%Z ->
  Forall (fun p => List.length (pg_got p) = List.length (n_asks (pg_said p)) /\ forall s, pg_now p = Reac c s -> rb_items (ReactorModel.spent s) = []) ps ->
  ReactorModel.rx_run (w_eps w) (w_recipe w) c t0 s0 (map reac_day ps) = Ok os ->
  let period := (ReactorModel.cycle_t c + ReactorModel.refuel_t c)%Z in
  forall j o, nth_error os j = Some o ->
  (ReactorSpec.has ReactorModel.EvCycleStart o <-> (Z.of_nat j mod period = 0)%Z) /\
  ReactorSpec.power_record o = [if (Z.of_nat j mod period <? ReactorModel.cycle_t c)%Z then ReactorModel.power_cap c else 0%Q].
Proof. exact reac_supplied. Qed.
Print Assumptions C136_supplied.
Example C136_supplied_case : diary sm_w 0 2 3 sm_fs2 1 (Reac sm_rx sm_rx0) (lf_pages 1) /\
  Forall (fun p => List.length (pg_got p) = List.length (n_asks (pg_said p)) /\ forall s, pg_now p = Reac sm_rx s -> rb_items (ReactorModel.spent s) = []) (lf_pages 1) /\
  List.length lf_outs = 2%nat.
Proof.
  split; [exact lf_diary|]. split; [|vm_compute; reflexivity].
  repeat constructor; intros s X; vm_compute in X; injection X as <-; reflexivity.
Qed.
