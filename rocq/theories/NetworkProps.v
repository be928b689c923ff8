(** Properties C95 and C96: material in a network of facilities.  Statements use
    NetworkSpec.v; proofs are a single [exact] or a computed witness. *)
From Coq Require Import Permutation Lia Lqa.
From Verif Require Import Outcome KernelMaterial KernelResBuf KernelBuf KernelMass NetworkSpec NetworkProofs.
From Verif Require ReactorModel ReactorSpec ReactorCheck StorageModel StorageSpec StorageGlue ConversionModel SinkModel SinkSpec
  SourceModel SourceSpec FuelFabModel EnrichmentSpec.
Local Open Scope Q_scope.

(** ** C95: no mass is made or lost in a network *)
Theorem C95_mass : forall w net, world_ok w -> Forall (lives w) net -> closed net ->
  qty_of (present net) == qty_of (brought net).
Proof. exact network_mass. Qed.
Print Assumptions C95_mass.

(** ** C96: without reactors no nuclide is made or lost either *)
Theorem C96_nuclides : forall w net, world_ok w -> Forall (lives w) net ->
  Forall (fun l => keeps_nuclides w (l_kind l)) net -> closed net ->
  forall n, mass_in n (present net) == mass_in n (brought net).
Proof. exact network_nuclides. Qed.
Print Assumptions C96_nuclides.

(** ** A worked network: a source supplies a reactor, whose spent fuel goes to a storage deployed
    two steps later, which sells to a sink. *)
Definition nw_fresh : comp := [(922350000%Z, 1); (922380000%Z, 19)].
Definition nw_spent : comp := [(922380000%Z, 18); (942390000%Z, 1); (551370000%Z, 1)].
Definition nw_recipe (k : string) : option comp :=
  if String.eqb k "fresh" then Some nw_fresh else if String.eqb k "spent" then Some nw_spent else None.
Definition nw_world : world :=
  {| w_eps := 0; w_eg := 0; w_nz := 0; w_D := {| FuelFabModel.d_aw := fun _ => 1; FuelFabModel.d_xs := fun _ _ _ => None |};
     w_V := fun x => x; w_aw := fun _ => 1; w_recipe := nw_recipe |}.
Example nw_world_ok : world_ok nw_world.
Proof.
  split; [apply Qle_refl|]. split; [apply Qle_refl|]. intros k c E. cbn in E. unfold nw_recipe in E.
  destruct (String.eqb k "fresh"); [|destruct (String.eqb k "spent"); [|discriminate]]; injection E as <-;
    (split; [repeat (apply Forall_cons || apply Forall_nil); vm_compute; discriminate|vm_compute; reflexivity]).
Qed.
(** The source: two trades of 10 in step 0 and one in step 2. *)
Definition nw_scfg (inv : Q) : SourceModel.sr_cfg :=
  {| SourceModel.sc_commod := "fuel"; SourceModel.sc_recipe := "fresh"; SourceModel.sc_inv_size := inv; SourceModel.sc_throughput := 20 |}.
Definition nw_senv (qs : list Q) : SourceModel.sr_env :=
  {| SourceModel.se_fill_bids := fun _ q => [q]; SourceModel.se_fill := fun _ q => [q]; SourceModel.se_ship := fun n => n;
     SourceModel.se_reqs := []; SourceModel.se_trades := map (fun q => (q, Mat 0 q nw_fresh)) qs |}.
Definition nw_ses : list SourceModel.sr_env := map nw_senv [[10; 10]; []; [10]; []; []; []].
Definition nw_s0 : SourceModel.sr_state :=
  match SourceModel.sr_build 0 nw_recipe (nw_scfg 100) with Ok s => s | _ => {| SourceModel.ss_inv := new_buf |} end.
Definition nw_srun := SourceModel.sr_run 0 0 nw_recipe (nw_scfg 100) nw_s0 nw_ses.
Definition nw_s : SourceModel.sr_state := match nw_srun with Ok (s, _) => s | _ => nw_s0 end.
Definition nw_sos : list SourceModel.sr_out := match nw_srun with Ok (_, os) => os | _ => [] end.
Lemma nw_filler : SourceSpec.filler_ok (fun _ q => [q]).
Proof. intros i q P. cbn. split; [constructor; [exact P|constructor]|lra]. Qed.
Lemma nw_senvs qss : Forall (Forall (fun q => 0 <= q)) qss ->
  Forall SourceSpec.env_ok (map nw_senv qss) /\ Forall (SourceSpec.tidy 0) (map nw_senv qss).
Proof.
  intro H. split; apply Forall_map; (eapply Forall_impl; [|exact H]); intros qs Hq.
  - split; [exact nw_filler|]. split; [exact nw_filler|]. apply Forall_map. exact Hq.
  - intros i amt target q _ _. cbn. split; [lia|]. left. lra.
Qed.
Example nw_ses_ok : Forall SourceSpec.env_ok nw_ses /\ Forall (SourceSpec.tidy 0) nw_ses.
Proof. apply nw_senvs. repeat (apply Forall_cons || apply Forall_nil); vm_compute; discriminate. Qed.
(** The reactor: a core of one assembly, one spare, cycles of one step. *)
Definition nw_rcfg : ReactorModel.rx_cfg :=
  {| ReactorModel.n_batch := 1; ReactorModel.n_core := 1; ReactorModel.n_fresh := 1; ReactorModel.n_spent := 2; ReactorModel.assem := 10%Q;
     ReactorModel.cycle_t := 1; ReactorModel.refuel_t := 0; ReactorModel.power_cap := 1000%Q;
     ReactorModel.incommods := ["fuel"]%string; ReactorModel.outcommods := ["spent"]%string;
     ReactorModel.side_products := []; ReactorModel.side_qty := []; ReactorModel.decom_all := false;
     ReactorModel.pc_times := []; ReactorModel.pc_commods := []; ReactorModel.pc_vals := [];
     ReactorModel.rc_times := []; ReactorModel.rc_commods := []; ReactorModel.rc_in := []; ReactorModel.rc_out := [];
     ReactorModel.exit_t := 99 |}.
Definition nw_r0 : ReactorModel.rx_state :=
  match ReactorModel.enter_notify nw_rcfg (ReactorModel.rx_new nw_rcfg ["fresh"]%string ["spent"]%string [1%Q] 0) with
  | Ok s => s | _ => ReactorModel.rx_new nw_rcfg [] [] [] 0 end.
Definition nw_renv (o : SourceModel.sr_out) (t : Z) (picks : list string) : ReactorModel.rx_env :=
  {| ReactorModel.e_reqs := fun _ => [10]; ReactorModel.e_pick := picks;
     ReactorModel.e_deliv := map (fun jm => ("fuel"%string, Mat (10 * t + Z.of_nat (fst jm)) (m_qty (snd jm)) (m_comp (snd jm)))) (SourceModel.so_sent o) |}.
Definition nw_res : list ReactorModel.rx_env :=
  map (fun otp => nw_renv (fst otp) (fst (snd otp)) (snd (snd otp)))
    (combine nw_sos [(0, []); (1, []); (2, ["spent"%string]); (3, ["spent"%string]); (4, []); (5, [])]%Z).
Definition nw_ros : list ReactorModel.rx_out :=
  match ReactorModel.rx_run 0 nw_recipe nw_rcfg 0 nw_r0 nw_res with Ok os => os | _ => [] end.
Example nw_reactor : ReactorSpec.rx_history 0 nw_recipe nw_rcfg 0 nw_r0 nw_res nw_ros.
Proof.
  constructor.
  - discriminate.
  - apply ReactorCheck.config_consistentb_sound. vm_compute. reflexivity.
  - repeat constructor; discriminate.
  - apply ReactorCheck.reactor_okb_sound. vm_compute. reflexivity.
  - apply ReactorCheck.run_contractb_sound. vm_compute. reflexivity.
  - vm_compute. reflexivity.
Qed.
(** The storage: holds parcels for one step; 4 kg are sold in its fourth step. *)
Definition nw_tcfg : StorageModel.st_cfg := {|
  StorageModel.sc_in_commods := ["spent"]%string; StorageModel.sc_in_prefs := [1];
  StorageModel.sc_out_commods := ["aged"]%string; StorageModel.sc_in_recipe := ""; StorageModel.sc_residence := 1; StorageModel.sc_throughput := 50;
  StorageModel.sc_max_inv := 40; StorageModel.sc_discrete := false; StorageModel.sc_package := "unpackaged";
  StorageModel.sc_transport_unit := "unrestricted"; StorageModel.sc_reorder_point := -(1); StorageModel.sc_reorder_quantity := 0;
  StorageModel.sc_cumulative_cap := 0 |}.
Definition nw_tes : list StorageModel.st_env :=
  map (fun ots => {| StorageModel.se_time := fst (snd ots); StorageModel.se_sales := snd (snd ots);
                     StorageModel.se_receipts := map snd (ReactorModel.o_shipped (fst ots)) |})
    (combine (skipn 2 nw_ros) [(2%Z, []); (3%Z, []); (4%Z, [4]); (5%Z, [2; 5])]).
Definition nw_trun := StorageModel.st_run 0 nw_tcfg StorageModel.st_empty nw_tes.
Definition nw_t : StorageModel.st_state := match nw_trun with Ok (s, _) => s | _ => StorageModel.st_empty end.
Definition nw_tos : list StorageModel.st_out := match nw_trun with Ok (_, os) => os | _ => [] end.
(** The sink, deployed with the storage. *)
Definition nw_rng : SinkModel.rng :=
  {| SinkModel.g_uniform_real := fun lo _ => lo; SinkModel.g_normal_real := fun _ _ lo _ => lo;
     SinkModel.g_uniform_int := fun lo _ => lo; SinkModel.g_normal_int := fun _ _ lo _ => lo |}.
Definition nw_kcfg : SinkModel.sk_cfg := {|
  SinkModel.kc_commods := ["aged"]%string; SinkModel.kc_prefs := []; SinkModel.kc_recipe := ""; SinkModel.kc_max_inv := 1000; SinkModel.kc_capacity := 100;
  SinkModel.kc_size_type := "None"; SinkModel.kc_size_mean := 1; SinkModel.kc_size_stddev := 1 # 10;
  SinkModel.kc_freq_type := "None"; SinkModel.kc_freq_mean := 2; SinkModel.kc_freq_stddev := 1; SinkModel.kc_freq_min := 1; SinkModel.kc_freq_max := 3 |}.
Definition nw_kes : list SinkModel.sk_env :=
  map (fun o => {| SinkModel.ke_rng := nw_rng; SinkModel.ke_rng2 := nw_rng; SinkModel.ke_mats := StorageModel.so_sold o; SinkModel.ke_prods := [] |}) nw_tos.
Definition nw_krun := let* s0 := SinkModel.sk_enter nw_kcfg nw_rng 2 (SinkModel.sk_new nw_kcfg) in SinkModel.sk_run 0 0 nw_recipe nw_kcfg 2 s0 nw_kes.
Definition nw_k : SinkModel.sk_state := match nw_krun with Ok (s, _) => s | _ => SinkModel.sk_new nw_kcfg end.
Definition nw_kos : list SinkModel.sk_out := match nw_krun with Ok (_, os) => os | _ => [] end.

Definition nw_source_life : life :=
  {| l_kind := ASource "fresh"; l_born := 0; l_initial := b_items (SourceModel.ss_inv nw_s0); l_final := b_items (SourceModel.ss_inv nw_s);
     l_in := map (fun _ => []) nw_ses; l_out := map (fun o => map snd (SourceModel.so_sent o)) nw_sos |}.
Definition nw_reactor_life : life :=
  {| l_kind := AReactor; l_born := 0; l_initial := ReactorSpec.assemblies nw_r0; l_final := ReactorSpec.assemblies (ReactorSpec.end_state nw_r0 nw_ros);
     l_in := map (fun e => map snd (ReactorModel.e_deliv e)) nw_res; l_out := map (fun o => map snd (ReactorModel.o_shipped o)) nw_ros |}.
Definition nw_storage_life : life :=
  {| l_kind := AStorage; l_born := 2; l_initial := [];
     l_final := StorageModel.ss_stocks nw_t ++ StorageModel.ss_ready nw_t ++ StorageModel.ss_processing nw_t ++ StorageModel.ss_inventory nw_t;
     l_in := map StorageModel.se_receipts nw_tes; l_out := map StorageModel.so_sold nw_tos |}.
Definition nw_sink_life : life :=
  {| l_kind := ASink; l_born := 2; l_initial := []; l_final := sunk (SinkModel.ks_inv nw_k);
     l_in := map SinkModel.ke_mats nw_kes; l_out := map (fun _ => []) nw_kos |}.
Definition nw_net : list life := [nw_source_life; nw_reactor_life; nw_storage_life; nw_sink_life].
Example nw_source_lives : lives nw_world nw_source_life.
Proof.
  apply (source_life nw_world 0 (nw_scfg 100) nw_ses nw_s0 nw_s nw_sos); [vm_compute; discriminate|apply nw_ses_ok|apply nw_ses_ok| |].
  - vm_compute. reflexivity.
  - vm_compute. reflexivity.
Qed.
Example nw_sink_lives : lives nw_world nw_sink_life.
Proof.
  apply (sink_life nw_world 2 nw_kcfg nw_rng 2 nw_kes nw_k nw_kos); [vm_compute; discriminate| |].
  - apply Forall_map, Forall_forall. intros o _. assert (R : SinkSpec.rng_ok nw_rng); [|split; exact R].
    unfold SinkSpec.rng_ok, nw_rng; cbn. repeat split; intros; (lra || lia).
  - eexists. split; [vm_compute; reflexivity|]. vm_compute. reflexivity.
Qed.
Example nw_lives : Forall (lives nw_world) nw_net.
Proof.
  apply Forall_cons; [exact nw_source_lives|]. apply Forall_cons; [exact (reactor_life nw_world 0 _ _ _ _ _ nw_reactor)|].
  apply Forall_cons; [|apply Forall_cons; [exact nw_sink_lives|apply Forall_nil]].
  apply (storage_life nw_world 2 nw_tcfg nw_tes nw_t nw_tos); [apply StorageGlue.st_historyb_sound; vm_compute; reflexivity|].
  vm_compute. reflexivity.
Qed.
(** Checking that a network is closed: compare step by step up to the last. *)
Lemma closed_by net N : Forall (fun l => (span l <= N)%nat) net ->
  Forall (fun k => map parcel (flat_map (received_at k) net) = map parcel (flat_map (shipped_at k) net)) (seq 0 N) -> closed net.
Proof. exact (closed_check net N). Qed.
Example nw_closed : closed nw_net.
Proof.
  apply (closed_by nw_net 20); [repeat (apply Forall_cons || apply Forall_nil); vm_compute; lia|].
  cbn [seq]. repeat (apply Forall_cons || apply Forall_nil); vm_compute; reflexivity.
Qed.
Example C95_nontrivial : qty_of (brought nw_net) == 100 /\ qty_of (l_final nw_reactor_life) == 10 /\
  qty_of (l_final nw_storage_life) == 9 /\ qty_of (l_final nw_sink_life) == 11 /\ qty_of (present nw_net) == 100.
Proof. split; [vm_compute; reflexivity|]. split; [vm_compute; reflexivity|]. split; [vm_compute; reflexivity|]. split; vm_compute; reflexivity. Qed.

(** A network that keeps nuclides: the source supplies a conversion facility, which sells to a sink. *)
Definition nw_vcfg : ConversionModel.cv_cfg :=
  {| ConversionModel.vc_incommods := ["fuel"]%string; ConversionModel.vc_outcommod := "conv"; ConversionModel.vc_throughput := 8; ConversionModel.vc_capacity := 40 |}.
Definition nw_ves : list ConversionModel.cv_env :=
  map (fun oq => {| ConversionModel.ve_reqs := []; ConversionModel.ve_sales := snd oq; ConversionModel.ve_receipts := map snd (SourceModel.so_sent (fst oq)) |})
    (combine nw_sos [[]; []; [5]; []; []; []]).
Definition nw_vrun := ConversionModel.cv_run 0 nw_vcfg ConversionModel.cv_empty nw_ves.
Definition nw_v : ConversionModel.cv_state := match nw_vrun with Ok (s, _) => s | _ => ConversionModel.cv_empty end.
Definition nw_vos : list ConversionModel.cv_out := match nw_vrun with Ok (_, os) => os | _ => [] end.
Definition nw_kes2 : list SinkModel.sk_env :=
  map (fun o => {| SinkModel.ke_rng := nw_rng; SinkModel.ke_rng2 := nw_rng; SinkModel.ke_mats := ConversionModel.vo_shipped o; SinkModel.ke_prods := [] |}) nw_vos.
Definition nw_krun2 := let* s0 := SinkModel.sk_enter nw_kcfg nw_rng 0 (SinkModel.sk_new nw_kcfg) in SinkModel.sk_run 0 0 nw_recipe nw_kcfg 0 s0 nw_kes2.
Definition nw_k2 : SinkModel.sk_state := match nw_krun2 with Ok (s, _) => s | _ => SinkModel.sk_new nw_kcfg end.
Definition nw_kos2 : list SinkModel.sk_out := match nw_krun2 with Ok (_, os) => os | _ => [] end.
Definition nw_conv_life : life :=
  {| l_kind := AConversion; l_born := 0; l_initial := []; l_final := ConversionModel.vs_input nw_v ++ ConversionModel.vs_output nw_v;
     l_in := map ConversionModel.ve_receipts nw_ves; l_out := map ConversionModel.vo_shipped nw_vos |}.
Definition nw_sink_life2 : life :=
  {| l_kind := ASink; l_born := 0; l_initial := []; l_final := sunk (SinkModel.ks_inv nw_k2);
     l_in := map SinkModel.ke_mats nw_kes2; l_out := map (fun _ => []) nw_kos2 |}.
Definition nw_net2 : list life := [nw_source_life; nw_conv_life; nw_sink_life2].
Example nw_lives2 : Forall (lives nw_world) nw_net2 /\ Forall (fun l => keeps_nuclides nw_world (l_kind l)) nw_net2 /\ closed nw_net2.
Proof.
  split; [|split].
  - apply Forall_cons; [exact nw_source_lives|]. apply Forall_cons; [|apply Forall_cons; [|apply Forall_nil]].
    + apply (conversion_life nw_world 0 nw_vcfg nw_ves nw_v nw_vos); [vm_compute; discriminate| |vm_compute; reflexivity].
      repeat (apply Forall_cons || apply Forall_nil || split); try (vm_compute; discriminate); left; vm_compute; reflexivity.
    + apply (sink_life nw_world 0 nw_kcfg nw_rng 0 nw_kes2 nw_k2 nw_kos2); [vm_compute; discriminate| |].
      * apply Forall_map, Forall_forall. intros o _. assert (R : SinkSpec.rng_ok nw_rng); [|split; exact R].
        unfold SinkSpec.rng_ok, nw_rng; cbn. repeat split; intros; (lra || lia).
      * eexists. split; [vm_compute; reflexivity|]. vm_compute. reflexivity.
  - repeat (apply Forall_cons || apply Forall_nil); cbn; try exact I. discriminate.
  - apply (closed_by nw_net2 20); [repeat (apply Forall_cons || apply Forall_nil); vm_compute; lia|].
    cbn [seq]. repeat (apply Forall_cons || apply Forall_nil); vm_compute; reflexivity.
Qed.
Example C96_nontrivial : mass_in 922350000 (brought nw_net2) == 5 /\ qty_of (l_final nw_conv_life) == 25 /\
  qty_of (l_final nw_sink_life2) == 5.
Proof. split; [vm_compute; reflexivity|]. split; vm_compute; reflexivity. Qed.
