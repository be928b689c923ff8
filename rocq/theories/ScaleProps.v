(** Property C126: the unit of mass does not matter.  Statements use ScaleSpec.v; proofs are a single [exact] or a computed witness. *)
From Coq Require Import Lia Lqa.
From Verif Require Import Outcome KernelMaterial KernelResBuf KernelBuf KernelFacts KernelMass ScaleSpec ScaleProofs.
From Verif Require ConversionModel StorageModel SinkModel SourceModel MixerModel SeparationsModel ReactorModel EnrichmentModel FuelFabModel.
From Verif Require ScaleSimple ScaleFlow ScaleSeparations ScaleReactor ScaleEnrichment ScaleFuelFab EnrichmentProps FuelFabSpec FuelFabProps.
Local Open Scope Q_scope.

(** The final state and the observations of a run. *)
Definition state_of {A B} (d : A) (r : outcome (A * list B)) : A := match r with Ok (s, _) => s | _ => d end.
Definition seen {A B} (r : outcome (A * list B)) : list B := match r with Ok (_, os) => os | _ => [] end.
Definition un_mix : comp := [(922380000%Z, 1); (942390000%Z, 1)].
Definition un_pu : comp := [(942390000%Z, 1)].
(** The same examples in kilograms ([u] = 1) and in grams ([u] = 1000). *)
Ltac units := repeat first [exact I | match goal with |- mix ?k ?a ?b => change (mix k a a); apply mix_refl; vm_compute; discriminate end | reflexivity | constructor].

Section Conversion.
Import ConversionModel.
(** Whatever the masses are measured in, a conversion facility does the same in every time step of every history; in particular it
    fails in both cases or in none. *)
Theorem C126_conversion : forall k eps eps' c c' es es' s s',
  0 < k -> times k eps eps' -> cv_cfg_more k c c' -> Forall2 (cv_env_more k) es es' -> cv_more k s s' ->
  likewise (fun x y => cv_more k (fst x) (fst y) /\ Forall2 (cv_out_more k) (snd x) (snd y)) (cv_run eps c s es) (cv_run eps' c' s' es').
Proof. exact (fun k eps eps' c c' es es' s s' K E C F H => ScaleSimple.cv_run_more k K eps eps' c c' E C es es' F s s' H). Qed.
Definition un_cv (u : Q) : cv_cfg := {| vc_incommods := ["u3o8"]%string; vc_outcommod := "uf6"; vc_throughput := u * 4; vc_capacity := u * 9 |}.
Definition un_cv_es (u : Q) : list cv_env :=
  [ {| ve_reqs := []; ve_sales := []; ve_receipts := [Mat 1 (u * 3) un_mix; Mat 2 (u * 2) un_pu] |};
    {| ve_reqs := [u * 2]; ve_sales := [u * 2]; ve_receipts := [] |} ].
Example C126_conversion_case : times 1000 (1 * (1 # 10)) (1000 * (1 # 10)) /\ cv_cfg_more 1000 (un_cv 1) (un_cv 1000) /\
  Forall2 (cv_env_more 1000) (un_cv_es 1) (un_cv_es 1000) /\ cv_more 1000 cv_empty cv_empty /\
  map (fun o => List.length (vo_shipped o)) (seen (cv_run (1 * (1 # 10)) (un_cv 1) cv_empty (un_cv_es 1))) = [0%nat; 1%nat].
Proof. split; [reflexivity|]. split; [units|]. split; [units|]. split; [units|]. vm_compute. reflexivity. Qed.

(** The tolerance is the only mass built into the code: with a tolerance of 1 kg or 1 g, the same facility refuses a delivery in
    one unit that it accepts in the other. *)
Theorem C126_tolerance_refuted : exists eps c c' es es', 0 < eps /\ cv_cfg_more 1000 c c' /\ Forall2 (cv_env_more 1000) es es' /\
  ~ likewise (fun x y => cv_more 1000 (fst x) (fst y)) (cv_run eps c cv_empty es) (cv_run eps c' cv_empty es').
Proof.
  exists 1, (un_cv 1), (un_cv 1000), [ {| ve_reqs := []; ve_sales := []; ve_receipts := [Mat 1 (1 * (19 # 2)) un_mix] |} ],
    [ {| ve_reqs := []; ve_sales := []; ve_receipts := [Mat 1 (1000 * (19 # 2)) un_mix] |} ].
  split; [reflexivity|]. split; [units|]. split; [units|]. vm_compute. exact (fun H => H).
Qed.
End Conversion.
Print Assumptions C126_conversion.
Print Assumptions C126_tolerance_refuted.

Section Storage.
Import StorageModel.
Theorem C126_storage : forall k eps eps' c c' es es' s s',
  0 < k -> times k eps eps' -> st_cfg_more k c c' -> Forall2 (st_env_more k) es es' -> st_more k s s' ->
  likewise (fun x y => st_more k (fst x) (fst y) /\ Forall2 (st_out_more k) (snd x) (snd y)) (st_run eps c s es) (st_run eps' c' s' es').
Proof. exact (fun k eps eps' c c' es es' s s' K E C F H => ScaleSimple.st_run_more k K eps eps' c c' E C es es' F s s' H). Qed.
Definition un_st (u : Q) : st_cfg := {| sc_in_commods := ["spent"]%string; sc_in_prefs := []; sc_out_commods := ["cooled"]%string; sc_in_recipe := "";
  sc_residence := 1; sc_throughput := u * 4; sc_max_inv := u * 9; sc_discrete := false; sc_package := ""; sc_transport_unit := "";
  sc_reorder_point := -1; sc_reorder_quantity := -1; sc_cumulative_cap := -1 |}.
Definition un_st_es (u : Q) : list st_env :=
  [ {| se_time := 0; se_sales := []; se_receipts := [Mat 1 (u * 3) un_mix; Mat 2 (u * 2) un_pu] |};
    {| se_time := 1; se_sales := []; se_receipts := [] |};
    {| se_time := 2; se_sales := [u * 3]; se_receipts := [] |} ].
Example C126_storage_case : times 1000 (1 * (1 # 10)) (1000 * (1 # 10)) /\ st_cfg_more 1000 (un_st 1) (un_st 1000) /\
  Forall2 (st_env_more 1000) (un_st_es 1) (un_st_es 1000) /\ st_more 1000 st_empty st_empty /\
  map (fun o => (List.length (to_released (so_tock o)), List.length (so_sold o))) (seen (st_run (1 * (1 # 10)) (un_st 1) st_empty (un_st_es 1))) = [(0, 0); (1, 0); (1, 1)]%nat.
Proof. split; [reflexivity|]. split; [units|]. split; [units|]. split; [units|]. vm_compute. reflexivity. Qed.
End Storage.
Print Assumptions C126_storage.

Section Sink.
Import SinkModel.
(** The random amounts are drawn from ranges in the same unit. *)
Theorem C126_sink : forall k eps eps' eg eg' recipe c c' t s s' es es' g g',
  0 < k -> times k eps eps' -> times k eg eg' -> sk_cfg_more k c c' -> Forall2 (sk_env_more k) es es' -> sk_more k s s' -> rng_more k g g' ->
  sk_more k (sk_new c) (sk_new c') /\ likewise (sk_more k) (sk_enter c g t s) (sk_enter c' g' t s') /\
  likewise (fun x y => sk_more k (fst x) (fst y) /\ Forall2 (sk_out_more k) (snd x) (snd y)) (sk_run eps eg recipe c t s es) (sk_run eps' eg' recipe c' t s' es').
Proof.
  exact (fun k eps eps' eg eg' rc c c' t s s' es es' g g' K E Eg C F H G =>
    conj (ScaleSimple.sk_new_more k c c' C) (conj (ScaleSimple.sk_enter_more k K c c' g g' t s s' C G H) (ScaleSimple.sk_run_more k K eps eps' eg eg' rc c c' E Eg C es es' F t s s' H))).
Qed.
Definition un_sk (u : Q) : sk_cfg := {| kc_commods := ["waste"]%string; kc_prefs := [1]; kc_recipe := ""; kc_max_inv := u * 10; kc_capacity := u * 3;
  kc_size_type := "UniformReal"; kc_size_mean := 1; kc_size_stddev := 1; kc_freq_type := "None"; kc_freq_mean := 1; kc_freq_stddev := 1; kc_freq_min := 1; kc_freq_max := 1 |}.
Definition un_rng : rng := {| g_uniform_real := fun a b => (a + b) / 2; g_normal_real := fun m s a b => m; g_uniform_int := fun a b => a; g_normal_int := fun m s a b => a |}.
Lemma un_rng_more : rng_more 1000 un_rng un_rng.
Proof. split; [|split; [|split; reflexivity]]; cbn; unfold times; intros; [rewrite H, H0; field|exact H]. Qed.
Definition un_sk_es (u : Q) : list sk_env :=
  [ {| ke_rng := un_rng; ke_rng2 := un_rng; ke_mats := [Mat 1 (u * 1) un_mix]; ke_prods := [] |};
    {| ke_rng := un_rng; ke_rng2 := un_rng; ke_mats := []; ke_prods := [u * 1] |} ].
Example C126_sink_case : sk_cfg_more 1000 (un_sk 1) (un_sk 1000) /\ Forall2 (sk_env_more 1000) (un_sk_es 1) (un_sk_es 1000) /\
  sk_more 1000 (sk_new (un_sk 1)) (sk_new (un_sk 1000)) /\ rng_more 1000 un_rng un_rng /\
  map (fun o => match ko_mat o with Some r => Qeq_bool (mq_qty r) (3 # 2) | None => false end)
    (seen (sk_run (1 # 10) (1 # 10) (fun _ => None) (un_sk 1) 0 {| ks_prefs := [1]; ks_inv := []; ks_amt := 0; ks_next := -1 |} (un_sk_es 1))) = [true; true].
Proof.
  split; [units|]. split; [constructor; [|constructor; [|constructor]]; (split; [exact un_rng_more|]; split; [exact un_rng_more|]; split; units)|].
  split; [units|]. split; [exact un_rng_more|]. vm_compute. reflexivity.
Qed.
End Sink.
Print Assumptions C126_sink.

Section Source.
Import SourceModel.
(** Packages have the same size in the other unit; the recipes are not empty. *)
Theorem C126_source : forall k recipe eps eps' eg eg' c c' es es' s s',
  0 < k -> (forall n x, recipe n = Some x -> ~ csum x == 0) -> times k eps eps' -> times k eg eg' -> sr_cfg_more k c c' ->
  Forall2 (sr_env_more k) es es' -> sr_more k s s' ->
  likewise (sr_more k) (sr_build eps recipe c) (sr_build eps' recipe c') /\
  likewise (fun x y => sr_more k (fst x) (fst y) /\ Forall2 (sr_out_more k) (snd x) (snd y)) (sr_run eps eg recipe c s es) (sr_run eps' eg' recipe c' s' es').
Proof.
  exact (fun k rc eps eps' eg eg' c c' es es' s s' K R E Eg C F H =>
    conj (ScaleFlow.sr_build_more k K rc R eps eps' c c' E C) (ScaleFlow.sr_run_more k K rc R eps eps' eg eg' c c' E Eg C es es' F s s' H)).
Qed.
Definition un_rec (n : string) : option comp := if String.eqb n "mix" then Some un_mix else None.
Lemma un_rec_ok n x : un_rec n = Some x -> ~ csum x == 0.
Proof. unfold un_rec. destruct (String.eqb n "mix"); [|discriminate]. intro H. injection H as <-. vm_compute. discriminate. Qed.
Definition un_sr (u : Q) : sr_cfg := {| sc_commod := "fuel"; sc_recipe := "mix"; sc_inv_size := u * 20; sc_throughput := u * 5 |}.
Definition un_fill (n : nat) (q : Q) : list Q := [q / 2; q / 2].
Lemma un_fill_more : fill_more 1000 un_fill un_fill.
Proof. intros j q q' H. unfold un_fill. repeat constructor; unfold times in *; rewrite H; field. Qed.
Definition un_sr_es (u : Q) : list sr_env :=
  [ {| se_fill_bids := un_fill; se_fill := un_fill; se_ship := fun _ => 1%Z; se_reqs := [("fuel"%string, Mat 0 (u * 4) un_pu)]; se_trades := [(u * 4, Mat 0 (u * 4) un_pu)] |} ].
Definition un_sr0 (u : Q) : sr_state := {| ss_inv := {| b_cap := None; b_items := [Mat 0 (u * 20) un_mix] |} |}.
Example C126_source_case : (forall n x, un_rec n = Some x -> ~ csum x == 0) /\ sr_cfg_more 1000 (un_sr 1) (un_sr 1000) /\
  Forall2 (sr_env_more 1000) (un_sr_es 1) (un_sr_es 1000) /\ sr_more 1000 (un_sr0 1) (un_sr0 1000) /\
  sr_build (1 * (1 # 10)) un_rec (un_sr 1) = Ok (un_sr0 1) /\
  map (fun o => map (fun x => Qeq_bool (m_qty (snd x)) 2) (so_sent o)) (seen (sr_run (1 # 10) (1 # 10) un_rec (un_sr 1) (un_sr0 1) (un_sr_es 1))) = [[true]].
Proof.
  split; [exact un_rec_ok|]. split; [units|]. split; [constructor; [|constructor]; (split; [exact un_fill_more|]; split; [exact un_fill_more|]; split; [reflexivity|]; split; units)|].
  split; [units|]. split; vm_compute; reflexivity.
Qed.
End Source.
Print Assumptions C126_source.

Section Mixer.
Import MixerModel.
Theorem C126_mixer : forall k eps eps' c c' es es' s s',
  0 < k -> times k eps eps' -> mx_cfg_more k c c' -> Forall2 (mx_env_more k) es es' -> mx_more k s s' ->
  mx_more k (mx_new c) (mx_new c') /\ likewise (mx_more k) (mx_enter eps c s) (mx_enter eps' c' s') /\
  likewise (fun x y => mx_more k (fst x) (fst y) /\ Forall2 (mx_out_more k) (snd x) (snd y)) (mx_run eps c s es) (mx_run eps' c' s' es').
Proof.
  exact (fun k eps eps' c c' es es' s s' K E C F H => conj (ScaleFlow.mx_new_more k c c' C)
    (conj (ScaleFlow.mx_enter_more k K eps eps' c c' s s' E C H) (ScaleFlow.mx_run_more k K eps eps' c c' E C es es' F s s' H))).
Qed.
Definition un_mx (u : Q) : mx_cfg := {| xc_streams := [ {| xs_ratio := 3 # 4; xs_size := u * 10; xs_commods := [("a"%string, 1)] |};
    {| xs_ratio := 1 # 4; xs_size := u * 10; xs_commods := [("b"%string, 1)] |} ];
  xc_out_commod := "mix"; xc_out_size := u * 20; xc_throughput := u * 4 |}.
Definition un_mx_es (u : Q) : list mx_env :=
  [ {| xe_sales := []; xe_receipts := [(0%nat, Mat 1 (u * 6) un_mix); (1%nat, Mat 2 (u * 2) un_pu)] |}; {| xe_sales := [u * 3]; xe_receipts := [] |} ].
Definition un_mx0 (u : Q) : mx_state := match mx_enter (u * (1 # 10)) (un_mx u) (mx_new (un_mx u)) with Ok s => s | _ => mx_new (un_mx u) end.
Example C126_mixer_case : mx_cfg_more 1000 (un_mx 1) (un_mx 1000) /\ Forall2 (mx_env_more 1000) (un_mx_es 1) (un_mx_es 1000) /\ mx_more 1000 (un_mx0 1) (un_mx0 1000) /\
  map (fun o => map (fun m => Qeq_bool (m_qty m) 3) (xo_shipped o)) (seen (mx_run (1 * (1 # 10)) (un_mx 1) (un_mx0 1) (un_mx_es 1))) = [[]; [true]].
Proof.
  split; [units|]. split; [units|]. split; [|vm_compute; reflexivity].
  let v := eval vm_compute in (un_mx0 1) in change (un_mx0 1) with v. let v := eval vm_compute in (un_mx0 1000) in change (un_mx0 1000) with v. units.
Qed.
End Mixer.
Print Assumptions C126_mixer.

Section Separations.
Import SeparationsModel.
Theorem C126_separations : forall k eps eps' recipe c c' pf es es' s s',
  0 < k -> times k eps eps' -> sp_cfg_more k c c' -> Forall2 (sp_env_more k) es es' -> sp_more k s s' ->
  sp_more k (sp_new c) (sp_new c') /\ likewise (fun x y => sp_more k (fst x) (fst y) /\ snd x = snd y) (sp_enter eps c s) (sp_enter eps' c' s') /\
  likewise (fun x y => sp_more k (fst x) (fst y) /\ Forall2 (sp_out_more k) (snd x) (snd y)) (sp_run eps recipe c pf s es) (sp_run eps' recipe c' pf s' es').
Proof.
  exact (fun k eps eps' rc c c' pf es es' s s' K E C F H => conj (ScaleSeparations.sp_new_more k c c' C)
    (conj (ScaleSeparations.sp_enter_more k K eps eps' c c' s s' E C H) (ScaleSeparations.sp_run_more k K eps eps' rc c c' pf E C es es' F s s' H))).
Qed.
Definition un_sp (u : Q) : sp_cfg :=
  {| pc_feed_commods := ["spent"]%string; pc_feed_prefs := [1]; pc_feed_recipe := "";
     pc_feed_size := u * 100; pc_throughput := u * 10; pc_leftover_commod := "waste"; pc_leftover_size := u * 50;
     pc_streams := [ {| st_name := "pu"; st_cap := u * 3; st_effs := [(940000000%Z, 1 # 1)] |} ]; pc_exit := 20 |}.
Definition un_sp_es (u : Q) : list sp_env :=
  [ {| pe_time := 0; pe_reqs := fun _ => []; pe_trades := []; pe_receipts := [Mat 1 (u * 8) un_mix] |};
    {| pe_time := 1; pe_reqs := fun k => if String.eqb k "pu" then [u * 1] else []; pe_trades := [("pu"%string, u * 1)]; pe_receipts := [] |} ].
Definition un_sp0 (u : Q) : sp_state := {| ps_feed := {| b_cap := Some (u * 100); b_items := [] |}; ps_left := {| b_cap := Some (u * 50); b_items := [] |};
  ps_streams := [("pu"%string, {| b_cap := Some (u * 3); b_items := [] |})] |}.
Example C126_separations_case : sp_cfg_more 1000 (un_sp 1) (un_sp 1000) /\ Forall2 (sp_env_more 1000) (un_sp_es 1) (un_sp_es 1000) /\ sp_more 1000 (un_sp0 1) (un_sp0 1000) /\
  map (fun o => map (fun m => Qeq_bool (m_qty m) 1) (po_shipped o)) (seen (sp_run (1 * (1 # 10)) (fun _ => None) (un_sp 1) [1] (un_sp0 1) (un_sp_es 1))) = [[]; [true]].
Proof.
  split; [units|]. split; [|split; [units|vm_compute; reflexivity]].
  constructor; [|constructor; [|constructor]]; (split; [reflexivity|]; split; [intro c; cbn; try destruct (String.eqb c "pu"); units|]; split; units).
Qed.
End Separations.
Print Assumptions C126_separations.

Section Reactor.
Import ReactorModel.
(** For a reactor the unit of mass is that of the assemblies; power and side products are not masses. *)
Theorem C126_reactor : forall k recipe eps eps' c c' t s s' es es' inr outr pf c0,
  0 < k -> (forall n x, recipe n = Some x -> ~ csum x == 0) -> times k eps eps' -> rx_cfg_more k c c' -> Forall2 (rx_env_more k) es es' -> rx_more k s s' ->
  rx_more k (rx_new c inr outr pf c0) (rx_new c' inr outr pf c0) /\ likewise (rx_more k) (enter_notify c s) (enter_notify c' s') /\
  likewise (Forall2 (rx_out_more k)) (rx_run eps recipe c t s es) (rx_run eps' recipe c' t s' es').
Proof.
  exact (fun k rc eps eps' c c' t s s' es es' inr outr pf c0 K R E C F H => conj (ScaleReactor.rx_new_more k c c' C inr outr pf c0)
    (conj (ScaleReactor.enter_more k c c' C s s' H) (ScaleReactor.rx_run_more k K rc R eps eps' E c c' C es es' F t s s' H))).
Qed.
Definition un_rx (u : Q) : rx_cfg := {| n_batch := 1; n_core := 1; n_fresh := 1; n_spent := 2; assem := u * 3; cycle_t := 1; refuel_t := 0; power_cap := 7;
  incommods := ["in"]%string; outcommods := ["out"]%string; side_products := []; side_qty := []; decom_all := false;
  pc_times := []; pc_commods := []; pc_vals := []; rc_times := []; rc_commods := []; rc_in := []; rc_out := []; exit_t := -1 |}.
Definition un_rx_es (u : Q) : list rx_env :=
  [ {| e_reqs := fun _ => []; e_pick := []; e_deliv := [("in"%string, Mat 1 (u * 3) un_mix)] |};
    {| e_reqs := fun _ => [u * 3]; e_pick := ["out"]%string; e_deliv := [] |} ].
Definition un_rx0 (u : Q) : rx_state := rx_new (un_rx u) ["mix"]%string ["mix"]%string [1] 0.
Definition un_sent (r : outcome (list rx_out)) : list (list string) := match r with Ok os => map (fun o => map fst (o_shipped o)) os | _ => [] end.
Example C126_reactor_case : (forall n x, un_rec n = Some x -> ~ csum x == 0) /\ rx_cfg_more 1000 (un_rx 1) (un_rx 1000) /\ Forall2 (rx_env_more 1000) (un_rx_es 1) (un_rx_es 1000) /\
  rx_more 1000 (un_rx0 1) (un_rx0 1000) /\ un_sent (rx_run (1 * (1 # 10)) un_rec (un_rx 1) 0 (un_rx0 1) (un_rx_es 1)) = [[]; ["out"%string]].
Proof.
  split; [exact un_rec_ok|]. split; [split; reflexivity|]. split; [|split; [units|vm_compute; reflexivity]].
  constructor; [|constructor; [|constructor]]; (split; [intro; units|]; split; [reflexivity|units]).
Qed.
End Reactor.
Print Assumptions C126_reactor.

Section Enrichment.
Import EnrichmentModel.
(** For an enrichment facility separative work is measured in the unit of mass.  Only for requested assays just above the highest
    assay of the product the size of the tolerance matters otherwise; the feed delivered is actual material, and requests name a
    composition. *)
Theorem C126_enrichment : forall k eps eps' eg eg' V aw recipe c c' es es',
  0 < k -> 0 <= eps -> times k eps eps' -> times k eg eg' -> (forall x y, x == y -> V x == V y) -> en_cfg_more k c c' ->
  (forall x, recipe (ec_feed_recipe c) = Some x -> Forall (fun e => 0 <= snd e) x /\ 0 < csum x) ->
  Forall2 (en_env_more k eg eg' c) es es' ->
  likewise (en_more k) (en_build eps recipe c) (en_build eps' recipe c') /\
  forall s s', en_more k s s' -> Forall real (b_items (es_inv s)) ->
  likewise (fun x y => en_more k (fst x) (fst y) /\ Forall2 (en_out_more k) (snd x) (snd y)) (en_run eps eg V aw recipe c s es) (en_run eps' eg' V aw recipe c' s' es').
Proof.
  exact (fun k eps eps' eg eg' V aw rc c c' es es' K P E Eg HV C R F =>
    conj (like_weak _ _ _ _ (ScaleEnrichment.en_build_more k K eps eps' E rc c c' C R) (fun a b H => proj1 H))
      (fun s s' H S => like_weak _ _ _ _ (ScaleEnrichment.en_run_more k K eps eps' eg eg' P E Eg V HV aw rc c c' C es es' F s s' (conj H S)) (fun a b H => conj (proj1 (proj1 H)) (proj2 H)))).
Qed.
Definition un_en (u : Q) : en_cfg := {|
  ec_feed_commod := "natu"; ec_feed_recipe := "natu"; ec_product_commod := "leu"; ec_tails_commod := "tails";
  ec_tails_assay := 1 # 5; ec_initial_feed := u * 20; ec_max_feed := u * 40; ec_max_enrich := 9 # 10;
  ec_order_prefs := true; ec_swu_capacity := u * 6 |}.
Definition un_offer (q : Q) : mat := Mat 0 q EnrichmentProps.nx_prod.
Definition un_en_es (u : Q) : list en_env := [ {| ee_treqs := [un_offer (u * 2)]; ee_preqs := [un_offer (u * 3)];
  ee_trades := [ {| et_commod := "leu"; et_offer := un_offer (u * 3); et_amt := u * 3 |} ]; ee_receipts := [Mat 3 (u * 8) EnrichmentProps.nx_feed] |} ].
Definition un_en0 (u : Q) : en_state := match en_build 0 EnrichmentProps.nx_recipe (un_en u) with Ok s => s | _ => en_new (un_en u) end.
Example C126_enrichment_case : en_cfg_more 1000 (un_en 1) (un_en 1000) /\ Forall2 (en_env_more 1000 (1 # 1000) 1 (un_en 1)) (un_en_es 1) (un_en_es 1000) /\
  en_more 1000 (un_en0 1) (un_en0 1000) /\ Forall real (b_items (es_inv (un_en0 1))) /\
  (forall x, EnrichmentProps.nx_recipe (ec_feed_recipe (un_en 1)) = Some x -> Forall (fun e => 0 <= snd e) x /\ 0 < csum x) /\
  map (fun o => map (fun m => Qeq_bool (m_qty m) 3) (eo_shipped o))
    (seen (en_run 0 (1 # 1000) EnrichmentProps.nx_V EnrichmentProps.nx_aw EnrichmentProps.nx_recipe (un_en 1) (un_en0 1) (un_en_es 1))) = [[true]].
Proof.
  split; [units|]. split.
  { constructor; [|constructor]. split; [units|]. split; [|split; [units|]].
    - constructor; [|constructor]. split; [units|]. split; [vm_compute; discriminate|]. left. vm_compute. reflexivity.
    - constructor; [|constructor]. split; [units|]. split; [apply mat_okb_sound; vm_compute; reflexivity|vm_compute; reflexivity]. }
  split; [let v := eval vm_compute in (un_en0 1) in change (un_en0 1) with v; let v := eval vm_compute in (un_en0 1000) in change (un_en0 1000) with v; units|].
  split; [constructor; [|constructor]; split; [apply mat_okb_sound; vm_compute; reflexivity|vm_compute; reflexivity]|].
  split; [|vm_compute; reflexivity]. intros x H. injection H as <-. split; [repeat constructor; discriminate|vm_compute; reflexivity].
Qed.
End Enrichment.
Print Assumptions C126_enrichment.

Section FuelFab.
Import FuelFabModel.
(** A fuel fabrication facility blends fractions, which have no unit.  CY_NEAR_ZERO is a tolerance on such fractions and stays as it is;
    it is also the least capacity given with the bids, and this is the only number that does not change with the unit ([floored]). *)
Theorem C126_fuel_fab : forall k eps eps' nz D recipe c c' prefs es es',
  0 < k -> times k eps eps' -> (forall n, 0 < d_aw D n) -> (forall n x, recipe n = Some x -> FuelFabSpec.real_comp x) -> ff_cfg_more k c c' ->
  Forall2 (ff_env_more k) es es' ->
  ff_enter c = ff_enter c' /\
  forall s s', ff_more k s s' -> ff_real s ->
  likewise (fun x y => ff_more k (fst x) (fst y) /\ Forall2 (ff_out_more k nz) (snd x) (snd y))
    (ff_run eps nz D recipe c prefs s es) (ff_run eps' nz D recipe c' prefs s' es').
Proof.
  exact (fun k eps eps' nz D rc c c' pf es es' K E A R C F => conj (ScaleFuelFab.ff_enter_more k c c' C)
    (fun s s' H S => like_weak _ _ _ _ (ScaleFuelFab.ff_run_more k K nz eps eps' E D A rc R c c' C pf es es' F s s' (conj H S)) (fun a b H => conj (proj1 (proj1 H)) (proj2 H)))).
Qed.
Definition un_ff (u : Q) : ff_cfg := {|
  fc_fill_commods := ["du"%string]; fc_fill_prefs := [2]; fc_fill_recipe := "du"; fc_fill_size := u * 20;
  fc_fiss_commods := ["pu"; "mox"]%string; fc_fiss_prefs := []; fc_fiss_recipe := ""; fc_fiss_size := u * 10;
  fc_topup_commod := "wg"; fc_topup_pref := 3; fc_topup_recipe := ""; fc_topup_size := u * 5;
  fc_outcommod := "fuel"; fc_throughput := u * 20; fc_spectrum := "fission_spectrum_ave" |}.
Definition un_ff0 (u : Q) : ff_state :=
  {| fb_fill := {| b_cap := Some (u * 20); b_items := [Mat 1 (u * 10) FuelFabProps.fx_u8] |};
     fb_fiss := {| b_cap := Some (u * 10); b_items := [Mat 2 (u * 8) FuelFabProps.fx_fiss] |};
     fb_topup := {| b_cap := Some (u * 5); b_items := [Mat 3 (u * 2) FuelFabProps.fx_pu] |} |}.
Definition un_ff_es (u : Q) : list ff_env :=
  [ {| fe_reqs := [(FuelFabProps.fx_low, u * 4); (FuelFabProps.fx_u8, u * 1); (FuelFabProps.fx_high, u * 2)]; fe_trades := [(0%nat, u * 4); (2%nat, u * 1)];
       fe_receipts := [(1%nat, Mat 5 (u * 2) FuelFabProps.fx_fiss)] |} ].
Example C126_fuel_fab_case : (forall n, 0 < d_aw FuelFabProps.fx_D n) /\ (forall n x, FuelFabProps.fx_recipe n = Some x -> FuelFabSpec.real_comp x) /\
  ff_cfg_more 1000 (un_ff 1) (un_ff 1000) /\ Forall2 (ff_env_more 1000) (un_ff_es 1) (un_ff_es 1000) /\ ff_more 1000 (un_ff0 1) (un_ff0 1000) /\ ff_real (un_ff0 1) /\
  map (fun o => map (fun m => Qeq_bool (m_qty m) 4) (fo_shipped o))
    (seen (ff_run 0 FuelFabProps.fx_nz FuelFabProps.fx_D FuelFabProps.fx_recipe (un_ff 1) FuelFabProps.fx_prefs (un_ff0 1) (un_ff_es 1))) = [[true; false]].
Proof.
  split; [reflexivity|]. split; [exact FuelFabProps.fx_recipes|]. split; [units|]. split.
  { constructor; [|constructor]. split; [units|]. split; [units|]. constructor; [|constructor]. split; [units|]. split; [apply mat_okb_sound; vm_compute; reflexivity|vm_compute; reflexivity]. }
  split; [units|]. split; [|vm_compute; reflexivity].
  split; [|split]; (constructor; [|constructor]; split; [apply mat_okb_sound; vm_compute; reflexivity|vm_compute; reflexivity]).
Qed.
End FuelFab.
Print Assumptions C126_fuel_fab.
