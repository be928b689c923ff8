(** C123: the order in which the deliveries and the sales of a time step reach a facility does not matter. *)
From Coq Require Import Lqa Lia Permutation.
From Verif Require Import Outcome KernelMaterial KernelResBuf KernelBuf KernelFacts KernelMass OrderSpec OrderFacilities OrderReactor.
From Verif Require ConversionModel StorageModel SinkModel EnrichmentModel EnrichmentSpec EnrichmentBids EnrichmentProps MixerModel MixerSpec MixerProps SeparationsModel SeparationsSpec SeparationsRun
  SeparationsProps FuelFabModel FuelFabSpec FuelFabProps ReactorModel ReactorSpec ReactorCheck ReactorServiceProps SourceModel.
Local Open Scope Q_scope.

Definition ox_u : comp := [(922350000%Z, 1); (922380000%Z, 3)].
Definition ox_pu : comp := [(942390000%Z, 1)].

(** ** Conversion: what is sold in a step, and what is delivered *)
Theorem C123_conversion_sales : forall amts amts' out, mats_ok out -> Forall (fun q => 0 < q) amts -> Permutation amts amts' -> qsum amts <= qty_of out ->
  exists r r' ms ms', ConversionModel.cv_trades amts out [] = Ok (r, ms) /\ ConversionModel.cv_trades amts' out [] = Ok (r', ms') /\
    Forall2 (fun q m => m_qty m == q) amts ms /\ Forall2 (fun q m => m_qty m == q) amts' ms' /\ same_content r r'.
Proof. exact conversion_sales. Qed.
Print Assumptions C123_conversion_sales.
Theorem C123_conversion_deliveries : forall eps cfg ms ms' inp, 0 <= eps -> mats_ok inp -> mats_ok ms -> Permutation ms ms' -> qty_of inp + qty_of ms <= ConversionModel.vc_capacity cfg ->
  exists r r', ConversionModel.cv_accept eps cfg ms inp = Ok r /\ ConversionModel.cv_accept eps cfg ms' inp = Ok r' /\ same_content r r'.
Proof. exact conversion_deliveries. Qed.
Print Assumptions C123_conversion_deliveries.
Definition ox_stock : list mat := [Mat 1 3 ox_u; Mat 2 4 ox_pu].
Definition ox_new : list mat := [Mat 3 2 ox_u; Mat 4 1 ox_pu].
Example C123_conversion_nontrivial : mats_ok ox_stock /\ mats_ok ox_new /\ Forall (fun q => 0 < q) [1; 5] /\ Permutation [1; 5] [5; 1] /\ qsum [1; 5] <= qty_of ox_stock /\
  Permutation ox_new (rev ox_new) /\ qty_of ox_stock + qty_of ox_new <= 10 /\
  exists r, ConversionModel.cv_trades [1; 5] ox_stock [] = Ok r /\ Qeq_bool (mass_in 942390000 (snd r)) 3 = true.
Proof.
  split; [apply mats_okb_sound; reflexivity|]. split; [apply mats_okb_sound; reflexivity|]. split; [repeat constructor|]. split; [apply perm_swap|]. split; [vm_compute; discriminate|].
  split; [apply Permutation_rev|]. split; [vm_compute; discriminate|]. eexists. split; [vm_compute; reflexivity|vm_compute; reflexivity].
Qed.

(** ** Storage: both *)
Section STORAGE.
Import StorageModel.
Theorem C123_storage : forall eps e e' s, 0 <= eps -> mats_ok (ss_stocks s) -> Forall (fun q => 0 < q) (se_sales e) -> qsum (se_sales e) <= qty_of (ss_stocks s) ->
  Permutation (se_sales e) (se_sales e') -> Permutation (se_receipts e) (se_receipts e') ->
  exists s1 s1' ms ms', st_trade eps e s = Ok (s1, ms) /\ st_trade eps e' s = Ok (s1', ms') /\
    Forall2 (fun q m => m_qty m == q) (se_sales e) ms /\ Forall2 (fun q m => m_qty m == q) (se_sales e') ms' /\
    same_content (ss_stocks s1) (ss_stocks s1') /\ Permutation (ss_inventory s1) (ss_inventory s1') /\
    ss_processing s1 = ss_processing s1' /\ ss_entry_times s1 = ss_entry_times s1' /\ ss_ready s1 = ss_ready s1'.
Proof. exact storage_trades. Qed.
Print Assumptions C123_storage.
Definition ox_store : st_state := {| ss_inventory := [Mat 7 1 ox_u]; ss_processing := [Mat 8 1 ox_u]; ss_entry_times := [2%Z]; ss_ready := []; ss_stocks := ox_stock |}.
Definition ox_store_e : st_env := {| se_time := 3%Z; se_sales := [1; 5]; se_receipts := ox_new |}.
Definition ox_store_e' : st_env := {| se_time := 3%Z; se_sales := [5; 1]; se_receipts := rev ox_new |}.
Example C123_storage_nontrivial : mats_ok (ss_stocks ox_store) /\ qsum (se_sales ox_store_e) <= qty_of (ss_stocks ox_store) /\
  Permutation (se_sales ox_store_e) (se_sales ox_store_e') /\ Permutation (se_receipts ox_store_e) (se_receipts ox_store_e').
Proof. split; [apply mats_okb_sound; reflexivity|]. split; [vm_compute; discriminate|]. split; [apply perm_swap|apply Permutation_rev]. Qed.
End STORAGE.

(** ** Sink: deliveries *)
Section SINK.
Import SinkModel.
Theorem C123_sink : forall eps cfg rs rs' s, 0 <= eps -> Forall (fun r => 0 <= r_qty r) rs -> Permutation rs rs' -> qsum (map r_qty (ks_inv s)) + qsum (map r_qty rs) <= kc_max_inv cfg ->
  exists s1 s1', sk_accept eps cfg rs s = Ok s1 /\ sk_accept eps cfg rs' s = Ok s1' /\ Permutation (ks_inv s1) (ks_inv s1') /\
    ks_prefs s1 = ks_prefs s1' /\ ks_amt s1 = ks_amt s1' /\ ks_next s1 = ks_next s1'.
Proof. exact sink_deliveries. Qed.
Print Assumptions C123_sink.
Definition ox_sink_cfg : sk_cfg := {| kc_commods := ["w"]; kc_prefs := [1]; kc_recipe := ""; kc_max_inv := 10; kc_capacity := 100;
  kc_size_type := "None"; kc_size_mean := 1; kc_size_stddev := 1; kc_freq_type := "None"; kc_freq_mean := 1; kc_freq_stddev := 1;
  kc_freq_min := 1; kc_freq_max := 1 |}%string.
Definition ox_sink : sk_state := {| ks_prefs := [1]; ks_inv := []; ks_amt := 5; ks_next := -1 |}.
Definition ox_waste (q : Q) : rsrc := {| r_qty := q; r_comp := Some ox_u |}.
(** Beyond the capacity, within the tolerance, the order does matter: the same two deliveries are accepted in one order and refused in the other. *)
Theorem C123_tolerance_refuted : exists eps cfg rs rs' s s1, 0 <= eps /\ Forall (fun r => 0 <= r_qty r) rs /\ Permutation rs rs' /\
  sk_accept eps cfg rs s = Ok s1 /\ sk_accept eps cfg rs' s = Throw ValueError.
Proof.
  exists 1, ox_sink_cfg, [ox_waste (21 # 2); ox_waste (9 # 10)], [ox_waste (9 # 10); ox_waste (21 # 2)], ox_sink. eexists.
  split; [discriminate|]. split; [repeat constructor; discriminate|]. split; [apply perm_swap|]. split; vm_compute; reflexivity.
Qed.
Print Assumptions C123_tolerance_refuted.
Example C123_sink_nontrivial : Forall (fun r => 0 <= r_qty r) [ox_waste 4; ox_waste 6] /\ Permutation [ox_waste 4; ox_waste 6] [ox_waste 6; ox_waste 4] /\
  qsum (map r_qty (ks_inv ox_sink)) + qsum (map r_qty [ox_waste 4; ox_waste 6]) <= kc_max_inv ox_sink_cfg.
Proof. split; [repeat constructor; discriminate|]. split; [apply perm_swap|vm_compute; discriminate]. Qed.
End SINK.

(** ** Enrichment: the feed delivered, and the account of the sales *)
Section ENRICHMENT.
Import EnrichmentModel EnrichmentSpec EnrichmentBids EnrichmentProps.
Theorem C123_enrichment_deliveries : forall eps ms ms' s c, 0 <= eps -> Forall (fun m => 0 <= m_qty m) ms -> Permutation ms ms' -> b_cap (es_inv s) = Some c -> b_qty (es_inv s) + qty_of ms <= c ->
  exists s1 s1', en_accept eps ms s = Ok s1 /\ en_accept eps ms' s = Ok s1' /\ Permutation (b_items (es_inv s1)) (b_items (es_inv s1')) /\
    es_tails s1 = es_tails s1' /\ es_swu s1 = es_swu s1' /\ es_iswu s1 = es_iswu s1' /\ es_ifeed s1 = es_ifeed s1'.
Proof. exact enrichment_deliveries. Qed.
Print Assumptions C123_enrichment_deliveries.
Theorem C123_enrichment_sales : forall eps eg V aw recipe cfg es e e' s0 s os s1 s1' o o', 0 <= eps -> recipes_ok recipe -> (forall x y, x == y -> V x == V y) ->
  en_sane (es ++ [e]) -> en_sane (es ++ [e']) -> en_lived eps eg V aw recipe cfg es s0 s os ->
  en_step eps eg V aw recipe cfg s e = Ok (s1, o) -> en_step eps eg V aw recipe cfg s e' = Ok (s1', o') ->
  ee_trades e <> [] -> Permutation (ee_trades e) (ee_trades e') ->
  exists a b a' b', eo_recorded o = (Some a, Some b) /\ eo_recorded o' = (Some a', Some b') /\ a == a' /\ b == b'.
Proof. exact enrichment_sales. Qed.
Print Assumptions C123_enrichment_sales.
(** The worked history of EnrichmentProps.v: one sale of product and one of tails, in both orders. *)
Definition ox_en_e : en_env := {| ee_treqs := []; ee_preqs := ee_preqs nx_e; ee_trades := [nx_sale 3; nx_sale 1]; ee_receipts := ee_receipts nx_e |}.
Definition ox_en_e' : en_env := {| ee_treqs := []; ee_preqs := ee_preqs nx_e; ee_trades := [nx_sale 1; nx_sale 3]; ee_receipts := ee_receipts nx_e |}.
Example C123_enrichment_nontrivial : recipes_ok nx_recipe /\ en_sane (nx_es ++ [ox_en_e]) /\ en_sane (nx_es ++ [ox_en_e']) /\
  en_lived 0 nx_eg nx_V nx_aw nx_recipe nx_cfg nx_es nx_s0 nx_s nx_os /\ Permutation (ee_trades ox_en_e) (ee_trades ox_en_e') /\
  (exists v, en_step 0 nx_eg nx_V nx_aw nx_recipe nx_cfg nx_s ox_en_e = Ok v /\ Nat.eqb (List.length (eo_shipped (snd v))) 2 = true) /\
  (exists v, en_step 0 nx_eg nx_V nx_aw nx_recipe nx_cfg nx_s ox_en_e' = Ok v /\ Nat.eqb (List.length (eo_shipped (snd v))) 2 = true).
Proof.
  split; [exact nx_recipes|]. split; [apply en_saneb_sound; vm_compute; reflexivity|]. split; [apply en_saneb_sound; vm_compute; reflexivity|]. split; [exact nx_lived|].
  split; [apply perm_swap|]. split; apply ok_check; vm_compute; reflexivity.
Qed.
Example C123_enrichment_deliveries_nontrivial : Permutation ox_new (rev ox_new) /\ exists c, b_cap (es_inv nx_s) = Some c /\ Qle_bool (b_qty (es_inv nx_s) + qty_of ox_new) c = true.
Proof. split; [apply Permutation_rev|]. eexists. split; vm_compute; reflexivity. Qed.
End ENRICHMENT.

(** ** Mixer: deliveries *)
Section MIXER.
Import MixerModel MixerSpec MixerProps.
Theorem C123_mixer : forall eps reqs l l' s, 0 <= eps -> Forall (fun jm => (fst jm < List.length (asked reqs))%nat) l -> Forall (fun jm => mat_ok (snd jm)) l ->
  (forall p, In p reqs -> (xr_stream p < List.length (xs_bufs s))%nat) ->
  (forall k b sp, nth_error (xs_bufs s) k = Some b -> b_space b = Some sp -> deliveries reqs l k <> [] -> qty_of (deliveries reqs l k) <= sp) ->
  Permutation l l' ->
  exists s1 s1', mx_accept eps (mx_req_inventories reqs) l s = Ok s1 /\ mx_accept eps (mx_req_inventories reqs) l' s = Ok s1' /\
    Forall2 (fun b b' => b_cap b = b_cap b' /\ Permutation (b_items b) (b_items b')) (xs_bufs s1) (xs_bufs s1') /\
    xs_ratios s1 = xs_ratios s1' /\ xs_output s1 = xs_output s1' /\ xs_extra s1 = xs_extra s1'.
Proof. exact mixer_deliveries. Qed.
Print Assumptions C123_mixer.
Theorem C123_mixer_sales : forall eps amts amts' s, 0 <= eps -> mats_ok (b_items (xs_output s)) -> Forall (fun q => 0 < q) amts -> qsum amts <= b_qty (xs_output s) -> Permutation amts amts' ->
  exists s1 s1' ms ms', mx_sell eps amts s = Ok (s1, ms) /\ mx_sell eps amts' s = Ok (s1', ms') /\
    Forall2 (fun q m => m_qty m == q) amts ms /\ Forall2 (fun q m => m_qty m == q) amts' ms' /\
    same_content (b_items (xs_output s1)) (b_items (xs_output s1')) /\ xs_bufs s1 = xs_bufs s1' /\ xs_ratios s1 = xs_ratios s1' /\ xs_extra s1 = xs_extra s1'.
Proof. exact mixer_sales. Qed.
Print Assumptions C123_mixer_sales.
Definition ox_mx : mx_state := {| xs_ratios := xs_ratios xx_s0; xs_bufs := xs_bufs xx_s0; xs_output := {| b_cap := Some 10; b_items := ox_stock |}; xs_extra := None |}.
Example C123_mixer_sales_nontrivial : mats_ok (b_items (xs_output ox_mx)) /\ qsum [1; 5] <= b_qty (xs_output ox_mx) /\ Permutation [1; 5] [5; 1].
Proof. split; [apply mats_okb_sound; reflexivity|]. split; [vm_compute; discriminate|apply perm_swap]. Qed.
Definition ox_mx_reqs : list mx_request := mx_reqs 0 0 (xc_streams xx_cfg) (xs_bufs xx_s0).
Definition ox_mx_in : list (nat * mat) := [(0%nat, Mat 1 5 ox_u); (2%nat, Mat 2 3 ox_pu); (0%nat, Mat 3 7 ox_u)].
Example C123_mixer_nontrivial : Forall (fun jm => (fst jm < List.length (asked ox_mx_reqs))%nat) ox_mx_in /\ Forall (fun jm => mat_ok (snd jm)) ox_mx_in /\
  (forall p, In p ox_mx_reqs -> (xr_stream p < List.length (xs_bufs xx_s0))%nat) /\
  (forall k b sp, nth_error (xs_bufs xx_s0) k = Some b -> b_space b = Some sp -> deliveries ox_mx_reqs ox_mx_in k <> [] -> qty_of (deliveries ox_mx_reqs ox_mx_in k) <= sp) /\
  Permutation ox_mx_in (rev ox_mx_in).
Proof.
  split; [repeat constructor|]. split; [repeat constructor; cbn; try discriminate|]. split; [vm_compute; intros p [<-|[<-|[]]]; cbn; lia|]. split; [|apply Permutation_rev].
  intros [|[|k]] b sp H; [| |vm_compute in H; destruct k; discriminate]; vm_compute in H; injection H as <-; intros G _; vm_compute in G; first [discriminate G|injection G as <-; vm_compute; discriminate].
Qed.
End MIXER.

(** ** Separations: deliveries and sales *)
Section SEPARATIONS.
Import SeparationsModel SeparationsSpec SeparationsProps.
Theorem C123_separations_deliveries : forall eps ms ms' s c, 0 <= eps -> mats_ok ms -> Permutation ms ms' -> b_cap (ps_feed s) = Some c -> b_qty (ps_feed s) + qty_of ms <= c ->
  exists s1 s1', sp_accept eps ms s = Ok s1 /\ sp_accept eps ms' s = Ok s1' /\ Permutation (b_items (ps_feed s1)) (b_items (ps_feed s1')) /\
    ps_left s1 = ps_left s1' /\ ps_streams s1 = ps_streams s1'.
Proof. exact separations_deliveries. Qed.
Print Assumptions C123_separations_deliveries.
Theorem C123_separations_sales : forall eps cfg trs trs' s, 0 <= eps -> Forall (fun t => 0 < snd t) trs -> mats_ok (parcels s) ->
  (forall t, In t trs -> fst t = pc_leftover_commod cfg \/ In (fst t) (map fst (ps_streams s))) -> (forall c, sold c trs <= qty_of (stock cfg s c)) -> Permutation trs trs' ->
  exists s1 s1' ms ms', sp_trades eps cfg trs s = Ok (s1, ms) /\ sp_trades eps cfg trs' s = Ok (s1', ms') /\
    Forall2 (fun t m => m_qty m == snd t) trs ms /\ Forall2 (fun t m => m_qty m == snd t) trs' ms' /\
    (forall c, same_content (stock cfg s1 c) (stock cfg s1' c)) /\ ps_feed s1 = ps_feed s1'.
Proof. exact separations_sales. Qed.
Print Assumptions C123_separations_sales.
Example C123_separations_nontrivial : mats_ok ox_new /\ Permutation ox_new (rev ox_new) /\ b_cap (ps_feed sx_state) = Some 100 /\ b_qty (ps_feed sx_state) + qty_of ox_new <= 100 /\
  Forall (fun t => 0 < snd t) sx_trades /\ mats_ok (parcels sx_stocked) /\
  (forall t, In t sx_trades -> fst t = pc_leftover_commod sx_cfg \/ In (fst t) (map fst (ps_streams sx_stocked))) /\
  (forall c, sold c sx_trades <= qty_of (stock sx_cfg sx_stocked c)) /\ Permutation sx_trades (rev sx_trades).
Proof.
  split; [apply mats_okb_sound; reflexivity|]. split; [apply Permutation_rev|]. split; [reflexivity|]. split; [vm_compute; discriminate|].
  destruct C28_nontrivial as (A & B & C & D). split; [exact A|]. split; [exact B|]. split; [exact C|]. split; [exact D|apply Permutation_rev].
Qed.
End SEPARATIONS.

(** ** FuelFab: deliveries *)
Section FUELFAB.
Import FuelFabModel FuelFabSpec FuelFabProps.
Theorem C123_fuelfab : forall eps reqs rs rs' s, 0 <= eps -> ff_homogeneous s -> Forall (fun jm => (fst jm < List.length (ff_asked reqs))%nat) rs ->
  Forall (fun jm => 0 < m_qty (snd jm) /\ real_comp (m_comp (snd jm))) rs ->
  (forall i, exists c, b_cap (inventory s i) = Some c /\ b_qty (inventory s i) + qty_of (ff_deliveries reqs rs i) <= c) -> Permutation rs rs' ->
  exists s1 s1', ff_accept eps (ff_req_inventories reqs) rs s = Ok s1 /\ ff_accept eps (ff_req_inventories reqs) rs' s = Ok s1' /\
    forall i, same_content (b_items (inventory s1 i)) (b_items (inventory s1' i)) /\ b_cap (inventory s1 i) = b_cap (inventory s1' i).
Proof. exact fuelfab_deliveries. Qed.
Print Assumptions C123_fuelfab.
Definition ox_ff_reqs : list ff_request :=
  [ {| fr_inv := InvFill; fr_qty := 10; fr_comp := None; fr_items := [("u8"%string, 1)] |}; {| fr_inv := InvFiss; fr_qty := 2; fr_comp := None; fr_items := [("pu"%string, 1)] |} ].
Definition ox_ff_in : list (nat * mat) := [(0%nat, Mat 5 4 fx_u8); (1%nat, Mat 6 1 fx_pu); (1%nat, Mat 7 1 fx_fiss)].
Example C123_fuelfab_nontrivial : ff_homogeneous fx_t /\ Forall (fun jm => (fst jm < List.length (ff_asked ox_ff_reqs))%nat) ox_ff_in /\
  Forall (fun jm => 0 < m_qty (snd jm) /\ real_comp (m_comp (snd jm))) ox_ff_in /\
  (forall i, exists c, b_cap (inventory fx_t i) = Some c /\ b_qty (inventory fx_t i) + qty_of (ff_deliveries ox_ff_reqs ox_ff_in i) <= c) /\ Permutation ox_ff_in (rev ox_ff_in).
Proof.
  split; [exact fx_hom_t|]. split; [repeat constructor|]. split; [repeat constructor; cbn; try discriminate|]. split; [|apply Permutation_rev].
  intros [| |]; eexists; (split; [reflexivity|vm_compute; discriminate]).
Qed.
End FUELFAB.

(** ** Reactor: assemblies delivered and spent fuel sold *)
Section REACTOR.
Import ReactorModel ReactorSpec ReactorCheck ReactorServiceProps.
Theorem C123_reactor_deliveries : forall eps cfg ds ds' s, 0 <= eps -> config_consistent cfg -> rack (n_fresh cfg) (assem cfg) (fresh s) -> rack (n_core cfg) (assem cfg) (core s) ->
  (zlen ds <= n_core cfg - rb_count (core s) + (n_fresh cfg - rb_count (fresh s)))%Z ->
  Forall (fun d => In (fst d) (incommods cfg) /\ m_qty (snd d) == assem cfg) ds -> NoDup (map (fun d => m_id (snd d)) ds) -> Permutation ds ds' ->
  exists s1 s1' ev, accept_trades eps cfg ds s = Ok (s1, ev) /\ accept_trades eps cfg ds' s = Ok (s1', ev) /\
    rb_count (core s1) = rb_count (core s1') /\ rb_count (fresh s1) = rb_count (fresh s1') /\
    Permutation (rb_items (core s1) ++ rb_items (fresh s1)) (rb_items (core s1') ++ rb_items (fresh s1')) /\
    (forall k, idx_get k (idx s1) = idx_get k (idx s1')) /\ spent s1 = spent s1'.
Proof. exact reactor_deliveries. Qed.
Print Assumptions C123_reactor_deliveries.
Theorem C123_reactor_sales : forall eps cfg trs trs' s s1 ms, Permutation trs trs' -> get_trades eps cfg trs s = Ok (s1, ms) ->
  exists ms', get_trades eps cfg trs' s = Ok (s1, ms') /\ Permutation ms ms'.
Proof. exact reactor_sales. Qed.
Print Assumptions C123_reactor_sales.
Definition ox_rx_cfg : rx_cfg :=
  {| n_batch := 1; n_core := 2; n_fresh := 1; n_spent := 3; assem := 10%Q;
     cycle_t := 2; refuel_t := 1; power_cap := 1000%Q; incommods := ["a"; "b"]; outcommods := ["x"; "y"];
     side_products := []; side_qty := []; decom_all := false; pc_times := []; pc_commods := []; pc_vals := [];
     rc_times := []; rc_commods := []; rc_in := []; rc_out := []; exit_t := -1 |}%string.
Definition ox_rx : rx_state :=
  {| fresh := {| rb_cap := 10; rb_items := [] |}; core := {| rb_cap := 20; rb_items := [Mat 1 10 ox_u] |};
     spent := {| rb_cap := 30; rb_items := [Mat 2 10 ox_pu; Mat 3 10 ox_pu; Mat 4 10 ox_pu] |};
     inrecipes := ["f"; "g"]%string; outrecipes := ["s"; "t"]%string; prefs := [1; 1]; cyc := 2; disch := false;
     idx := [(1%Z, 0%nat); (2%Z, 0%nat); (3%Z, 1%nat); (4%Z, 0%nat)]; hybrid := true |}.
Definition ox_rx_in : list (string * mat) := [("a", Mat 5 10 ox_u); ("b", Mat 6 10 ox_u)]%string.
Example C123_reactor_nontrivial : config_consistent ox_rx_cfg /\ rack (n_fresh ox_rx_cfg) (assem ox_rx_cfg) (fresh ox_rx) /\ rack (n_core ox_rx_cfg) (assem ox_rx_cfg) (core ox_rx) /\
  (zlen ox_rx_in <= n_core ox_rx_cfg - rb_count (core ox_rx) + (n_fresh ox_rx_cfg - rb_count (fresh ox_rx)))%Z /\
  Forall (fun d => In (fst d) (incommods ox_rx_cfg) /\ m_qty (snd d) == assem ox_rx_cfg) ox_rx_in /\ NoDup (map (fun d => m_id (snd d)) ox_rx_in) /\
  Permutation ox_rx_in (rev ox_rx_in) /\ Permutation ["x"; "y"; "x"]%string ["y"; "x"; "x"]%string /\
  exists v, get_trades 0 ox_rx_cfg ["x"; "y"; "x"]%string ox_rx = Ok v /\ List.length (snd v) = 3%nat.
Proof.
  split; [apply config_consistentb_sound; vm_compute; reflexivity|]. split; [repeat split; try (vm_compute; discriminate); constructor|]. split; [repeat split; try (vm_compute; discriminate); repeat constructor|].
  split; [vm_compute; discriminate|]. split; [apply Forall_cons; [|apply Forall_cons; [|apply Forall_nil]]; (split; [cbn; auto|reflexivity])|]. split; [repeat constructor; cbn; intuition discriminate|]. split; [apply Permutation_rev|]. split; [apply perm_swap|].
  eexists. split; vm_compute; reflexivity.
Qed.
End REACTOR.

(** ** Source: sales without packaging and with transport for every shipment *)
Section SOURCE.
Import SourceModel.
Theorem C123_source_partial : forall eps eg cfg fill ship trs trs' s, 0 <= eg -> (forall i q, fill i q = [q]) -> (forall k, (k <= ship k)%Z) -> mats_ok (b_items (ss_inv s)) ->
  Forall (fun t => 0 < fst t) trs -> qsum (map fst trs) <= b_qty (ss_inv s) -> Permutation trs trs' ->
  exists s1 s1' rs rs', sr_get_trades eps eg cfg fill ship trs s = Ok (s1, rs) /\ sr_get_trades eps eg cfg fill ship trs' s = Ok (s1', rs') /\
    map fst rs = seq 0 (List.length trs) /\ map fst rs' = seq 0 (List.length trs') /\
    Forall2 (fun t r => m_qty (snd r) == fst t) trs rs /\ Forall2 (fun t r => m_qty (snd r) == fst t) trs' rs' /\
    same_content (b_items (ss_inv s1)) (b_items (ss_inv s1')).
Proof. exact source_sales. Qed.
Print Assumptions C123_source_partial.
Definition ox_sr_cfg : sr_cfg := {| sc_commod := "u"; sc_recipe := "nat"; sc_inv_size := 20; sc_throughput := 10 |}%string.
Definition ox_sr : sr_state := {| ss_inv := {| b_cap := None; b_items := [Mat 0 20 ox_u] |} |}.
Definition ox_sr_trades : list (Q * mat) := [(2, Mat 0 2 ox_u); (3, Mat 0 3 ox_u)].
Example C123_source_nontrivial : mats_ok (b_items (ss_inv ox_sr)) /\ Forall (fun t => 0 < fst t) ox_sr_trades /\ qsum (map fst ox_sr_trades) <= b_qty (ss_inv ox_sr) /\
  Permutation ox_sr_trades (rev ox_sr_trades).
Proof. split; [apply mats_okb_sound; reflexivity|]. split; [repeat constructor|]. split; [vm_compute; discriminate|apply Permutation_rev]. Qed.
(** Where fewer shipments can be carried than were sold, the order decides which customer goes away empty-handed, and so how much is left. *)
Theorem C123_source_refuted : exists eps eg cfg fill ship trs trs' s s1 s1' rs rs', 0 <= eg /\ (forall i q, fill i q = [q]) /\ mats_ok (b_items (ss_inv s)) /\
  Forall (fun t => 0 < fst t) trs /\ qsum (map fst trs) <= b_qty (ss_inv s) /\ Permutation trs trs' /\
  sr_get_trades eps eg cfg fill ship trs s = Ok (s1, rs) /\ sr_get_trades eps eg cfg fill ship trs' s = Ok (s1', rs') /\
  List.length rs = 1%nat /\ List.length rs' = 1%nat /\ b_qty (ss_inv s1) == 18 /\ b_qty (ss_inv s1') == 17.
Proof.
  exists 0, 0, ox_sr_cfg, (fun _ q => [q]), (fun _ => 1%Z), ox_sr_trades, (rev ox_sr_trades), ox_sr. do 4 eexists. split; [discriminate|]. split; [reflexivity|].
  destruct C123_source_nontrivial as (A & B & C & D). split; [exact A|]. split; [exact B|]. split; [exact C|]. split; [exact D|]. split; [vm_compute; reflexivity|]. split; [vm_compute; reflexivity|].
  split; [reflexivity|]. split; [reflexivity|]. split; vm_compute; reflexivity.
Qed.
Print Assumptions C123_source_refuted.
End SOURCE.
