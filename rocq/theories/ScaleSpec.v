(** Vocabulary for C126: the unit of mass does not matter. *)
From Verif Require Import Outcome KernelMaterial KernelResBuf KernelBuf.
Local Open Scope Q_scope.

(** [x'] is [k] times [x]. *)
Definition times (k x x' : Q) : Prop := x' == k * x.
(** [k] times as much of the one make-up holds [k] times as much of every nuclide as the other. *)
Definition mix (k : Q) (c c' : comp) : Prop :=
  forall q q', times k q q' -> forall n, times k (mass_of (Mat 0 q c) n) (mass_of (Mat 0 q' c') n).
(** [k] times as much of the same material. *)
Definition more (k : Q) (m m' : mat) : Prop := times k (m_qty m) (m_qty m') /\ mix k (m_comp m) (m_comp m').
(** Both absent, or both present and related. *)
Definition agree {A B} (R : A -> B -> Prop) (x : option A) (y : option B) : Prop :=
  match x, y with None, None => True | Some a, Some b => R a b | _, _ => False end.
(** A store [k] times as large that holds [k] times as much in each parcel. *)
Definition more_store (k : Q) (b b' : buf) : Prop := agree (times k) (b_cap b) (b_cap b') /\ Forall2 (more k) (b_items b) (b_items b').
(** Named amounts. *)
Definition more_named (k : Q) (x y : string * Q) : Prop := fst x = fst y /\ times k (snd x) (snd y).
(** Materials for numbered requests. *)
Definition more_for (k : Q) (x y : nat * mat) : Prop := fst x = fst y /\ more k (snd x) (snd y).
(** The same failure, or both results and related ones. *)
Definition likewise {A B} (R : A -> B -> Prop) (x : outcome A) (y : outcome B) : Prop :=
  match x, y with
  | Ok a, Ok b => R a b
  | Throw e, Throw e' => e = e'
  | UB u, UB u' => u = u'
  | Diverge, Diverge => True
  | _, _ => False
  end.

(** ** Conversion *)
From Verif Require ConversionModel SinkModel StorageModel SourceModel MixerModel SeparationsModel.
(** Named requests and their limit, offers and their limit. *)
Definition more_asked (k : Q) (x y : list (string * Q) * Q) : Prop := Forall2 (more_named k) (fst x) (fst y) /\ times k (snd x) (snd y).
Definition more_offered (k : Q) (x y : list (nat * mat) * Q) : Prop := Forall2 (more_for k) (fst x) (fst y) /\ times k (snd x) (snd y).
Section Conversion.
Import ConversionModel.
Definition cv_cfg_more (k : Q) (c c' : cv_cfg) : Prop :=
  vc_incommods c = vc_incommods c' /\ vc_outcommod c = vc_outcommod c' /\ times k (vc_throughput c) (vc_throughput c') /\ times k (vc_capacity c) (vc_capacity c').
Definition cv_more (k : Q) (s s' : cv_state) : Prop := Forall2 (more k) (vs_input s) (vs_input s') /\ Forall2 (more k) (vs_output s) (vs_output s').
Definition cv_env_more (k : Q) (e e' : cv_env) : Prop :=
  Forall2 (times k) (ve_reqs e) (ve_reqs e') /\ Forall2 (times k) (ve_sales e) (ve_sales e') /\ Forall2 (more k) (ve_receipts e) (ve_receipts e').
Definition cv_out_more (k : Q) (o o' : cv_out) : Prop :=
  cv_more k (vo_ticked o) (vo_ticked o') /\ agree (more_asked k) (vo_requests o) (vo_requests o') /\ agree (more_offered k) (vo_bids o) (vo_bids o') /\
  Forall2 (more k) (vo_shipped o) (vo_shipped o').
End Conversion.

(** ** Storage *)
Section Storage.
Import StorageModel.
(** The throughput and the inventory limit are masses; packages and the reordering parameters concern only the exchange. *)
Definition st_cfg_more (k : Q) (c c' : st_cfg) : Prop :=
  sc_in_commods c = sc_in_commods c' /\ sc_in_prefs c = sc_in_prefs c' /\ sc_out_commods c = sc_out_commods c' /\ sc_in_recipe c = sc_in_recipe c' /\
  sc_residence c = sc_residence c' /\ times k (sc_throughput c) (sc_throughput c') /\ times k (sc_max_inv c) (sc_max_inv c') /\ sc_discrete c = sc_discrete c'.
Definition st_more (k : Q) (s s' : st_state) : Prop :=
  Forall2 (more k) (ss_inventory s) (ss_inventory s') /\ Forall2 (more k) (ss_processing s) (ss_processing s') /\ ss_entry_times s = ss_entry_times s' /\
  Forall2 (more k) (ss_ready s) (ss_ready s') /\ Forall2 (more k) (ss_stocks s) (ss_stocks s').
Definition st_env_more (k : Q) (e e' : st_env) : Prop :=
  se_time e = se_time e' /\ Forall2 (times k) (se_sales e) (se_sales e') /\ Forall2 (more k) (se_receipts e) (se_receipts e').
Definition st_out_more (k : Q) (o o' : st_out) : Prop :=
  Forall2 (more k) (so_sold o) (so_sold o') /\ Forall2 (more k) (to_released (so_tock o)) (to_released (so_tock o')) /\
  more_named k (to_demand (so_tock o)) (to_demand (so_tock o')) /\ more_named k (to_supply (so_tock o)) (to_supply (so_tock o')).
End Storage.

(** ** Sink *)
Section Sink.
Import SinkModel.
Definition sk_cfg_more (k : Q) (c c' : sk_cfg) : Prop :=
  kc_commods c = kc_commods c' /\ kc_prefs c = kc_prefs c' /\ kc_recipe c = kc_recipe c' /\ times k (kc_max_inv c) (kc_max_inv c') /\ times k (kc_capacity c) (kc_capacity c') /\
  kc_size_type c = kc_size_type c' /\ kc_size_mean c = kc_size_mean c' /\ kc_size_stddev c = kc_size_stddev c' /\
  kc_freq_type c = kc_freq_type c' /\ kc_freq_mean c = kc_freq_mean c' /\ kc_freq_stddev c = kc_freq_stddev c' /\ kc_freq_min c = kc_freq_min c' /\ kc_freq_max c = kc_freq_max c'.
(** Random amounts drawn from [k] times as large ranges are [k] times as large; random times are the same. *)
Definition rng_more (k : Q) (g g' : rng) : Prop :=
  (forall a b a' b', times k a a' -> times k b b' -> times k (g_uniform_real g a b) (g_uniform_real g' a' b')) /\
  (forall m s a b m' s' a' b', times k m m' -> times k s s' -> times k a a' -> times k b b' -> times k (g_normal_real g m s a b) (g_normal_real g' m' s' a' b')) /\
  (forall a b, g_uniform_int g a b = g_uniform_int g' a b) /\ (forall m s a b, g_normal_int g m s a b = g_normal_int g' m s a b).
Definition rsrc_more (k : Q) (x y : rsrc) : Prop := times k (r_qty x) (r_qty y) /\ agree (mix k) (r_comp x) (r_comp y).
Definition sk_more (k : Q) (s s' : sk_state) : Prop :=
  ks_prefs s = ks_prefs s' /\ Forall2 (rsrc_more k) (ks_inv s) (ks_inv s') /\ times k (ks_amt s) (ks_amt s') /\ ks_next s = ks_next s'.
Definition mreq_more (k : Q) (x y : sk_mreq) : Prop := times k (mq_qty x) (mq_qty y) /\ mq_comp x = mq_comp y /\ mq_items x = mq_items y.
Definition sk_env_more (k : Q) (e e' : sk_env) : Prop :=
  rng_more k (ke_rng e) (ke_rng e') /\ rng_more k (ke_rng2 e) (ke_rng2 e') /\ Forall2 (more k) (ke_mats e) (ke_mats e') /\ Forall2 (times k) (ke_prods e) (ke_prods e').
Definition sk_out_more (k : Q) (o o' : sk_out) : Prop :=
  Forall2 (more_named k) (ko_demand o) (ko_demand o') /\ agree (mreq_more k) (ko_mat o) (ko_mat o') /\ agree (more_asked k) (ko_gen o) (ko_gen o').
End Sink.

(** ** Source *)
Section Source.
Import SourceModel.
Definition sr_cfg_more (k : Q) (c c' : sr_cfg) : Prop :=
  sc_commod c = sc_commod c' /\ sc_recipe c = sc_recipe c' /\ times k (sc_inv_size c) (sc_inv_size c') /\ times k (sc_throughput c) (sc_throughput c').
(** Packages [k] times as large. *)
Definition fill_more (k : Q) (f f' : filler) : Prop := forall j q q', times k q q' -> Forall2 (times k) (f j q) (f' j q').
Definition bid_more (k : Q) (x y : sr_bid) : Prop := sb_req x = sb_req y /\ more k (sb_mat x) (sb_mat y).
Definition port_more (k : Q) (x y : sr_port) : Prop := Forall2 (bid_more k) (sp_bids x) (sp_bids y) /\ times k (sp_limit x) (sp_limit y).
Definition sr_more (k : Q) (s s' : sr_state) : Prop := more_store k (ss_inv s) (ss_inv s').
Definition sr_env_more (k : Q) (e e' : sr_env) : Prop :=
  fill_more k (se_fill_bids e) (se_fill_bids e') /\ fill_more k (se_fill e) (se_fill e') /\ (forall n, se_ship e n = se_ship e' n) /\
  Forall2 (fun x y => fst x = fst y /\ more k (snd x) (snd y)) (se_reqs e) (se_reqs e') /\
  Forall2 (fun x y => times k (fst x) (fst y) /\ more k (snd x) (snd y)) (se_trades e) (se_trades e').
Definition sr_out_more (k : Q) (o o' : sr_out) : Prop :=
  times k (so_supply o) (so_supply o') /\ agree (port_more k) (so_port o) (so_port o') /\ Forall2 (more_for k) (so_sent o) (so_sent o').
End Source.

(** ** Mixer *)
Section Mixer.
Import MixerModel.
Definition mx_cfg_more (k : Q) (c c' : mx_cfg) : Prop :=
  Forall2 (fun x y => xs_ratio x = xs_ratio y /\ times k (xs_size x) (xs_size y) /\ xs_commods x = xs_commods y) (xc_streams c) (xc_streams c') /\
  xc_out_commod c = xc_out_commod c' /\ times k (xc_out_size c) (xc_out_size c') /\ times k (xc_throughput c) (xc_throughput c').
Definition mx_more (k : Q) (s s' : mx_state) : Prop :=
  xs_ratios s = xs_ratios s' /\ Forall2 (more_store k) (xs_bufs s) (xs_bufs s') /\ more_store k (xs_output s) (xs_output s') /\
  agree (Forall2 (more k)) (xs_extra s) (xs_extra s').
Definition mx_req_more (k : Q) (x y : mx_request) : Prop := xr_stream x = xr_stream y /\ agree (times k) (xr_qty x) (xr_qty y) /\ xr_items x = xr_items y.
Definition mx_env_more (k : Q) (e e' : mx_env) : Prop := Forall2 (times k) (xe_sales e) (xe_sales e') /\ Forall2 (more_for k) (xe_receipts e) (xe_receipts e').
Definition mx_out_more (k : Q) (o o' : mx_out) : Prop :=
  mx_more k (xo_ticked o) (xo_ticked o') /\ more_named k (xo_supply o) (xo_supply o') /\
  Forall2 (fun x y => fst x = fst y /\ agree (times k) (snd x) (snd y)) (xo_demand o) (xo_demand o') /\
  Forall2 (mx_req_more k) (xo_requests o) (xo_requests o') /\ Forall2 (more k) (xo_shipped o) (xo_shipped o').
End Mixer.

(** ** Separations *)
Section Separations.
Import SeparationsModel.
Definition sp_cfg_more (k : Q) (c c' : sp_cfg) : Prop :=
  pc_feed_commods c = pc_feed_commods c' /\ pc_feed_prefs c = pc_feed_prefs c' /\ pc_feed_recipe c = pc_feed_recipe c' /\
  times k (pc_feed_size c) (pc_feed_size c') /\ times k (pc_throughput c) (pc_throughput c') /\ pc_leftover_commod c = pc_leftover_commod c' /\
  times k (pc_leftover_size c) (pc_leftover_size c') /\
  Forall2 (fun x y => st_name x = st_name y /\ times k (st_cap x) (st_cap y) /\ st_effs x = st_effs y) (pc_streams c) (pc_streams c') /\ pc_exit c = pc_exit c'.
Definition more_kept (k : Q) (x y : string * buf) : Prop := fst x = fst y /\ more_store k (snd x) (snd y).
Definition sp_more (k : Q) (s s' : sp_state) : Prop :=
  more_store k (ps_feed s) (ps_feed s') /\ more_store k (ps_left s) (ps_left s') /\ Forall2 (more_kept k) (ps_streams s) (ps_streams s').
Definition sp_log_more (k : Q) (x y : sp_log) : Prop :=
  times k (lg_processed x) (lg_processed y) /\ Forall2 (more_named k) (lg_separated x) (lg_separated y) /\ Forall2 (more_named k) (lg_supply x) (lg_supply y).
Definition sp_req_more (k : Q) (x y : sp_request) : Prop := times k (rq_qty x) (rq_qty y) /\ rq_comp x = rq_comp y /\ rq_items x = rq_items y.
Definition sp_bids_more (k : Q) (x y : sp_bidport) : Prop := bd_commod x = bd_commod y /\ Forall2 (more_for k) (bd_bids x) (bd_bids y) /\ times k (bd_cap x) (bd_cap y).
Definition sp_env_more (k : Q) (e e' : sp_env) : Prop :=
  pe_time e = pe_time e' /\ (forall c, Forall2 (times k) (pe_reqs e c) (pe_reqs e' c)) /\ Forall2 (more_named k) (pe_trades e) (pe_trades e') /\
  Forall2 (more k) (pe_receipts e) (pe_receipts e').
Definition sp_out_more (k : Q) (o o' : sp_out) : Prop :=
  agree (sp_log_more k) (po_log o) (po_log o') /\ sp_more k (po_ticked o) (po_ticked o') /\ more_named k (po_demand o) (po_demand o') /\
  agree (sp_req_more k) (po_request o) (po_request o') /\ Forall2 (sp_bids_more k) (po_bids o) (po_bids o') /\ Forall2 (more k) (po_shipped o) (po_shipped o').
End Separations.

(** ** Reactor *)
From Verif Require ReactorModel EnrichmentModel.
Section Reactor.
Import ReactorModel.
(** The mass of an assembly is the only mass among the parameters; the power and the side products are other quantities. *)
Definition rx_cfg_more (k : Q) (c c' : rx_cfg) : Prop :=
  times k (assem c) (assem c') /\
  c' = {| n_batch := n_batch c; n_core := n_core c; n_fresh := n_fresh c; n_spent := n_spent c; assem := assem c'; cycle_t := cycle_t c; refuel_t := refuel_t c;
          power_cap := power_cap c; incommods := incommods c; outcommods := outcommods c; side_products := side_products c; side_qty := side_qty c;
          decom_all := decom_all c; pc_times := pc_times c; pc_commods := pc_commods c; pc_vals := pc_vals c;
          rc_times := rc_times c; rc_commods := rc_commods c; rc_in := rc_in c; rc_out := rc_out c; exit_t := exit_t c |}.
(** Assemblies that correspond to each other. *)
Definition more_assem (k : Q) (m m' : mat) : Prop := m_id m = m_id m' /\ more k m m'.
Definition more_resbuf (k : Q) (b b' : resbuf) : Prop := times k (rb_cap b) (rb_cap b') /\ Forall2 (more_assem k) (rb_items b) (rb_items b').
Definition rx_more (k : Q) (s s' : rx_state) : Prop :=
  more_resbuf k (fresh s) (fresh s') /\ more_resbuf k (core s) (core s') /\ more_resbuf k (spent s) (spent s') /\
  inrecipes s = inrecipes s' /\ outrecipes s = outrecipes s' /\ prefs s = prefs s' /\ cyc s = cyc s' /\ disch s = disch s' /\ idx s = idx s' /\ hybrid s = hybrid s'.
Definition event_more (k : Q) (x y : event) : Prop :=
  match x, y with
  | EvSupply c q, EvSupply c' q' | EvDemand c q, EvDemand c' q' => c = c' /\ times k q q'
  | _, _ => x = y
  end.
Definition request_more (k : Q) (x y : request) : Prop := r_commod x = r_commod y /\ r_pref x = r_pref y /\ r_comp x = r_comp y /\ times k (r_qty x) (r_qty y).
Definition more_sent (k : Q) (x y : string * mat) : Prop := fst x = fst y /\ more_assem k (snd x) (snd y).
Definition bidport_more (k : Q) (x y : bidport) : Prop :=
  bp_commod x = bp_commod y /\ Forall2 (fun a b => fst a = fst b /\ more_assem k (snd a) (snd b)) (bp_bids x) (bp_bids y) /\ times k (bp_cap x) (bp_cap y).
Definition rx_env_more (k : Q) (e e' : rx_env) : Prop :=
  (forall c, Forall2 (times k) (e_reqs e c) (e_reqs e' c)) /\ e_pick e = e_pick e' /\ Forall2 (more_sent k) (e_deliv e) (e_deliv e').
Definition rx_out_more (k : Q) (o o' : rx_out) : Prop :=
  rx_more k (o_ticked o) (o_ticked o') /\ Forall2 (Forall2 (request_more k)) (o_reqs o) (o_reqs o') /\ Forall2 (bidport_more k) (o_bids o) (o_bids o') /\
  Forall2 (more_sent k) (o_shipped o) (o_shipped o') /\ Forall2 (event_more k) (o_events o) (o_events o') /\ rx_more k (o_state o) (o_state o').
End Reactor.

(** ** Enrichment *)
Section Enrichment.
Import EnrichmentModel.
(** Separative work is an amount as well; the assays stay as they are. *)
Definition en_cfg_more (k : Q) (c c' : en_cfg) : Prop :=
  ec_feed_commod c = ec_feed_commod c' /\ ec_feed_recipe c = ec_feed_recipe c' /\ ec_product_commod c = ec_product_commod c' /\ ec_tails_commod c = ec_tails_commod c' /\
  ec_tails_assay c = ec_tails_assay c' /\ ec_max_enrich c = ec_max_enrich c' /\ ec_order_prefs c = ec_order_prefs c' /\
  times k (ec_initial_feed c) (ec_initial_feed c') /\ times k (ec_max_feed c) (ec_max_feed c') /\ times k (ec_swu_capacity c) (ec_swu_capacity c').
Definition en_more (k : Q) (s s' : en_state) : Prop :=
  more_store k (es_inv s) (es_inv s') /\ more_store k (es_tails s) (es_tails s') /\
  agree (times k) (es_swu s) (es_swu s') /\ agree (times k) (es_iswu s) (es_iswu s') /\ agree (times k) (es_ifeed s) (es_ifeed s').
(** A parcel of actual material. *)
Definition real (m : mat) : Prop := mat_ok m /\ 0 < m_qty m.
(** [k] times as much of the make-up named in a request. *)
Definition more_of (k : Q) (m m' : mat) : Prop := m_comp m = m_comp m' /\ times k (m_qty m) (m_qty m').
Definition et_more (k : Q) (t t' : en_trade) : Prop :=
  et_commod t = et_commod t' /\ more k (et_offer t) (et_offer t') /\ times k (et_amt t) (et_amt t').
(** cyclus::eps() is a tolerance for masses at some places of the code and for assays at others; the requested assays [m] are not
    between the highest assay of the product and that assay plus the tolerance. *)
Definition settled (eg eg' : Q) (c : en_cfg) (m : mat) : Prop :=
  assay m < ec_max_enrich c \/ (ec_max_enrich c + eg <= assay m /\ ec_max_enrich c + eg' <= assay m).
Definition en_env_more (k eg eg' : Q) (c : en_cfg) (e e' : en_env) : Prop :=
  Forall2 (more k) (ee_treqs e) (ee_treqs e') /\
  Forall2 (fun m m' => more_of k m m' /\ ~ csum (m_comp m) == 0 /\ settled eg eg' c m) (ee_preqs e) (ee_preqs e') /\
  Forall2 (et_more k) (ee_trades e) (ee_trades e') /\
  Forall2 (fun m m' => more k m m' /\ real m) (ee_receipts e) (ee_receipts e').
Definition en_bids_more (k : Q) (x y : en_bids) : Prop :=
  times k (eb_supply_tails x) (eb_supply_tails y) /\ times k (eb_supply_product x) (eb_supply_product y) /\
  agree (fun a b => Forall2 (more_for k) (tb_offers a) (tb_offers b) /\ times k (tb_limit a) (tb_limit b)) (eb_tails x) (eb_tails y) /\
  agree (fun a b => Forall2 (fun i j => fst i = fst j /\ more_of k (snd i) (snd j)) (pb_offers a) (pb_offers b) /\ pb_feed a == pb_feed b /\
                    times k (pb_swu a) (pb_swu b) /\ times k (pb_natu a) (pb_natu b)) (eb_product x) (eb_product y).
Definition en_rec_more (k : Q) (a b : en_record) : Prop := times k (er_feed a) (er_feed b) /\ times k (er_swu a) (er_swu b).
Definition en_out_more (k : Q) (x y : en_out) : Prop :=
  agree (more_of k) (eo_request x) (eo_request y) /\ en_bids_more k (eo_bids x) (eo_bids y) /\ Forall2 (more k) (eo_shipped x) (eo_shipped y) /\
  Forall2 (en_rec_more k) (eo_records x) (eo_records y) /\
  agree (times k) (fst (eo_recorded x)) (fst (eo_recorded y)) /\ agree (times k) (snd (eo_recorded x)) (snd (eo_recorded y)).
End Enrichment.

(** ** FuelFab *)
From Verif Require FuelFabModel.
Section FuelFab.
Import FuelFabModel.
Definition ff_cfg_more (k : Q) (c c' : ff_cfg) : Prop :=
  fc_fill_commods c = fc_fill_commods c' /\ fc_fill_prefs c = fc_fill_prefs c' /\ fc_fill_recipe c = fc_fill_recipe c' /\ times k (fc_fill_size c) (fc_fill_size c') /\
  fc_fiss_commods c = fc_fiss_commods c' /\ fc_fiss_prefs c = fc_fiss_prefs c' /\ fc_fiss_recipe c = fc_fiss_recipe c' /\ times k (fc_fiss_size c) (fc_fiss_size c') /\
  fc_topup_commod c = fc_topup_commod c' /\ fc_topup_pref c = fc_topup_pref c' /\ fc_topup_recipe c = fc_topup_recipe c' /\ times k (fc_topup_size c) (fc_topup_size c') /\
  fc_outcommod c = fc_outcommod c' /\ times k (fc_throughput c) (fc_throughput c') /\ fc_spectrum c = fc_spectrum c'.
Definition ff_more (k : Q) (s s' : ff_state) : Prop :=
  more_store k (fb_fill s) (fb_fill s') /\ more_store k (fb_fiss s) (fb_fiss s') /\ more_store k (fb_topup s) (fb_topup s').
(** Everything in stock is actual material. *)
Definition ff_real (s : ff_state) : Prop := Forall real (b_items (fb_fill s)) /\ Forall real (b_items (fb_fiss s)) /\ Forall real (b_items (fb_topup s)).
Definition fr_more (k : Q) (x y : ff_request) : Prop := fr_inv x = fr_inv y /\ times k (fr_qty x) (fr_qty y) /\ fr_comp x = fr_comp y /\ fr_items x = fr_items y.
Definition streams_more (k : Q) (x y : ff_streams) : Prop :=
  mix k (fs_cfill x) (fs_cfill y) /\ mix k (fs_ctopup x) (fs_ctopup y) /\ mix k (fs_cfiss x) (fs_cfiss y) /\
  fs_wfill x == fs_wfill y /\ fs_wtopup x == fs_wtopup y /\ fs_wfiss x == fs_wfiss y.
(** The capacities for the three streams are the stocks, but at least CY_NEAR_ZERO, whatever the unit. *)
Definition floored (k nz x y : Q) : Prop := exists a b, times k a b /\ x = Qmax a nz /\ y = Qmax b nz.
Definition ff_bids_more (k nz : Q) (x y : ff_bids) : Prop :=
  Forall2 (more_for k) (fo_offers x) (fo_offers y) /\ streams_more k (fo_streams x) (fo_streams y) /\ floored k nz (fo_cap_fiss x) (fo_cap_fiss y) /\
  floored k nz (fo_cap_fill x) (fo_cap_fill y) /\ floored k nz (fo_cap_topup x) (fo_cap_topup y) /\ times k (fo_cap x) (fo_cap y).
Definition ff_env_more (k : Q) (e e' : ff_env) : Prop :=
  Forall2 (fun x y => fst x = fst y /\ times k (snd x) (snd y)) (fe_reqs e) (fe_reqs e') /\
  Forall2 (fun x y => fst x = fst y /\ times k (snd x) (snd y)) (fe_trades e) (fe_trades e') /\
  Forall2 (fun x y => more_for k x y /\ real (snd x)) (fe_receipts e) (fe_receipts e').
Definition ff_out_more (k nz : Q) (x y : ff_out) : Prop :=
  Forall2 (fr_more k) (fo_requests x) (fo_requests y) /\ agree (ff_bids_more k nz) (fo_bids x) (fo_bids y) /\ Forall2 (more k) (fo_shipped x) (fo_shipped y).
End FuelFab.
