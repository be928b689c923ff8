(** Vocabulary for C125: how deliveries are divided into parcels does not matter. *)
From Verif Require Import Outcome KernelMaterial KernelResBuf KernelBuf SeparationsModel ConversionModel EnrichmentModel MixerModel MixerSpec.
Local Open Scope Q_scope.

(** The same material, whatever its identity: the same amount of everything. *)
Definition alike (m m' : mat) : Prop := m_qty m == m_qty m' /\ forall n, mass_of m n == mass_of m' n.
(** The amount of nuclide [n] in the oldest [x] kilograms of a stock. *)
Definition among (x : Q) (n : Z) (l : list mat) : Q := mass_in n (fst (take_qty x l)).
(** The same material in the same order, however it is divided into parcels: for every [x] the oldest [x] kilograms of both
    stocks hold the same amount of every nuclide. *)
Definition same_layers (l l' : list mat) : Prop := qty_of l == qty_of l' /\ forall x n, among x n l == among x n l'.
(** Proper parcels: of some mass, and with a composition. *)
Definition solid (l : list mat) : Prop := Forall (fun m => mat_ok m /\ 0 < m_qty m) l.

(** ** Separations *)
(** A store of the same size that holds the same parcels, whatever their identities. *)
Definition same_store (b b' : buf) : Prop := b_cap b = b_cap b' /\ Forall2 alike (b_items b) (b_items b').
(** A store of the same size that holds the same material, however divided. *)
Definition same_stock (b b' : buf) : Prop :=
  b_cap b = b_cap b' /\ same_layers (b_items b) (b_items b') /\ solid (b_items b) /\ solid (b_items b').
(** The same facility, but for the division of its feed. *)
Definition same_plant (s s' : sp_state) : Prop :=
  same_stock (ps_feed s) (ps_feed s') /\ same_store (ps_left s) (ps_left s') /\
  Forall2 (fun e e' => fst e = fst e' /\ same_store (snd e) (snd e')) (ps_streams s) (ps_streams s').
(** Named numbers. *)
Definition same_named (x y : string * Q) : Prop := fst x = fst y /\ snd x == snd y.
(** Both absent, or both present and related. *)
Definition both {A} (R : A -> A -> Prop) (x y : option A) : Prop :=
  match x, y with None, None => True | Some a, Some b => R a b | _, _ => False end.
(** The same records of a tick. *)
Definition same_log (x y : sp_log) : Prop :=
  lg_processed x == lg_processed y /\ Forall2 same_named (lg_separated x) (lg_separated y) /\ Forall2 same_named (lg_supply x) (lg_supply y).
(** The same request. *)
Definition same_request (x y : sp_request) : Prop := rq_qty x == rq_qty y /\ rq_comp x = rq_comp y /\ rq_items x = rq_items y.
(** The same offer of the same materials. *)
Definition same_offer (x y : sp_bidport) : Prop :=
  bd_commod x = bd_commod y /\ bd_cap x == bd_cap y /\ Forall2 (fun a b => fst a = fst b /\ alike (snd a) (snd b)) (bd_bids x) (bd_bids y).
(** The same observable time step. *)
Definition same_step (x y : sp_out) : Prop :=
  both same_log (po_log x) (po_log y) /\ same_named (po_demand x) (po_demand y) /\ both same_request (po_request x) (po_request y) /\
  Forall2 same_offer (po_bids x) (po_bids y) /\ Forall2 alike (po_shipped x) (po_shipped y).
(** The same time step for the facility, except that the deliveries are divided differently. *)
Definition same_deliveries (e e' : sp_env) : Prop :=
  pe_time e = pe_time e' /\ pe_reqs e = pe_reqs e' /\ pe_trades e = pe_trades e' /\
  same_layers (pe_receipts e) (pe_receipts e') /\ solid (pe_receipts e) /\ solid (pe_receipts e').
(** What is delivered does not exceed what was asked for. *)
Definition asked_for (o : sp_out) : Q := match po_request o with Some r => rq_qty r | None => 0 end.

(** ** Conversion and enrichment: both blend what they hold before they use it *)
(** The same amount of everything, in any division and any order. *)
Definition same_content (l l' : list mat) : Prop := qty_of l == qty_of l' /\ forall n, mass_in n l == mass_in n l'.
(** The same conversion facility. *)
Definition same_converter (s s' : cv_state) : Prop :=
  Forall2 alike (vs_input s) (vs_input s') /\ Forall2 alike (vs_output s) (vs_output s') /\
  solid (vs_input s ++ vs_output s) /\ solid (vs_input s' ++ vs_output s').
(** Requests: the same commodities, amounts and limit. *)
Definition same_asking (x y : list (string * Q) * Q) : Prop := Forall2 same_named (fst x) (fst y) /\ snd x == snd y.
(** Offers: the same materials to the same requesters, and the same limit. *)
Definition same_bidding (x y : list (nat * mat) * Q) : Prop :=
  Forall2 (fun a b => fst a = fst b /\ alike (snd a) (snd b)) (fst x) (fst y) /\ snd x == snd y.
(** The same observable time step. *)
Definition same_conversion (x y : cv_out) : Prop :=
  both same_asking (vo_requests x) (vo_requests y) /\ both same_bidding (vo_bids x) (vo_bids y) /\ Forall2 alike (vo_shipped x) (vo_shipped y).
(** The same time step, except that the deliveries are divided differently or arrive in another order. *)
Definition same_supply (e e' : cv_env) : Prop :=
  ve_reqs e = ve_reqs e' /\ ve_sales e = ve_sales e' /\
  same_content (ve_receipts e) (ve_receipts e') /\ solid (ve_receipts e) /\ solid (ve_receipts e').
(** The limit of the request. *)
Definition wanted (o : cv_out) : Q := match vo_requests o with Some r => snd r | None => 0 end.

(** A feed store of the same size that holds the same amount of everything, in any division and order. *)
Definition same_feed (b b' : buf) : Prop :=
  b_cap b = b_cap b' /\ same_content (b_items b) (b_items b') /\ solid (b_items b) /\ solid (b_items b').
(** The same enrichment facility, but for the division and order of its feed. *)
Definition same_enricher (s s' : en_state) : Prop :=
  same_feed (es_inv s) (es_inv s') /\ same_store (es_tails s) (es_tails s') /\
  both Qeq (es_swu s) (es_swu s') /\ both Qeq (es_iswu s) (es_iswu s') /\ both Qeq (es_ifeed s) (es_ifeed s').
(** The same offers of tails and product. *)
Definition same_en_bids (x y : en_bids) : Prop :=
  eb_supply_tails x == eb_supply_tails y /\ eb_supply_product x == eb_supply_product y /\
  both (fun a b => Forall2 (fun i j => fst i = fst j /\ alike (snd i) (snd j)) (tb_offers a) (tb_offers b) /\ tb_limit a == tb_limit b)
       (eb_tails x) (eb_tails y) /\
  both (fun a b => pb_offers a = pb_offers b /\ pb_feed a == pb_feed b /\ pb_swu a == pb_swu b /\ pb_natu a == pb_natu b)
       (eb_product x) (eb_product y).
(** The same observable time step. *)
Definition same_enrichment (x y : en_out) : Prop :=
  both alike (eo_request x) (eo_request y) /\ same_en_bids (eo_bids x) (eo_bids y) /\ Forall2 alike (eo_shipped x) (eo_shipped y) /\
  Forall2 (fun a b => er_feed a == er_feed b /\ er_swu a == er_swu b) (eo_records x) (eo_records y) /\
  both Qeq (fst (eo_recorded x)) (fst (eo_recorded y)) /\ both Qeq (snd (eo_recorded x)) (snd (eo_recorded y)).
(** The same time step, except that the feed delivered is divided differently or arrives in another order. *)
Definition same_feeding (e e' : en_env) : Prop :=
  ee_treqs e = ee_treqs e' /\ ee_preqs e = ee_preqs e' /\ ee_trades e = ee_trades e' /\
  same_content (ee_receipts e) (ee_receipts e') /\ solid (ee_receipts e) /\ solid (ee_receipts e').
(** The amount of feed asked for. *)
Definition feed_wanted (o : en_out) : Q := match eo_request o with Some m => m_qty m | None => 0 end.

(** ** Mixer *)
(** The same mixer, but for the division of what its streams hold. *)
Definition same_mixer (s s' : mx_state) : Prop :=
  xs_ratios s = xs_ratios s' /\ Forall2 same_stock (xs_bufs s) (xs_bufs s') /\ same_store (xs_output s) (xs_output s').
(** The same request for a stream. *)
Definition same_portfolio (p p' : mx_request) : Prop :=
  xr_stream p = xr_stream p' /\ both Qeq (xr_qty p) (xr_qty p') /\ xr_items p = xr_items p'.
(** The same observable time step. *)
Definition same_mixing (x y : mx_out) : Prop :=
  same_named (xo_supply x) (xo_supply y) /\
  Forall2 (fun a b => fst a = fst b /\ both Qeq (snd a) (snd b)) (xo_demand x) (xo_demand y) /\
  Forall2 same_portfolio (xo_requests x) (xo_requests y) /\ Forall2 alike (xo_shipped x) (xo_shipped y).
(** The same time step, except that what is delivered for each stream is divided differently; only requests that were made ([o]) are
    answered, and no stream gets more than was asked for. *)
Definition same_streams_fed (o : mx_out) (e e' : mx_env) : Prop :=
  xe_sales e = xe_sales e' /\
  Forall (fun jm => (fst jm < List.length (asked (xo_requests o)))%nat) (xe_receipts e') /\
  solid (map snd (xe_receipts e)) /\ solid (map snd (xe_receipts e')) /\
  (forall i, same_layers (deliveries (xo_requests o) (xe_receipts e) i) (deliveries (xo_requests o) (xe_receipts e') i)) /\
  forall p q, In p (xo_requests o) -> xr_qty p = Some q -> qty_of (deliveries (xo_requests o) (xe_receipts e) (xr_stream p)) <= q.
(** ... in every time step. *)
Fixpoint streams_fed (os : list mx_out) (es es' : list mx_env) : Prop :=
  match os, es, es' with
  | [], [], [] => True
  | o :: os1, e :: es1, e' :: es1' => same_streams_fed o e e' /\ streams_fed os1 es1 es1'
  | _, _, _ => False
  end.
