(** Vocabulary for the properties of the Enrichment facility, written
    without the functions of the model (apart from its records and the kernel's masses). *)
From Coq Require Import Permutation.
From Verif Require Import Outcome KernelMaterial KernelResBuf KernelBuf EnrichmentModel.
Local Open Scope Q_scope.

(** Mass of uranium-235 and -238 in parcels, and the uranium assay: the part of
    it that is uranium-235. *)
Definition uranium (ms : list mat) : Q := mass_in 922350000 ms + mass_in 922380000 ms.
Definition assay_of (ms : list mat) : Q := mass_in 922350000 ms / uranium ms.
(** The part of the mass that is these two isotopes. *)
Definition purity (ms : list mat) : Q := uranium ms / qty_of ms.
(** Nothing but these two isotopes. *)
Definition pure (ms : list mat) : Prop := uranium ms == qty_of ms.
(** A usable composition, of these two isotopes only. *)
Definition real_comp (c : comp) : Prop := Forall (fun e => 0 <= snd e) c /\ 0 < csum c.
Definition uranium_only (c : comp) : Prop := real_comp c /\ cget 922350000 c + cget 922380000 c == csum c.

(** The separation equations for [q] units of product of assay [xp] from
    feed of assay [xf], leaving tails of assay [xt] (value function [V]). *)
Definition need (xf xp xt q : Q) : Q := q * (xp - xt) / (xf - xt).
Definition waste (xf xp xt q : Q) : Q := q * (xp - xf) / (xf - xt).
Definition work (V : Q -> Q) (xf xp xt q : Q) : Q :=
  q * V xp + waste xf xp xt q * V xt - need xf xp xt q * V xf.

(** Number of atoms of nuclide [n] per unit of a composition. *)
Definition n_atoms (aw : Z -> Q) (c : comp) (n : Z) : Q := cget n c / aw n.
(** The part of the uranium atoms (of the two isotopes) that are uranium-235. *)
Definition atom_assay (aw : Z -> Q) (c : comp) : Q :=
  n_atoms aw c 922350000 / (n_atoms aw c 922350000 + n_atoms aw c 922380000).
(** The same by mass. *)
Definition mass_assay (c : comp) : Q := cget 922350000 c / (cget 922350000 c + cget 922380000 c).

(** Trades for tails and trades for product. *)
Definition for_tails (cfg : en_cfg) (t : en_trade) : Prop := et_commod t = ec_tails_commod cfg.
Definition products (cfg : en_cfg) (ts : list en_trade) : list en_trade :=
  filter (fun t => negb (String.eqb (et_commod t) (ec_tails_commod cfg))) ts.
Definition tails_sold (cfg : en_cfg) (ts : list en_trade) : list Q :=
  map et_amt (filter (fun t => String.eqb (et_commod t) (ec_tails_commod cfg)) ts).
(** The material a product trade asks to be charged for. *)
Definition trade_mat (t : en_trade) : mat := Mat 0 (et_amt t) (m_comp (et_offer t)).
(** [x] is the total charge of the product trades under a converter. *)
Inductive charged (conv : mat -> option Q) : list en_trade -> Q -> Prop :=
  | ch_nil : charged conv [] 0
  | ch_cons t ts c x : conv (trade_mat t) = Some c -> charged conv ts x -> charged conv (t :: ts) (c + x).
(** Trades the exchange may award on the bids: positive amounts of offers that
    were made, within all three limits. *)
Definition awarded (V : Q -> Q) (cfg : en_cfg) (B : en_bids) (ts : list en_trade) : Prop :=
  Forall (fun t => 0 < et_amt t) ts /\
  (tails_sold cfg ts <> [] -> exists tb, eb_tails B = Some tb /\ qsum (tails_sold cfg ts) <= tb_limit tb) /\
  (products cfg ts <> [] -> exists pb, eb_product B = Some pb /\
     (forall t, In t (products cfg ts) -> exists j, In (j, et_offer t) (pb_offers pb)) /\
     (exists x, charged (natu_charge (pb_feed pb) (ec_tails_assay cfg)) (products cfg ts) x /\ x <= pb_natu pb) /\
     (exists y, charged (swu_charge V (pb_feed pb) (ec_tails_assay cfg)) (products cfg ts) y /\ y <= pb_swu pb)).

(** Sane histories: real materials arrive, positive amounts of usable offers are sold. *)
Definition trade_ok (t : en_trade) : Prop :=
  0 < et_amt t /\ 0 < m_qty (et_offer t) /\ real_comp (m_comp (et_offer t)).
Definition en_sane (es : list en_env) : Prop :=
  Forall (fun e => Forall mat_ok (ee_receipts e) /\ Forall trade_ok (ee_trades e)) es.
(** Deliveries never exceed what was asked for. *)
Definition en_fair (es : list en_env) (os : list en_out) : Prop :=
  Forall2 (fun e o => qty_of (ee_receipts e) <= match eo_request o with Some m => m_qty m | None => 0 end) es os.
Definition en_received (es : list en_env) : list mat := flat_map ee_receipts es.
Definition en_shipped (os : list en_out) : list mat := flat_map eo_shipped os.
Definition en_held (s : en_state) : list mat := b_items (es_inv s) ++ b_items (es_tails s).
(** A facility that was built and then went through the steps [es]; [s0] is its state when built. *)
Definition en_lived (eps eg : Q) (V : Q -> Q) (aw : Z -> Q) (recipe : string -> option comp) (cfg : en_cfg)
  (es : list en_env) (s0 s : en_state) (os : list en_out) : Prop :=
  en_build eps recipe cfg = Ok s0 /\ en_run eps eg V aw recipe cfg s0 es = Ok (s, os).
Definition recipes_ok (recipe : string -> option comp) : Prop := forall k c, recipe k = Some c -> real_comp c.

(** An arrangement of bids by increasing uranium-235 content per unit. *)
Definition content_of (m : mat) : Q := mass_of m 922350000 / m_qty m.
Definition arranged (bids l : list (nat * mat)) : Prop :=
  Permutation bids l /\
  forall i j x y, (i < j)%nat -> nth_error l i = Some x -> nth_error l j = Some y ->
    content_of (snd x) <= content_of (snd y).
(** Distinct bids with distinct contents, all of positive quantity. *)
Definition distinct_bids (bids : list (nat * mat)) : Prop :=
  (forall x, In x bids -> 0 < m_qty (snd x)) /\
  forall i j x y, (i < j)%nat -> nth_error bids i = Some x -> nth_error bids j = Some y ->
    ~ content_of (snd x) == content_of (snd y).

(** SWU and feed that the separation equations give for the product trades
    [ts] (the feed is larger than the uranium needed if it is impure). *)
Definition swu_used (V : Q -> Q) (cfg : en_cfg) (feed : list mat) (ts : list en_trade) : Q :=
  qsum (map (fun t => work V (assay_of feed) (mass_assay (m_comp (et_offer t))) (ec_tails_assay cfg) (et_amt t)) (products cfg ts)).
Definition feed_used (cfg : en_cfg) (feed : list mat) (ts : list en_trade) : Q :=
  qsum (map (fun t => need (assay_of feed) (mass_assay (m_comp (et_offer t))) (ec_tails_assay cfg) (et_amt t) / purity feed) (products cfg ts)).
(** The trade was served: the amount in full, product exactly as offered. *)
Definition served (cfg : en_cfg) (t : en_trade) (m : mat) : Prop :=
  m_qty m == et_amt t /\ (~ for_tails cfg t -> m_comp m = m_comp (et_offer t)).
(** Requests the exchange can pass on: a positive quantity of a usable composition. *)
Definition request_ok (m : mat) : Prop := 0 < m_qty m /\ real_comp (m_comp m).
(** Preferences that follow the uranium-235 content: one for each bid, negative
    without uranium-235, positive with it, larger for larger content. *)
Definition follows_content (bids : list (nat * mat)) (prefs : list (nat * Z)) : Prop :=
  Permutation (map fst bids) (map fst prefs) /\
  (forall k m p, In (k, m) bids -> In (k, p) prefs ->
     (mass_of m 922350000 == 0 -> (p < 0)%Z) /\ (0 < mass_of m 922350000 -> (0 < p)%Z)) /\
  (forall k m p k' m' p', In (k, m) bids -> In (k, p) prefs -> In (k', m') bids -> In (k', p') prefs ->
     content_of m < content_of m' -> (p < p')%Z).
(** Feed that can be enriched: nothing but the two isotopes, richer than the tails. *)
Definition enrichable (cfg : en_cfg) (m : mat) : Prop :=
  mass_of m 922350000 + mass_of m 922380000 == m_qty m /\ ec_tails_assay cfg * m_qty m < mass_of m 922350000.
(** What is asked of the others in a step that finds the facility in state [s]:
    deliveries of enrichable feed, no more than the free space for it; usable requests;
    trades awarded on the bids, for product at least as rich as the feed, each taking
    at least the tolerance [eg] of feed. *)
Definition orderly_step (eps eg : Q) (V : Q -> Q) (aw : Z -> Q) (cfg : en_cfg) (s : en_state) (e : en_env) : Prop :=
  Forall mat_ok (ee_receipts e) /\ Forall (enrichable cfg) (ee_receipts e) /\
  qty_of (ee_receipts e) <= Qmax 0 (ec_max_feed cfg - b_qty (es_inv s)) /\
  (ec_max_feed cfg - b_qty (es_inv s) <= eps -> ee_receipts e = []) /\
  Forall request_ok (ee_preqs e) /\ Forall trade_ok (ee_trades e) /\
  (forall s2 B, en_get_bids eps eg aw cfg (ee_treqs e) (ee_preqs e) (en_tick cfg s) = Ok (s2, B) -> awarded V cfg B (ee_trades e)) /\
  (forall t, In t (products cfg (ee_trades e)) -> assay_of (b_items (es_inv s)) <= mass_assay (m_comp (et_offer t)) /\
     eg <= need (assay_of (b_items (es_inv s))) (mass_assay (m_comp (et_offer t))) (ec_tails_assay cfg) (et_amt t)).
(** Every step of the scenario [es], whatever the facility did before it. *)
Definition orderly (eps eg : Q) (V : Q -> Q) (aw : Z -> Q) (recipe : string -> option comp) (cfg : en_cfg)
  (s0 : en_state) (es : list en_env) : Prop :=
  forall pre e post s os, es = pre ++ e :: post -> en_run eps eg V aw recipe cfg s0 pre = Ok (s, os) ->
    orderly_step eps eg V aw cfg s e.
