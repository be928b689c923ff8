(** A simulation: any number of conversion facilities, storages, mixers, sources, sinks and reactors that trade with each other,
    are deployed and retired (C128).  The facilities are those of the models; the resource exchange is any exchange
    that keeps to what is requested and offered. *)
From Verif Require Import Outcome KernelMaterial KernelResBuf KernelBuf KernelMass NetworkSpec.
From Verif Require ReactorModel ReactorSpec StorageModel StorageSpec ConversionModel MixerModel MixerSpec SinkModel SinkSpec SourceModel.
Local Open Scope Q_scope.

(** A facility: its archetype, its input and its state. *)
Inductive fac :=
| Conv (c : ConversionModel.cv_cfg) (s : ConversionModel.cv_state)
| Stor (c : StorageModel.st_cfg) (s : StorageModel.st_state)
| Mixr (c : MixerModel.mx_cfg) (s : MixerModel.mx_state)
| Srce (c : SourceModel.sr_cfg) (s : SourceModel.sr_state)
| Snk (c : SinkModel.sk_cfg) (s : SinkModel.sk_state)
| Reac (c : ReactorModel.rx_cfg) (s : ReactorModel.rx_state).

(** The material in a facility. *)
Definition inside (f : fac) : list mat :=
  match f with
  | Conv _ s => ConversionModel.vs_input s ++ ConversionModel.vs_output s
  | Stor _ s => StorageModel.ss_stocks s ++ StorageModel.ss_ready s ++ StorageModel.ss_processing s ++ StorageModel.ss_inventory s
  | Mixr _ s => MixerSpec.mx_held s
  | Srce _ s => b_items (SourceModel.ss_inv s)
  | Snk _ s => sunk (SinkModel.ks_inv s)
  | Reac _ s => ReactorSpec.assemblies s
  end.

(** What a facility tells the exchange: the commodities it offers, how much of each, and (for exclusive offers) the size of a single
    trade; its requests, in portfolios: the commodities any of which it accepts, how much of them, and (for exclusive
    requests) the size of a single trade. *)
Record offer := { of_commod : string; of_limit : Q; of_unit : option Q }.
Record ask := { ak_commods : list string; ak_limit : option Q; ak_unit : option Q }.
Record notice := { n_offers : list offer; n_asks : list ask }.

(** One trade decided by the exchange: the seller and the buyer (positions in the network), the commodity, which of the buyer's requests is
    answered, the amount, and the composition the buyer asked for. *)
Record trade := { t_from : nat; t_to : nat; t_commod : string; t_slot : nat; t_amt : Q; t_want : comp }.

(** What a facility is told and what it draws in a time step: the quantities requested of each commodity, the requests seen by a source,
    the random numbers. *)
Record signal := { g_reqs : string -> list Q; g_wants : list (string * mat); g_rng : SinkModel.rng; g_rng2 : SinkModel.rng }.

(** Unpackaged material and unrestricted transport: the defaults of /repo/src/source.h:130-150. *)
Definition whole : SourceModel.filler := fun _ q => [q].
Definition all_of_it : Z -> Z := fun n => n.

(** What a facility tells the exchange at time [t]: the Tick of the archetype, then its requests and bids
    (/repo/src/conversion.cc:76-78 and 96-156, /repo/src/storage.cc:47-107, /repo/src/mixer.cc:96-170, /repo/src/source.cc:75-130,
    /repo/src/sink.cc:183-218 and 98-131, /repo/src/reactor.cc:119-256 and 300-355).  Simplifications: a storage's requests and bids are made by the kernel's buy and
    sell policies, which ask for the room there is and offer the stocks; the mixer's bids by the kernel's sell policy; the exchange of products (Sink) is left out. *)
Definition publish (w : world) (t : Z) (g : signal) (f : fac) : outcome notice :=
  match f with
  | Conv c s =>
      let* s1 := ConversionModel.cv_tick c s in
      let* b := ConversionModel.cv_bids s1 (g_reqs g (ConversionModel.vc_outcommod c)) in
      Ok {| n_offers := match b with Some (_, q) => [ {| of_commod := ConversionModel.vc_outcommod c; of_limit := q; of_unit := None |} ] | None => [] end;
            n_asks := match ConversionModel.cv_requests c s1 with
                      | Some (items, q) => [ {| ak_commods := map fst items; ak_limit := Some q; ak_unit := None |} ] | None => [] end |}
  | Stor c s =>
      Ok {| n_offers := map (fun k => {| of_commod := k; of_limit := qty_of (StorageModel.ss_stocks s); of_unit := None |}) (StorageModel.sc_out_commods c);
            n_asks := [ {| ak_commods := StorageModel.sc_in_commods c; ak_limit := Some (StorageModel.st_capacity c s); ak_unit := None |} ] |}
  | Mixr c s =>
      let* '(s1, _) := MixerModel.mx_tick (w_eps w) c s in
      Ok {| n_offers := [ {| of_commod := MixerModel.xc_out_commod c; of_limit := b_qty (MixerModel.xs_output s1); of_unit := None |} ];
            n_asks := map (fun r => {| ak_commods := map fst (MixerModel.xr_items r); ak_limit := MixerModel.xr_qty r; ak_unit := None |})
                        (MixerModel.mx_requests (w_eps w) c s1) |}
  | Srce c s =>
      let* '(_, p) := SourceModel.sr_get_bids (w_eg w) (w_recipe w) c whole all_of_it (g_wants g) s in
      Ok {| n_offers := match p with Some b => [ {| of_commod := SourceModel.sc_commod c; of_limit := SourceModel.sp_limit b; of_unit := None |} ] | None => [] end;
            n_asks := [] |}
  | Snk c s =>
      let* '(s1, _) := SinkModel.sk_tick (w_eg w) c (g_rng g) t s in
      let* '(_, r) := SinkModel.sk_mat_requests (w_eg w) (w_recipe w) c (g_rng2 g) s1 in
      Ok {| n_offers := [];
            n_asks := match r with Some q => [ {| ak_commods := map fst (SinkModel.mq_items q); ak_limit := Some (SinkModel.mq_qty q); ak_unit := None |} ] | None => [] end |}
  | Reac c s =>
      let* '(s1, _) := ReactorModel.tick (w_eps w) (w_recipe w) c t s in
      let* '(rs, _) := ReactorModel.get_requests (w_recipe w) c t s1 in
      let* bs := ReactorModel.get_bids (w_eps w) c s1 (g_reqs g) in
      Ok {| n_offers := map (fun b => {| of_commod := ReactorModel.bp_commod b; of_limit := ReactorModel.bp_cap b; of_unit := Some (ReactorModel.assem c) |}) bs;
            n_asks := map (fun p => {| ak_commods := map ReactorModel.r_commod p; ak_limit := Some (ReactorModel.assem c); ak_unit := Some (ReactorModel.assem c) |}) rs |}
  end.

(** The time step of a facility at time [t], with its sales and with what is delivered to it (each parcel with its trade): the new state and
    what it ships.  It is the step of the archetype's model: /repo/src/conversion.cc:76-184, /repo/src/storage.cc:145-197, /repo/src/mixer.cc:96-200,
    /repo/src/source.cc:75-178, /repo/src/sink.cc:183-218, 98-131 and 161-169, /repo/src/reactor.cc:119-390. *)
Definition fstep (w : world) (t : Z) (g : signal) (f : fac) (sales : list trade) (got : list (trade * mat)) : outcome (fac * list mat) :=
  match f with
  | Conv c s =>
      let* '(s', o) := ConversionModel.cv_step (w_eps w) c s
        {| ConversionModel.ve_reqs := g_reqs g (ConversionModel.vc_outcommod c); ConversionModel.ve_sales := map t_amt sales; ConversionModel.ve_receipts := map snd got |} in
      Ok (Conv c s', ConversionModel.vo_shipped o)
  | Stor c s =>
      let* '(s', o) := StorageModel.st_step (w_eps w) c s
        {| StorageModel.se_time := t; StorageModel.se_sales := map t_amt sales; StorageModel.se_receipts := map snd got |} in
      Ok (Stor c s', StorageModel.so_sold o)
  | Mixr c s =>
      let* '(s', o) := MixerModel.mx_step (w_eps w) c s
        {| MixerModel.xe_sales := map t_amt sales; MixerModel.xe_receipts := map (fun d => (t_slot (fst d), snd d)) got |} in
      Ok (Mixr c s', MixerModel.xo_shipped o)
  | Srce c s =>
      let* '(s', o) := SourceModel.sr_step (w_eps w) (w_eg w) (w_recipe w) c s
        {| SourceModel.se_fill_bids := whole; SourceModel.se_fill := whole; SourceModel.se_ship := all_of_it; SourceModel.se_reqs := g_wants g;
           SourceModel.se_trades := map (fun d => (t_amt d, Mat 0 (t_amt d) (t_want d))) sales |} in
      Ok (Srce c s', map snd (SourceModel.so_sent o))
  | Snk c s =>
      let* '(s', _) := SinkModel.sk_step (w_eps w) (w_eg w) (w_recipe w) c t s
        {| SinkModel.ke_rng := g_rng g; SinkModel.ke_rng2 := g_rng2 g; SinkModel.ke_mats := map snd got; SinkModel.ke_prods := [] |} in
      Ok (Snk c s', [])
  | Reac c s =>
      let* o := ReactorModel.rx_step (w_eps w) (w_recipe w) c t s
        {| ReactorModel.e_reqs := g_reqs g; ReactorModel.e_pick := map t_commod sales; ReactorModel.e_deliv := map (fun d => (t_commod (fst d), snd d)) got |} in
      Ok (Reac c (ReactorModel.o_state o), map snd (ReactorModel.o_shipped o))
  end.

(** ** The exchange *)
(** The portfolio each of the requests, counted through all portfolios, belongs to. *)
Fixpoint slots (p : nat) (asks : list ask) : list nat :=
  match asks with [] => [] | a :: r => map (fun _ => p) (ak_commods a) ++ slots (S p) r end.
Definition fits (u : option Q) (q : Q) : Prop := match u with Some x => q == x | None => True end.
Definition total (ds : list trade) : Q := qsum (map t_amt ds).
(** Positive amounts of commodities on offer, each of the size of the offer if that is exclusive, in total no more than offered;
    compositions asked for are compositions. *)
Definition sales_ok (n : notice) (ds : list trade) : Prop :=
  Forall (fun d => 0 < t_amt d /\ Forall (fun x => 0 <= snd x) (t_want d) /\ 0 < csum (t_want d) /\
                   exists o, In o (n_offers n) /\ of_commod o = t_commod d /\ fits (of_unit o) (t_amt d)) ds /\
  forall o, In o (n_offers n) -> total (filter (fun d => String.eqb (t_commod d) (of_commod o)) ds) <= of_limit o.
(** Requests that were made are answered with the commodity asked for, each of the size of the request if that is exclusive, each portfolio with no more in
    total than asked for. *)
Definition buys_ok (n : notice) (ds : list trade) : Prop :=
  Forall (fun d => nth_error (flat_map ak_commods (n_asks n)) (t_slot d) = Some (t_commod d)) ds /\
  forall p a, nth_error (n_asks n) p = Some a ->
    let mine := filter (fun d => match nth_error (slots 0 (n_asks n)) (t_slot d) with Some p' => Nat.eqb p' p | None => false end) ds in
    Forall (fun d => fits (ak_unit a) (t_amt d)) mine /\ (forall q, ak_limit a = Some q -> mine <> [] -> total mine <= q).

Definition sold_by (i : nat) (ds : list trade) : list trade := filter (fun d => Nat.eqb (t_from d) i) ds.
Definition bought_by (i : nat) (ds : list trade) : list trade := filter (fun d => Nat.eqb (t_to d) i) ds.
(** An exchange that keeps to what the facilities tell it. *)
Definition orderly (w : world) (t : Z) (gs : nat -> signal) (fs : list fac) (ds : list trade) : Prop :=
  Forall (fun d => (t_from d < List.length fs)%nat /\ (t_to d < List.length fs)%nat) ds /\
  forall i f n, nth_error fs i = Some f -> publish w t (gs i) f = Ok n -> sales_ok n (sold_by i ds) /\ buys_ok n (bought_by i ds).

(** ** A time step of the network: the parcels [sent], one for each trade, are what the sellers ship and what the buyers receive.  A parcel is
    handed over as a new object: its id is the next free one. *)
Fixpoint renumber (k : Z) (ms : list mat) : list mat :=
  match ms with [] => [] | m :: r => Mat k (m_qty m) (m_comp m) :: renumber (k + 1) r end.
Definition nstep (w : world) (t : Z) (id : Z) (gs : nat -> signal) (fs : list fac) (ds : list trade) (fs' : list fac) (sent : list mat) : Prop :=
  List.length sent = List.length ds /\ List.length fs' = List.length fs /\
  forall i f f', nth_error fs i = Some f -> nth_error fs' i = Some f' ->
    fstep w t (gs i) f (sold_by i ds) (filter (fun x => Nat.eqb (t_to (fst x)) i) (combine ds (renumber id sent))) =
      Ok (f', map snd (filter (fun x => Nat.eqb (t_from (fst x)) i) (combine ds sent))).

(** ** Deployment *)
(** A facility that has just been started at time [t], with input that makes sense (see C58, C61, C66, C80, C47, C13). *)
Definition deployed (w : world) (t : Z) (f : fac) : Prop :=
  match f with
  | Conv c s => 0 < ConversionModel.vc_throughput c /\ s = ConversionModel.cv_empty
  | Stor c s => StorageSpec.st_cfg_ok c /\ (StorageModel.sc_discrete c = true \/ 0 < StorageModel.sc_throughput c) /\ s = StorageModel.st_empty
  | Mixr c s => MixerSpec.mx_sensible c /\ MixerModel.mx_enter (w_eps w) c (MixerModel.mx_new c) = Ok s
  | Srce c s => 0 <= SourceModel.sc_inv_size c /\ SourceModel.sr_build (w_eps w) (w_recipe w) c = Ok s
  | Snk c s => 0 <= SinkModel.kc_capacity c /\ 0 <= SinkModel.kc_max_inv c /\ SinkModel.kc_commods c <> [] /\
      (SinkModel.kc_recipe c = ""%string \/ w_recipe w (SinkModel.kc_recipe c) <> None) /\
      exists g, SinkModel.sk_enter c g t (SinkModel.sk_new c) = Ok s
  | Reac c s => ReactorSpec.config_consistent c /\ ReactorSpec.recipes_known (w_recipe w) c /\ ReactorSpec.reactor_ok (w_recipe w) c s /\
      ReactorSpec.assemblies s = []
  end.
Definition signal_ok (g : signal) : Prop := SinkSpec.rng_ok (g_rng g) /\ SinkSpec.rng_ok (g_rng2 g).

(** The networks that can arise: facilities are deployed and retired at any time; in each time step the exchange is orderly.
    [id] is the next free id of an object. *)
Inductive reached (w : world) : Z -> Z -> list fac -> Prop :=
| at_start id : reached w 0 id []
| deploying t id fs f : reached w t id fs -> deployed w t f -> reached w t id (fs ++ [f])
| retiring t id a f b : reached w t id (a ++ f :: b) -> reached w t id (a ++ b)
| stepping t id fs gs ds fs' sent : reached w t id fs -> (forall i, signal_ok (gs i)) -> orderly w t gs fs ds ->
    nstep w t id gs fs ds fs' sent -> reached w (t + 1) (id + zlen ds) fs'.

(** All material in the network. *)
Definition stock (fs : list fac) : list mat := flat_map inside fs.
(** Facilities that keep every nuclide: not reactors, not sources that supply whatever is asked for. *)
Definition inert (f : fac) : Prop :=
  match f with Reac _ _ => False | Srce c _ => SourceModel.sc_recipe c <> ""%string | _ => True end.
