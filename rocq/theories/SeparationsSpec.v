(** Vocabulary for the separations properties, independent of the model's helpers. *)
From Verif Require Import Outcome KernelMaterial KernelResBuf KernelBuf SeparationsModel.
Local Open Scope Q_scope.

(** Everything the facility holds. *)
Definition parcels (s : sp_state) : list mat :=
  b_items (ps_feed s) ++ b_items (ps_left s) ++ flat_map (fun e => b_items (snd e)) (ps_streams s).
(** The buffer of a stream. *)
Definition stream_buf (s : sp_state) (name : string) : buf := bm_get name (ps_streams s).
Definition stream_items (s : sp_state) (name : string) : list mat := b_items (stream_buf s name).

(** The element of a nuclide id (ZZZAAASSSS with AAASSSS = 0). *)
Definition element (n : Z) : Z := (n - Z.rem n 10000000)%Z.
(** The value given for a key in an efficiency table. *)
Definition given (k : Z) (effs : list (Z * Q)) : option Q :=
  option_map snd (find (fun e => Z.eqb (fst e) k) effs).
(** "the efficiency given for the nuclide, else the one for its element, else 0" *)
Definition efficiency (effs : list (Z * Q)) (n : Z) : Q :=
  match given n effs with
  | Some e => e
  | None => match given (element n) effs with Some e => e | None => 0 end
  end.

(** Efficiencies over all streams add to at most one for every nuclide, and none is negative. *)
Definition efficiencies_sane (cfg : sp_cfg) : Prop :=
  (forall st e, In st (pc_streams cfg) -> In e (st_effs st) -> 0 <= snd e) /\
  (forall n, qsum (map (fun st => efficiency (st_effs st) n) (pc_streams cfg)) <= 1).

(** The mass a stream is entitled to out of a material. *)
Definition share (effs : list (Z * Q)) (m : mat) : Q :=
  qsum (map (fun n => efficiency effs n * mass_of m n) (nuclides m)).

(** The fraction of [m] that can be processed: the largest one, up to 1, for
    which every stream's share fits into its buffer. *)
Definition processable (cfg : sp_cfg) (s : sp_state) (m : mat) (f : Q) : Prop :=
  0 <= f <= 1 /\
  (forall st sp, In st (pc_streams cfg) -> b_space (stream_buf s (st_name st)) = Some sp ->
     f * share (st_effs st) m <= sp) /\
  (f == 1 \/ exists st sp, In st (pc_streams cfg) /\ b_space (stream_buf s (st_name st)) = Some sp /\
     0 < share (st_effs st) m /\ f * share (st_effs st) m == sp).

(** At every stage of removing the streams one after the other, what is left of
    each nuclide is either nothing or at least [eps] (no traces below the
    resource tolerance). *)
Definition no_traces (eps : Q) (cfg : sp_cfg) (m : mat) (f : Q) : Prop :=
  forall first rest n, pc_streams cfg = first ++ rest ->
    let r := mass_of m n * (1 - f * qsum (map (fun st => efficiency (st_effs st) n) first)) in
    r == 0 \/ eps <= r.

(** The parcel that a buffer gained: nothing, or one parcel. *)
Definition gained (before after : list mat) (q : Q) (mass : Z -> Q) : Prop :=
  (after = before /\ q == 0 /\ forall n, mass n == 0) \/
  (exists x, after = before ++ [x] /\ m_qty x == q /\ forall n, mass_of x n == mass n).

(** What can be shipped on a commodity, and what a list of trades takes of it. *)
Definition stock (cfg : sp_cfg) (s : sp_state) (c : string) : list mat :=
  if String.eqb c (pc_leftover_commod cfg) then b_items (ps_left s) else stream_items s c.
Definition sold (c : string) (trades : list (string * Q)) : Q :=
  qsum (map snd (filter (fun t => String.eqb (fst t) c) trades)).
(** The parcels shipped on a commodity. *)
Definition shipped_on (c : string) (trades : list (string * Q)) (ms : list mat) : list mat :=
  map snd (filter (fun tm => String.eqb (fst (fst tm)) c) (combine trades ms)).

(** What arrives in and leaves a history. *)
Definition received (es : list sp_env) : list mat := flat_map pe_receipts es.
Definition shipped (os : list sp_out) : list mat := flat_map po_shipped os.
(** The environment trades non-negative amounts and delivers sane parcels. *)
Definition env_sane (e : sp_env) : Prop :=
  Forall (fun t => 0 <= snd t) (pe_trades e) /\ Forall mat_ok (pe_receipts e).

(** No nuclide is addressed by a nuclide key in one stream and by its element's
    key in some stream. *)
Definition keys_unmixed (cfg : sp_cfg) : Prop :=
  forall st1 st2 n, In st1 (pc_streams cfg) -> In st2 (pc_streams cfg) ->
    In n (map fst (st_effs st1)) -> In (element n) (map fst (st_effs st2)) -> n = element n.
(** std::map keys are unique. *)
Definition keys_unique (cfg : sp_cfg) : Prop :=
  NoDup (map st_name (pc_streams cfg)) /\
  forall st, In st (pc_streams cfg) -> NoDup (map fst (st_effs st)).

(** The offers made for one request out of a stock: the parcels above the
    tolerance of the shortest (non-empty) prefix that covers the request, or of
    the whole stock if nothing covers it. *)
Definition offers_for (eps target : Q) (items offers : list mat) : Prop :=
  exists k, (k <= List.length items)%nat /\
    offers = filter (fun m => Qltb eps (m_qty m)) (firstn k items) /\
    (k = List.length items \/ target <= qty_of (firstn k items)) /\
    (forall i, (0 < i < k)%nat -> qty_of (firstn i items) < target).

(** Every stream with a finite size has that capacity and holds at most that much. *)
Definition within (cfg : sp_cfg) (s : sp_state) : Prop :=
  forall st, In st (pc_streams cfg) -> 0 <= st_cap st ->
    b_cap (stream_buf s (st_name st)) = Some (st_cap st) /\ b_qty (stream_buf s (st_name st)) <= st_cap st.

(** Deliveries within what was ordered in that step (nothing when nothing was ordered). *)
Definition feed_within (e : sp_env) (o : sp_out) : Prop :=
  match po_request o with
  | None => pe_receipts e = []
  | Some r => qty_of (pe_receipts e) <= rq_qty r
  end.

(** Every product buffer has room for as much as one time step can process. *)
Definition room (cfg : sp_cfg) (s : sp_state) : Prop :=
  b_qty (ps_left s) + pc_throughput cfg <= pc_leftover_size cfg /\
  forall st, In st (pc_streams cfg) -> 0 <= st_cap st ->
    b_qty (stream_buf s (st_name st)) + pc_throughput cfg <= st_cap st.

(** The batch the next time step will take from the feed leaves no traces below the tolerance. *)
Definition quiet (eps : Q) (cfg : sp_cfg) (s : sp_state) : Prop :=
  forall m rest, b_pop_tol (ps_feed s) (Qmin (pc_throughput cfg) (b_qty (ps_feed s))) eps = Ok (m, rest) ->
    no_traces eps cfg m 1.
