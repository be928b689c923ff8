(** Specification vocabulary for the Mixer properties. *)
From Verif Require Import Outcome KernelMaterial KernelResBuf KernelBuf MixerModel.
Local Open Scope Q_scope.

(** The share of a stream in the mixture: the user's ratio relative to the sum
    of all ratios; equal shares if that sum is zero. *)
Definition mx_total (cfg : mx_cfg) : Q := qsum (map xs_ratio (xc_streams cfg)).
Definition share_of (cfg : mx_cfg) (st : mx_stream) (x : Q) : Prop :=
  (~ mx_total cfg == 0 /\ x * mx_total cfg == xs_ratio st) \/
  (mx_total cfg == 0 /\ x * inject_Z (zlen (xc_streams cfg)) == 1).

(** [b] is what the facility holds for its [i]-th stream [st]. *)
Definition stream_at (cfg : mx_cfg) (s : mx_state) (i : nat) (st : mx_stream) (b : buf) : Prop :=
  nth_error (xc_streams cfg) i = Some st /\ nth_error (xs_bufs s) i = Some b.

(** Can the amount [t] be mixed: throughput, room for output, and each stream
    holds its share. *)
Definition mixable (cfg : mx_cfg) (s : mx_state) (t : Q) : Prop :=
  t <= xc_throughput cfg /\ b_qty (xs_output s) + t <= xc_out_size cfg /\
  forall i st b x, stream_at cfg s i st b -> share_of cfg st x -> x * t <= b_qty b.

(** All requests one after the other: stream and commodity asked for. *)
Definition asked (reqs : list mx_request) : list (nat * string) :=
  flat_map (fun p => map (fun c => (xr_stream p, fst c)) (xr_items p)) reqs.
(** The materials that answer requests of stream [i]. *)
Definition deliveries (reqs : list mx_request) (responses : list (nat * mat)) (i : nat) : list mat :=
  flat_map (fun jm => match nth_error (asked reqs) (fst jm) with
                      | Some (i', _) => if Nat.eqb i' i then [snd jm] else []
                      | None => []
                      end) responses.

(** What the resource exchange guarantees: only requests that were made are
    answered, a portfolio never gets more than it asked for, and no more is sold than
    there is. *)
Definition exchange_ok (reqs : list mx_request) (stock : Q) (e : mx_env) : Prop :=
  Forall (fun jm => (fst jm < List.length (asked reqs))%nat) (xe_receipts e) /\
  Forall (fun jm => mat_ok (snd jm)) (xe_receipts e) /\
  (forall p q, In p reqs -> xr_qty p = Some q -> qty_of (deliveries reqs (xe_receipts e) (xr_stream p)) <= q) /\
  Forall (fun q => 0 < q) (xe_sales e) /\ qsum (xe_sales e) <= stock.
Fixpoint exchanges_ok (eps : Q) (cfg : mx_cfg) (s : mx_state) (es : list mx_env) : Prop :=
  match es with
  | [] => True
  | e :: es' =>
      (forall s1 sup, mx_tick eps cfg s = Ok (s1, sup) ->
         exchange_ok (mx_requests eps cfg s1) (b_qty (xs_output s1)) e) /\
      (forall s' o, mx_step eps cfg s e = Ok (s', o) -> exchanges_ok eps cfg s' es')
  end.

(** Everything received and everything shipped in a history. *)
Definition mx_received (es : list mx_env) : list mat := flat_map (fun e => map snd (xe_receipts e)) es.
Definition mx_shipped (os : list mx_out) : list mat := flat_map xo_shipped os.
(** Everything held. *)
Definition mx_held (s : mx_state) : list mat := flat_map b_items (xs_bufs s) ++ b_items (xs_output s).

(** A facility that has been started and has lived through a history. *)
Definition mx_lived (eps : Q) (cfg : mx_cfg) (es : list mx_env) (s : mx_state) (os : list mx_out) : Prop :=
  exists s0, mx_enter eps cfg (mx_new cfg) = Ok s0 /\ mx_run eps cfg s0 es = Ok (s, os).

(** Sensible input: at least one stream; ratios all positive or all zero. *)
Definition mx_sensible (cfg : mx_cfg) : Prop :=
  xc_streams cfg <> [] /\ 0 <= xc_out_size cfg /\
  (Forall (fun st => 0 < xs_ratio st) (xc_streams cfg) \/ Forall (fun st => xs_ratio st == 0) (xc_streams cfg)).

(** Stream sizes and output size are respected. *)
Definition mx_within (cfg : mx_cfg) (s : mx_state) : Prop :=
  b_qty (xs_output s) <= xc_out_size cfg /\
  forall i st b, stream_at cfg s i st b -> 0 <= xs_size st -> b_qty b <= xs_size st.

(** Received parcels are sane and only positive quantities are sold. *)
Definition mx_sane (es : list mx_env) : Prop :=
  Forall (fun e => Forall (fun jm => mat_ok (snd jm)) (xe_receipts e) /\ Forall (fun q => 0 < q) (xe_sales e)) es.
