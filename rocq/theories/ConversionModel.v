(** Model of cycamore::Conversion (/repo/src/conversion.cc, /repo/src/conversion.h).
    Line numbers refer to conversion.cc unless stated otherwise.  No proofs here.

    Both buffers are bulk ResBufs (26-27): a bulk buffer absorbs what is pushed
    into its single parcel.  [output] has the default (infinite) capacity. *)
From Verif Require Import Outcome KernelMaterial KernelResBuf.
Local Open Scope Q_scope.

(** User parameters, /repo/src/conversion.h:89-120. *)
Record cv_cfg := {
  vc_incommods : list string;  (* conversion.h:89 *)
  vc_outcommod : string;       (* conversion.h:97 *)
  vc_throughput : Q;           (* conversion.h:108 *)
  vc_capacity : Q              (* conversion.h:120 *)
}.

(** The two buffers, /repo/src/conversion.h:122-127. *)
Record cv_state := { vs_input : list mat; vs_output : list mat }.

(** A newly built facility, /repo/src/conversion.cc:22-28. *)
Definition cv_empty : cv_state := Build_cv_state [] [].

(** ResBuf::Push on a bulk buffer (kernel), as constructed at /repo/src/conversion.cc:26-27: the
    first parcel stays, later ones are absorbed into it. *)
Definition bulk_push (ms : list mat) (m : mat) : list mat :=
  match ms with
  | [] => [m]
  | x :: r => absorb x m :: r
  end.

(** Convert, /repo/src/conversion.cc:89-93 (called by Tick, 75-77). *)
Definition cv_tick (cfg : cv_cfg) (s : cv_state) : outcome cv_state :=
  if Qltb 0 (qty_of (vs_input s)) then
    let* '(m, rest) := items_pop_qty (vs_input s) (Qmin (qty_of (vs_input s)) (vc_throughput cfg)) in
    Ok {| vs_input := rest; vs_output := bulk_push (vs_output s) m |}
  else Ok s.

(** AvailableFeedstockCapacity, /repo/src/conversion.cc:84-86. *)
Definition cv_available (cfg : cv_cfg) (s : cv_state) : Q := vc_capacity cfg - qty_of (vs_input s).

(** GetMatlRequests, /repo/src/conversion.cc:96-122: the requests of the single portfolio (commodity,
    quantity; the material is a blank one) and its capacity constraint. *)
Definition cv_requests (cfg : cv_cfg) (s : cv_state) : option (list (string * Q) * Q) :=
  let available := cv_available cfg s in
  if Qle_bool available 0 then None
  else Some (map (fun c => (c, available)) (vc_incommods cfg), available).

(** GetMatlBids, /repo/src/conversion.cc:125-156, for the quantities [reqs] requested on outcommod:
    bids (request index, offered material) and the capacity constraint.
    output.Peek() is the first parcel. *)
Definition cv_bids (s : cv_state) (reqs : list Q) : outcome (option (list (nat * mat) * Q)) :=
  let available := qty_of (vs_output s) in
  if Qle_bool available 0 then Ok None
  else
    let* bids := loop (fun acc jq =>
        let offer := Qmin available (snd jq) in
        if Qltb 0 offer then
          match vs_output s with
          | [] => Throw ValueError
          | m :: _ => Ok (acc ++ [(fst jq, {| m_id := 0; m_qty := offer; m_comp := m_comp m |})])
          end
        else Ok acc) (combine (seq 0 (List.length reqs)) reqs) [] in
    Ok (Some (bids, available)).

(** GetMatlTrades, /repo/src/conversion.cc:173-184. *)
Fixpoint cv_trades (amts : list Q) (output shipped : list mat) : outcome (list mat * list mat) :=
  match amts with
  | [] => Ok (output, shipped)
  | q :: amts' =>
      let* '(m, output') := items_pop_qty output q in
      cv_trades amts' output' (shipped ++ [m])
  end.

(** AcceptMatlTrades, /repo/src/conversion.cc:159-170; Push throws when the capacity is exceeded by
    more than eps_rsrc(). *)
Fixpoint cv_accept (eps : Q) (cfg : cv_cfg) (ms : list mat) (input : list mat) : outcome (list mat) :=
  match ms with
  | [] => Ok input
  | m :: ms' =>
      if Qltb eps (m_qty m - Qmax 0 (vc_capacity cfg - qty_of input)) then Throw ValueError
      else cv_accept eps cfg ms' (bulk_push input m)
  end.

(** What the environment does in a step: quantities requested on outcommod, quantities of the
    trades awarded to us, parcels delivered to us. Trades: /repo/src/conversion.cc:159-184;
    requests: 125-156. *)
Record cv_env := { ve_reqs : list Q; ve_sales : list Q; ve_receipts : list mat }.

(** What is observable of a step: the requests (/repo/src/conversion.cc:96-122), the bids
    (125-156) and what is shipped (173-184). *)
Record cv_out := {
  vo_ticked : cv_state;                         (* state after Tick *)
  vo_requests : option (list (string * Q) * Q);
  vo_bids : option (list (nat * mat) * Q);
  vo_shipped : list mat
}.

(** One time step in kernel order: Tick, requests, bids, GetMatlTrades,
    AcceptMatlTrades; Tock (/repo/src/conversion.cc:80) does nothing. *)
Definition cv_step (eps : Q) (cfg : cv_cfg) (s : cv_state) (e : cv_env) : outcome (cv_state * cv_out) :=
  let* s1 := cv_tick cfg s in
  let* bids := cv_bids s1 (ve_reqs e) in
  let* '(out, shipped) := cv_trades (ve_sales e) (vs_output s1) [] in
  let* inp := cv_accept eps cfg (ve_receipts e) (vs_input s1) in
  Ok ({| vs_input := inp; vs_output := out |},
      {| vo_ticked := s1; vo_requests := cv_requests cfg s1; vo_bids := bids; vo_shipped := shipped |}).

(** A history of steps (the kernel calls /repo/src/conversion.cc:76-184 once per time step). *)
Fixpoint cv_run (eps : Q) (cfg : cv_cfg) (s : cv_state) (es : list cv_env)
  : outcome (cv_state * list cv_out) :=
  match es with
  | [] => Ok (s, [])
  | e :: es' =>
      let* '(s1, o) := cv_step eps cfg s e in
      let* '(s2, os) := cv_run eps cfg s1 es' in
      Ok (s2, o :: os)
  end.

(** SnapshotInv, generated from "#pragma cyclus def snapshotinv" (/repo/src/conversion.cc:36): saves
    the ResBufs that are declared state variables.  [input] is (/repo/src/conversion.h:123-124);
    [output] carries no "#pragma cyclus var" (/repo/src/conversion.h:126-127). *)
Definition cv_snapshot (s : cv_state) : list (string * list mat) := [("input"%string, vs_input s)].

(** InitInv on a newly created facility, generated from "#pragma cyclus def
    initinv" (/repo/src/conversion.cc:37): pushes the saved parcels back into the declared buffers. *)
Definition cv_restore (inv : list (string * list mat)) : cv_state :=
  {| vs_input := fold_left bulk_push
       (match find (fun e => String.eqb (fst e) "input") inv with Some e => snd e | None => [] end) [];
     vs_output := [] |}.
