(** Model of cycamore::Mixer (/repo/src/mixer.cc, mixer.h).  Line numbers refer
    to mixer.cc unless stated otherwise.  No proofs here.

    Simplification: streambufs is a std::map keyed by "in_stream_<i>"; the model
    keeps these buffers in a list indexed by i (operator[] creates a missing one
    with unlimited capacity; the list always has all of them).  The only other
    key it can hold is "output-inv-name", created by InitInv; kept in [xs_extra]. *)
From Verif Require Import Outcome KernelMaterial KernelResBuf KernelBuf.
Local Open Scope Q_scope.

(** One entry of streams_ (/repo/src/mixer.h:63-69): ratio, buffer size (negative:
    unlimited), commodities with preferences. *)
Record mx_stream := { xs_ratio : Q; xs_size : Q; xs_commods : list (string * Q) }.

(** User parameters, /repo/src/mixer.h:63-111. *)
Record mx_cfg := {
  xc_streams : list mx_stream;   (* mixer.h:69 *)
  xc_out_commod : string;        (* mixer.h:83 *)
  xc_out_size : Q;               (* mixer.h:95 *)
  xc_throughput : Q              (* mixer.h:108 *)
}.

(** mixing_ratios (/repo/src/mixer.h:73), streambufs (/repo/src/mixer.h:77), output
    (/repo/src/mixer.h:98). *)
Record mx_state := { xs_ratios : list Q; xs_bufs : list buf; xs_output : buf; xs_extra : option (list mat) }.

(** A newly created facility before EnterNotify; output has the capacity
    out_buf_size (/repo/src/mixer.h:97-98). *)
Definition mx_new (cfg : mx_cfg) : mx_state :=
  {| xs_ratios := []; xs_bufs := map (fun _ => new_buf) (xc_streams cfg);
     xs_output := {| b_cap := Some (xc_out_size cfg); b_items := [] |}; xs_extra := None |}.

(** ResBuf::capacity(double) (setter), /repo/src/mixer.cc:57: throws if the content exceeds the
    new capacity. *)
Definition mx_set_cap (eps : Q) (b : buf) (c : Q) : outcome buf :=
  if Qltb eps (b_qty b - c) then Throw ValueError else Ok {| b_cap := Some c; b_items := b_items b |}.

(** Lines /repo/src/mixer.cc:50-62: the loop over streams_ that sets the capacities. *)
Fixpoint mx_caps (eps : Q) (strs : list mx_stream) (bs : list buf) : outcome (list buf) :=
  match strs, bs with
  | st :: strs', b :: bs' =>
      let* b' := (if Qle_bool 0 (xs_size st) then mx_set_cap eps b (xs_size st) else Ok b) in
      let* r := mx_caps eps strs' bs' in
      Ok (b' :: r)
  | _, _ => Ok bs
  end.

(** Ratio normalisation, /repo/src/mixer.cc:72-90. *)
Definition mx_normalise (rs : list Q) : list Q :=
  let sum := qsum rs in                                              (* 73-74 *)
  if negb (Qeq_bool sum 0)
  then map (fun r => r * (1 / sum)) rs                               (* 83-86 *)
  else map (fun _ => 1 / inject_Z (zlen rs)) rs.                     (* 87-89 *)

(** EnterNotify, /repo/src/mixer.cc:42-94.  The size check at 65-70 compares two vectors filled by
    the same loop and can never fail. *)
Definition mx_enter (eps : Q) (cfg : mx_cfg) (s : mx_state) : outcome mx_state :=
  let* bs := mx_caps eps (xc_streams cfg) (xs_bufs s) in
  Ok {| xs_ratios := mx_normalise (map xs_ratio (xc_streams cfg)); xs_bufs := bs;
        xs_output := xs_output s; xs_extra := xs_extra s |}.

(** Lines /repo/src/mixer.cc:100-104: std::min(tgt_qty, quantity / ratio).  For a zero ratio the
    IEEE quotient is inf or NaN and std::min returns its first argument. *)
Fixpoint mx_target (tgt : Q) (rs : list Q) (bs : list buf) : Q :=
  match rs, bs with
  | r :: rs', b :: bs' =>
      let tgt' := if Qeq_bool r 0 then tgt
                  else if Qltb (b_qty b / r) tgt then b_qty b / r else tgt in
      mx_target tgt' rs' bs'
  | _, _ => tgt
  end.

(** Lines /repo/src/mixer.cc:109-121: pop the streams one after the other and absorb.  [acc] is
    the pointer m, null before the first stream. *)
Fixpoint mx_blend (eps tgt : Q) (acc : option mat) (rs : list Q) (bs : list buf)
  : outcome (option mat * list buf) :=
  match rs, bs with
  | r :: rs', b :: bs' =>
      let* '(m, b') := b_pop_tol b (r * tgt) eps in                  (* 112-117 *)
      let acc' := match acc with None => m | Some a => absorb a m end in
      let* '(acc2, r2) := mx_blend eps tgt (Some acc') rs' bs' in
      Ok (acc2, b' :: r2)
  | _, _ => Ok (acc, bs)
  end.

(** Tick, /repo/src/mixer.cc:96-125.  The second component is the recorded supply (124). *)
Definition mx_tick (eps : Q) (cfg : mx_cfg) (s : mx_state) : outcome (mx_state * (string * Q)) :=
  let* s' :=
    (if Qltb (b_qty (xs_output s)) (xc_out_size cfg) then            (* 97 *)
       let space := Qmax 0 (xc_out_size cfg - b_qty (xs_output s)) in
       let tgt := Qmin (mx_target space (xs_ratios s) (xs_bufs s)) (xc_throughput cfg) in (* 98-106 *)
       if Qltb 0 tgt then                                            (* 108 *)
         let* '(acc, bs) := mx_blend eps tgt None (xs_ratios s) (xs_bufs s) in
         match acc with
         | None => UB NullDeref                                      (* 121: Push of a null pointer *)
         | Some m => let* o := b_push eps (xs_output s) m in
                     Ok {| xs_ratios := xs_ratios s; xs_bufs := bs; xs_output := o; xs_extra := xs_extra s |}
         end
       else Ok s
     else Ok s) in
  Ok (s', (("supply" ++ xc_out_commod cfg)%string, b_qty (xs_output s'))).

(** A request portfolio: the stream, the quantity ([None]: unlimited), the
    (commodity, preference) of each mutual request, /repo/src/mixer.cc:150-166. *)
Record mx_request := { xr_stream : nat; xr_qty : option Q; xr_items : list (string * Q) }.

(** GetMatlRequests, /repo/src/mixer.cc:144-169. *)
Fixpoint mx_reqs (eps : Q) (i : nat) (strs : list mx_stream) (bs : list buf) : list mx_request :=
  match strs, bs with
  | st :: strs', b :: bs' =>
      let rest := mx_reqs eps (S i) strs' bs' in
      match b_space b with
      | None => {| xr_stream := i; xr_qty := None; xr_items := xs_commods st |} :: rest
      | Some sp => if Qltb eps sp                                    (* 149 *)
                   then {| xr_stream := i; xr_qty := Some sp; xr_items := xs_commods st |} :: rest
                   else rest
      end
  | _, _ => []
  end.
(** GetMatlRequests, /repo/src/mixer.cc:144-169. *)
Definition mx_requests (eps : Q) (cfg : mx_cfg) (s : mx_state) : list mx_request :=
  mx_reqs eps 0 (xc_streams cfg) (xs_bufs s).
(** req_inventories_ (/repo/src/mixer.cc:163): the stream of every single request.  A request is
    identified by its position among all requests of the time step (the code
    uses its address). *)
Definition mx_req_inventories (reqs : list mx_request) : list nat :=
  flat_map (fun p => map (fun _ => xr_stream p) (xr_items p)) reqs.
(** The demand time series, /repo/src/mixer.cc:131-142. *)
Definition mx_demand (cfg : mx_cfg) (s : mx_state) : list (string * option Q) :=
  flat_map (fun sb => map (fun c => (("demand" ++ fst c)%string, b_space (snd sb))) (xs_commods (fst sb)))
           (combine (xc_streams cfg) (xs_bufs s)).

(** AcceptMatlTrades, /repo/src/mixer.cc:172-200.  A response is (answered request, material); for
    a request that is not in req_inventories_ operator[] (182) gives the empty
    name, which is no stream. *)
Fixpoint mx_push_at (eps : Q) (i : nat) (m : mat) (bs : list buf) : outcome (list buf) :=
  match i, bs with
  | _, [] => Throw ValueError                                        (* 194-196 *)
  | O, b :: bs' => let* b' := b_push eps b m in Ok (b' :: bs')       (* 187-193 *)
  | S i', b :: bs' => let* r := mx_push_at eps i' m bs' in Ok (b :: r)
  end.
(** AcceptMatlTrades, /repo/src/mixer.cc:172-200. *)
Definition mx_accept (eps : Q) (invs : list nat) (responses : list (nat * mat)) (s : mx_state) : outcome mx_state :=
  let* bs := loop (fun bs jm =>
      match nth_error invs (fst jm) with                             (* 182 *)
      | None => Throw ValueError
      | Some i => mx_push_at eps i (snd jm) bs
      end) responses (xs_bufs s) in
  Ok {| xs_ratios := xs_ratios s; xs_bufs := bs; xs_output := xs_output s; xs_extra := xs_extra s |}.

(** Shipments by the sell policy started at /repo/src/mixer.cc:93 (cyclus MatlSellPolicy pops
    each traded quantity from output). *)
Definition mx_sell (eps : Q) (sales : list Q) (s : mx_state) : outcome (mx_state * list mat) :=
  let* '(o, ms) := loop (fun (st : buf * list mat) q =>
      let* '(m, b) := b_pop_tol (fst st) q eps in Ok (b, snd st ++ [m])) sales (xs_output s, []) in
  Ok ({| xs_ratios := xs_ratios s; xs_bufs := xs_bufs s; xs_output := o; xs_extra := xs_extra s |}, ms).

(** SnapshotInv, /repo/src/mixer.cc:14-30: the saved output and the saved streams by index.  The
    loop at 23-28 comes last, so a stream buffer called "output-inv-name" replaces
    the saved output. *)
Definition mx_snapshot (s : mx_state) : list mat * list (list mat) :=
  (match xs_extra s with None => b_items (xs_output s) | Some l => l end, map b_items (xs_bufs s)).

(** InitInv, /repo/src/mixer.cc:32-40: the saved output is replaced by the (new, empty) output's
    own content (33), and everything is pushed into streambufs (36-39). *)
Fixpoint mx_push_all (eps : Q) (inv : list (list mat)) (bs : list buf) : outcome (list buf) :=
  match inv, bs with
  | ms :: inv', b :: bs' =>
      let* b' := b_pushv eps b ms in
      let* r := mx_push_all eps inv' bs' in Ok (b' :: r)
  | _, _ => Ok bs
  end.
(** InitInv, /repo/src/mixer.cc:32-40. *)
Definition mx_init_inv (eps : Q) (inv : list mat * list (list mat)) (s : mx_state) : outcome mx_state :=
  let saved := b_items (xs_output s) in                              (* 33-34 *)
  let* bs := mx_push_all eps (snd inv) (xs_bufs s) in
  Ok {| xs_ratios := xs_ratios s; xs_bufs := bs; xs_output := xs_output s;
        xs_extra := Some (match xs_extra s with None => saved | Some l => l ++ saved end) |}.

(** What the environment does in a step: quantities sold (/repo/src/mixer.cc:93), responses
    received (172-200). *)
Record mx_env := { xe_sales : list Q; xe_receipts : list (nat * mat) }.
(** What is observable of a step, /repo/src/mixer.cc:96-169. *)
Record mx_out := { xo_ticked : mx_state; xo_supply : string * Q; xo_demand : list (string * option Q);
                   xo_requests : list mx_request; xo_shipped : list mat }.

(** One time step in kernel order: Tick, requests, sales, receipts (Tock is
    empty, /repo/src/mixer.h:36). *)
Definition mx_step (eps : Q) (cfg : mx_cfg) (s : mx_state) (e : mx_env) : outcome (mx_state * mx_out) :=
  let* '(s1, sup) := mx_tick eps cfg s in
  let* '(s2, shipped) := mx_sell eps (xe_sales e) s1 in
  let reqs := mx_requests eps cfg s1 in
  let* s3 := mx_accept eps (mx_req_inventories reqs) (xe_receipts e) s2 in
  Ok (s3, {| xo_ticked := s1; xo_supply := sup; xo_demand := mx_demand cfg s1;
             xo_requests := reqs; xo_shipped := shipped |}).

(** A history of steps (the kernel calls /repo/src/mixer.cc:96-200 once per time step). *)
Fixpoint mx_run (eps : Q) (cfg : mx_cfg) (s : mx_state) (es : list mx_env) : outcome (mx_state * list mx_out) :=
  match es with
  | [] => Ok (s, [])
  | e :: es' =>
      let* '(s1, o) := mx_step eps cfg s e in
      let* '(s2, os) := mx_run eps cfg s1 es' in
      Ok (s2, o :: os)
  end.
