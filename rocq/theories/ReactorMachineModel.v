(** The Reactor with the arithmetic of the machine: ints of 32 bits whose overflow is undefined, and doubles in
    IEEE 754 binary64 (DoubleModel.v).  ReactorModel.v has unbounded integers; the functions below differ from
    those of the same name there only in their arithmetic.  Functions without int arithmetic are used
    unchanged.  No proofs here. *)
From Flocq Require Import Core.Core IEEE754.BinarySingleNaN.
From Verif Require Import Outcome KernelMaterial KernelResBuf ReactorModel DoubleModel.
Local Open Scope Z_scope.

(** The result of an int operation, /repo/src/reactor.cc:131, 206-207, 216-219, 284, 363, 388, 424, 450: undefined if it
    does not fit into 32 bits. *)
Definition mk_int (n : Z) : outcome Z := if ((- 2 ^ 31 <=? n) && (n <? 2 ^ 31))%bool then Ok n else UB IntOverflow.

Section Machine.
(** cyclus::eps_rsrc() and context()->GetRecipe, as in ReactorModel.v. *)
Variable eps : Q.
Variable recipe : string -> option comp.
Variable cfg : rx_cfg.

(** Discharge, /repo/src/reactor.cc:422-447. *)
Definition m_discharge (s : rx_state) : outcome (rx_state * list event * bool) :=
  let npop := Z.min (n_batch cfg) (rb_count (core s)) in
  let* room := mk_int (n_spent cfg - rb_count (spent s)) in
  if room <? npop then Ok (s, [EvDischargeFailed], false)
  else
    let* '(ms, c1) := rb_popn (core s) npop in
    let* sp := rb_pushv eps (spent s) ms in
    let s1 := upd_spent (upd_core s c1) sp in
    let* '(s2, evs) := loop (fun st c =>
        let* '(mp, s') := peek_spent eps cfg (fst st) in
        Ok (s', snd st ++ [EvSupply c (qty_of (smap_get c mp))])) (outcommods cfg) (s1, []) in
    Ok (s2, EvDischarge npop :: evs, true).

(** Load, /repo/src/reactor.cc:449-459. *)
Definition m_load (s : rx_state) : outcome (rx_state * list event) :=
  let* room := mk_int (n_core cfg - rb_count (core s)) in
  let n := Z.min room (rb_count (fresh s)) in
  if n =? 0 then Ok (s, [])
  else
    let* '(ms, f1) := rb_popn (fresh s) n in
    let* c1 := rb_pushv eps (core s) ms in
    Ok (upd_fresh (upd_core s c1) f1, [EvLoad n]).

(** The loop at /repo/src/reactor.cc:138-142. *)
Fixpoint m_drain_core (fuel : nat) (s : rx_state) : outcome (rx_state * list event) :=
  if 0 <? rb_count (core s) then
    match fuel with
    | O => Diverge
    | S k =>
        let* '(s1, ev, ok) := m_discharge s in
        if (ok : bool) then
          let* '(s2, ev2) := m_drain_core k s1 in Ok (s2, ev ++ ev2)
        else Ok (s1, ev)
    end
  else Ok (s, []).

(** Retired branch of Tick, /repo/src/reactor.cc:127-153; the argument of Transmute (131-136) is computed with
    doubles. *)
Definition m_tick_retired (t : Z) (s : rx_state) : outcome (rx_state * list event) :=
  let* after := mk_int (exit_t cfg + 1) in
  let* '(s1, e1) := (if t =? after then
                       let* n := last_transmutation_double cfg in transmute_core eps recipe n s
                     else Ok (s, [])) in
  let* '(s2, e2) := m_drain_core (S (List.length (rb_items (core s1)))) s1 in
  let* s3 := drain_fresh eps cfg (S (List.length (rb_items (fresh s2)))) s2 in
  Ok (s3, EvRetired :: e1 ++ e2 ++ (if check_decom s3 then [EvSchedDecom] else [])).

(** Tick, /repo/src/reactor.cc:119-201. *)
Definition m_tick (t : Z) (s : rx_state) : outcome (rx_state * list event) :=
  if retired cfg t then m_tick_retired t s
  else
    let* '(s1, e1) := (if cyc s =? cycle_t cfg then
                         let* '(s', e) := transmute_core eps recipe (n_batch cfg) s in
                         Ok (s', e ++ [EvCycleEnd])
                       else Ok (s, [])) in
    let* '(s2, e2) := (if ((cycle_t cfg <=? cyc s1) && negb (disch s1))%bool then
                         let* '(s', e, ok) := m_discharge s1 in
                         Ok (upd_cyc s' (cyc s') ok, e)
                       else Ok (s1, [])) in
    let* '(s3, e3) := (if cycle_t cfg <=? cyc s2 then m_load s2 else Ok (s2, [])) in
    let* s4 := apply_changes cfg t s3 in
    Ok (s4, e1 ++ e2 ++ e3).

(** n_need, /repo/src/reactor.cc:216-221: the ints of lines 216-217 and 218-219, then doubles. *)
Definition m_need (t : Z) (s : rx_state) : outcome Z :=
  let* l1 := mk_int (exit_t cfg - t) in
  let* t_left := mk_int (l1 + 1) in
  let* period := mk_int (cycle_t cfg + refuel_t cfg) in
  let* t_left_cycle := mk_int (period - cyc s) in
  let* num := mk_int (t_left - t_left_cycle) in
  n_need_double cfg t s.

(** GetMatlRequests, /repo/src/reactor.cc:203-256. *)
Definition m_get_requests (t : Z) (s : rx_state) : outcome (list (list request) * list event) :=
  let* o1 := mk_int (n_core cfg - rb_count (core s)) in
  let* o2 := mk_int (o1 + n_fresh cfg) in
  let* order0 := mk_int (o2 - rb_count (fresh s)) in
  let* order := (if exit_t cfg =? -1 then Ok order0
                 else let* need := m_need t s in Ok (Z.min order0 need)) in
  if order =? 0 then Ok ([], [])
  else if retired cfg t then Ok ([], [])
  else
    loop (fun st _ =>
            let* p := portfolio recipe cfg s in
            let* mc := vec_at (incommods cfg) (max_index (prefs s)) in
            Ok (fst st ++ [p], snd st ++ [EvDemand mc (assem cfg)]))
         (seq 0 (Z.to_nat order)) ([], []).

(** AcceptMatlTrades, /repo/src/reactor.cc:275-298. *)
Definition m_accept_trades (ds : list (string * mat)) (s : rx_state) : outcome (rx_state * list event) :=
  let* n := mk_int (zlen ds) in
  let* room := mk_int (n_core cfg - rb_count (core s)) in
  let nload := Z.min n room in
  let* s' := loop (accept_one eps cfg) ds s in
  Ok (s', if 0 <? nload then [EvLoad nload] else []).
(** AcceptMatlTrades is called only when there are deliveries, /repo/src/reactor.cc:275. *)
Definition m_deliver_phase (ds : list (string * mat)) (s : rx_state) : outcome (rx_state * list event) :=
  match ds with [] => Ok (s, []) | _ => m_accept_trades ds s end.

(** Tock, /repo/src/reactor.cc:357-390. *)
Definition m_tock (t : Z) (s : rx_state) : outcome (rx_state * list event) :=
  if retired cfg t then Ok (s, [])
  else
    let full := rb_count (core s) =? n_core cfg in
    let* period := mk_int (cycle_t cfg + refuel_t cfg) in
    let s1 := if ((period <=? cyc s) && full && disch s)%bool then upd_cyc s 0 false else s in
    let e1 := if ((cyc s1 =? 0) && full)%bool then [EvCycleStart] else [] in
    let on := ((0 <=? cyc s1) && (cyc s1 <? cycle_t cfg) && full)%bool in
    let* e2 := record_side cfg s1 on in
    let* s2 := (if ((0 <? cyc s1) || full)%bool then let* c := mk_int (cyc s1 + 1) in Ok (upd_cyc s1 c (disch s1)) else Ok s1) in
    Ok (s2, e1 ++ EvPower (if on then power_cap cfg else 0%Q) :: e2).

(** One time step, as [rx_step] in ReactorModel.v; /repo/src/reactor.cc:119, 203, 300, 258, 275, 357. *)
Definition m_step (t : Z) (s : rx_state) (e : rx_env) : outcome rx_out :=
  let* '(s1, ev1) := m_tick t s in
  let* '(reqs, ev2) := m_get_requests t s1 in
  let* bids := get_bids eps cfg s1 (e_reqs e) in
  let* '(s2, shipped) := trade_phase eps cfg (e_pick e) s1 in
  let* '(s3, ev3) := m_deliver_phase (e_deliv e) s2 in
  let* '(s4, ev4) := m_tock t s3 in
  Ok {| o_ticked := s1; o_reqs := reqs; o_bids := bids; o_shipped := shipped;
        o_events := ev1 ++ ev2 ++ ev3 ++ ev4; o_state := s4 |}.
(** Consecutive time steps; the time context()->time() is an int, /repo/src/reactor.cc:167. *)
Fixpoint m_run (t : Z) (s : rx_state) (es : list rx_env) : outcome (list rx_out) :=
  match es with
  | [] => Ok []
  | e :: es' =>
      let* o := m_step t s e in
      let* t' := mk_int (t + 1) in
      let* os := m_run t' (o_state o) es' in
      Ok (o :: os)
  end.
End Machine.
