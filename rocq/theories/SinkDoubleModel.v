(** The quantities of cycamore::Sink in IEEE 754 binary64 (/repo/src/sink.cc:98-255).  SinkModel.v has the same with exact
    rationals, commodities, preferences and the schedule; here a time step only says whether the sink buys.  No proofs here. *)
From Flocq Require Import Core.Core IEEE754.BinarySingleNaN.
From Verif Require Import Outcome DoubleModel MixerDoubleModel.

(** inventory.space() (ResBuf, kernel), /repo/src/sink.h:99, for a stock [qty]. *)
Definition sink_space_d (size qty : double) : double := dmax (of_int 0) (dminus size qty).
(** SpaceAvailable, /repo/src/sink.h:98-100. *)
Definition sink_available_d (capacity size qty : double) : double := dmin capacity (dmax (of_int 0) (sink_space_d size qty)).
(** What the surroundings of a step decide: whether the sink buys (/repo/src/sink.cc:188-201), the random number drawn, if
    the size of requests is random (241-250), the materials (161-169) and the products delivered (172-180). *)
Record sink_env_d := { sd_buys : bool; sd_draw : option double; sd_mats : list double; sd_prods : list double }.
(** requestAmt after Tick, /repo/src/sink.cc:188-201 and 234-255. *)
Definition sink_amt_d (capacity size qty : double) (e : sink_env_d) : double :=
  if sd_buys e then match sd_draw e with None => sink_available_d capacity size qty | Some r => r end else of_int 0.
(** What is requested, of materials (/repo/src/sink.cc:109-111 and 120) as of products (144); [eg] is cyclus::eps().  The second
    computation at 109-111 happens only if the first exceeds the space. *)
Definition sink_request_d (eg capacity size qty : double) (e : sink_env_d) : option double :=
  if Bltb eg (sink_amt_d capacity size qty e) then Some (sink_amt_d capacity size qty e) else None.
(** inventory.Push (ResBuf, kernel), /repo/src/sink.cc:167 and 178; [eps] is cyclus::eps_rsrc(). *)
Definition sink_push_d (eps size : double) (qty m : double) : outcome double :=
  if Bltb eps (dminus m (sink_space_d size qty)) then Throw ValueError else Ok (dplus qty m).
(** The deliveries of a step, materials first, /repo/src/sink.cc:161-180. *)
Definition sink_accept_d (eps size : double) (ms : list double) (qty : double) : outcome double := loop (sink_push_d eps size) ms qty.
(** What is seen of a step: SpaceAvailable (/repo/src/sink.h:98-100) and the request (/repo/src/sink.cc:120, 144). *)
Record sink_out_d := { so_available : double; so_request : option double }.
(** One time step, /repo/src/sink.cc:98-218. *)
Definition sink_step_d (eps eg capacity size qty : double) (e : sink_env_d) : outcome (double * sink_out_d) :=
  let* qty1 := sink_accept_d eps size (sd_mats e) qty in
  let* qty2 := sink_accept_d eps size (sd_prods e) qty1 in
  Ok (qty2, {| so_available := sink_available_d capacity size qty; so_request := sink_request_d eg capacity size qty e |}).
(** Consecutive time steps, /repo/src/sink.cc:98-218. *)
Fixpoint sink_life_d (eps eg capacity size qty : double) (es : list sink_env_d) : outcome (double * list sink_out_d) :=
  match es with
  | [] => Ok (qty, [])
  | e :: es' =>
      let* '(qty1, o) := sink_step_d eps eg capacity size qty e in
      let* '(qty2, os) := sink_life_d eps eg capacity size qty1 es' in
      Ok (qty2, o :: os)
  end.
