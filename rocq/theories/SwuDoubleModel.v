(** The SWU and feed account of cycamore::Enrichment in IEEE 754 binary64 (/repo/src/enrichment.cc:63-78, 252-294, 406-410).
    EnrichmentModel.v has the rest with exact rationals.  No proofs here. *)
From Flocq Require Import Core.Core IEEE754.BinarySingleNaN.
From Verif Require Import Outcome DoubleModel.

(** cyclus::IsNegative (kernel), called at /repo/src/enrichment.cc:288; [eg] is cyclus::eps(). *)
Definition is_negative_d (eg x : double) : bool := Bltb x (Bopp eg).
(** The account, /repo/src/enrichment.h:381-392: current_swu_capacity, intra_timestep_swu_ and intra_timestep_feed_. *)
Record swu_account := { sa_left : double; sa_swu : double; sa_feed : double }.
(** One enrichment, /repo/src/enrichment.cc:406-409, given its SWU and feed (SwuRequired and feed_req, 365 and 379). *)
Definition enrich_d (a : swu_account) (t : double * double) : swu_account :=
  {| sa_left := dminus (sa_left a) (fst t); sa_swu := dplus (sa_swu a) (fst t); sa_feed := dplus (sa_feed a) (snd t) |}.
(** GetMatlTrades, /repo/src/enrichment.cc:252-294, for the enrichments of a step; tails trades do not touch the account. *)
Definition trades_swu_d (eg : double) (ts : list (double * double)) (a : swu_account) : outcome swu_account :=
  let a1 := fold_left enrich_d ts {| sa_left := sa_left a; sa_swu := of_int 0; sa_feed := of_int 0 |} in
  if is_negative_d eg (sa_left a1) then Throw ValueError else Ok a1.
(** A time step with trades: Tick (/repo/src/enrichment.cc:63-66), trades, and what Tock records (69-78), SWU and feed. *)
Definition swu_step_d (eg capacity : double) (a : swu_account) (ts : list (double * double)) : outcome (swu_account * (double * double)) :=
  let* a1 := trades_swu_d eg ts {| sa_left := capacity; sa_swu := sa_swu a; sa_feed := sa_feed a |} in
  Ok (a1, (sa_swu a1, sa_feed a1)).
(** Consecutive time steps, /repo/src/enrichment.cc:63-78, 252-294; without trades (an empty list here) GetMatlTrades is not called,
    and the sums of the step before are recorded again. *)
Fixpoint swu_life_d (eg capacity : double) (a : swu_account) (steps : list (list (double * double))) : outcome (list (double * double)) :=
  match steps with
  | [] => Ok []
  | [] :: rest => let* os := swu_life_d eg capacity {| sa_left := capacity; sa_swu := sa_swu a; sa_feed := sa_feed a |} rest in Ok ((sa_swu a, sa_feed a) :: os)
  | ts :: rest =>
      let* '(a1, o) := swu_step_d eg capacity a ts in
      let* os := swu_life_d eg capacity a1 rest in
      Ok (o :: os)
  end.
