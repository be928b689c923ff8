(** Model of cycamore::Source (/repo/src/source.cc, /repo/src/source.h).  Line
    numbers refer to source.cc unless "h:" is given.  No proofs here.  [eg] is
    cyclus::eps(), [eps] is cyclus::eps_rsrc().  Not modelled: positions (55),
    the commodity-producer registration (27-28), a missing context (68), log messages. *)
From Verif Require Import Outcome KernelMaterial KernelResBuf KernelBuf.
Local Open Scope Q_scope.

(** User parameters, /repo/src/source.h:87-128; [package] and [transport_unit]
    (/repo/src/source.h:130-150) are represented by what they do, see [sr_env]. *)
Record sr_cfg := { sc_commod : string; sc_recipe : string; sc_inv_size : Q; sc_throughput : Q }.
(** inventory, /repo/src/source.h:152-154: a ResBuf of unlimited capacity. *)
Record sr_state := { ss_inv : buf }.

(** Build, /repo/src/source.cc:58-73: one parcel of the recipe, or of an empty composition. *)
Definition sr_build (eps : Q) (recipe : string -> option comp) (cfg : sr_cfg) : outcome sr_state :=
  let* c := (if String.eqb (sc_recipe cfg) "" then Ok []
             else match recipe (sc_recipe cfg) with Some c => Ok c | None => Throw KeyError end) in
  let* b := b_push eps new_buf (Mat 0 (sc_inv_size cfg) c) in
  Ok {| ss_inv := b |}.

(** A bid: position of the request it answers among the requests for the
    commodity, and the material offered, /repo/src/source.cc:118-122. *)
Record sr_bid := { sb_req : nat; sb_mat : mat }.
(** A portfolio: the bids and the capacity constraint, /repo/src/source.cc:98 and 126-128. *)
Record sr_port := { sp_bids : list sr_bid; sp_limit : Q }.

(** What the kernel's Package::GetFillMass and TransportUnit::MaxShippablePackages answer. The
    former may be random, so it may answer differently for every call: [fill i q] are the masses
    of the packages for the [i]-th call, on a quantity of [q]. Called at
    /repo/src/source.cc:105-114, 145-150. *)
Definition filler := nat -> Q -> list Q.

(** Lines /repo/src/source.cc:107-114: package masses for a bid, cut down to what can be shipped.
    int and size_t are compared as unsigned numbers: a negative limit is no limit. *)
Definition cut_to_shippable (ship : Z -> Z) (fs : list Q) : list Q :=
  let k := ship (zlen fs) in
  if (Z.leb 0 k && Z.ltb k (zlen fs))%bool then firstn (Z.to_nat k) fs else fs.
(** The loop over the packages, /repo/src/source.cc:116-123. *)
Fixpoint sr_bids_for (recipe : string -> option comp) (cfg : sr_cfg) (j : nat) (target : mat) (fs : list Q) : outcome (list sr_bid) :=
  match fs with
  | [] => Ok []
  | f :: fs' =>
      let* c := (if String.eqb (sc_recipe cfg) "" then Ok (m_comp target)
                 else match recipe (sc_recipe cfg) with Some c => Ok c | None => Throw KeyError end) in
      let* bs := sr_bids_for recipe cfg j target fs' in
      Ok ({| sb_req := j; sb_mat := Mat 0 f c |} :: bs)
  end.
(** The loop over the requests, /repo/src/source.cc:101-124, from the [j]-th request on. *)
Fixpoint sr_bids_loop (recipe : string -> option comp) (cfg : sr_cfg) (fill : filler) (ship : Z -> Z) (max_qty : Q) (j : nat) (targets : list mat)
  : outcome (list sr_bid) :=
  match targets with
  | [] => Ok []
  | target :: ts =>
      let* bs := sr_bids_for recipe cfg j target (cut_to_shippable ship (fill j (Qmin (m_qty target) max_qty))) in
      let* rest := sr_bids_loop recipe cfg fill ship max_qty (S j) ts in
      Ok (bs ++ rest)
  end.
(** GetMatlBids, /repo/src/source.cc:75-130: the supply recorded and the portfolio.  [reqs] are all
    requests of the exchange, with their commodities. *)
Definition sr_get_bids (eg : Q) (recipe : string -> option comp) (cfg : sr_cfg) (fill : filler) (ship : Z -> Z) (reqs : list (string * mat))
  (s : sr_state) : outcome (Q * option sr_port) :=
  let max_qty := Qmin (sc_throughput cfg) (b_qty (ss_inv s)) in
  if Qltb max_qty eg then Ok (max_qty, None)
  else match map snd (filter (fun r => String.eqb (fst r) (sc_commod cfg)) reqs) with
  | [] => Ok (max_qty, None)
  | targets =>
      let* bids := sr_bids_loop recipe cfg fill ship max_qty 0 targets in
      Ok (max_qty, Some {| sp_bids := bids; sp_limit := max_qty |})
  end.

(** Resource::Package (kernel), called at /repo/src/source.cc:149: splits off the packages; the
    result is (packages, what is left). *)
Fixpoint split_packages (fs : list Q) (m : mat) : outcome (list mat * mat) :=
  match fs with
  | [] => Ok ([], m)
  | f :: fs' =>
      let* '(p, m1) := extract_qty f m in
      let* '(ps, m2) := split_packages fs' m1 in
      Ok (p :: ps, m2)
  end.
(** The loop of GetMatlTrades, /repo/src/source.cc:142-177, from the [i]-th trade on.  A trade is its
    amount and the target of its request; a response is the number of the trade
    and the material sent.  Transmute (169-171) is skipped when the composition
    is the same object already; transmuting to it makes no difference. *)
Fixpoint sr_trade_loop (eps eg : Q) (cfg : sr_cfg) (fill : filler) (i : nat) (shippable : Z) (trades : list (Q * mat)) (b : buf)
  : outcome (buf * list (nat * mat)) :=
  match trades with
  | [] => Ok (b, [])
  | (amt, target) :: ts =>
      if Z.ltb 0 shippable then
        let* '(m, b1) := b_pop_qty b amt in
        let* '(pkgs, rest) := split_packages (fill i (m_qty m)) m in
        let* b2 := (if Qltb eg (m_qty rest) then b_push eps b1 rest else Ok b1) in
        let '(resp, k) := (match pkgs with
                           | p :: _ => (p, (shippable - 1)%Z)
                           | [] => (Mat 0 0 (m_comp rest), shippable)
                           end) in
        let resp' := if String.eqb (sc_recipe cfg) "" then transmute resp (m_comp target) else resp in
        let* '(b3, rs) := sr_trade_loop eps eg cfg fill (S i) k ts b2 in
        Ok (b3, (i, resp') :: rs)
      else sr_trade_loop eps eg cfg fill (S i) shippable ts b
  end.
(** GetMatlTrades, /repo/src/source.cc:132-178. *)
Definition sr_get_trades (eps eg : Q) (cfg : sr_cfg) (fill : filler) (ship : Z -> Z) (trades : list (Q * mat)) (s : sr_state)
  : outcome (sr_state * list (nat * mat)) :=
  let* '(b, rs) := sr_trade_loop eps eg cfg fill 0 (ship (zlen trades)) trades (ss_inv s) in
  Ok ({| ss_inv := b |}, rs).

(** One time step: Tick and Tock do nothing (/repo/src/source.h:62-64); bids, then the trades
    awarded.  The packaging and transport unit answer as in the environment. *)
Record sr_env := { se_fill_bids : filler; se_fill : filler; se_ship : Z -> Z;
                   se_reqs : list (string * mat); se_trades : list (Q * mat) }.
(** What is observable of a step, /repo/src/source.cc:75-178. *)
Record sr_out := { so_supply : Q; so_port : option sr_port; so_sent : list (nat * mat) }.
(** One time step: /repo/src/source.cc:75-130, 132-178. *)
Definition sr_step (eps eg : Q) (recipe : string -> option comp) (cfg : sr_cfg) (s : sr_state) (e : sr_env) : outcome (sr_state * sr_out) :=
  let* '(q, p) := sr_get_bids eg recipe cfg (se_fill_bids e) (se_ship e) (se_reqs e) s in
  let* '(s', rs) := sr_get_trades eps eg cfg (se_fill e) (se_ship e) (se_trades e) s in
  Ok (s', {| so_supply := q; so_port := p; so_sent := rs |}).
(** Consecutive time steps (the kernel calls /repo/src/source.cc:75-178 once per step). *)
Fixpoint sr_run (eps eg : Q) (recipe : string -> option comp) (cfg : sr_cfg) (s : sr_state) (es : list sr_env)
  : outcome (sr_state * list sr_out) :=
  match es with
  | [] => Ok (s, [])
  | e :: es' =>
      let* '(s1, o) := sr_step eps eg recipe cfg s e in
      let* '(s2, os) := sr_run eps eg recipe cfg s1 es' in
      Ok (s2, o :: os)
  end.
