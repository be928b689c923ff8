(** Model of cycamore::Separations (/repo/src/separations.cc, separations.h).
    Line numbers refer to separations.cc unless stated otherwise.  No proofs here. *)
From Verif Require Import Outcome KernelMaterial KernelResBuf KernelBuf.
Local Open Scope Q_scope.

(** One stream of streams_ (/repo/src/separations.h:190-208): name, buffer size
    (negative: infinite), efficiencies by nuclide or element id. *)
Record sp_stream := { st_name : string; st_cap : Q; st_effs : list (Z * Q) }.

(** User parameters, /repo/src/separations.h:111-208, and exit_time() (-1: no lifetime).
    streams_ is a std::map: the list is in key order, without repeated names. *)
Record sp_cfg := {
  pc_feed_commods : list string;   (* separations.h:118 *)
  pc_feed_prefs : list Q;          (* separations.h:128 *)
  pc_feed_recipe : string;         (* separations.h:137 *)
  pc_feed_size : Q;                (* separations.h:144 *)
  pc_throughput : Q;               (* separations.h:160 *)
  pc_leftover_commod : string;     (* separations.h:170 *)
  pc_leftover_size : Q;            (* separations.h:183 *)
  pc_streams : list sp_stream;     (* separations.h:208 *)
  pc_exit : Z
}.

(** feed, leftover, streambufs (/repo/src/separations.h:149, 188, 212). *)
Record sp_state := { ps_feed : buf; ps_left : buf; ps_streams : bmap }.

(** A newly created facility before EnterNotify: the capacities of feed and
    leftover are set from the parameters (/repo/src/separations.h:146-149, 185-188). *)
Definition sp_new (cfg : sp_cfg) : sp_state :=
  {| ps_feed := {| b_cap := Some (pc_feed_size cfg); b_items := [] |};
     ps_left := {| b_cap := Some (pc_leftover_size cfg); b_items := [] |};
     ps_streams := [] |}.

(** std::map<int,double> lookup by key: effs.count(k) > 0 and effs[k],
    /repo/src/separations.cc:174-178. *)
Fixpoint eff_find (k : Z) (effs : list (Z * Q)) : option Q :=
  match effs with
  | [] => None
  | (k', v) :: e' => if Z.eqb k' k then Some v else eff_find k e'
  end.

(** efficiency_[k] += v, /repo/src/separations.cc:63 *)
Fixpoint acc_add (k : Z) (v : Q) (m : list (Z * Q)) : list (Z * Q) :=
  match m with
  | [] => [(k, v)]
  | (k', v') :: m' => if Z.eqb k' k then (k', v' + v) :: m' else (k', v') :: acc_add k v m'
  end.

(** ResBuf::capacity(double) (setter), /repo/src/separations.cc:59: throws if the content exceeds
    the new capacity. *)
Definition set_cap (eps : Q) (b : buf) (c : Q) : outcome buf :=
  if Qltb eps (b_qty b - c) then Throw ValueError else Ok {| b_cap := Some c; b_items := b_items b |}.

(** cyclus::kDefaultPref (kernel), used at /repo/src/separations.cc:95. *)
Definition sp_default_pref : Q := 1.

(** EnterNotify, /repo/src/separations.cc:47-98.  Also returns feed_commod_prefs after 93-97. *)
Definition sp_enter (eps : Q) (cfg : sp_cfg) (s : sp_state) : outcome (sp_state * list Q) :=
  let* bufs := loop (fun bm st =>                                               (* 54-60 *)
      if Qle_bool 0 (st_cap st) then
        let* b := set_cap eps (bm_get (st_name st) bm) (st_cap st) in
        Ok (bm_set (st_name st) b bm)
      else Ok bm) (pc_streams cfg) (ps_streams s) in
  let acc := fold_left (fun m e => acc_add (fst e) (snd e) m)                   (* 62-64 *)
                       (flat_map st_effs (pc_streams cfg)) [] in
  if existsb (fun e => Qltb 1 (snd e)) acc then Throw ValueError                (* 69-91 *)
  else Ok ({| ps_feed := ps_feed s; ps_left := ps_left s; ps_streams := bufs |},
           match pc_feed_prefs cfg with
           | [] => map (fun _ => sp_default_pref) (pc_feed_commods cfg)         (* 93-97 *)
           | p => p
           end).

(** elem, /repo/src/separations.cc:172: C++ integer division of the (positive) nuclide id. *)
Definition elem_of (nuc : Z) : Z := (Z.quot nuc 10000000 * 10000000)%Z.

(** The efficiency used for a nuclide, /repo/src/separations.cc:173-180; [None]: skipped (179-180). *)
Definition eff_for (effs : list (Z * Q)) (nuc : Z) : option Q :=
  match eff_find nuc effs with
  | Some e => Some e
  | None => eff_find (elem_of nuc) effs
  end.

(** SepMaterial, /repo/src/separations.cc:161-190: an untracked material with the separated amounts.
    CompMap is a std::map, hence [ccanon].  CreateFromMass (188) rejects negative amounts. *)
Definition sep_material (effs : list (Z * Q)) (m : mat) : outcome mat :=
  let cm := ccanon (cnorm (m_qty m) (m_comp m)) in                              (* 164-165 *)
  let sepcomp := flat_map (fun e => match eff_for effs (fst e) with
                                    | Some eff => [(fst e, snd e * eff)]
                                    | None => []
                                    end) cm in                                  (* 169-186 *)
  if all_nonneg sepcomp then Ok {| m_id := 0; m_qty := csum sepcomp; m_comp := sepcomp |}
  else Throw ValueError.

(** First loop of Tick, /repo/src/separations.cc:113-121: the staged materials and maxfrac. The
    quotient space/quantity is an IEEE division: when the quantity is zero or the space infinite
    it is inf or NaN and the comparison at 118 is false. *)
Definition stage_one (s : sp_state) (mat0 : mat) (st : list (string * mat) * Q) (str : sp_stream)
  : outcome (list (string * mat) * Q) :=
  let '(staged, maxfrac) := st in
  let* m := sep_material (st_effs str) mat0 in                                  (* 116 *)
  let maxfrac' :=
    (match b_space (bm_get (st_name str) (ps_streams s)) with
     | None => maxfrac
     | Some sp => if Qltb 0 (m_qty m) then
                    let frac := sp / m_qty m in
                    if Qltb frac maxfrac then frac else maxfrac                 (* 118-120 *)
                  else maxfrac
     end) in
  Ok (staged ++ [(st_name str, m)], maxfrac').

(** Second loop of Tick, /repo/src/separations.cc:124-138: extract and push each staged stream.
    State: the remaining material and the stream buffers; also what was
    recorded as "Separated" (134) and the supply time series (136-137). *)
Definition extract_one (eps maxfrac : Q) (st : mat * bmap * list (string * Q) * list (string * Q))
  (nm : string * mat) : outcome (mat * bmap * list (string * Q) * list (string * Q)) :=
  let '(mat0, bm, seps, series) := st in
  let '(name, m) := nm in
  let* '(mat1, bm1, seps1) :=
    (if Qltb 0 (m_qty m) then                                                   (* 127 *)
       let qty := if Qltb (m_qty mat0) (m_qty m) then m_qty mat0 else m_qty m in (* 128-131 *)
       let* '(out, rest) := extract_comp eps (qty * maxfrac) (m_comp m) mat0 in (* 133 *)
       let* b := b_push eps (bm_get name bm) out in                             (* 132 *)
       Ok (rest, bm_set name b bm, seps ++ [(name, qty * maxfrac)])
     else Ok (mat0, bm, seps)) in
  (* streambufs[name] (117, 137) creates a missing entry *)
  Ok (mat1, bm_set name (bm_get name bm1) bm1, seps1, series ++ [(name, b_qty (bm_get name bm1))]).

(** What a tick writes to the output database: the amount processed (/repo/src/separations.cc:112), the
    amounts separated (134), the supply series (136-137, 154-155). *)
Record sp_log := { lg_processed : Q; lg_separated : list (string * Q); lg_supply : list (string * Q) }.

(** Tick, /repo/src/separations.cc:100-157.  [None]: nothing was processed (102-104). *)
Definition sp_tick (eps : Q) (cfg : sp_cfg) (s : sp_state) : outcome (sp_state * option sp_log) :=
  match b_items (ps_feed s) with
  | [] => Ok (s, None)                                                          (* 102 *)
  | _ =>
    let pop_qty := Qmin (pc_throughput cfg) (b_qty (ps_feed s)) in              (* 105 *)
    let* '(mat0, feed1) := b_pop_tol (ps_feed s) pop_qty eps in                 (* 106 *)
    let orig := m_qty mat0 in                                                   (* 107 *)
    let* '(staged, maxfrac) := loop (stage_one s mat0) (pc_streams cfg) ([], 1) in
    let* '(mat1, bm, seps, series) :=
      loop (extract_one eps maxfrac) staged (mat0, ps_streams s, [], []) in
    let* '(mat2, feed2) :=
      (if Qeq_bool maxfrac 1 then Ok (mat1, feed1)                              (* 140 *)
       else
         let* '(back, rest) := extract_qty ((1 - maxfrac) * orig) mat1 in       (* 148 *)
         let* f := b_push eps feed1 back in
         Ok (rest, f)) in
    let* left := (if Qltb 0 (m_qty mat2) then b_push eps (ps_left s) mat2       (* 141-144, 149-152 *)
                  else Ok (ps_left s)) in
    Ok ({| ps_feed := feed2; ps_left := left; ps_streams := bm |},
        Some {| lg_processed := orig; lg_separated := seps;
                lg_supply := series ++ [(pc_leftover_commod cfg, b_qty left)] |})
  end.

(** A request portfolio: quantity, composition ([None]: blank material), and one
    (commodity, preference) per request, /repo/src/separations.cc:214-230. *)
Record sp_request := { rq_qty : Q; rq_comp : option comp; rq_items : list (string * Q) }.

(** GetMatlRequests, /repo/src/separations.cc:192-232.  [prefs] is feed_commod_prefs after EnterNotify.
    Result: the demand time series (205-206) and the portfolio if any.
    feed always has a finite capacity. *)
Definition sp_requests (eps : Q) (recipe : string -> option comp) (cfg : sp_cfg) (prefs : list Q)
  (t : Z) (s : sp_state) : outcome ((string * Q) * option sp_request) :=
  let space := Qmax 0 (pc_feed_size cfg - b_qty (ps_feed s)) in
  let* dname := vec_at (pc_feed_commods cfg) (max_index prefs) in               (* 202-206 *)
  let demand := (("demand" ++ dname)%string, space) in
  if (Z.leb 0 (pc_exit cfg) &&
      Qle_bool (inject_Z (pc_exit cfg - t) * pc_throughput cfg) (b_qty (ps_feed s)))%bool
  then Ok (demand, None)                                                        (* 207-208 *)
  else if Qltb space eps then Ok (demand, None)                                 (* 209-211 *)
  else
    let* c := (if String.eqb (pc_feed_recipe cfg) "" then Ok None               (* 216-220 *)
               else match recipe (pc_feed_recipe cfg) with
                    | Some c => Ok (Some c) | None => Throw KeyError end) in
    let* items := loop (fun acc i =>                                            (* 223-227 *)
        let* commod := vec_at (pc_feed_commods cfg) i in
        let* pref := vec_at prefs i in
        Ok (acc ++ [(commod, pref)])) (seq 0 (List.length (pc_feed_commods cfg))) [] in
    Ok (demand, Some {| rq_qty := space; rq_comp := c; rq_items := items |}).

(** GetMatlTrades, /repo/src/separations.cc:234-256: awarded trades are (commodity, amount). *)
Definition trade_one (eps : Q) (cfg : sp_cfg) (st : sp_state * list mat) (tr : string * Q)
  : outcome (sp_state * list mat) :=
  let '(s, resp) := st in
  let '(commod, amt0) := tr in
  if String.eqb commod (pc_leftover_commod cfg) then
    let amt := Qmin (b_qty (ps_left s)) amt0 in                                 (* 244 *)
    let* '(m, b) := b_pop_tol (ps_left s) amt eps in
    Ok ({| ps_feed := ps_feed s; ps_left := b; ps_streams := ps_streams s |}, resp ++ [m])
  else match bm_find commod (ps_streams s) with
       | Some sb =>
           let amt := Qmin (b_qty sb) amt0 in                                   (* 248 *)
           let* '(m, b) := b_pop_tol sb amt eps in
           Ok ({| ps_feed := ps_feed s; ps_left := ps_left s;
                  ps_streams := bm_set commod b (ps_streams s) |}, resp ++ [m])
       | None => Throw ValueError                                               (* 251-254 *)
       end.
(** GetMatlTrades, /repo/src/separations.cc:234-256. *)
Definition sp_trades (eps : Q) (cfg : sp_cfg) (trades : list (string * Q)) (s : sp_state)
  : outcome (sp_state * list mat) := loop (trade_one eps cfg) trades (s, []). (* 239-255 *)

(** AcceptMatlTrades, /repo/src/separations.cc:258-267. *)
Definition sp_accept (eps : Q) (ms : list mat) (s : sp_state) : outcome sp_state :=
  let* f := loop (b_push eps) ms (ps_feed s) in
  Ok {| ps_feed := f; ps_left := ps_left s; ps_streams := ps_streams s |}.

(** A bid portfolio: commodity, bids (request index, offered parcel), capacity,
    /repo/src/separations.cc:289-316. *)
Record sp_bidport := { bd_commod : string; bd_bids : list (nat * mat); bd_cap : Q }.

(** Inner loop /repo/src/separations.cc:294-309 (and 327-342): offer the parcels in order, skipping
    those that are not above eps_rsrc(), until the request is covered. *)
Fixpoint offer_loop (eps target tot : Q) (j : nat) (mats : list mat) : list (nat * mat) :=
  match mats with
  | [] => []
  | m :: mats' =>
      let tot' := tot + m_qty m in
      (if Qltb eps (m_qty m) then [(j, m)] else []) ++
      (if Qle_bool target tot' then [] else offer_loop eps target tot' j mats')
  end.

(** One portfolio, /repo/src/separations.cc:279-316 (and 319-346), for the quantities [reqs] requested
    on the commodity.  PopN followed by Push (286-287) leaves the buffer as it was. *)
Definition bid_on (eps : Q) (commod : string) (b : buf) (reqs : list Q) : list sp_bidport :=
  match reqs with
  | [] => []
  | _ => if Qltb (b_qty b) eps then []
         else [{| bd_commod := commod;
                  bd_bids := flat_map (fun jq => offer_loop eps (snd jq) 0 (fst jq) (b_items b))
                                      (combine (seq 0 (List.length reqs)) reqs);
                  bd_cap := b_qty b |}]
  end.

(** GetMatlBids, /repo/src/separations.cc:269-349; [reqs c] are the quantities requested on
    commodity [c]. *)
Definition sp_bids (eps : Q) (cfg : sp_cfg) (s : sp_state) (reqs : string -> list Q) : list sp_bidport :=
  flat_map (fun e => bid_on eps (fst e) (snd e) (reqs (fst e))) (ps_streams s) ++
  bid_on eps (pc_leftover_commod cfg) (ps_left s) (reqs (pc_leftover_commod cfg)).

(** CheckDecommissionCondition, /repo/src/separations.cc:353-366. *)
Definition sp_check_decom (s : sp_state) : bool :=
  match b_items (ps_left s) with
  | _ :: _ => false
  | [] => forallb (fun e => match b_items (snd e) with [] => true | _ => false end) (ps_streams s)
  end.

(** invs[name] = ..., /repo/src/separations.cc:20, 22, 27: replaces what is saved under that name.
    Simplification: a new name goes to the end (the order of the names does not matter to InitInv). *)
Fixpoint inv_set (k : string) (v : list mat) (inv : list (string * list mat)) : list (string * list mat) :=
  match inv with
  | [] => [(k, v)]
  | (k', v') :: inv' => if String.eqb k' k then (k', v) :: inv' else (k', v') :: inv_set k v inv'
  end.
(** SnapshotInv, /repo/src/separations.cc:14-32: the saved inventories, by name.  The streams come
    last (26-29): a stream with one of the two names replaces the leftover or the feed. *)
Definition sp_snapshot (s : sp_state) : list (string * list mat) :=
  fold_left (fun inv e => inv_set (fst e) (b_items (snd e)) inv) (ps_streams s)
    [("leftover-inv-name"%string, b_items (ps_left s)); ("feed-inv-name"%string, b_items (ps_feed s))].

(** inv[name], /repo/src/separations.cc:35-36 (missing: empty). *)
Fixpoint inv_get (k : string) (inv : list (string * list mat)) : list mat :=
  match inv with
  | [] => []
  | (k', v) :: inv' => if String.eqb k' k then v else inv_get k inv'
  end.

(** InitInv, /repo/src/separations.cc:34-42. *)
Definition sp_init_inv (eps : Q) (inv : list (string * list mat)) (s : sp_state) : outcome sp_state :=
  let* l := b_pushv eps (ps_left s) (inv_get "leftover-inv-name" inv) in
  let* f := b_pushv eps (ps_feed s) (inv_get "feed-inv-name" inv) in
  let* bm := loop (fun bm e => let* b := b_pushv eps (bm_get (fst e) bm) (snd e) in
                               Ok (bm_set (fst e) b bm)) inv (ps_streams s) in
  Ok {| ps_feed := f; ps_left := l; ps_streams := bm |}.

(** What the environment does in a step: requests (/repo/src/separations.cc:269-349), trades
    (234-256), deliveries (258-267). *)
Record sp_env := { pe_time : Z; pe_reqs : string -> list Q; pe_trades : list (string * Q); pe_receipts : list mat }.
(** What is observable of a step, /repo/src/separations.cc:100-349. *)
Record sp_out := { po_log : option sp_log; po_ticked : sp_state;
                   po_demand : string * Q; po_request : option sp_request;
                   po_bids : list sp_bidport; po_shipped : list mat }.

(** One time step in kernel order: Tick, requests, bids, GetMatlTrades,
    AcceptMatlTrades; Tock (/repo/src/separations.cc:351) does nothing. *)
Definition sp_step (eps : Q) (recipe : string -> option comp) (cfg : sp_cfg) (prefs : list Q)
  (s : sp_state) (e : sp_env) : outcome (sp_state * sp_out) :=
  let* '(s1, lg) := sp_tick eps cfg s in
  let* '(dem, rq) := sp_requests eps recipe cfg prefs (pe_time e) s1 in
  let* '(s2, shipped) := sp_trades eps cfg (pe_trades e) s1 in
  let* s3 := sp_accept eps (pe_receipts e) s2 in
  Ok (s3, {| po_log := lg; po_ticked := s1; po_demand := dem; po_request := rq;
             po_bids := sp_bids eps cfg s1 (pe_reqs e); po_shipped := shipped |}).

(** A history of steps (the kernel calls /repo/src/separations.cc:100-351 once per time step). *)
Fixpoint sp_run (eps : Q) (recipe : string -> option comp) (cfg : sp_cfg) (prefs : list Q)
  (s : sp_state) (es : list sp_env) : outcome (sp_state * list sp_out) :=
  match es with
  | [] => Ok (s, [])
  | e :: es' =>
      let* '(s1, o) := sp_step eps recipe cfg prefs s e in
      let* '(s2, os) := sp_run eps recipe cfg prefs s1 es' in
      Ok (s2, o :: os)
  end.
