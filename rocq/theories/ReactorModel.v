(** Model of cycamore::Reactor, /repo/src/reactor.cc and /repo/src/reactor.h.
    Line numbers refer to reactor.cc unless a file is named.

    Not modelled: packaging flags, positions, the metadata of the output
    database (only event names / values are kept), CommodityProducer registration. *)
From Verif Require Import Outcome KernelMaterial KernelResBuf.
Local Open Scope Z_scope.

(** Input parameters, /repo/src/reactor.h:187-437 (state variables that never change after input),
    plus [exit_t] = Agent::exit_time() (-1 for "no lifetime"). *)
Record rx_cfg := {
  n_batch : Z; n_core : Z; n_fresh : Z; n_spent : Z;
  assem : Q;
  cycle_t : Z; refuel_t : Z;
  power_cap : Q;
  incommods : list string; outcommods : list string;
  side_products : list string; side_qty : list Q;
  decom_all : bool;
  pc_times : list Z; pc_commods : list string; pc_vals : list Q;
  rc_times : list Z; rc_commods : list string; rc_in : list string; rc_out : list string;
  exit_t : Z
}.

(** Mutable state: the three inventories (/repo/src/reactor.h:441-446), the fuel tables
    that preference/recipe changes modify (/repo/src/reactor.h:198-234), cycle_step,
    discharged, res_indexes (/repo/src/reactor.h:335, 453, 460) and hybrid_ (386). *)
Record rx_state := {
  fresh : resbuf; core : resbuf; spent : resbuf;
  inrecipes : list string; outrecipes : list string; prefs : list Q;
  cyc : Z; disch : bool;
  idx : list (Z * nat);
  hybrid : bool
}.

(** What the reactor writes to the output database: ReactorEvents (Record,
    /repo/src/reactor.cc:560-568), time series and ReactorSideProducts (538-558). *)
Inductive event :=
| EvRetired | EvCycleEnd | EvCycleStart
| EvTransmute (n : Z) | EvDischarge (n : Z) | EvDischargeFailed | EvLoad (n : Z)
| EvSupply (commod : string) (q : Q)
| EvDemand (commod : string) (q : Q)
| EvPower (q : Q)
| EvSide (product : string) (q : Q)
| EvSchedDecom.

(** Assignment to the member fresh, /repo/src/reactor.h:441-446. *)
Definition upd_fresh (s : rx_state) (b : resbuf) : rx_state :=
  {| fresh := b; core := core s; spent := spent s; inrecipes := inrecipes s;
     outrecipes := outrecipes s; prefs := prefs s; cyc := cyc s; disch := disch s;
     idx := idx s; hybrid := hybrid s |}. (* field assignment, no code of its own *)
(** Assignment to the member core, /repo/src/reactor.h:441-446. *)
Definition upd_core (s : rx_state) (b : resbuf) : rx_state :=
  {| fresh := fresh s; core := b; spent := spent s; inrecipes := inrecipes s;
     outrecipes := outrecipes s; prefs := prefs s; cyc := cyc s; disch := disch s;
     idx := idx s; hybrid := hybrid s |}. (* field assignment *)
(** Assignment to the member spent, /repo/src/reactor.h:441-446. *)
Definition upd_spent (s : rx_state) (b : resbuf) : rx_state :=
  {| fresh := fresh s; core := core s; spent := b; inrecipes := inrecipes s;
     outrecipes := outrecipes s; prefs := prefs s; cyc := cyc s; disch := disch s;
     idx := idx s; hybrid := hybrid s |}. (* field assignment *)
(** Assignment to fuel_inrecipes and fuel_outrecipes, /repo/src/reactor.cc:195-196. *)
Definition upd_recipes (s : rx_state) (i o : list string) : rx_state :=
  {| fresh := fresh s; core := core s; spent := spent s; inrecipes := i;
     outrecipes := o; prefs := prefs s; cyc := cyc s; disch := disch s;
     idx := idx s; hybrid := hybrid s |}. (* field assignment *)
(** Assignment to fuel_prefs, /repo/src/reactor.cc:72, 179. *)
Definition upd_prefs (s : rx_state) (p : list Q) : rx_state :=
  {| fresh := fresh s; core := core s; spent := spent s; inrecipes := inrecipes s;
     outrecipes := outrecipes s; prefs := p; cyc := cyc s; disch := disch s;
     idx := idx s; hybrid := hybrid s |}. (* field assignment *)
(** Assignment to cycle_step and discharged, /repo/src/reactor.cc:161, 365-388. *)
Definition upd_cyc (s : rx_state) (c : Z) (d : bool) : rx_state :=
  {| fresh := fresh s; core := core s; spent := spent s; inrecipes := inrecipes s;
     outrecipes := outrecipes s; prefs := prefs s; cyc := c; disch := d;
     idx := idx s; hybrid := hybrid s |}. (* field assignment *)
(** Assignment to res_indexes, /repo/src/reactor.cc:270, 504. *)
Definition upd_idx (s : rx_state) (m : list (Z * nat)) : rx_state :=
  {| fresh := fresh s; core := core s; spent := spent s; inrecipes := inrecipes s;
     outrecipes := outrecipes s; prefs := prefs s; cyc := cyc s; disch := disch s;
     idx := m; hybrid := hybrid s |}. (* field assignment *)
(** Assignment to hybrid_, /repo/src/reactor.cc:76-78. *)
Definition upd_hybrid (s : rx_state) (h : bool) : rx_state :=
  {| fresh := fresh s; core := core s; spent := spent s; inrecipes := inrecipes s;
     outrecipes := outrecipes s; prefs := prefs s; cyc := cyc s; disch := disch s;
     idx := idx s; hybrid := h |}. (* field assignment *)

(** std::map<int,int> res_indexes: [m[k]] (/repo/src/reactor.cc:461-499; a missing key reads as 0),
    [m[k] = i] (504), [erase(k)] (270). *)
Fixpoint idx_get (k : Z) (m : list (Z * nat)) : nat :=
  match m with
  | [] => O
  | (k', i) :: m' => if Z.eqb k' k then i else idx_get k m'
  end.
(** res_indexes.erase, /repo/src/reactor.cc:270. *)
Definition idx_erase (k : Z) (m : list (Z * nat)) : list (Z * nat) :=
  filter (fun e => negb (Z.eqb (fst e) k)) m. (* 270 *)
(** res_indexes[k] = i, /repo/src/reactor.cc:504. *)
Definition idx_set (k : Z) (i : nat) (m : list (Z * nat)) : list (Z * nat) :=
  (k, i) :: idx_erase k m. (* 504 *)

(** std::map<std::string, MatVec>, /repo/src/reactor.cc:411-420, 512-527: an association list
    sorted by key. *)
Definition smap := list (string * list mat).
(** mats[commod], /repo/src/reactor.cc:267, 324, 437. *)
Fixpoint smap_get (k : string) (m : smap) : list mat :=
  match m with
  | [] => []
  | (k', v) :: m' => if String.eqb k' k then v else smap_get k m'
  end. (* mats[commod], /repo/src/reactor.cc:267, 324, 437 *)
(** push_back on an existing entry, /repo/src/reactor.cc:417, 517. *)
Fixpoint smap_append (k : string) (x : mat) (m : smap) : smap :=
  match m with
  | [] => []
  | (k', v) :: m' => if String.eqb k' k then (k', v ++ [x]) :: m' else (k', v) :: smap_append k x m'
  end. (* push_back on an existing entry, /repo/src/reactor.cc:417, 517 *)
(** A new entry, at its place in key order, /repo/src/reactor.cc:417, 517. *)
Fixpoint smap_insert (k : string) (x : mat) (m : smap) : smap :=
  match m with
  | [] => [(k, [x])]
  | (k', v) :: m' => if String.ltb k k' then (k, [x]) :: (k', v) :: m'
                     else (k', v) :: smap_insert k x m'
  end. (* a new entry, at its place in key order, /repo/src/reactor.cc:417, 517 *)
(** mapped[commod].push_back(m), /repo/src/reactor.cc:417, 517. *)
Definition smap_push (k : string) (x : mat) (m : smap) : smap :=
  if existsb (fun e => String.eqb (fst e) k) m then smap_append k x m
  else smap_insert k x m. (* mapped[commod].push_back(m), /repo/src/reactor.cc:417, 517 *)
(** std::reverse of every entry, /repo/src/reactor.cc:521-524. *)
Definition smap_map (f : list mat -> list mat) (m : smap) : smap :=
  map (fun e => (fst e, f (snd e))) m. (* std::reverse of every entry, /repo/src/reactor.cc:521-524 *)
(** Update of an existing entry (pop_back), /repo/src/reactor.cc:268. *)
Fixpoint smap_set (k : string) (v : list mat) (m : smap) : smap :=
  match m with
  | [] => []
  | (k', v') :: m' => if String.eqb k' k then (k', v) :: m' else (k', v') :: smap_set k v m'
  end. (* update of an existing entry: pop_back, 268 *)

Section Reactor.
(** cyclus::eps_rsrc() *)
Variable eps : Q.
(** context()->GetRecipe; [None]: unknown recipe, KeyError *)
Variable recipe : string -> option comp.
Variable cfg : rx_cfg.

(** Context::GetRecipe as called at /repo/src/reactor.cc:237 and 407. *)
Definition get_recipe (r : string) : outcome comp :=
  match recipe r with Some c => Ok c | None => Throw KeyError end.

(** retired(), /repo/src/reactor.h:146-148 *)
Definition retired (t : Z) : bool := negb (exit_t cfg =? -1) && (exit_t cfg <? t).

(** InitFrom from a backend, /repo/src/reactor.cc:46-58: reads side_product_quantity[i] for each
    side product. *)
Definition init_from : outcome unit :=
  loop (fun _ i => let* _ := vec_at (side_qty cfg) i in Ok tt)
       (seq 0 (List.length (side_products cfg))) tt.

(** cyclus::kDefaultPref, /repo/src/reactor.cc:72. *)
Definition default_pref : Q := 1%Q.

(** EnterNotify, /repo/src/reactor.cc:60-113 *)
Definition enter_notify (s : rx_state) : outcome rx_state :=
  let s1 := match prefs s with
            | [] => upd_prefs s (map (fun _ => default_pref) (outcommods cfg))
            | _ => s
            end in
  let s2 := match side_products cfg with [] => upd_hybrid s1 false | _ => s1 end in
  let n := List.length (rc_times cfg) in
  let m := List.length (pc_times cfg) in
  if (Nat.eqb (List.length (rc_commods cfg)) n && Nat.eqb (List.length (rc_in cfg)) n
      && Nat.eqb (List.length (rc_out cfg)) n
      && Nat.eqb (List.length (pc_commods cfg)) m && Nat.eqb (List.length (pc_vals cfg)) m)%bool
  then Ok s2 else Throw ValueError.

(** CheckDecommissionCondition, /repo/src/reactor.cc:115-117 *)
Definition check_decom (s : rx_state) : bool :=
  (rb_count (core s) =? 0) && (rb_count (spent s) =? 0).

(** fuel_outcommod, /repo/src/reactor.cc:469-475 *)
Definition fuel_outcommod (s : rx_state) (m : mat) : outcome string :=
  match nth_error (outcommods cfg) (idx_get (m_id m) (idx s)) with
  | Some c => Ok c
  | None => Throw KeyError
  end.

(** fuel_outrecipe, /repo/src/reactor.cc:485-491 *)
Definition fuel_outrecipe (s : rx_state) (m : mat) : outcome string :=
  match nth_error (outrecipes s) (idx_get (m_id m) (idx s)) with
  | Some r => Ok r
  | None => Throw KeyError
  end.

(** In-place mutation of the object [m'], /repo/src/reactor.cc:407, seen through every pointer to
    it in [l]. *)
Definition set_obj (m' : mat) (l : list mat) : list mat :=
  map (fun m => if m_id m =? m_id m' then m' else m) l.

(** Transmute(int n_assem), /repo/src/reactor.cc:394-409.  The objects in [old] are shared with the
    core buffer, so Material::Transmute (407) changes the core's contents. *)
Definition transmute_core (n : Z) (s : rx_state) : outcome (rx_state * list event) :=
  let* '(old, c1) := rb_popn (core s) (Z.min n (rb_count (core s))) in (* 395 *)
  let* c2 := rb_pushv eps c1 old in (* 396 *)
  let* c3 := (if zlen old <? rb_count c2 then (* 397 *)
                let* '(rest, c') := rb_popn c2 (rb_count c2 - zlen old) in
                rb_pushv eps c' rest (* 399 *)
              else Ok c2) in
  let* items := loop (fun l m => (* 406-408 *)
                        let* r := fuel_outrecipe s m in
                        let* c := get_recipe r in
                        Ok (set_obj (transmute m c) l)) old (rb_items c3) in
  Ok (upd_core s {| rb_cap := rb_cap c3; rb_items := items |}, [EvTransmute (zlen old)]).

(** PeekSpent, /repo/src/reactor.cc:411-420 *)
Definition peek_spent (s : rx_state) : outcome (smap * rx_state) :=
  let* '(mats, b1) := rb_popn (spent s) (rb_count (spent s)) in
  let* b2 := rb_pushv eps b1 mats in
  let s' := upd_spent s b2 in
  let* mapped := loop (fun mp m => let* c := fuel_outcommod s' m in Ok (smap_push c m mp)) mats [] in
  Ok (mapped, s').

(** Discharge, /repo/src/reactor.cc:422-447 *)
Definition discharge (s : rx_state) : outcome (rx_state * list event * bool) :=
  let npop := Z.min (n_batch cfg) (rb_count (core s)) in
  if n_spent cfg - rb_count (spent s) <? npop then Ok (s, [EvDischargeFailed], false)
  else
    let* '(ms, c1) := rb_popn (core s) npop in
    let* sp := rb_pushv eps (spent s) ms in
    let s1 := upd_spent (upd_core s c1) sp in
    let* '(s2, evs) := loop (fun st c =>
        let* '(mp, s') := peek_spent (fst st) in
        Ok (s', snd st ++ [EvSupply c (qty_of (smap_get c mp))])) (outcommods cfg) (s1, []) in
    Ok (s2, EvDischarge npop :: evs, true).

(** Load, /repo/src/reactor.cc:449-459 *)
Definition load (s : rx_state) : outcome (rx_state * list event) :=
  let n := Z.min (n_core cfg - rb_count (core s)) (rb_count (fresh s)) in
  if n =? 0 then Ok (s, [])
  else
    let* '(ms, f1) := rb_popn (fresh s) n in
    let* c1 := rb_pushv eps (core s) ms in
    Ok (upd_fresh (upd_core s c1) f1, [EvLoad n]).

(** The loop at /repo/src/reactor.cc:138-142 of the retired branch of Tick.  [fuel] bounds the
    number of iterations; an iteration that does not shrink the core repeats
    for ever, so running out of fuel is divergence. *)
Fixpoint drain_core (fuel : nat) (s : rx_state) : outcome (rx_state * list event) :=
  if 0 <? rb_count (core s) then
    match fuel with
    | O => Diverge
    | S k =>
        let* '(s1, ev, ok) := discharge s in
        if (ok : bool) then
          let* '(s2, ev2) := drain_core k s1 in Ok (s2, ev ++ ev2)
        else Ok (s1, ev)
    end
  else Ok (s, []).

(** The loop at /repo/src/reactor.cc:146-148: move fresh fuel to the spent inventory while it fits. *)
Fixpoint drain_fresh (fuel : nat) (s : rx_state) : outcome rx_state :=
  if ((0 <? rb_count (fresh s)) && Qle_bool (assem cfg) (rb_space (spent s)))%bool then
    match fuel with
    | O => Diverge
    | S k =>
        let* '(m, f1) := rb_pop (fresh s) in
        let* sp := rb_push eps (spent s) m in
        drain_fresh k (upd_spent (upd_fresh s f1) sp)
    end
  else Ok s.

(** ceil(n_assem_core / 2.0), /repo/src/reactor.cc:135 *)
Definition half_up (n : Z) : Z := - ((- n) / 2).

(** Retired branch of Tick, /repo/src/reactor.cc:127-153 *)
Definition tick_retired (t : Z) (s : rx_state) : outcome (rx_state * list event) :=
  let* '(s1, e1) := (if t =? exit_t cfg + 1 then
                       transmute_core (if decom_all cfg then n_core cfg else half_up (n_core cfg)) s
                     else Ok (s, [])) in
  let* '(s2, e2) := drain_core (S (List.length (rb_items (core s1)))) s1 in
  let* s3 := drain_fresh (S (List.length (rb_items (fresh s2)))) s2 in
  Ok (s3, EvRetired :: e1 ++ e2 ++ (if check_decom s3 then [EvSchedDecom] else [])).

(** First position of a commodity in fuel_incommods (inner loops at /repo/src/reactor.cc:177-182,
    193-199 and 502-507). *)
Fixpoint find_commod (c : string) (l : list string) (i : nat) : option nat :=
  match l with
  | [] => None
  | c' :: l' => if String.eqb c' c then Some i else find_commod c l' (S i)
  end.

(** Preference changes, /repo/src/reactor.cc:170-183; entry [i] of the change lists *)
Definition pref_change (t : Z) (s : rx_state) (i : nat) : outcome rx_state :=
  let* ct := vec_at (pc_times cfg) i in
  if negb (t =? ct) then Ok s
  else
    let* c := vec_at (pc_commods cfg) i in
    match find_commod c (incommods cfg) 0 with
    | None => Ok s
    | Some j => let* v := vec_at (pc_vals cfg) i in
                let* p := vec_set (prefs s) j v in
                Ok (upd_prefs s p)
    end.

(** Recipe changes, /repo/src/reactor.cc:186-200; entry [i] of the change lists *)
Definition recipe_change (t : Z) (s : rx_state) (i : nat) : outcome rx_state :=
  let* ct := vec_at (rc_times cfg) i in
  if negb (t =? ct) then Ok s
  else
    let* c := vec_at (rc_commods cfg) i in
    match find_commod c (incommods cfg) 0 with
    | None => Ok s
    | Some j => let* vi := vec_at (rc_in cfg) i in
                let* ri := vec_set (inrecipes s) j vi in
                let* vo := vec_at (rc_out cfg) i in
                let* ro := vec_set (outrecipes s) j vo in
                Ok (upd_recipes s ri ro)
    end.

(** Both change loops, /repo/src/reactor.cc:167-200 *)
Definition apply_changes (t : Z) (s : rx_state) : outcome rx_state :=
  let* s1 := loop (pref_change t) (seq 0 (List.length (pc_times cfg))) s in
  loop (recipe_change t) (seq 0 (List.length (rc_times cfg))) s1.

(** Tick, /repo/src/reactor.cc:119-201 *)
Definition tick (t : Z) (s : rx_state) : outcome (rx_state * list event) :=
  if retired t then tick_retired t s
  else
    let* '(s1, e1) := (if cyc s =? cycle_t cfg then (* 155-158 *)
                         let* '(s', e) := transmute_core (n_batch cfg) s in
                         Ok (s', e ++ [EvCycleEnd])
                       else Ok (s, [])) in
    let* '(s2, e2) := (if ((cycle_t cfg <=? cyc s1) && negb (disch s1))%bool then (* 160-162 *)
                         let* '(s', e, ok) := discharge s1 in
                         Ok (upd_cyc s' (cyc s') ok, e)
                       else Ok (s1, [])) in
    let* '(s3, e3) := (if cycle_t cfg <=? cyc s2 then load s2 else Ok (s2, [])) in (* 163-165 *)
    let* s4 := apply_changes t s3 in
    Ok (s4, e1 ++ e2 ++ e3).

(** One request of a portfolio: commodity, preference, composition, quantity
    (always exclusive), AddRequest at /repo/src/reactor.cc:240. *)
Record request := { r_commod : string; r_pref : Q; r_comp : comp; r_qty : Q }.

(** n_need, /repo/src/reactor.cc:213-221.  [a / b] is a double division: when cycle_time +
    refuel_time is 0 the quotient is infinite or NaN; std::max(0.0, NaN) is 0.0,
    and converting +infinity to int is undefined. *)
Definition n_need (t : Z) (s : rx_state) : outcome Z :=
  let t_left := exit_t cfg - t + 1 in
  let t_left_cycle := cycle_t cfg + refuel_t cfg - cyc s in
  let num := t_left - t_left_cycle in
  let den := cycle_t cfg + refuel_t cfg in
  if den =? 0 then
    if 0 <? num * n_batch cfg then UB FloatToInt else Ok 0
  else
    let n_cycles_left := - ((- num) / den) in
    Ok (Z.max 0 (n_cycles_left * n_batch cfg - n_fresh cfg + n_core cfg - rb_count (core s))).

(** One portfolio of mutually substitutable requests, /repo/src/reactor.cc:232-242. *)
Definition portfolio (s : rx_state) : outcome (list request) :=
  loop (fun acc j =>
          let* c := vec_at (incommods cfg) j in
          let* p := vec_at (prefs s) j in
          let* rn := vec_at (inrecipes s) j in
          let* r := get_recipe rn in
          Ok (acc ++ [{| r_commod := c; r_pref := p; r_comp := r; r_qty := assem cfg |}]))
       (seq 0 (List.length (incommods cfg))) [].

(** GetMatlRequests, /repo/src/reactor.cc:203-256 *)
Definition get_requests (t : Z) (s : rx_state) : outcome (list (list request) * list event) :=
  let order0 := n_core cfg - rb_count (core s) + n_fresh cfg - rb_count (fresh s) in
  let* order := (if exit_t cfg =? -1 then Ok order0
                 else let* need := n_need t s in Ok (Z.min order0 need)) in
  if order =? 0 then Ok ([], [])
  else if retired t then Ok ([], [])
  else
    loop (fun st _ =>
            let* p := portfolio s in
            let* mc := vec_at (incommods cfg) (max_index (prefs s)) in
            Ok (fst st ++ [p], snd st ++ [EvDemand mc (assem cfg)]))
         (seq 0 (Z.to_nat order)) ([], []).

(** PopSpent, /repo/src/reactor.cc:512-527 *)
Definition pop_spent (s : rx_state) : outcome (smap * rx_state) :=
  let* '(mats, b1) := rb_popn (spent s) (rb_count (spent s)) in
  let s' := upd_spent s b1 in
  let* mapped := loop (fun mp m => let* c := fuel_outcommod s' m in Ok (smap_push c m mp)) mats [] in
  Ok (smap_map (@rev mat) mapped, s').

(** PushSpent, /repo/src/reactor.cc:529-536 *)
Definition push_spent (left : smap) (s : rx_state) : outcome rx_state :=
  loop (fun s' e => let* b := rb_pushv eps (spent s') (rev (snd e)) in Ok (upd_spent s' b)) left s.

(** One trade, /repo/src/reactor.cc:266-270: the awarded commodity [c] is served by the last
    element of its (reversed) vector. *)
Definition serve_trade (st : smap * rx_state * list (string * mat)) (c : string)
  : outcome (smap * rx_state * list (string * mat)) :=
  let '(mp, s, resp) := st in
  match rev (smap_get c mp) with
  | [] => UB BackOfEmpty
  | m :: r => Ok (smap_set c (rev r) mp, upd_idx s (idx_erase (m_id m) (idx s)), resp ++ [(c, m)])
  end.

(** GetMatlTrades, /repo/src/reactor.cc:258-273; [trades] are the commodities of the awarded trades.
    The result lists the assemblies shipped. *)
Definition get_trades (trades : list string) (s : rx_state)
  : outcome (rx_state * list (string * mat)) :=
  let* '(mp, s1) := pop_spent s in
  let* '(mp2, s2, resp) := loop serve_trade trades (mp, s1, []) in
  let* s3 := push_spent mp2 s2 in
  Ok (s3, resp).

(** index_res, /repo/src/reactor.cc:501-510 *)
Definition index_res (s : rx_state) (m : mat) (c : string) : outcome rx_state :=
  match find_commod c (incommods cfg) 0 with
  | Some i => Ok (upd_idx s (idx_set (m_id m) i (idx s)))
  | None => Throw ValueError
  end.

(** One delivery, /repo/src/reactor.cc:287-297 *)
Definition accept_one (s : rx_state) (d : string * mat) : outcome rx_state :=
  let* s1 := index_res s (snd d) (fst d) in
  if rb_count (core s1) <? n_core cfg then
    let* b := rb_push eps (core s1) (snd d) in Ok (upd_core s1 b)
  else
    let* b := rb_push eps (fresh s1) (snd d) in Ok (upd_fresh s1 b).

(** AcceptMatlTrades, /repo/src/reactor.cc:275-298; [ds] are (commodity, material) pairs. *)
Definition accept_trades (ds : list (string * mat)) (s : rx_state)
  : outcome (rx_state * list event) :=
  let nload := Z.min (zlen ds) (n_core cfg - rb_count (core s)) in
  let* s' := loop accept_one ds s in
  Ok (s', if 0 <? nload then [EvLoad nload] else []).

(** A bid portfolio: commodity, bids (request index, offered assembly), capacity;
    /repo/src/reactor.cc:329-351 *)
Record bidport := { bp_commod : string; bp_bids : list (nat * mat); bp_cap : Q }.

(** Inner loop /repo/src/reactor.cc:333-341: offer assemblies until the request is covered. *)
Fixpoint offer_until (target tot : Q) (j : nat) (ms : list mat) : list (nat * mat) :=
  match ms with
  | [] => []
  | m :: ms' =>
      let tot' := (tot + m_qty m)%Q in
      (j, m) :: (if Qle_bool target tot' then [] else offer_until target tot' j ms')
  end.

(** GetMatlBids for one commodity with requested quantities [reqs], /repo/src/reactor.cc:316-351. *)
Definition bids_for (s : rx_state) (c : string) (reqs : list Q) : outcome (option bidport) :=
  match reqs with
  | [] => Ok None
  | _ =>
    let* '(mp, _) := peek_spent s in
    match smap_get c mp with
    | [] => Ok None
    | mats =>
      Ok (Some {| bp_commod := c;
                  bp_bids := List.concat (map (fun jq => offer_until (snd jq) 0%Q (fst jq) mats)
                                         (combine (seq 0 (List.length reqs)) reqs));
                  bp_cap := qty_of mats |})
    end
  end.

(** GetMatlBids, /repo/src/reactor.cc:300-355; [reqs c] are the quantities requested on commodity
    [c] by others.  The commodities are visited once each (uniq_outcommods_). *)
Definition get_bids (s : rx_state) (reqs : string -> list Q) : outcome (list bidport) :=
  loop (fun acc c => let* b := bids_for s c (reqs c) in
                     Ok (match b with Some p => acc ++ [p] | None => acc end))
       (nodup string_dec (outcommods cfg)) [].

(** RecordSideProduct, /repo/src/reactor.cc:538-558 *)
Definition record_side (s : rx_state) (produce : bool) : outcome (list event) :=
  if hybrid s then
    loop (fun acc i =>
            let* v := (if produce then vec_at (side_qty cfg) i else Ok 0%Q) in
            let* p := vec_at (side_products cfg) i in
            Ok (acc ++ [EvSide p v])) (seq 0 (List.length (side_products cfg))) []
  else Ok [].

(** Tock, /repo/src/reactor.cc:357-390 *)
Definition tock (t : Z) (s : rx_state) : outcome (rx_state * list event) :=
  if retired t then Ok (s, [])
  else
    let full := rb_count (core s) =? n_core cfg in
    let s1 := if ((cycle_t cfg + refuel_t cfg <=? cyc s) && full && disch s)%bool
              then upd_cyc s 0 false else s in
    let e1 := if ((cyc s1 =? 0) && full)%bool then [EvCycleStart] else [] in
    let on := ((0 <=? cyc s1) && (cyc s1 <? cycle_t cfg) && full)%bool in
    let* e2 := record_side s1 on in
    let s2 := if ((0 <? cyc s1) || full)%bool then upd_cyc s1 (cyc s1 + 1) (disch s1) else s1 in
    Ok (s2, e1 ++ EvPower (if on then power_cap cfg else 0%Q) :: e2).

(** What the environment does in one time step: the quantities other
    facilities request, the commodities of the spent-fuel trades awarded to
    us, and the assemblies delivered to us (with the commodity). See /repo/src/reactor.cc:258-355. *)
Record rx_env := { e_reqs : string -> list Q; e_pick : list string; e_deliv : list (string * mat) }.

(** What is observable of one time step, /repo/src/reactor.cc:119-390. *)
Record rx_out := { o_ticked : rx_state; o_reqs : list (list request); o_bids : list bidport;
                   o_shipped : list (string * mat); o_events : list event; o_state : rx_state }.

(** The exchange calls GetMatlTrades (/repo/src/reactor.cc:258) / AcceptMatlTrades (275) only on
    traders that have at least one trade. *)
Definition trade_phase (picks : list string) (s : rx_state) : outcome (rx_state * list (string * mat)) :=
  match picks with [] => Ok (s, []) | _ => get_trades picks s end.
(** AcceptMatlTrades is called only when there are deliveries, /repo/src/reactor.cc:275. *)
Definition deliver_phase (ds : list (string * mat)) (s : rx_state) : outcome (rx_state * list event) :=
  match ds with [] => Ok (s, []) | _ => accept_trades ds s end. (* 275 *)

(** One time step in the order of the cyclus Timer and exchange (kernel; see DESIGN.md): Tick;
    requests; bids; GetMatlTrades / AcceptMatlTrades when there are trades; Tock. See
    /repo/src/reactor.cc:119, 203, 300, 258, 275, 357. *)
Definition rx_step (t : Z) (s : rx_state) (e : rx_env) : outcome rx_out :=
  let* '(s1, ev1) := tick t s in
  let* '(reqs, ev2) := get_requests t s1 in
  let* bids := get_bids s1 (e_reqs e) in
  let* '(s2, shipped) := trade_phase (e_pick e) s1 in
  let* '(s3, ev3) := deliver_phase (e_deliv e) s2 in
  let* '(s4, ev4) := tock t s3 in
  Ok {| o_ticked := s1; o_reqs := reqs; o_bids := bids; o_shipped := shipped;
        o_events := ev1 ++ ev2 ++ ev3 ++ ev4; o_state := s4 |}.

(** Consecutive time steps starting at time [t] (the kernel calls /repo/src/reactor.cc:119-390
    once per step). *)
Fixpoint rx_run (t : Z) (s : rx_state) (es : list rx_env) : outcome (list rx_out) :=
  match es with
  | [] => Ok []
  | e :: es' =>
      let* o := rx_step t s e in
      let* os := rx_run (t + 1) (o_state o) es' in
      Ok (o :: os)
  end.
End Reactor.

(** Freshly created reactor with given fuel tables: empty inventories with the
    capacities of /repo/src/reactor.h:441-446, constructor values 11-24. *)
Definition rx_new (cfg : rx_cfg) (inr outr : list string) (pf : list Q) (step0 : Z) : rx_state :=
  {| fresh := {| rb_cap := (inject_Z (n_fresh cfg) * assem cfg)%Q; rb_items := [] |};
     core := {| rb_cap := (inject_Z (n_core cfg) * assem cfg)%Q; rb_items := [] |};
     spent := {| rb_cap := (inject_Z (n_spent cfg) * assem cfg)%Q; rb_items := [] |};
     inrecipes := inr; outrecipes := outr; prefs := pf; cyc := step0; disch := false;
     idx := []; hybrid := true |}.
