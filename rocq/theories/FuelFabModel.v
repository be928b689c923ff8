(** Model of cycamore::FuelFab (/repo/src/fuel_fab.cc, fuel_fab.h).  Line
    numbers refer to fuel_fab.cc unless stated otherwise.  No proofs here. *)
From Verif Require Import Outcome KernelMaterial KernelResBuf KernelBuf.
Local Open Scope Q_scope.

(** Nuclear data: pyne::atomic_mass and pyne::simple_xs(nuclide, reaction,
    spectrum); [None] is the exception pyne::InvalidSimpleXS.  Both are external
    (arbitrary) functions. Called at /repo/src/fuel_fab.cc:529-571, 587-632, 642-676, 684-704. *)
Record nucdata := { d_aw : Z -> Q; d_xs : Z -> string -> string -> option Q }.

(** Composition::atom(): the atoms of a mass composition (up to a factor). Called at
    /repo/src/fuel_fab.cc:514, 686-687. *)
Definition atoms (D : nucdata) (c : comp) : comp := map (fun e => (fst e, snd e / d_aw D (fst e))) c.

(** Average number of neutrons per fission, /repo/src/fuel_fab.cc:518-522, 575-579, 636-640 and
    542-551, 603-612, 654-663. *)
Definition nu_of (spectrum : string) (n : Z) : Q :=
  let thermal := String.eqb spectrum "thermal" in
  if Z.eqb n 922350000 then (if thermal then 243 # 100 else 258 # 100)
  else if Z.eqb n 922330000 then (if thermal then 5 # 2 else 263 # 100)
  else if Z.eqb n 942390000 then (if thermal then 285 # 100 else 31 # 10)
  else if Z.eqb n 942410000 then (if thermal then 285 # 100 else 31 # 10)
  else 0.

(** p = nu * fission - absorption, /repo/src/fuel_fab.cc:553-570, 614-631, 665-675: both cross
    sections count as zero if either is unknown.  The caches (absorb_xs, fiss_xs)
    and the exception for an unknown cross section of a reference nuclide (529-535), which
    counts as zero here, are in WeightCacheModel.v (C113). *)
Definition p_of (D : nucdata) (spectrum : string) (n : Z) : Q :=
  match d_xs D n "fission" spectrum, d_xs D n "absorption" spectrum with
  | Some f, Some a => nu_of spectrum n * f - a
  | _, _ => 0
  end.
(** p of the reference nuclide U238 is computed with nu = 0 (/repo/src/fuel_fab.cc:521, 578, 639),
    which is also what [nu_of] gives. *)
Definition p_u238 (D : nucdata) (spectrum : string) : Q := p_of D spectrum 922380000.
(** p of the reference nuclide Pu239, /repo/src/fuel_fab.cc:523-533, 580-592, 641-647. *)
Definition p_pu239 (D : nucdata) (spectrum : string) : Q := p_of D spectrum 942390000.

(** CosiWeight, /repo/src/fuel_fab.cc:513-680.  Simplification: the division (571, 632, 676) is that of
    the rationals; equal reference values (a division by zero) are excluded by
    hypothesis in the theorems. *)
Definition cosi_weight (D : nucdata) (spectrum : string) (c : comp) : Q :=
  qsum (map (fun e => snd e * (p_of D spectrum (fst e) - p_u238 D spectrum)
                      / (p_pu239 D spectrum - p_u238 D spectrum))
            (cnorm 1 (atoms D c))).

(** AtomToMassFrac, /repo/src/fuel_fab.cc:684-704. Simplification: 0/0 (both compositions empty)
    is 0. *)
Definition atom_to_mass (D : nucdata) (f : Q) (c1 c2 : comp) : Q :=
  let n1 := cnorm f (atoms D c1) in
  let n2 := cnorm (1 - f) (atoms D c2) in
  let mass1 := qsum (map (fun e => snd e * d_aw D (fst e)) n1) in
  let mass2 := qsum (map (fun e => snd e * d_aw D (fst e)) n2) in
  mass1 / (mass1 + mass2).

(** ValidWeights, /repo/src/fuel_fab.cc:727-731. *)
Definition valid_weights (lo t hi : Q) : bool := Qle_bool lo t && Qle_bool t hi.

(** HighFrac, /repo/src/fuel_fab.cc:706-719; [nz] is CY_NEAR_ZERO (the default of eps,
    /repo/src/fuel_fab.h:277). *)
Definition high_frac (nz lo t hi : Q) : outcome Q :=
  if negb (valid_weights lo t hi) then Throw ValueError
  else if Qeq_bool lo hi && Qeq_bool t lo then Ok 1
  else
    let f := Qabs ((t - lo) / (hi - lo)) in
    if Qltb (1 - f) nz then Ok 1
    else if Qltb f nz then Ok 0
    else Ok f.

(** LowFrac, /repo/src/fuel_fab.cc:721-723. *)
Definition low_frac (nz lo t hi : Q) : outcome Q :=
  let* f := high_frac nz lo t hi in Ok (1 - f).

(** User parameters, /repo/src/fuel_fab.h:138-266. *)
Record ff_cfg := {
  fc_fill_commods : list string; fc_fill_prefs : list Q; fc_fill_recipe : string; fc_fill_size : Q;
  fc_fiss_commods : list string; fc_fiss_prefs : list Q; fc_fiss_recipe : string; fc_fiss_size : Q;
  fc_topup_commod : string; fc_topup_pref : Q; fc_topup_recipe : string; fc_topup_size : Q;
  fc_outcommod : string; fc_throughput : Q; fc_spectrum : string
}.

(** The three inventories (/repo/src/fuel_fab.h:170, 204, 240), their capacities are the sizes. *)
Record ff_state := { fb_fill : buf; fb_fiss : buf; fb_topup : buf }.
(** A newly created facility, /repo/src/fuel_fab.cc:133-137: empty inventories with their sizes as
    capacities. *)
Definition ff_new (cfg : ff_cfg) : ff_state :=
  {| fb_fill := {| b_cap := Some (fc_fill_size cfg); b_items := [] |};
     fb_fiss := {| b_cap := Some (fc_fiss_size cfg); b_items := [] |};
     fb_topup := {| b_cap := Some (fc_topup_size cfg); b_items := [] |} |}.

(** Lines /repo/src/fuel_fab.cc:142-151 and 153-162: default preference (cyclus::kDefaultPref = 1)
    when none is given. *)
Definition ff_prefs (commods : list string) (prefs : list Q) : outcome (list Q) :=
  match prefs with
  | [] => Ok (map (fun _ => 1) commods)
  | _ => if Nat.eqb (List.length prefs) (List.length commods) then Ok prefs else Throw ValueError
  end.
(** EnterNotify, /repo/src/fuel_fab.cc:139-165: the fissile and filler preferences. *)
Definition ff_enter (cfg : ff_cfg) : outcome (list Q * list Q) :=
  let* fiss := ff_prefs (fc_fiss_commods cfg) (fc_fiss_prefs cfg) in
  let* fill := ff_prefs (fc_fill_commods cfg) (fc_fill_prefs cfg) in
  Ok (fiss, fill).

(** Which inventory a request is for (req_inventories_, /repo/src/fuel_fab.h:270). *)
Inductive ff_inv := InvFill | InvFiss | InvTopup.

(** A request portfolio: inventory, quantity, composition asked for ([None]: blank
    material), mutual requests with preference. See /repo/src/fuel_fab.cc:174-226. *)
Record ff_request := { fr_inv : ff_inv; fr_qty : Q; fr_comp : option comp; fr_items : list (string * Q) }.

(** ResBuf::space of a buffer with a capacity, /repo/src/fuel_fab.cc:174, 194, 214. *)
Definition ff_space (b : buf) : Q := match b_space b with Some x => x | None => 0 end.

(** context()->GetRecipe (KeyError when unknown), /repo/src/fuel_fab.cc:179, 199, 219, 297, 307, 318. *)
Definition get_recipe (recipe : string -> option comp) (name : string) : outcome comp :=
  match recipe name with Some c => Ok c | None => Throw KeyError end.

(** One of the three blocks /repo/src/fuel_fab.cc:174-192, 194-212, 214-226. *)
Definition ff_req1 (eps : Q) (recipe : string -> option comp) (inv : ff_inv) (b : buf) (rec : string)
  (items : list (string * Q)) : outcome (list ff_request) :=
  if Qltb eps (ff_space b) then
    let* c := (if String.eqb rec "" then Ok None else let* c := get_recipe recipe rec in Ok (Some c)) in
    Ok [ {| fr_inv := inv; fr_qty := ff_space b; fr_comp := c; fr_items := items |} ]
  else Ok [].
(** GetMatlRequests, /repo/src/fuel_fab.cc:167-229. prefs[i] is defined for every i after
    EnterNotify. *)
Definition ff_requests (eps : Q) (recipe : string -> option comp) (cfg : ff_cfg) (prefs : list Q * list Q)
  (s : ff_state) : outcome (list ff_request) :=
  let* a := ff_req1 eps recipe InvFiss (fb_fiss s) (fc_fiss_recipe cfg) (combine (fc_fiss_commods cfg) (fst prefs)) in
  let* b := ff_req1 eps recipe InvFill (fb_fill s) (fc_fill_recipe cfg) (combine (fc_fill_commods cfg) (snd prefs)) in
  let* c := ff_req1 eps recipe InvTopup (fb_topup s) (fc_topup_recipe cfg) [(fc_topup_commod cfg, fc_topup_pref cfg)] in
  Ok (a ++ b ++ c).

(** req_inventories_ (/repo/src/fuel_fab.cc:188, 208, 224): the inventory of every single request,
    identified by its position among the requests of the time step. *)
Definition ff_req_inventories (reqs : list ff_request) : list ff_inv :=
  flat_map (fun p => map (fun _ => fr_inv p) (fr_items p)) reqs.

(** Lines /repo/src/fuel_fab.cc:266-274: homogenise. *)
Definition ff_squash (eps : Q) (b : buf) : outcome buf :=
  if Nat.ltb 1 (b_count b) then
    let* m := squash (b_items b) in
    b_push eps {| b_cap := b_cap b; b_items := [] |} m
  else Ok b.

(** Lines /repo/src/fuel_fab.cc:246-260 for one response (answered request, material). *)
Definition ff_accept1 (eps : Q) (invs : list ff_inv) (s : ff_state) (jm : nat * mat) : outcome ff_state :=
  match nth_error invs (fst jm) with
  | Some InvFill => let* b := b_push eps (fb_fill s) (snd jm) in
                    Ok {| fb_fill := b; fb_fiss := fb_fiss s; fb_topup := fb_topup s |}
  | Some InvTopup => let* b := b_push eps (fb_topup s) (snd jm) in
                     Ok {| fb_fill := fb_fill s; fb_fiss := fb_fiss s; fb_topup := b |}
  | Some InvFiss => let* b := b_push eps (fb_fiss s) (snd jm) in
                    Ok {| fb_fill := fb_fill s; fb_fiss := b; fb_topup := fb_topup s |}
  | None => Throw ValueError                                          (* 258 *)
  end.
(** AcceptMatlTrades, /repo/src/fuel_fab.cc:240-275. *)
Definition ff_accept (eps : Q) (invs : list ff_inv) (responses : list (nat * mat)) (s : ff_state) : outcome ff_state :=
  let* s1 := loop (ff_accept1 eps invs) responses s in
  let* fill := ff_squash eps (fb_fill s1) in
  let* fiss := ff_squash eps (fb_fiss s1) in
  let* topup := ff_squash eps (fb_topup s1) in
  Ok {| fb_fill := fill; fb_fiss := fiss; fb_topup := topup |}.

(** ResBuf::Peek, /repo/src/fuel_fab.cc:294, 304, 315, 402-410, 450-475: the first parcel; throws
    on an empty buffer. *)
Definition b_peek (b : buf) : outcome mat :=
  match b_items b with [] => Throw ValueError | m :: _ => Ok m end.

(** The compositions and weights bids are based on, /repo/src/fuel_fab.cc:290-320. *)
Record ff_streams := { fs_cfill : comp; fs_ctopup : comp; fs_cfiss : comp;
                       fs_wfill : Q; fs_wtopup : Q; fs_wfiss : Q }.
(** The computation of these, /repo/src/fuel_fab.cc:290-320. *)
Definition ff_weigh (D : nucdata) (recipe : string -> option comp) (cfg : ff_cfg) (s : ff_state) : outcome ff_streams :=
  let w := cosi_weight D (fc_spectrum cfg) in
  let* cfill := (match b_items (fb_fill s) with
                 | m :: _ => Ok (m_comp m)
                 | [] => get_recipe recipe (fc_fill_recipe cfg)
                 end) in                                              (* 293-299 *)
  let* topup := (match b_items (fb_topup s) with
                 | m :: _ => Ok (m_comp m, w (m_comp m))
                 | [] => if String.eqb (fc_topup_recipe cfg) "" then Ok (cfill, 0)
                         else let* c := get_recipe recipe (fc_topup_recipe cfg) in Ok (c, w c)
                 end) in                                              (* 301-309 *)
  let* fiss := (match b_items (fb_fiss s) with
                | m :: _ => Ok (m_comp m, w (m_comp m))
                | [] => if String.eqb (fc_fiss_recipe cfg) "" then Ok (cfill, w cfill)
                        else let* c := get_recipe recipe (fc_fiss_recipe cfg) in Ok (c, w c)
                end) in                                               (* 311-320 *)
  Ok {| fs_cfill := cfill; fs_ctopup := fst topup; fs_cfiss := fst fiss;
        fs_wfill := w cfill; fs_wtopup := snd topup; fs_wfiss := snd fiss |}.

(** The offer for one request (composition, quantity), /repo/src/fuel_fab.cc:323-366; [None]: no bid. *)
Definition ff_offer (nz : Q) (D : nucdata) (cfg : ff_cfg) (st : ff_streams) (ntopup : nat) (tgt : comp) (qty : Q)
  : outcome (option mat) :=
  let w_tgt := cosi_weight D (fc_spectrum cfg) tgt in
  if valid_weights (fs_wfill st) w_tgt (fs_wfiss st) then             (* 329-339 *)
    let* fiss0 := high_frac nz (fs_wfill st) w_tgt (fs_wfiss st) in
    let fill0 := 1 - fiss0 in
    let fiss_frac := atom_to_mass D fiss0 (fs_cfiss st) (fs_cfill st) in
    let fill_frac := atom_to_mass D fill0 (fs_cfill st) (fs_cfiss st) in
    Ok (Some (absorb (Mat 0 (fiss_frac * qty) (fs_cfiss st)) (Mat 0 (fill_frac * qty) (fs_cfill st))))
  else if Nat.ltb 0 ntopup && valid_weights (fs_wfiss st) w_tgt (fs_wtopup st) then   (* 340-354 *)
    let* topup0 := high_frac nz (fs_wfiss st) w_tgt (fs_wtopup st) in
    let fiss0 := 1 - topup0 in
    let fiss_frac := atom_to_mass D fiss0 (fs_cfiss st) (fs_ctopup st) in
    let topup_frac := atom_to_mass D topup0 (fs_ctopup st) (fs_cfiss st) in
    Ok (Some (absorb (Mat 0 (topup_frac * qty) (fs_ctopup st)) (Mat 0 (fiss_frac * qty) (fs_cfiss st))))
  else Ok None.                                                       (* 355-365: a warning at most *)

(** The converters applied to an offer; [None] is CY_LARGE_DOUBLE.  Their
    weights are those of the compositions (/repo/src/fuel_fab.cc:20-22, 60-62, 99-101). *)
Definition conv_fiss (nz : Q) (D : nucdata) (sp : string) (st : ff_streams) (m : mat) : option Q :=   (* 27-43 *)
  let w := cosi_weight D sp in
  if valid_weights (w (fs_cfill st)) (w (m_comp m)) (w (fs_cfiss st)) then
    match high_frac nz (w (fs_cfill st)) (w (m_comp m)) (w (fs_cfiss st)) with
    | Ok f => Some (atom_to_mass D f (fs_cfiss st) (fs_cfill st) * m_qty m) | _ => None end
  else if valid_weights (w (fs_cfiss st)) (w (m_comp m)) (w (fs_ctopup st)) then
    match low_frac nz (w (fs_cfiss st)) (w (m_comp m)) (w (fs_ctopup st)) with
    | Ok f => Some (atom_to_mass D f (fs_cfiss st) (fs_ctopup st) * m_qty m) | _ => None end
  else None.
(** FillConverter, /repo/src/fuel_fab.cc:55-92. *)
Definition conv_fill (nz : Q) (D : nucdata) (sp : string) (st : ff_streams) (m : mat) : option Q :=   (* 67-82 *)
  let w := cosi_weight D sp in
  if valid_weights (w (fs_cfill st)) (w (m_comp m)) (w (fs_cfiss st)) then
    match low_frac nz (w (fs_cfill st)) (w (m_comp m)) (w (fs_cfiss st)) with
    | Ok f => Some (atom_to_mass D f (fs_cfill st) (fs_cfiss st) * m_qty m) | _ => None end
  else if valid_weights (w (fs_cfiss st)) (w (m_comp m)) (w (fs_ctopup st)) then Some 0
  else None.
(** TopupConverter, /repo/src/fuel_fab.cc:94-131. *)
Definition conv_topup (nz : Q) (D : nucdata) (sp : string) (st : ff_streams) (m : mat) : option Q :=  (* 106-121 *)
  let w := cosi_weight D sp in
  if valid_weights (w (fs_cfill st)) (w (m_comp m)) (w (fs_cfiss st)) then Some 0
  else if valid_weights (w (fs_cfiss st)) (w (m_comp m)) (w (fs_ctopup st)) then
    match high_frac nz (w (fs_cfiss st)) (w (m_comp m)) (w (fs_ctopup st)) with
    | Ok f => Some (atom_to_mass D f (fs_ctopup st) (fs_cfiss st) * m_qty m) | _ => None end
  else None.

(** A bid portfolio: an offer per request (by position) and the four
    constraints, /repo/src/fuel_fab.cc:322-388. *)
Record ff_bids := { fo_offers : list (nat * mat); fo_streams : ff_streams;
                    fo_cap_fiss : Q; fo_cap_fill : Q; fo_cap_topup : Q; fo_cap : Q }.
(** The loop over the requests, /repo/src/fuel_fab.cc:323-366. *)
Fixpoint ff_offers (nz : Q) (D : nucdata) (cfg : ff_cfg) (st : ff_streams) (ntopup : nat) (j : nat)
  (reqs : list (comp * Q)) : outcome (list (nat * mat)) :=
  match reqs with
  | [] => Ok []
  | (tgt, qty) :: reqs' =>
      let* o := ff_offer nz D cfg st ntopup tgt qty in
      let* r := ff_offers nz D cfg st ntopup (S j) reqs' in
      Ok (match o with Some m => (j, m) :: r | None => r end)
  end.
(** GetMatlBids, /repo/src/fuel_fab.cc:277-390, for the requests (composition, quantity) on
    outcommod. *)
Definition ff_get_bids (nz : Q) (D : nucdata) (recipe : string -> option comp) (cfg : ff_cfg) (s : ff_state)
  (reqs : list (comp * Q)) : outcome (option ff_bids) :=
  if Qeq_bool (fc_throughput cfg) 0 then Ok None                      (* 284-285 *)
  else match reqs with
  | [] => Ok None                                                     (* 286-288 *)
  | _ =>
      let* st := ff_weigh D recipe cfg s in
      let* os := ff_offers nz D cfg st (b_count (fb_topup s)) 0 reqs in
      Ok (Some {| fo_offers := os; fo_streams := st;
                  fo_cap_fiss := Qmax (b_qty (fb_fiss s)) nz; fo_cap_fill := Qmax (b_qty (fb_fill s)) nz;
                  fo_cap_topup := Qmax (b_qty (fb_topup s)) nz; fo_cap := fc_throughput cfg |})
  end.

(** Weight of a buffer's content, 0 when empty, /repo/src/fuel_fab.cc:400-411. *)
Definition ff_bweight (D : nucdata) (cfg : ff_cfg) (b : buf) : Q :=
  match b_items b with [] => 0 | m :: _ => cosi_weight D (fc_spectrum cfg) (m_comp m) end.

(** The repeated pattern /repo/src/fuel_fab.cc:432-435 etc.: close to the stock means at most the
    stock. *)
Definition ff_snap (eps q stock : Q) : Q :=
  if Qltb (Qabs (q - stock)) eps then Qmin stock q else q.

(** One trade (target composition, amount), /repo/src/fuel_fab.cc:430-492, with the weights
    computed before the first trade. *)
Definition ff_trade1 (eps nz : Q) (D : nucdata) (cfg : ff_cfg) (w_fill w_topup w_fiss : Q) (s : ff_state)
  (tgt : comp) (qty : Q) : outcome (ff_state * mat) :=
  let w_tgt := cosi_weight D (fc_spectrum cfg) tgt in
  if Nat.eqb (b_count (fb_fiss s)) 0 then                             (* 430-437 *)
    let* '(m, b) := b_pop_tol (fb_fill s) (ff_snap eps qty (b_qty (fb_fill s))) eps in
    Ok ({| fb_fill := b; fb_fiss := fb_fiss s; fb_topup := fb_topup s |}, m)
  else if Nat.eqb (b_count (fb_fill s)) 0 && valid_weights w_fill w_tgt w_fiss then   (* 438-445 *)
    let* '(m, b) := b_pop_tol (fb_fiss s) (ff_snap eps qty (b_qty (fb_fiss s))) eps in
    Ok ({| fb_fill := fb_fill s; fb_fiss := b; fb_topup := fb_topup s |}, m)
  else if valid_weights w_fill w_tgt w_fiss then                      (* 446-468 *)
    let* fiss0 := high_frac nz w_fill w_tgt w_fiss in
    let* fill0 := low_frac nz w_fill w_tgt w_fiss in
    let* pfiss := b_peek (fb_fiss s) in
    let* pfill := b_peek (fb_fill s) in
    let fiss_frac := atom_to_mass D fiss0 (m_comp pfiss) (m_comp pfill) in
    let fill_frac := atom_to_mass D fill0 (m_comp pfill) (m_comp pfiss) in
    let fissqty := ff_snap eps (fiss_frac * qty) (b_qty (fb_fiss s)) in
    let fillqty := ff_snap eps (fill_frac * qty) (b_qty (fb_fill s)) in
    let* '(m, b1) := b_pop_tol (fb_fiss s) fissqty eps in
    if Qltb 0 fill_frac then
      let* '(m2, b2) := b_pop_tol (fb_fill s) fillqty eps in
      Ok ({| fb_fill := b2; fb_fiss := b1; fb_topup := fb_topup s |}, absorb m m2)
    else Ok ({| fb_fill := fb_fill s; fb_fiss := b1; fb_topup := fb_topup s |}, m)
  else                                                                (* 469-492 *)
    let* topup0 := high_frac nz w_fiss w_tgt w_topup in
    let fiss0 := 1 - topup0 in
    let* ptopup := b_peek (fb_topup s) in
    let* pfiss := b_peek (fb_fiss s) in
    let topup_frac := atom_to_mass D topup0 (m_comp ptopup) (m_comp pfiss) in
    let fiss_frac := atom_to_mass D fiss0 (m_comp pfiss) (m_comp ptopup) in
    let fissqty := ff_snap eps (fiss_frac * qty) (b_qty (fb_fiss s)) in
    let topupqty := ff_snap eps (topup_frac * qty) (b_qty (fb_topup s)) in
    let* '(m, b1) := b_pop_tol (fb_fiss s) fissqty eps in
    if Qltb 0 topup_frac then
      let* '(m2, b2) := b_pop_tol (fb_topup s) topupqty eps in
      Ok ({| fb_fill := fb_fill s; fb_fiss := b1; fb_topup := b2 |}, absorb m m2)
    else Ok ({| fb_fill := fb_fill s; fb_fiss := b1; fb_topup := fb_topup s |}, m).

(** The loop over trades, /repo/src/fuel_fab.cc:413-493; [tot] is the amount traded so far. *)
Fixpoint ff_trade_loop (eps nz : Q) (D : nucdata) (cfg : ff_cfg) (w_fill w_topup w_fiss tot : Q) (s : ff_state)
  (trades : list (comp * Q)) : outcome (ff_state * list mat) :=
  match trades with
  | [] => Ok (s, [])
  | (tgt, qty) :: trades' =>
      let tot' := tot + qty in
      if Qltb (fc_throughput cfg + eps) tot' then Throw ValueError    (* 422-428 *)
      else
        let* '(s1, m) := ff_trade1 eps nz D cfg w_fill w_topup w_fiss s tgt qty in
        let* '(s2, ms) := ff_trade_loop eps nz D cfg w_fill w_topup w_fiss tot' s1 trades' in
        Ok (s2, m :: ms)
  end.
(** GetMatlTrades, /repo/src/fuel_fab.cc:392-494: trades are (composition of the request's target,
    amount). *)
Definition ff_trades (eps nz : Q) (D : nucdata) (cfg : ff_cfg) (s : ff_state) (trades : list (comp * Q))
  : outcome (ff_state * list mat) :=
  ff_trade_loop eps nz D cfg (ff_bweight D cfg (fb_fill s)) (ff_bweight D cfg (fb_topup s))
    (ff_bweight D cfg (fb_fiss s)) 0 s trades.

(** A time step (Tick and Tock are empty, /repo/src/fuel_fab.h:118-119): requests, bids, trades,
    receipts.  [fe_trades]: position of the request, amount. *)
Record ff_env := { fe_reqs : list (comp * Q); fe_trades : list (nat * Q); fe_receipts : list (nat * mat) }.
(** What is observable of a time step, /repo/src/fuel_fab.cc:167-494. *)
Record ff_out := { fo_requests : list ff_request; fo_bids : option ff_bids; fo_shipped : list mat }.
(** The targets of the traded requests, /repo/src/fuel_fab.cc:415-419. *)
Fixpoint ff_targets (reqs : list (comp * Q)) (trades : list (nat * Q)) : list (comp * Q) :=
  match trades with
  | [] => []
  | (j, q) :: r => match nth_error reqs j with
                   | Some (c, _) => (c, q) :: ff_targets reqs r
                   | None => ff_targets reqs r
                   end
  end.
(** One time step: /repo/src/fuel_fab.cc:167-229, 277-390, 392-494, 240-275. *)
Definition ff_step (eps nz : Q) (D : nucdata) (recipe : string -> option comp) (cfg : ff_cfg)
  (prefs : list Q * list Q) (s : ff_state) (e : ff_env) : outcome (ff_state * ff_out) :=
  let* reqs := ff_requests eps recipe cfg prefs s in
  let* bids := ff_get_bids nz D recipe cfg s (fe_reqs e) in
  let* '(s1, ms) := ff_trades eps nz D cfg s (ff_targets (fe_reqs e) (fe_trades e)) in
  let* s2 := ff_accept eps (ff_req_inventories reqs) (fe_receipts e) s1 in
  Ok (s2, {| fo_requests := reqs; fo_bids := bids; fo_shipped := ms |}).

(** A history of steps (the kernel calls /repo/src/fuel_fab.cc:167-494 once per time step). *)
Fixpoint ff_run (eps nz : Q) (D : nucdata) (recipe : string -> option comp) (cfg : ff_cfg)
  (prefs : list Q * list Q) (s : ff_state) (es : list ff_env) : outcome (ff_state * list ff_out) :=
  match es with
  | [] => Ok (s, [])
  | e :: es' =>
      let* '(s1, o) := ff_step eps nz D recipe cfg prefs s e in
      let* '(s2, os) := ff_run eps nz D recipe cfg prefs s1 es' in
      Ok (s2, o :: os)
  end.
