(** Model of the Enrichment facility, /repo/src/enrichment.cc and
    /repo/src/enrichment.h.  Line numbers refer to enrichment.cc unless "h:" is
    given.  [eps] is cyclus::eps_rsrc(), [eg] is cyclus::eps(), [V] the value
    function of the SWU formula, [aw] the atomic masses. *)
From Verif Require Import Outcome KernelMaterial KernelResBuf KernelBuf.
Local Open Scope Q_scope.

(** ** The toolkit functions called (assumed contract of the kernel) *)
(** U-235, /repo/src/enrichment.cc:107-108, 144, 246, 349, 376. *)
Definition u235 : Z := 922350000.
(** U-238, /repo/src/enrichment.cc:247, 350, 377. *)
Definition u238 : Z := 922380000.
(** cyclus::toolkit::UraniumAssayMass, called at /repo/src/enrichment.cc:218, 364, 458 and
    /repo/src/enrichment.h:29, 65. *)
Definition assay (m : mat) : Q :=
  let a := mass_of m u235 in let b := mass_of m u238 in
  if Qltb 0 (a + b) then a / (a + b) else 0.
(** cyclus::toolkit::Assays, FeedQty, TailsQty, SwuRequired, called at /repo/src/enrichment.cc:364-366
    and /repo/src/enrichment.h:29-31, 65-73.  [None]: the feed has tails assay, so that the C++
    quotient is an infinity or not a number. *)
Record assays := { as_feed : Q; as_product : Q; as_tails : Q }.
(** FeedQty, called at /repo/src/enrichment.cc:366 and /repo/src/enrichment.h:73. *)
Definition feed_qty (q : Q) (a : assays) : option Q :=
  if Qeq_bool (as_feed a - as_tails a) 0 then None
  else Some (q * ((as_product a - as_tails a) / (as_feed a - as_tails a))).
(** TailsQty, used by SwuRequired (named at /repo/src/enrichment.cc:361). *)
Definition tails_qty (q : Q) (a : assays) : option Q :=
  if Qeq_bool (as_feed a - as_tails a) 0 then None
  else Some (q * ((as_product a - as_feed a) / (as_feed a - as_tails a))).
(** SwuRequired, called at /repo/src/enrichment.cc:365 and /repo/src/enrichment.h:31. *)
Definition swu_required (V : Q -> Q) (q : Q) (a : assays) : option Q :=
  match feed_qty q a, tails_qty q a with
  | Some f, Some t => Some (q * V (as_product a) + t * V (as_tails a) - f * V (as_feed a))
  | _, _ => None
  end.
(** cyclus::AlmostEq, called at /repo/src/enrichment.cc:221, 385. *)
Definition almost_eq (eg a b : Q) : bool := Qltb (Qabs (a - b)) eg.
(** cyclus::IsNegative, called at /repo/src/enrichment.cc:283, 288. *)
Definition is_negative (eg a : Q) : bool := Qltb a (- eg).
(** MatQuery::mass_frac({U-235, U-238}), called at /repo/src/enrichment.cc:374-379 and
    /repo/src/enrichment.h:67-74. *)
Definition u_frac (m : mat) : Q := (cget u235 (cnorm 1 (m_comp m))) + (cget u238 (cnorm 1 (m_comp m))).
(** MatQuery::atom_frac, called at /repo/src/enrichment.cc:246-247 and 349-350. *)
Definition atom_frac (aw : Z -> Q) (c : comp) (n : Z) : Q :=
  cget n (cnorm 1 (map (fun e => (fst e, snd e / aw (fst e))) c)).

(** ** Configuration and state *)
(** User parameters, /repo/src/enrichment.h:277-379. *)
Record en_cfg := {
  ec_feed_commod : string; ec_feed_recipe : string;              (* h:277-292 *)
  ec_product_commod : string; ec_tails_commod : string;          (* h:294-308 *)
  ec_tails_assay : Q; ec_initial_feed : Q; ec_max_feed : Q;      (* h:310-336 *)
  ec_max_enrich : Q; ec_order_prefs : bool; ec_swu_capacity : Q  (* h:338-379 *) }.
(** [es_swu] is current_swu_capacity; [es_iswu], [es_ifeed] are intra_timestep_swu_ and
    intra_timestep_feed_, /repo/src/enrichment.h:381-392. [None] is a member that has not been
    given a value (the constructor, /repo/src/enrichment.cc:18-28, sets none of the three). *)
Record en_state := { es_inv : buf; es_tails : buf; es_swu : option Q; es_iswu : option Q; es_ifeed : option Q }.
(** A newly created facility, /repo/src/enrichment.cc:18-28 and /repo/src/enrichment.h:381-392. *)
Definition en_new (cfg : en_cfg) : en_state :=
  {| es_inv := {| b_cap := Some (ec_max_feed cfg); b_items := [] |}; es_tails := new_buf;
     es_swu := None; es_iswu := None; es_ifeed := None |}.

(** Context::GetRecipe, called at /repo/src/enrichment.cc:49 and 342; an unknown name throws
    KeyError. *)
Definition en_recipe (recipe : string -> option comp) (name : string) : outcome comp :=
  match recipe name with Some c => Ok c | None => Throw KeyError end.

(** Build, /repo/src/enrichment.cc:45-55. *)
Definition en_build (eps : Q) (recipe : string -> option comp) (cfg : en_cfg) : outcome en_state :=
  let s := en_new cfg in
  if Qltb 0 (ec_initial_feed cfg) then
    let* c := en_recipe recipe (ec_feed_recipe cfg) in
    let* b := b_push eps (es_inv s) (Mat 0 (ec_initial_feed cfg) c) in
    Ok {| es_inv := b; es_tails := es_tails s; es_swu := es_swu s; es_iswu := es_iswu s; es_ifeed := es_ifeed s |}
  else Ok s.

(** Tick, /repo/src/enrichment.cc:63-66. *)
Definition en_tick (cfg : en_cfg) (s : en_state) : en_state :=
  {| es_inv := es_inv s; es_tails := es_tails s; es_swu := Some (ec_swu_capacity cfg);
     es_iswu := es_iswu s; es_ifeed := es_ifeed s |}.

(** Tock, /repo/src/enrichment.cc:69-78: the SWU and the feed recorded (the feed also as demand).
    [None]: an indeterminate value is read and recorded. *)
Definition en_tock (s : en_state) : option Q * option Q := (es_iswu s, es_ifeed s).

(** GetMatlRequests and Request_, /repo/src/enrichment.cc:81-96, 339-343: the material asked for. *)
Definition en_requests (eps : Q) (recipe : string -> option comp) (cfg : en_cfg) (s : en_state) : outcome (option mat) :=
  let q := Qmax 0 (ec_max_feed cfg - b_qty (es_inv s)) in
  let* c := en_recipe recipe (ec_feed_recipe cfg) in
  if Qltb eps q then Ok (Some (Mat 0 q c)) else Ok None.

(** ** Preferences *)
(** The U-235 fraction by which SortBids compares, /repo/src/enrichment.cc:107-108. *)
Definition bid_frac (m : mat) : Q := mass_of m u235 / m_qty m.
(** std::sort (/repo/src/enrichment.cc:131) of the bids of one request by SortBids, 99-109.  The
    comparison is "<=", so that std::sort is only defined when no two bids
    compare equal (a strict weak ordering is required), and a bid of quantity 0 (0/0) is not
    comparable.  For other bids the result is the increasing order. *)
Fixpoint insert_bid (x : nat * mat) (l : list (nat * mat)) : list (nat * mat) :=
  match l with
  | [] => [x]
  | y :: l' => if Qle_bool (bid_frac (snd x)) (bid_frac (snd y)) then x :: y :: l' else y :: insert_bid x l'
  end.
(** The bids in increasing order, the result of /repo/src/enrichment.cc:131. *)
Definition increasing_bids (l : list (nat * mat)) : list (nat * mat) := fold_right insert_bid [] l.
(** Is SortBids, /repo/src/enrichment.cc:99-109, a strict weak ordering on these bids? *)
Fixpoint all_comparable (l : list (nat * mat)) : bool :=
  match l with
  | [] => true
  | x :: l' => negb (Qeq_bool (m_qty (snd x)) 0) &&
               forallb (fun y => negb (Qeq_bool (bid_frac (snd x)) (bid_frac (snd y)))) l' && all_comparable l'
  end.
(** std::sort with SortBids, /repo/src/enrichment.cc:131. *)
Definition sort_bids (l : list (nat * mat)) : outcome (list (nat * mat)) :=
  match l with
  | [] | [_] => Ok l
  | _ => if all_comparable l then Ok (increasing_bids l) else UB BadComparator
  end.
(** The preferences given to the sorted bids, /repo/src/enrichment.cc:133-151: [i] is bidit,
    [seen] is u235_mass. *)
Fixpoint assign_prefs (i : Z) (seen : bool) (l : list (nat * mat)) : list (nat * Z) :=
  match l with
  | [] => []
  | (k, m) :: l' =>
      if seen then (k, i + 1)%Z :: assign_prefs (i + 1) true l'
      else if Qeq_bool (mass_of m u235) 0 then (k, (-1)%Z) :: assign_prefs (i + 1) false l'
      else (k, i + 1)%Z :: assign_prefs (i + 1) true l'
  end.
(** AdjustMatlPrefs, /repo/src/enrichment.cc:113-153, for one request: the bids are given by number and
    offered material; [None] when the preferences are left as they are. *)
Definition en_adjust (cfg : en_cfg) (bids : list (nat * mat)) : outcome (option (list (nat * Z))) :=
  if ec_order_prefs cfg then
    let* l := sort_bids bids in Ok (Some (assign_prefs 0 false l))
  else Ok None.

(** ** Feed *)
(** AcceptMatlTrades and AddMat_, /repo/src/enrichment.cc:156-166, 296-336.  The warnings about other
    nuclides are not modelled. *)
Definition en_accept (eps : Q) (ms : list mat) (s : en_state) : outcome en_state :=
  let* b := loop (fun b m => b_push eps b m) ms (es_inv s) in
  Ok {| es_inv := b; es_tails := es_tails s; es_swu := es_swu s; es_iswu := es_iswu s; es_ifeed := es_ifeed s |}.

(** Popping everything and pushing it back, /repo/src/enrichment.cc:370-372 and 454-457: the feed is
    blended into one parcel, which is also returned. *)
Definition blend (eps : Q) (b : buf) : outcome (mat * buf) :=
  let* '(m, b1) := b_pop_tol b (b_qty b) eps in
  let* b2 := b_push eps b1 m in
  Ok (m, b2).
(** FeedAssay, /repo/src/enrichment.cc:450-459. *)
Definition feed_assay (eps : Q) (b : buf) : outcome (Q * buf) :=
  match b_items b with
  | [] => Ok (0, b)
  | _ => let* '(m, b1) := blend eps b in Ok (assay m, b1)
  end.

(** ** Bids *)
(** ValidReq, /repo/src/enrichment.cc:244-249. A requested material without U-235 and U-238 has
    u238 = 0. *)
Definition valid_req (aw : Z -> Q) (cfg : en_cfg) (c : comp) : bool :=
  let a := atom_frac aw c u235 in let b := atom_frac aw c u238 in
  Qltb 0 b && Qltb (ec_tails_assay cfg) (a / (a + b)).
(** Offer_, /repo/src/enrichment.cc:346-353, as a mass composition. *)
Definition en_offer (aw : Z -> Q) (m : mat) : mat :=
  Mat 0 (m_qty m) [(u235, atom_frac aw (m_comp m) u235 * aw u235); (u238, atom_frac aw (m_comp m) u238 * aw u238)].
(** The converters of the two constraints, /repo/src/enrichment.h:17-44 and
    /repo/src/enrichment.h:51-87: the charge for supplying material [m]. [None]: not a finite
    number, such a trade is never awarded (an assumption about the exchange). *)
Definition swu_charge (V : Q -> Q) (feed tails : Q) (m : mat) : option Q :=
  swu_required V (m_qty m) {| as_feed := feed; as_product := assay m; as_tails := tails |}.
(** NatUConverter::convert, /repo/src/enrichment.h:51-87. *)
Definition natu_charge (feed tails : Q) (m : mat) : option Q :=
  match feed_qty (m_qty m) {| as_feed := feed; as_product := assay m; as_tails := tails |} with
  | Some f => if Qeq_bool (u_frac m) 0 then None else Some (f / u_frac m)
  | None => None
  end.
(** The portfolios of GetMatlBids, /repo/src/enrichment.cc:169-241.  [tb_offers]: (request, parcel) for
    the tails; [pb_offers]: (request, offer) for the product; [pb_feed] is the
    feed assay given to both converters. *)
Record tails_bids := { tb_offers : list (nat * mat); tb_limit : Q }.
(** The portfolio of the product, /repo/src/enrichment.cc:209-239. *)
Record product_bids := { pb_offers : list (nat * mat); pb_feed : Q; pb_swu : Q; pb_natu : Q }.
(** All of GetMatlBids, /repo/src/enrichment.cc:169-241: the supply recorded (180-181) and the two
    portfolios. *)
Record en_bids := { eb_supply_tails : Q; eb_supply_product : Q;
                    eb_tails : option tails_bids; eb_product : option product_bids }.
(** The loop over the requests for the product, /repo/src/enrichment.cc:215-225. *)
Fixpoint product_offers (aw : Z -> Q) (eg : Q) (cfg : en_cfg) (j : nat) (reqs : list mat) : list (nat * mat) :=
  match reqs with
  | [] => []
  | m :: reqs' =>                                                                (* 215-225 *)
      let rest := product_offers aw eg cfg (S j) reqs' in
      if valid_req aw cfg (m_comp m) &&
         (Qltb (assay m) (ec_max_enrich cfg) || almost_eq eg (assay m) (ec_max_enrich cfg))
      then (j, en_offer aw m) :: rest else rest
  end.
(** GetMatlBids, /repo/src/enrichment.cc:169-241.  [treqs] and [preqs] are the requests for the two
    commodities; an empty list stands for a commodity nobody requested. *)
Definition en_get_bids (eps eg : Q) (aw : Z -> Q) (cfg : en_cfg) (treqs preqs : list mat) (s : en_state)
  : outcome (en_state * en_bids) :=
  let tb := match treqs with
            | [] => None
            | _ => if Qltb 0 (b_qty (es_tails s)) then                           (* 182-207 *)
                     Some {| tb_offers := flat_map (fun j => map (fun m => (j, m)) (b_items (es_tails s)))
                                                   (seq 0 (List.length treqs));
                             tb_limit := b_qty (es_tails s) |}
                   else None
            end in
  let bids pb := {| eb_supply_tails := b_qty (es_tails s);                       (* 180-181 *)
                    eb_supply_product := b_qty (es_inv s); eb_tails := tb; eb_product := pb |} in
  match preqs with
  | [] => Ok (s, bids None)
  | _ =>
      if Qltb 0 (b_qty (es_inv s)) then                                          (* 209 *)
        let* '(_, b1) := feed_assay eps (es_inv s) in                            (* 227 *)
        let* '(fa, b2) := feed_assay eps b1 in                                   (* 228 *)
        Ok ({| es_inv := b2; es_tails := es_tails s; es_swu := es_swu s; es_iswu := es_iswu s; es_ifeed := es_ifeed s |},
            bids (Some {| pb_offers := product_offers aw eg cfg 0 preqs; pb_feed := fa;
                          pb_swu := ec_swu_capacity cfg; pb_natu := b_qty b2 |}))
      else Ok (s, bids None)
  end.

(** ** Trades *)
(** A trade, /repo/src/enrichment.cc:262-264: the commodity of the request, the material offered
    and the amount. *)
Record en_trade := { et_commod : string; et_offer : mat; et_amt : Q }.
(** What RecordEnrichment_, /repo/src/enrichment.cc:432-447, records: natural uranium and SWU. *)
Record en_record := { er_feed : Q; er_swu : Q }.
(** Adding to a member variable, /repo/src/enrichment.cc:406-409; undefined when it has no value yet. *)
Definition oplus (a : option Q) (x : Q) : outcome (option Q) :=
  match a with Some y => Ok (Some (y + x)) | None => UB Uninitialised end.
(** Enrich_, /repo/src/enrichment.cc:355-429.  Any error of the pops at 383-389 is turned into a
    ValueError (390-398); a feed need that is not a finite number cannot be popped. *)
Definition en_enrich (eps eg : Q) (V : Q -> Q) (cfg : en_cfg) (s : en_state) (offer : mat) (q : Q)
  : outcome (en_state * mat * en_record) :=
  let* '(fa, b0) := feed_assay eps (es_inv s) in                                 (* 364 *)
  let a := {| as_feed := fa; as_product := assay offer; as_tails := ec_tails_assay cfg |} in
  let* '(natu, b1) := blend eps b0 in                                            (* 370-372 *)
  match swu_required V q a, feed_qty q a with
  | Some swu, Some fq =>
      if Qeq_bool (u_frac natu) 0 then Throw ValueError
      else
        let feed := fq / u_frac natu in                                          (* 378-379 *)
        let* '(r, b2) :=
          (if almost_eq eg feed (b_qty b1) then                                  (* 385-386 *)
             match squash (b_items b1) with
             | Ok r => Ok (r, {| b_cap := b_cap b1; b_items := [] |})
             | _ => Throw ValueError
             end
           else match b_pop_tol b1 feed eps with Ok x => Ok x | _ => Throw ValueError end) in
        let* '(resp, rest) := extract_comp eps q (m_comp offer) r in             (* 402-403 *)
        let* t := b_push eps (es_tails s) rest in                                (* 404 *)
        let* cur := oplus (es_swu s) (- swu) in                                  (* 406 *)
        let* isw := oplus (es_iswu s) swu in                                     (* 408-409 *)
        let* ife := oplus (es_ifeed s) feed in
        Ok ({| es_inv := b2; es_tails := t; es_swu := cur; es_iswu := isw; es_ifeed := ife |}, resp,
            {| er_feed := feed; er_swu := swu |})
  | _, _ => Throw ValueError
  end.
(** One trade, /repo/src/enrichment.cc:263-280. *)
Definition en_trade1 (eps eg : Q) (V : Q -> Q) (cfg : en_cfg) (s : en_state) (t : en_trade)
  : outcome (en_state * mat * list en_record) :=
  if String.eqb (et_commod t) (ec_tails_commod cfg) then
    let* '(m, b) := b_pop_tol (es_tails s) (Qmin (et_amt t) (b_qty (es_tails s))) eps in
    Ok ({| es_inv := es_inv s; es_tails := b; es_swu := es_swu s; es_iswu := es_iswu s; es_ifeed := es_ifeed s |}, m, [])
  else
    let* '(s', m, r) := en_enrich eps eg V cfg s (et_offer t) (et_amt t) in Ok (s', m, [r]).
(** The loop over the trades, /repo/src/enrichment.cc:262-281. *)
Fixpoint en_trade_loop (eps eg : Q) (V : Q -> Q) (cfg : en_cfg) (s : en_state) (ts : list en_trade)
  : outcome (en_state * list mat * list en_record) :=
  match ts with
  | [] => Ok (s, [], [])
  | t :: ts' =>
      let* '(s1, m, r) := en_trade1 eps eg V cfg s t in
      let* '(s2, ms, rs) := en_trade_loop eps eg V cfg s1 ts' in
      Ok (s2, m :: ms, r ++ rs)
  end.
(** GetMatlTrades, /repo/src/enrichment.cc:252-294. *)
Definition en_trades (eps eg : Q) (V : Q -> Q) (cfg : en_cfg) (ts : list en_trade) (s : en_state)
  : outcome (en_state * list mat * list en_record) :=
  let s0 := {| es_inv := es_inv s; es_tails := es_tails s; es_swu := es_swu s; es_iswu := Some 0; es_ifeed := Some 0 |} in
  let* '(s1, ms, rs) := en_trade_loop eps eg V cfg s0 ts in
  if is_negative eg (b_qty (es_tails s1)) then Throw ValueError                  (* 283-287 *)
  else match es_swu s1 with
       | None => UB Uninitialised
       | Some cur => if is_negative eg cur then Throw ValueError                 (* 288-292 *)
                     else Ok (s1, ms, rs)
       end.

(** ** A time step, in kernel order: Tick, requests, bids, trades (only when
    there are some), deliveries, Tock. *)
(** What the environment does in a time step: requests for tails and product
    (/repo/src/enrichment.cc:169-241), trades (252-294), deliveries (156-166). *)
Record en_env := { ee_treqs : list mat; ee_preqs : list mat; ee_trades : list en_trade; ee_receipts : list mat }.
(** What is observable of a time step, /repo/src/enrichment.cc:63-96, 169-294, 432-447. *)
Record en_out := { eo_request : option mat; eo_bids : en_bids; eo_shipped : list mat;
                   eo_records : list en_record; eo_recorded : option Q * option Q }.
(** One time step: /repo/src/enrichment.cc:63-66, 81-96, 169-241, 252-294, 156-166, 69-78. *)
Definition en_step (eps eg : Q) (V : Q -> Q) (aw : Z -> Q) (recipe : string -> option comp) (cfg : en_cfg)
  (s : en_state) (e : en_env) : outcome (en_state * en_out) :=
  let s1 := en_tick cfg s in
  let* rq := en_requests eps recipe cfg s1 in
  let* '(s2, bids) := en_get_bids eps eg aw cfg (ee_treqs e) (ee_preqs e) s1 in
  let* '(s3, ms, rs) := (match ee_trades e with [] => Ok (s2, [], []) | ts => en_trades eps eg V cfg ts s2 end) in
  let* s4 := en_accept eps (ee_receipts e) s3 in
  Ok (s4, {| eo_request := rq; eo_bids := bids; eo_shipped := ms; eo_records := rs; eo_recorded := en_tock s4 |}).
(** A history of steps (the kernel calls /repo/src/enrichment.cc:63-294 once per time step). *)
Fixpoint en_run (eps eg : Q) (V : Q -> Q) (aw : Z -> Q) (recipe : string -> option comp) (cfg : en_cfg)
  (s : en_state) (es : list en_env) : outcome (en_state * list en_out) :=
  match es with
  | [] => Ok (s, [])
  | e :: es' =>
      let* '(s1, o) := en_step eps eg V aw recipe cfg s e in
      let* '(s2, os) := en_run eps eg V aw recipe cfg s1 es' in
      Ok (s2, o :: os)
  end.
