(** Model of cycamore::Storage (/repo/src/storage.cc, /repo/src/storage.h).
    Line numbers refer to storage.cc unless stated otherwise.  No proofs here.

    The four ResBufs are members with the default (infinite) capacity
    (storage.h:212-226: no set_capacity call on them), so their Push never
    fails and they are modelled by their parcels, oldest first.  The total is
    limited only through inventory_tracker (10, 50). *)
From Verif Require Import Outcome KernelMaterial KernelResBuf.
Local Open Scope Q_scope.

(** User parameters, /repo/src/storage.h:136-209 (and the buy-policy parameters that
    toolkit/matl_buy_policy.cycpp.h injects at /repo/src/storage.h:235). *)
Record st_cfg := {
  sc_in_commods : list string;        (* storage.h:136 *)
  sc_in_prefs : list Q;               (* storage.h:144 *)
  sc_out_commods : list string;       (* storage.h:151 *)
  sc_in_recipe : string;              (* storage.h:158 *)
  sc_residence : Z;                   (* storage.h:167 *)
  sc_throughput : Q;                  (* storage.h:176 *)
  sc_max_inv : Q;                     (* storage.h:185 *)
  sc_discrete : bool;                 (* storage.h:194 *)
  sc_package : string;                (* storage.h:201 *)
  sc_transport_unit : string;         (* storage.h:209 *)
  sc_reorder_point : Q;               (* storage.cc:51 *)
  sc_reorder_quantity : Q;            (* storage.cc:63 *)
  sc_cumulative_cap : Q               (* storage.cc:57 *)
}.

(** Buffers and entry_times, /repo/src/storage.h:211-226. *)
Record st_state := {
  ss_inventory : list mat;
  ss_processing : list mat;
  ss_entry_times : list Z;
  ss_ready : list mat;
  ss_stocks : list mat
}.

(** A newly built facility: all buffers empty, /repo/src/storage.h:211-226. *)
Definition st_empty : st_state := Build_st_state [] [] [] [] [].

(** AddMat_, /repo/src/storage.cc:200-215, and the buy policy's AcceptMatlTrades (kernel), which
    pushes into [inventory] (53, 59, 68, 73). *)
Definition st_add_mat (s : st_state) (m : mat) : st_state :=
  {| ss_inventory := ss_inventory s ++ [m]; ss_processing := ss_processing s;
     ss_entry_times := ss_entry_times s; ss_ready := ss_ready s; ss_stocks := ss_stocks s |}.

(** The while loop of BeginProcessing_, /repo/src/storage.cc:219-231. *)
Fixpoint begin_loop (t : Z) (inv proc : list mat) (times : list Z) : list mat * list Z :=
  match inv with
  | [] => (proc, times)
  | m :: inv' => begin_loop t inv' (proc ++ [m]) (times ++ [t])
  end.

(** BeginProcessing_, /repo/src/storage.cc:218-232. *)
Definition begin_processing (t : Z) (s : st_state) : st_state :=
  let '(proc, times) := begin_loop t (ss_inventory s) (ss_processing s) (ss_entry_times s) in
  {| ss_inventory := []; ss_processing := proc; ss_entry_times := times;
     ss_ready := ss_ready s; ss_stocks := ss_stocks s |}.

(** ready_time, /repo/src/storage.h:128. *)
Definition ready_time (cfg : st_cfg) (t : Z) : Z := (t - sc_residence cfg)%Z.

(** The while loop of ReadyMatl_, /repo/src/storage.cc:271-274: pops the leading entry times that
    are at most [time]; returns the remaining times and their number. *)
Fixpoint ready_loop (time : Z) (times : list Z) (to_ready : Z) : list Z * Z :=
  match times with
  | x :: times' => if Z.leb x time then ready_loop time times' (to_ready + 1) else (times, to_ready)
  | [] => ([], to_ready)
  end.

(** ReadyMatl_, /repo/src/storage.cc:266-277; PopN throws when there are fewer parcels. *)
Definition ready_matl (time : Z) (s : st_state) : outcome st_state :=
  let '(times, n) := ready_loop time (ss_entry_times s) 0 in
  if Z.ltb (zlen (ss_processing s)) n then Throw ValueError
  else Ok {| ss_inventory := ss_inventory s;
             ss_processing := skipn (Z.to_nat n) (ss_processing s);
             ss_entry_times := times;
             ss_ready := ss_ready s ++ firstn (Z.to_nat n) (ss_processing s);
             ss_stocks := ss_stocks s |}.

(** The discrete while loop of ProcessMat_, /repo/src/storage.cc:244-248: [cap_pop] already
    includes the parcel at the head.  Result: (moved, remaining). *)
Fixpoint discrete_loop (cap_pop max_pop : Q) (ready moved : list mat) : list mat * list mat :=
  match ready with
  | [] => (moved, [])
  | m :: ready' =>
      if Qle_bool cap_pop max_pop then
        discrete_loop (cap_pop + match ready' with [] => 0 | m' :: _ => m_qty m' end)
                      max_pop ready' (moved ++ [m])
      else (moved, ready)
  end.

(** ProcessMat_, /repo/src/storage.cc:235-263.  Also returns what was pushed into stocks. *)
Definition process_mat (eps : Q) (cfg : st_cfg) (cap : Q) (s : st_state)
  : outcome (st_state * list mat) :=
  match ss_ready s with
  | [] => Ok (s, [])                                                   (* 236 *)
  | m0 :: _ =>
      let max_pop := Qmin cap (qty_of (ss_ready s)) in                 (* 238 *)
      let* '(moved, rest) :=
        (if sc_discrete cfg then                                       (* 240 *)
           if Qeq_bool max_pop (qty_of (ss_ready s)) then              (* 241 *)
             Ok (ss_ready s, [])                                       (* 242 *)
           else Ok (discrete_loop (m_qty m0) max_pop (ss_ready s) [])  (* 244-248 *)
         else
           let* '(m, rest) := items_pop_tol (ss_ready s) max_pop eps in (* 251 *)
           Ok ([m], rest)) in
      Ok ({| ss_inventory := ss_inventory s; ss_processing := ss_processing s;
             ss_entry_times := ss_entry_times s; ss_ready := rest;
             ss_stocks := ss_stocks s ++ moved |}, moved)
  end.

(** Everything in the four buffers; inventory_tracker.quantity(), /repo/src/storage.cc:10. *)
Definition st_total (s : st_state) : Q :=
  qty_of (ss_inventory s) + qty_of (ss_stocks s) + qty_of (ss_ready s) + qty_of (ss_processing s).

(** current_capacity, /repo/src/storage.h:121-122: inventory_tracker.space(), with the
    capacity set at /repo/src/storage.cc:50. *)
Definition st_capacity (cfg : st_cfg) (s : st_state) : Q := Qmax 0 (sc_max_inv cfg - st_total s).

(** What one step exposes: the two time series of Tock (/repo/src/storage.cc:187, 191) and the
    parcels put into stocks. *)
Record st_tock_out := {
  to_released : list mat;
  to_demand : string * Q;
  to_supply : string * Q
}.

(** Tock, /repo/src/storage.cc:162-197.  The inventory is empty after BeginProcessing_, so the
    second disjunct of 169 reads an empty buffer. *)
Definition st_tock (eps : Q) (cfg : st_cfg) (t : Z) (s : st_state) : outcome (st_state * st_tock_out) :=
  let s1 := begin_processing t s in                                         (* 165 *)
  let* s2 :=
    (if (Z.leb 0 (ready_time cfg t) ||
         (Z.eqb (sc_residence cfg) 0 && negb (Z.eqb (zlen (ss_inventory s1)) 0)))%bool
     then ready_matl (ready_time cfg t) s1 else Ok s1) in                   (* 169-171 *)
  let* '(s3, moved) := process_mat eps cfg (sc_throughput cfg) s2 in        (* 179 *)
  let* dname := vec_at (sc_in_commods cfg) (max_index (sc_in_prefs cfg)) in (* 181-187 *)
  let* sname := vec_at (sc_out_commods cfg) 0 in                            (* 191 *)
  Ok (s3, {| to_released := moved;
             to_demand := (("demand" ++ dname)%string, st_capacity cfg s3);
             to_supply := (("supply" ++ sname)%string, qty_of (ss_stocks s3)) |}).

(** One time step of the facility as the kernel drives it: the sell policy
    takes the awarded quantities from stocks (/repo/src/storage.cc:104-107; MatlSellPolicy pops
    each with tolerance eps_rsrc()), the buy policy delivers parcels, Tock. *)
Record st_env := { se_time : Z; se_sales : list Q; se_receipts : list mat }.

(** MatlSellPolicy::GetMatlTrades (kernel) on [stocks], /repo/src/storage.cc:104-107.
    Simplification: packaging of sold material is not modelled. *)
Fixpoint sell_all (eps : Q) (sales : list Q) (stocks sold : list mat) : outcome (list mat * list mat) :=
  match sales with
  | [] => Ok (stocks, sold)
  | q :: sales' =>
      let* '(m, stocks') := items_pop_tol stocks q eps in
      sell_all eps sales' stocks' (sold ++ [m])
  end.

(** Trades of one step: suppliers (/repo/src/storage.cc:104-107) first, then requesters (51-99;
    kernel order). *)
Definition st_trade (eps : Q) (e : st_env) (s : st_state) : outcome (st_state * list mat) :=
  let* '(stocks, sold) := sell_all eps (se_sales e) (ss_stocks s) [] in
  Ok (fold_left st_add_mat (se_receipts e)
        {| ss_inventory := ss_inventory s; ss_processing := ss_processing s;
           ss_entry_times := ss_entry_times s; ss_ready := ss_ready s; ss_stocks := stocks |}, sold).

(** What is observable of a step, /repo/src/storage.cc:104-107, 162-197. *)
Record st_out := { so_sold : list mat; so_tock : st_tock_out }.

(** A whole step: Tick (/repo/src/storage.cc:145-159) only logs. *)
Definition st_step (eps : Q) (cfg : st_cfg) (s : st_state) (e : st_env) : outcome (st_state * st_out) :=
  let* '(s1, sold) := st_trade eps e s in
  let* '(s2, o) := st_tock eps cfg (se_time e) s1 in
  Ok (s2, {| so_sold := sold; so_tock := o |}).

(** A history of steps (the kernel calls /repo/src/storage.cc:145-197 once per time step). *)
Fixpoint st_run (eps : Q) (cfg : st_cfg) (s : st_state) (es : list st_env)
  : outcome (st_state * list st_out) :=
  match es with
  | [] => Ok (s, [])
  | e :: es' =>
      let* '(s1, o) := st_step eps cfg s e in
      let* '(s2, os) := st_run eps cfg s1 es' in
      Ok (s2, o :: os)
  end.

(** cyclus::kDefaultPref (kernel), used at /repo/src/storage.cc:87. *)
Definition default_pref : Q := 1.

(** The purchase policy built at /repo/src/storage.cc:51-76. *)
Inductive buy_policy :=
| BuyActiveDormant                     (* 51-56: active/dormant/size distributions *)
| BuyCumulative (cap : Q)              (* 57-62 *)
| BuyRQ (reorder_qty reorder_pt : Q)   (* 63-71 *)
| BuySS (fill_to reorder_pt : Q).      (* /repo/src/storage.cc:72-76 *)

(** What EnterNotify sets up, /repo/src/storage.cc:47-116. *)
Record st_entered := {
  en_policy : buy_policy;
  en_throughput : Q;                        (* buy_policy.Init argument *)
  en_comp : comp;                           (* 79-83 *)
  en_buys : list (string * Q);              (* buy_policy.Set, 96-98 *)
  en_sells : string;                        (* sell_policy.Set, 106 *)
  en_prefs : list Q;                        (* in_commod_prefs after 85-94 *)
  en_capacity : Q                           (* inventory_tracker capacity, 50 *)
}.

(** EnterNotify, /repo/src/storage.cc:47-116.  [recipe] is context()->GetRecipe (KeyError when
    unknown), [package]/[unit] say which packages and transport units are
    known (GetPackage/GetTransportUnit throw KeyError otherwise).
    InitBuyPolicyParameters (52, 58) is kernel code injected by
    toolkit/matl_buy_policy.cycpp.h and, like buy_policy.Init, is not modelled. *)
Definition st_enter (recipe : string -> option comp) (package unit : string -> bool)
  (cfg : st_cfg) : outcome st_entered :=
  let* policy :=
    (if (Qltb (sc_reorder_point cfg) 0 && Qle_bool (sc_cumulative_cap cfg) 0)%bool
     then Ok BuyActiveDormant                                                  (* 51 *)
     else if Qltb 0 (sc_cumulative_cap cfg) then Ok (BuyCumulative (sc_cumulative_cap cfg)) (* 57 *)
     else if Qltb 0 (sc_reorder_quantity cfg) then                             (* 63 *)
       if Qltb (sc_max_inv cfg) (sc_reorder_point cfg + sc_reorder_quantity cfg)
       then Throw ValueError                                                   (* 64-67 *)
       else Ok (BuyRQ (sc_reorder_quantity cfg) (sc_reorder_point cfg))
     else Ok (BuySS (sc_max_inv cfg) (sc_reorder_point cfg))) in               (* 73-76 *)
  let* c := (if String.eqb (sc_in_recipe cfg) "" then Ok []
             else match recipe (sc_in_recipe cfg) with Some c => Ok c | None => Throw KeyError end) in
  let* prefs :=
    (if Nat.eqb (List.length (sc_in_prefs cfg)) 0
     then Ok (map (fun _ => default_pref) (sc_in_commods cfg))                 (* 85-88 *)
     else if Nat.eqb (List.length (sc_in_prefs cfg)) (List.length (sc_in_commods cfg))
     then Ok (sc_in_prefs cfg) else Throw ValueError) in                       (* 89-94 *)
  let buys := combine (sc_in_commods cfg) prefs in                             (* 96-98 *)
  if negb (package (sc_package cfg)) then Throw KeyError                       (* 101 *)
  else if negb (unit (sc_transport_unit cfg)) then Throw KeyError              (* 102 *)
  else match sc_out_commods cfg with
       | [o] => Ok {| en_policy := policy; en_throughput := sc_throughput cfg; en_comp := c;
                      en_buys := buys; en_sells := o; en_prefs := prefs;
                      en_capacity := sc_max_inv cfg |}                         (* 103-107 *)
       | _ => Throw ValueError                                                 (* 109-113 *)
       end.

(** InitFrom(QueryableBackend), /repo/src/storage.cc:38-44: the out-commodity registered with the
    CommodityProducer; front() of an empty vector is undefined. *)
Definition st_init_from_db (cfg : st_cfg) : outcome (string * Q) :=
  match sc_out_commods cfg with
  | [] => UB BackOfEmpty
  | o :: _ => Ok (o, sc_throughput cfg)
  end.
