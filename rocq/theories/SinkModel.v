(** Model of cycamore::Sink (/repo/src/sink.cc, /repo/src/sink.h).  Line numbers
    refer to sink.cc unless "h:" is given.  No proofs here.  [eg] is cyclus::eps(),
    [eps] is cyclus::eps_rsrc().  Not modelled: packaging (46), positions (74). *)
From Verif Require Import Outcome KernelMaterial.
Local Open Scope Q_scope.

(** User parameters, /repo/src/sink.h:124-261.  The defaults of max_inv_size and capacity
    (CY_LARGE_DOUBLE) are ordinary numbers. *)
Record sk_cfg := {
  kc_commods : list string; kc_prefs : list Q; kc_recipe : string;          (* h:124-145 *)
  kc_max_inv : Q; kc_capacity : Q;                                          (* h:148-164 *)
  kc_size_type : string; kc_size_mean : Q; kc_size_stddev : Q;              (* h:171-205 *)
  kc_freq_type : string; kc_freq_mean : Q; kc_freq_stddev : Q;              (* h:208-241 *)
  kc_freq_min : Z; kc_freq_max : Z                                          (* h:244-261 *) }.

(** A resource in the inventory (/repo/src/sink.h:167-168, ResBuf<Resource>): a material or
    (composition [None]) a product. *)
Record rsrc := { r_qty : Q; r_comp : option comp }.
(** ResBuf::quantity of the inventory, /repo/src/sink.h:168. *)
Definition rsrcs_qty (rs : list rsrc) : Q := qsum (map r_qty rs).

(** The random number generator as seen by one caller (Context::random_...,
    kernel), called at /repo/src/sink.cc:244, 247-249, 262 and 265: arbitrary functions. *)
Record rng := {
  g_uniform_real : Q -> Q -> Q; g_normal_real : Q -> Q -> Q -> Q -> Q;
  g_uniform_int : Z -> Z -> Z; g_normal_int : Q -> Q -> Z -> Z -> Z }.

(** in_commod_prefs after EnterNotify (/repo/src/sink.h:136), inventory (/repo/src/sink.h:168),
    requestAmt and nextBuyTime (/repo/src/sink.h:121-122). *)
Record sk_state := { ks_prefs : list Q; ks_inv : list rsrc; ks_amt : Q; ks_next : Z }.

(** inventory.space() and SpaceAvailable, /repo/src/sink.h:98-100. *)
Definition sk_space (cfg : sk_cfg) (s : sk_state) : Q := Qmax 0 (kc_max_inv cfg - rsrcs_qty (ks_inv s)).
(** SpaceAvailable, /repo/src/sink.h:98-100. *)
Definition sk_available (cfg : sk_cfg) (s : sk_state) : Q := Qmin (kc_capacity cfg) (Qmax 0 (sk_space cfg s)).

(** SetRequestAmt, /repo/src/sink.cc:234-255.  The assignment at 236-238 is always overwritten by
    one of the following ones. *)
Definition sk_request_amt (cfg : sk_cfg) (g : rng) (s : sk_state) : Q :=
  let amt := sk_available cfg s in
  if String.eqb (kc_size_type cfg) "None" then amt
  else if String.eqb (kc_size_type cfg) "UniformReal" then g_uniform_real g 0 amt
  else if String.eqb (kc_size_type cfg) "NormalReal"
  then g_normal_real g (amt * kc_size_mean cfg) (amt * kc_size_stddev cfg) 0 amt
  else amt.
(** SetNextBuyTime, /repo/src/sink.cc:257-271, at time [t]. *)
Definition sk_next_buy (cfg : sk_cfg) (g : rng) (t : Z) : Z :=
  if String.eqb (kc_freq_type cfg) "None" then (-1)%Z
  else if String.eqb (kc_freq_type cfg) "UniformInt"
  then (t + g_uniform_int g (kc_freq_min cfg) (kc_freq_max cfg))%Z
  else if String.eqb (kc_freq_type cfg) "NormalInt"
  then (t + g_normal_int g (kc_freq_mean cfg) (kc_freq_stddev cfg) (kc_freq_min cfg) (kc_freq_max cfg))%Z
  else (-1)%Z.

(** A newly created sink (/repo/src/sink.cc:12-16): empty inventory; requestAmt and nextBuyTime
    are set by EnterNotify (40-75). *)
Definition sk_new (cfg : sk_cfg) : sk_state := {| ks_prefs := kc_prefs cfg; ks_inv := []; ks_amt := 0; ks_next := 0 |}.
(** EnterNotify, /repo/src/sink.cc:40-75, at time [t]; cyclus::kDefaultPref is 1. *)
Definition sk_enter (cfg : sk_cfg) (g : rng) (t : Z) (s : sk_state) : outcome sk_state :=
  let* prefs := (match ks_prefs s with
                 | [] => Ok (map (fun _ => 1) (kc_commods cfg))
                 | ps => if Nat.eqb (List.length ps) (List.length (kc_commods cfg)) then Ok ps else Throw ValueError
                 end) in
  let s1 := {| ks_prefs := prefs; ks_inv := ks_inv s; ks_amt := ks_amt s; ks_next := ks_next s |} in
  Ok {| ks_prefs := prefs; ks_inv := ks_inv s; ks_amt := sk_request_amt cfg g s1; ks_next := sk_next_buy cfg g t |}.

(** Tick, /repo/src/sink.cc:183-218, at time [t]; the second component is the demand recorded.
    in_commods[0] (206) is only read for a log message, but reading it is undefined
    when there are no commodities. *)
Definition sk_tick (eg : Q) (cfg : sk_cfg) (g : rng) (t : Z) (s : sk_state) : outcome (sk_state * list (string * Q)) :=
  let s1 :=
    if Z.eqb (ks_next s) (-1) then
      {| ks_prefs := ks_prefs s; ks_inv := ks_inv s; ks_amt := sk_request_amt cfg g s; ks_next := ks_next s |}
    else if Z.eqb (ks_next s) t then
      {| ks_prefs := ks_prefs s; ks_inv := ks_inv s; ks_amt := sk_request_amt cfg g s; ks_next := sk_next_buy cfg g t |}
    else {| ks_prefs := ks_prefs s; ks_inv := ks_inv s; ks_amt := 0; ks_next := ks_next s |} in
  if Qltb eg (ks_amt s1) then
    let* _ := vec_at (kc_commods cfg) 0 in
    Ok (s1, map (fun c => (("demand" ++ c)%string, ks_amt s1)) (kc_commods cfg))
  else Ok (s1, []).

(** A request for material: commodity, preference; all of one portfolio are
    mutually exclusive alternatives for the same material, /repo/src/sink.cc:122-127. *)
Record sk_mreq := { mq_qty : Q; mq_comp : option comp; mq_items : list (string * Q) }.
(** GetMatlRequests, /repo/src/sink.cc:98-131.  in_commod_prefs[i] is undefined outside the vector. *)
Definition sk_mat_requests (eg : Q) (recipe : string -> option comp) (cfg : sk_cfg) (g : rng) (s : sk_state)
  : outcome (sk_state * option sk_mreq) :=
  let s1 := if Qltb (sk_available cfg s) (ks_amt s)                         (* 109-111 *)
            then {| ks_prefs := ks_prefs s; ks_inv := ks_inv s; ks_amt := sk_request_amt cfg g s; ks_next := ks_next s |}
            else s in
  let* c := (if String.eqb (kc_recipe cfg) "" then Ok None
             else match recipe (kc_recipe cfg) with Some c => Ok (Some c) | None => Throw KeyError end) in
  if Qltb eg (ks_amt s1) then
    let* items := loop (fun acc i =>
        let* cm := vec_at (kc_commods cfg) i in
        let* p := vec_at (ks_prefs s1) i in Ok (acc ++ [(cm, p)])) (seq 0 (List.length (kc_commods cfg))) [] in
    Ok (s1, Some {| mq_qty := ks_amt s1; mq_comp := c; mq_items := items |})
  else Ok (s1, None).
(** GetGenRsrcRequests, /repo/src/sink.cc:134-158: the products requested (commodity, quantity)
    and the capacity constraint. *)
Definition sk_gen_requests (eg : Q) (cfg : sk_cfg) (s : sk_state) : option (list (string * Q) * Q) :=
  if Qltb eg (ks_amt s) then Some (map (fun c => (c, ks_amt s)) (kc_commods cfg), ks_amt s) else None.

(** AcceptMatlTrades and AcceptGenRsrcTrades, /repo/src/sink.cc:161-180; ResBuf::Push throws when
    the capacity is exceeded by more than eps_rsrc(). *)
Fixpoint sk_accept (eps : Q) (cfg : sk_cfg) (rs : list rsrc) (s : sk_state) : outcome sk_state :=
  match rs with
  | [] => Ok s
  | r :: rs' =>
      if Qltb eps (r_qty r - sk_space cfg s) then Throw ValueError
      else sk_accept eps cfg rs' {| ks_prefs := ks_prefs s; ks_inv := ks_inv s ++ [r]; ks_amt := ks_amt s; ks_next := ks_next s |}
  end.

(** One time step in kernel order: Tick; the exchange of materials (requests,
    deliveries); then the exchange of products; Tock (/repo/src/sink.cc:221-232) only logs.
    [ke_rng] is used by Tick, [ke_rng2] by GetMatlRequests. *)
Record sk_env := { ke_rng : rng; ke_rng2 : rng; ke_mats : list mat; ke_prods : list Q }.
(** What is observable of a step, /repo/src/sink.cc:98-158, 183-218. *)
Record sk_out := { ko_demand : list (string * Q); ko_mat : option sk_mreq; ko_gen : option (list (string * Q) * Q) }.
(** A material as a resource, /repo/src/sink.cc:161-169. *)
Definition rsrc_of_mat (m : mat) : rsrc := {| r_qty := m_qty m; r_comp := Some (m_comp m) |}.
(** A product as a resource, /repo/src/sink.cc:172-180. *)
Definition rsrc_of_prod (q : Q) : rsrc := {| r_qty := q; r_comp := None |}.
(** One time step: /repo/src/sink.cc:183-218, 98-131, 161-169, 134-158, 172-180. *)
Definition sk_step (eps eg : Q) (recipe : string -> option comp) (cfg : sk_cfg) (t : Z) (s : sk_state) (e : sk_env)
  : outcome (sk_state * sk_out) :=
  let* '(s1, d) := sk_tick eg cfg (ke_rng e) t s in
  let* '(s2, mr) := sk_mat_requests eg recipe cfg (ke_rng2 e) s1 in
  let* s3 := sk_accept eps cfg (map rsrc_of_mat (ke_mats e)) s2 in
  let gr := sk_gen_requests eg cfg s3 in
  let* s4 := sk_accept eps cfg (map rsrc_of_prod (ke_prods e)) s3 in
  Ok (s4, {| ko_demand := d; ko_mat := mr; ko_gen := gr |}).
(** Consecutive time steps from time [t] on (the kernel calls /repo/src/sink.cc:98-232 once per
    step). *)
Fixpoint sk_run (eps eg : Q) (recipe : string -> option comp) (cfg : sk_cfg) (t : Z) (s : sk_state) (es : list sk_env)
  : outcome (sk_state * list sk_out) :=
  match es with
  | [] => Ok (s, [])
  | e :: es' =>
      let* '(s1, o) := sk_step eps eg recipe cfg t s e in
      let* '(s2, os) := sk_run eps eg recipe cfg (t + 1) s1 es' in
      Ok (s2, o :: os)
  end.
