(** FuelFab and Mixer remember which inventory a request was made for in a std::map keyed by the
    address of the request (req_inventories_, /repo/src/fuel_fab.h:270 and /repo/src/mixer.h:112).
    FuelFabModel.v and MixerModel.v identify a request by its position among the requests of
    the time step; here the addresses themselves are modelled.  The map is only
    cleared in AcceptMatlTrades (fuel_fab.cc:262, mixer.cc:199), which the kernel calls only for
    a facility that receives something: entries of earlier time steps may
    still be there, and memory may be handed out again.  No proofs here. *)
From Verif Require Import Outcome KernelMaterial KernelBuf FuelFabModel MixerModel.
Local Open Scope Q_scope.

(** req_inventories_, /repo/src/fuel_fab.h:270, /repo/src/mixer.h:112. *)
Definition registry (A : Type) := list (Z * A).
(** req_inventories_[k] as it is read, /repo/src/fuel_fab.cc:251-255, /repo/src/mixer.cc:182; [None] is
    the empty name given for an unknown key.  Simplification: reading does not insert the
    empty name, which makes no difference since the map is cleared at the end of the call. *)
Fixpoint reg_find {A} (k : Z) (r : registry A) : option A :=
  match r with
  | [] => None
  | (k', a) :: r' => if Z.eqb k k' then Some a else reg_find k r'
  end.
(** req_inventories_[k] = a, /repo/src/fuel_fab.cc:188, 208, 224, /repo/src/mixer.cc:163: replaces the
    entry of [k] if there is one. *)
Fixpoint reg_set {A} (k : Z) (a : A) (r : registry A) : registry A :=
  match r with
  | [] => [(k, a)]
  | (k', a') :: r' => if Z.eqb k k' then (k, a) :: r' else (k', a') :: reg_set k a r'
  end.
(** The assignments of one call of GetMatlRequests, /repo/src/fuel_fab.cc:184-224,
    /repo/src/mixer.cc:146-168: the [j]-th request lies at address [addr j]. *)
Fixpoint reg_all {A} (addr : nat -> Z) (j : nat) (invs : list A) (r : registry A) : registry A :=
  match invs with
  | [] => r
  | a :: invs' => reg_all addr (S j) invs' (reg_set (addr j) a r)
  end.

(** ** FuelFab *)
(** Lines /repo/src/fuel_fab.cc:246-260 for one response: a material for the request at the address. *)
Definition ff_accept1_at (eps : Q) (r : registry ff_inv) (s : ff_state) (km : Z * mat) : outcome ff_state :=
  match reg_find (fst km) r with
  | Some InvFill => let* b := b_push eps (fb_fill s) (snd km) in
                    Ok {| fb_fill := b; fb_fiss := fb_fiss s; fb_topup := fb_topup s |}
  | Some InvTopup => let* b := b_push eps (fb_topup s) (snd km) in
                     Ok {| fb_fill := fb_fill s; fb_fiss := fb_fiss s; fb_topup := b |}
  | Some InvFiss => let* b := b_push eps (fb_fiss s) (snd km) in
                    Ok {| fb_fill := fb_fill s; fb_fiss := b; fb_topup := fb_topup s |}
  | None => Throw ValueError                                          (* 258 *)
  end.
(** AcceptMatlTrades, /repo/src/fuel_fab.cc:240-275, with the map that is left behind (262). *)
Definition ff_accept_at (eps : Q) (r : registry ff_inv) (responses : list (Z * mat)) (s : ff_state)
  : outcome (ff_state * registry ff_inv) :=
  let* s1 := loop (ff_accept1_at eps r) responses s in
  let* fill := ff_squash eps (fb_fill s1) in
  let* fiss := ff_squash eps (fb_fiss s1) in
  let* topup := ff_squash eps (fb_topup s1) in
  Ok ({| fb_fill := fill; fb_fiss := fiss; fb_topup := topup |}, []).
(** The responses with the addresses of the answered requests, /repo/src/fuel_fab.cc:249,
    /repo/src/mixer.cc:179. *)
Definition by_address (addr : nat -> Z) (responses : list (nat * mat)) : list (Z * mat) :=
  map (fun jm => (addr (fst jm), snd jm)) responses.
(** One time step, /repo/src/fuel_fab.cc:167-229, 277-390, 392-494, 240-275, as [ff_step] of
    FuelFabModel.v; AcceptMatlTrades is not called when nothing is received. *)
Definition ff_step_at (eps nz : Q) (D : nucdata) (recipe : string -> option comp) (cfg : ff_cfg)
  (prefs : list Q * list Q) (s : ff_state) (r : registry ff_inv) (e : ff_env) (addr : nat -> Z)
  : outcome (ff_state * registry ff_inv * ff_out) :=
  let* reqs := ff_requests eps recipe cfg prefs s in
  let r1 := reg_all addr 0 (ff_req_inventories reqs) r in
  let* bids := ff_get_bids nz D recipe cfg s (fe_reqs e) in
  let* '(s1, ms) := ff_trades eps nz D cfg s (ff_targets (fe_reqs e) (fe_trades e)) in
  let* '(s2, r2) := (match fe_receipts e with
                     | [] => Ok (s1, r1)
                     | _ => ff_accept_at eps r1 (by_address addr (fe_receipts e)) s1
                     end) in
  Ok (s2, r2, {| fo_requests := reqs; fo_bids := bids; fo_shipped := ms |}).
(** A history of steps (the kernel calls /repo/src/fuel_fab.cc:167-494 once per time step), each with
    the addresses of its requests. *)
Fixpoint ff_run_at (eps nz : Q) (D : nucdata) (recipe : string -> option comp) (cfg : ff_cfg)
  (prefs : list Q * list Q) (s : ff_state) (r : registry ff_inv) (es : list (ff_env * (nat -> Z)))
  : outcome (ff_state * registry ff_inv * list ff_out) :=
  match es with
  | [] => Ok (s, r, [])
  | (e, addr) :: es' =>
      let* '(s1, r1, o) := ff_step_at eps nz D recipe cfg prefs s r e addr in
      let* '(s2, r2, os) := ff_run_at eps nz D recipe cfg prefs s1 r1 es' in
      Ok (s2, r2, o :: os)
  end.

(** ** Mixer *)
(** AcceptMatlTrades, /repo/src/mixer.cc:172-200, with the map that is left behind (199). *)
Definition mx_accept_at (eps : Q) (r : registry nat) (responses : list (Z * mat)) (s : mx_state)
  : outcome (mx_state * registry nat) :=
  let* bs := loop (fun bs km =>
      match reg_find (fst km) r with                                  (* 182 *)
      | None => Throw ValueError
      | Some i => mx_push_at eps i (snd km) bs
      end) responses (xs_bufs s) in
  Ok ({| xs_ratios := xs_ratios s; xs_bufs := bs; xs_output := xs_output s; xs_extra := xs_extra s |}, []).
(** One time step, /repo/src/mixer.cc:96-200, as [mx_step] of MixerModel.v; AcceptMatlTrades is not
    called when nothing is received. *)
Definition mx_step_at (eps : Q) (cfg : mx_cfg) (s : mx_state) (r : registry nat) (e : mx_env) (addr : nat -> Z)
  : outcome (mx_state * registry nat * mx_out) :=
  let* '(s1, sup) := mx_tick eps cfg s in
  let* '(s2, shipped) := mx_sell eps (xe_sales e) s1 in
  let reqs := mx_requests eps cfg s1 in
  let r1 := reg_all addr 0 (mx_req_inventories reqs) r in
  let* '(s3, r2) := (match xe_receipts e with
                     | [] => Ok (s2, r1)
                     | _ => mx_accept_at eps r1 (by_address addr (xe_receipts e)) s2
                     end) in
  Ok (s3, r2, {| xo_ticked := s1; xo_supply := sup; xo_demand := mx_demand cfg s1;
                 xo_requests := reqs; xo_shipped := shipped |}).
(** A history of steps (the kernel calls /repo/src/mixer.cc:96-200 once per time step), each with the
    addresses of its requests. *)
Fixpoint mx_run_at (eps : Q) (cfg : mx_cfg) (s : mx_state) (r : registry nat) (es : list (mx_env * (nat -> Z)))
  : outcome (mx_state * registry nat * list mx_out) :=
  match es with
  | [] => Ok (s, r, [])
  | (e, addr) :: es' =>
      let* '(s1, r1, o) := mx_step_at eps cfg s r e addr in
      let* '(s2, r2, os) := mx_run_at eps cfg s1 r1 es' in
      Ok (s2, r2, o :: os)
  end.
