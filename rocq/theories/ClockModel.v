(** The calendars of cycamore::Storage (/repo/src/storage.cc, storage.h) and cycamore::Sink (/repo/src/sink.cc) computed
    with the 32-bit ints of the code: an operation whose result does not fit is undefined.  Everything else is as in
    StorageModel.v and SinkModel.v.  No proofs here. *)
From Verif Require Import Outcome KernelMaterial KernelResBuf ReactorMachineModel StorageModel SinkModel.
Local Open Scope Z_scope.

(** ready_time, /repo/src/storage.h:128. *)
Definition m_ready_time (cfg : st_cfg) (t : Z) : outcome Z := mk_int (t - sc_residence cfg).

(** The while loop of ReadyMatl_, /repo/src/storage.cc:271-274; the counter is an int (269). *)
Fixpoint m_ready_loop (time : Z) (times : list Z) (to_ready : Z) : outcome (list Z * Z) :=
  match times with
  | x :: times' =>
      if Z.leb x time then let* n := mk_int (to_ready + 1) in m_ready_loop time times' n
      else Ok (times, to_ready)
  | [] => Ok ([], to_ready)
  end.

(** ReadyMatl_, /repo/src/storage.cc:266-277. *)
Definition m_ready_matl (time : Z) (s : st_state) : outcome st_state :=
  let* '(times, n) := m_ready_loop time (ss_entry_times s) 0 in
  if Z.ltb (zlen (ss_processing s)) n then Throw ValueError
  else Ok {| ss_inventory := ss_inventory s;
             ss_processing := skipn (Z.to_nat n) (ss_processing s);
             ss_entry_times := times;
             ss_ready := ss_ready s ++ firstn (Z.to_nat n) (ss_processing s);
             ss_stocks := ss_stocks s |}.

(** Tock, /repo/src/storage.cc:162-197; ready_time() is evaluated at 169 and again at 170. *)
Definition m_st_tock (eps : Q) (cfg : st_cfg) (t : Z) (s : st_state) : outcome (st_state * st_tock_out) :=
  let s1 := begin_processing t s in
  let* r := m_ready_time cfg t in
  let* s2 :=
    (if (Z.leb 0 r || (Z.eqb (sc_residence cfg) 0 && negb (Z.eqb (zlen (ss_inventory s1)) 0)))%bool
     then let* r' := m_ready_time cfg t in m_ready_matl r' s1 else Ok s1) in
  let* '(s3, moved) := process_mat eps cfg (sc_throughput cfg) s2 in
  let* dname := vec_at (sc_in_commods cfg) (max_index (sc_in_prefs cfg)) in
  let* sname := vec_at (sc_out_commods cfg) 0 in
  Ok (s3, {| to_released := moved;
             to_demand := (("demand" ++ dname)%string, st_capacity cfg s3);
             to_supply := (("supply" ++ sname)%string, qty_of (ss_stocks s3)) |}).

(** A whole step, as st_step of StorageModel.v (/repo/src/storage.cc:104-107, 162-197). *)
Definition m_st_step (eps : Q) (cfg : st_cfg) (s : st_state) (e : st_env) : outcome (st_state * st_out) :=
  let* '(s1, sold) := st_trade eps e s in
  let* '(s2, o) := m_st_tock eps cfg (se_time e) s1 in
  Ok (s2, {| so_sold := sold; so_tock := o |}).

(** A history of steps (the kernel calls /repo/src/storage.cc:145-197 once per time step). *)
Fixpoint m_st_run (eps : Q) (cfg : st_cfg) (s : st_state) (es : list st_env) : outcome (st_state * list st_out) :=
  match es with
  | [] => Ok (s, [])
  | e :: es' =>
      let* '(s1, o) := m_st_step eps cfg s e in
      let* '(s2, os) := m_st_run eps cfg s1 es' in
      Ok (s2, o :: os)
  end.

(** SetNextBuyTime, /repo/src/sink.cc:257-271, at time [t]. *)
Definition m_sk_next_buy (cfg : sk_cfg) (g : rng) (t : Z) : outcome Z :=
  if String.eqb (kc_freq_type cfg) "None" then Ok (-1)
  else if String.eqb (kc_freq_type cfg) "UniformInt"
  then mk_int (t + g_uniform_int g (kc_freq_min cfg) (kc_freq_max cfg))
  else if String.eqb (kc_freq_type cfg) "NormalInt"
  then mk_int (t + g_normal_int g (kc_freq_mean cfg) (kc_freq_stddev cfg) (kc_freq_min cfg) (kc_freq_max cfg))
  else Ok (-1).

(** EnterNotify, /repo/src/sink.cc:40-75. *)
Definition m_sk_enter (cfg : sk_cfg) (g : rng) (t : Z) (s : sk_state) : outcome sk_state :=
  let* prefs := (match ks_prefs s with
                 | [] => Ok (map (fun _ => 1%Q) (kc_commods cfg))
                 | ps => if Nat.eqb (List.length ps) (List.length (kc_commods cfg)) then Ok ps else Throw ValueError
                 end) in
  let s1 := {| ks_prefs := prefs; ks_inv := ks_inv s; ks_amt := ks_amt s; ks_next := ks_next s |} in
  let* n := m_sk_next_buy cfg g t in
  Ok {| ks_prefs := prefs; ks_inv := ks_inv s; ks_amt := sk_request_amt cfg g s1; ks_next := n |}.

(** Tick, /repo/src/sink.cc:183-218. *)
Definition m_sk_tick (eg : Q) (cfg : sk_cfg) (g : rng) (t : Z) (s : sk_state) : outcome (sk_state * list (string * Q)) :=
  let* s1 :=
    (if Z.eqb (ks_next s) (-1) then
       Ok {| ks_prefs := ks_prefs s; ks_inv := ks_inv s; ks_amt := sk_request_amt cfg g s; ks_next := ks_next s |}
     else if Z.eqb (ks_next s) t then
       let* n := m_sk_next_buy cfg g t in
       Ok {| ks_prefs := ks_prefs s; ks_inv := ks_inv s; ks_amt := sk_request_amt cfg g s; ks_next := n |}
     else Ok {| ks_prefs := ks_prefs s; ks_inv := ks_inv s; ks_amt := 0%Q; ks_next := ks_next s |}) in
  if Qltb eg (ks_amt s1) then
    let* _ := vec_at (kc_commods cfg) 0 in
    Ok (s1, map (fun c => (("demand" ++ c)%string, ks_amt s1)) (kc_commods cfg))
  else Ok (s1, []).

(** One time step, as sk_step of SinkModel.v: /repo/src/sink.cc:183-218, 98-131, 161-169, 134-158, 172-180. *)
Definition m_sk_step (eps eg : Q) (recipe : string -> option comp) (cfg : sk_cfg) (t : Z) (s : sk_state) (e : sk_env)
  : outcome (sk_state * sk_out) :=
  let* '(s1, d) := m_sk_tick eg cfg (ke_rng e) t s in
  let* '(s2, mr) := sk_mat_requests eg recipe cfg (ke_rng2 e) s1 in
  let* s3 := sk_accept eps cfg (map rsrc_of_mat (ke_mats e)) s2 in
  let gr := sk_gen_requests eg cfg s3 in
  let* s4 := sk_accept eps cfg (map rsrc_of_prod (ke_prods e)) s3 in
  Ok (s4, {| ko_demand := d; ko_mat := mr; ko_gen := gr |}).

(** Consecutive time steps from time [t] on (the kernel calls /repo/src/sink.cc:98-232 once per step). *)
Fixpoint m_sk_run (eps eg : Q) (recipe : string -> option comp) (cfg : sk_cfg) (t : Z) (s : sk_state) (es : list sk_env)
  : outcome (sk_state * list sk_out) :=
  match es with
  | [] => Ok (s, [])
  | e :: es' =>
      let* '(s1, o) := m_sk_step eps eg recipe cfg t s e in
      let* '(s2, os) := m_sk_run eps eg recipe cfg (t + 1) s1 es' in
      Ok (s2, o :: os)
  end.
