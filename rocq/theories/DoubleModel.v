(** The double-precision arithmetic of the Reactor's orders and of its last
    transmutation, in IEEE 754 binary64 (Flocq) with rounding to nearest, ties to
    even.  ReactorModel.v computes the same with integers; DoubleProps.v shows that
    the two agree.  No proofs here, apart from the two side conditions of Flocq. *)
From Flocq Require Import Core.Core IEEE754.BinarySingleNaN.
From Verif Require Import Outcome KernelMaterial KernelResBuf ReactorModel.
Local Open Scope Z_scope.

(** C++ double: binary64; used at /repo/src/reactor.cc:132, 135, 218-221. *)
Definition double := binary_float 53 1024.
(** Precision of binary64, /repo/src/reactor.cc:218. *)
Lemma double_prec : Prec_gt_0 53. Proof. reflexivity. Qed.
(** Exponent range of binary64, /repo/src/reactor.cc:218. *)
Lemma double_emax : Prec_lt_emax 53 1024. Proof. reflexivity. Qed.
(** static_cast<double>(int) and the implicit conversions at /repo/src/reactor.cc:132, 135, 218-219, 221;
    also for the literals 0.0 (221) and 2.0 (135). *)
Definition of_int (n : Z) : double := binary_normalize 53 1024 double_prec double_emax mode_NE n 0 false.
(** Division, multiplication, addition and subtraction of doubles, /repo/src/reactor.cc:135, 218, 221. *)
Definition ddiv (x y : double) : double := Bdiv (prec_gt_0_ := double_prec) (prec_lt_emax_ := double_emax) mode_NE x y.
(** Multiplication, /repo/src/reactor.cc:221. *)
Definition dmult (x y : double) : double := Bmult (prec_gt_0_ := double_prec) (prec_lt_emax_ := double_emax) mode_NE x y.
(** Addition, /repo/src/reactor.cc:221. *)
Definition dplus (x y : double) : double := Bplus (prec_gt_0_ := double_prec) (prec_lt_emax_ := double_emax) mode_NE x y.
(** Subtraction, /repo/src/reactor.cc:221. *)
Definition dminus (x y : double) : double := Bminus (prec_gt_0_ := double_prec) (prec_lt_emax_ := double_emax) mode_NE x y.
(** ceil, /repo/src/reactor.cc:132, 135, 220. *)
Definition dceil (x : double) : double := Bnearbyint (prec_lt_emax_ := double_emax) mode_UP x.
(** std::max of two doubles, /repo/src/reactor.cc:221: the second if the first is less, else the
    first (also if the second is NaN). *)
Definition dmax (x y : double) : double := if Bltb x y then y else x.
(** Conversion of a double to a 32-bit int, /repo/src/reactor.cc:132, 135, 221: truncation; undefined if
    the value does not fit. *)
Definition to_int (x : double) : outcome Z :=
  if (is_finite x && (- 2 ^ 31 <=? Btrunc x) && (Btrunc x <? 2 ^ 31))%bool then Ok (Btrunc x) else UB FloatToInt.

(** n_need, /repo/src/reactor.cc:216-221; the ints of lines 216-217 do not overflow (see the
    hypotheses in DoubleProps.v). *)
Definition n_need_double (cfg : rx_cfg) (t : Z) (s : rx_state) : outcome Z :=
  let t_left := exit_t cfg - t + 1 in
  let t_left_cycle := cycle_t cfg + refuel_t cfg - cyc s in
  let n := ddiv (of_int (t_left - t_left_cycle)) (of_int (cycle_t cfg + refuel_t cfg)) in
  let n_cycles_left := dceil n in
  to_int (dmax (of_int 0)
    (dminus (dplus (dminus (dmult n_cycles_left (of_int (n_batch cfg))) (of_int (n_fresh cfg)))
                   (of_int (n_core cfg)))
            (of_int (rb_count (core s))))).
(** The argument of Transmute at retirement, /repo/src/reactor.cc:131-136. *)
Definition last_transmutation_double (cfg : rx_cfg) : outcome Z :=
  to_int (dceil (if decom_all cfg then of_int (n_core cfg) else ddiv (of_int (n_core cfg)) (of_int 2))).
(** GetMatlRequests with this arithmetic, /repo/src/reactor.cc:203-256; otherwise as [get_requests] in
    ReactorModel.v. *)
Definition get_requests_double (recipe : string -> option comp) (cfg : rx_cfg) (t : Z) (s : rx_state)
  : outcome (list (list request) * list event) :=
  let order0 := n_core cfg - rb_count (core s) + n_fresh cfg - rb_count (fresh s) in
  let* order := (if exit_t cfg =? -1 then Ok order0
                 else let* need := n_need_double cfg t s in Ok (Z.min order0 need)) in
  if order =? 0 then Ok ([], [])
  else if retired cfg t then Ok ([], [])
  else
    loop (fun st _ =>
            let* p := portfolio recipe cfg s in
            let* mc := vec_at (incommods cfg) (max_index (prefs s)) in
            Ok (fst st ++ [p], snd st ++ [EvDemand mc (assem cfg)]))
         (seq 0 (Z.to_nat order)) ([], []).
(** The values of a C++ int (n_assem_core and others, /repo/src/reactor.h:270-300; lines 213-221 of
    /repo/src/reactor.cc). *)
Definition int32 (n : Z) : Prop := - 2 ^ 31 <= n < 2 ^ 31.
