(** C94: double-precision rounding does not change a reactor's orders or its
    last transmutation.  The axioms below are those of the standard library's
    real numbers, which Flocq's proofs use. *)
From Coq Require Import ZArith Lia.
From Verif Require Import Outcome KernelMaterial KernelResBuf ReactorModel ReactorExample DoubleModel DoubleProofs.
Local Open Scope Z_scope.

(** ** C94.  For all 32-bit ints, the assemblies needed until retirement come out of
    the double-precision computation exactly as with integers, the conversion to
    int being undefined exactly if they do not fit. *)
Theorem C94_need_exact : forall cfg t s, int32 (exit_t cfg - t + 1 - (cycle_t cfg + refuel_t cfg - cyc s)) -> int32 (cycle_t cfg + refuel_t cfg) ->
  int32 (n_batch cfg) -> int32 (n_fresh cfg) -> int32 (n_core cfg) -> int32 (rb_count (core s)) ->
  n_need_double cfg t s = let* z := n_need cfg t s in if z <? 2 ^ 31 then Ok z else UB FloatToInt.
Proof. exact need_final. Qed.
Print Assumptions C94_need_exact.
(** A long life (exit in step 2 ^ 31 - 5) and cycles of three steps: the quotient is not a double. *)
Definition dx_cfg (exit batch : Z) : rx_cfg :=
  {| n_batch := batch; n_core := 3; n_fresh := 1; n_spent := 2; assem := 10; cycle_t := 2; refuel_t := 1; power_cap := 1000;
     incommods := ["a"]%string; outcommods := ["x"]%string; side_products := []; side_qty := []; decom_all := false;
     pc_times := []; pc_commods := []; pc_vals := []; rc_times := []; rc_commods := []; rc_in := []; rc_out := []; exit_t := exit |}.
Definition dx_s : rx_state := rx_new (dx_cfg 0 1) ["f"]%string ["s"]%string [1%Q] 0.
Example C94_case : let c := dx_cfg (2 ^ 31 - 5) in
  int32 (exit_t (c 1) - 0 + 1 - (cycle_t (c 1) + refuel_t (c 1) - cyc dx_s)) /\
  n_need_double (c 1) 0 dx_s = Ok 715827883 /\ n_need (c 1) 0 dx_s = Ok 715827883 /\
  n_need_double (c 4) 0 dx_s = UB FloatToInt /\ n_need (c 4) 0 dx_s = Ok 2863311526.
Proof. split; [vm_compute; split; congruence|]. repeat split; vm_compute; reflexivity. Qed.

(** The same without reference to the integer model: [c] is the number of cycles left, the
    remaining time divided by the length of a cycle, rounded up. *)
Theorem C94_cycles_exact : forall cfg t s c, int32 (exit_t cfg - t + 1 - (cycle_t cfg + refuel_t cfg - cyc s)) -> int32 (cycle_t cfg + refuel_t cfg) ->
  int32 (n_batch cfg) -> int32 (n_fresh cfg) -> int32 (n_core cfg) -> int32 (rb_count (core s)) -> 0 < cycle_t cfg + refuel_t cfg ->
  (cycle_t cfg + refuel_t cfg) * (c - 1) < exit_t cfg - t + 1 - (cycle_t cfg + refuel_t cfg - cyc s) <= (cycle_t cfg + refuel_t cfg) * c ->
  n_need_double cfg t s =
    (let z := Z.max 0 (c * n_batch cfg - n_fresh cfg + n_core cfg - rb_count (core s)) in if z <? 2 ^ 31 then Ok z else UB FloatToInt).
Proof. exact cycles_final. Qed.
Print Assumptions C94_cycles_exact.
Example C94_cycles_case : let c := dx_cfg (2 ^ 31 - 5) 1 in
  (cycle_t c + refuel_t c) * (715827881 - 1) < exit_t c - 0 + 1 - (cycle_t c + refuel_t c - cyc dx_s) <= (cycle_t c + refuel_t c) * 715827881.
Proof. vm_compute. split; congruence. Qed.

(** So the requests are the same, whenever that number fits an int. *)
Theorem C94_requests_exact : forall recipe cfg t s, int32 (exit_t cfg - t + 1 - (cycle_t cfg + refuel_t cfg - cyc s)) -> int32 (cycle_t cfg + refuel_t cfg) ->
  int32 (n_batch cfg) -> int32 (n_fresh cfg) -> int32 (n_core cfg) -> int32 (rb_count (core s)) ->
  (forall z, n_need cfg t s = Ok z -> int32 z) -> get_requests_double recipe cfg t s = get_requests recipe cfg t s.
Proof. exact requests_final. Qed.
Print Assumptions C94_requests_exact.
Example C94_requests_case : exists r, get_requests_double ex_recipe ex_cfg 17 ex_start = Ok r /\ List.length (fst r) = 1%nat /\
  forall z, n_need ex_cfg 17 ex_start = Ok z -> int32 z.
Proof. eexists. split; [vm_compute; reflexivity|]. split; [vm_compute; reflexivity|]. intros z H. vm_compute in H. injection H as <-. vm_compute. split; congruence. Qed.

(** The number of assemblies transmuted at retirement: all, or half rounded up. *)
Theorem C94_last_transmutation_exact : forall cfg, int32 (n_core cfg) ->
  last_transmutation_double cfg = Ok (if decom_all cfg then n_core cfg else half_up (n_core cfg)).
Proof. exact last_final. Qed.
Print Assumptions C94_last_transmutation_exact.
Example C94_last_case : int32 (n_core (dx_cfg 0 1)) /\ last_transmutation_double (dx_cfg 0 1) = Ok 2.
Proof. split; [vm_compute; split; congruence|]. vm_compute. reflexivity. Qed.
