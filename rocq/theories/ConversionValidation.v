(** Scenarios of /repo/src/conversion_tests.cc replayed in the model. *)
From Verif Require Import Outcome KernelMaterial KernelResBuf ConversionModel.
Local Open Scope Q_scope.
Definition tcfg : cv_cfg :=
  {| vc_incommods := ["incommod1"]%string; vc_outcommod := "outcommod"; vc_throughput := 200; vc_capacity := 1000 |}.
Definition blank (q : Q) : mat := Mat 0 q [(10010000%Z, 1)].

(** AvailableFeedstockCapacity, 81-94 *)
Example AvailableFeedstockCapacity :
  cv_available tcfg cv_empty == 1000 /\ cv_available tcfg {| vs_input := [blank 20]; vs_output := [] |} == 980.
Proof. split; reflexivity. Qed.
(** GetMatlRequests and GetMatlRequestsWhenFull, 97-137 *)
Example GetMatlRequests : cv_requests tcfg cv_empty = Some ([("incommod1"%string, 1000)], 1000).
Proof. vm_compute. reflexivity. Qed.
Example GetMatlRequestsWhenFull : cv_requests tcfg {| vs_input := [blank 1000]; vs_output := [] |} = None.
Proof. vm_compute. reflexivity. Qed.
(** GetMatlBids and GetMatlBidsWhenEmpty, 140-201 *)
Example GetMatlBids : exists b, cv_bids {| vs_input := []; vs_output := [blank 20] |} [20] = Ok (Some ([b], 20)).
Proof. vm_compute. eexists. reflexivity. Qed.
Example GetMatlBidsWhenEmpty : cv_bids cv_empty [20] = Ok None.
Proof. vm_compute. reflexivity. Qed.
(** AcceptMatlTrades, 204-230; GetMatlTrades, 233-269 *)
Example AcceptMatlTrades : exists l, cv_accept 0 tcfg [blank 20] [] = Ok l /\ qty_of l == 20.
Proof. vm_compute. eexists. split; reflexivity. Qed.
Example GetMatlTrades : exists l, cv_trades [20] [blank 20] [] = Ok ([], [l]) /\ m_qty l == 20.
Proof. vm_compute. eexists. split; reflexivity. Qed.
(** Convert, ConvertWithLessThanThroughput, ConvertWithEmptyInput, 272-318 *)
Example Convert : exists s, cv_tick tcfg {| vs_input := [blank 400]; vs_output := [] |} = Ok s /\
  qty_of (vs_input s) == 200 /\ qty_of (vs_output s) == 200.
Proof. vm_compute. eexists. repeat split. Qed.
Example ConvertWithLessThanThroughput : exists s, cv_tick tcfg {| vs_input := [blank 100]; vs_output := [] |} = Ok s /\
  qty_of (vs_input s) == 0 /\ qty_of (vs_output s) == 100.
Proof. vm_compute. eexists. repeat split. Qed.
Example ConvertWithEmptyInput : cv_tick tcfg cv_empty = Ok cv_empty.
Proof. vm_compute. reflexivity. Qed.
