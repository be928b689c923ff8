(** Unit-test scenarios of /repo/src/storage_tests.cc replayed in the model
    (tests of the reading of the code, not proofs of properties). *)
From Verif Require Import Outcome KernelMaterial KernelResBuf StorageModel.
Local Open Scope Q_scope.

(** StorageTest::InitParameters, storage_tests.cc:18-39. *)
Definition vcfg (res : Z) (thr maxinv : Q) : st_cfg := {|
  sc_in_commods := ["in_c1"]%string; sc_in_prefs := [1]; sc_out_commods := ["out_c1"]%string;
  sc_in_recipe := "in_r1"; sc_residence := res; sc_throughput := thr; sc_max_inv := maxinv;
  sc_discrete := false; sc_package := "foo"; sc_transport_unit := ""; sc_reorder_point := -(1);
  sc_reorder_quantity := 0; sc_cumulative_cap := 0 |}.
Definition vmat (q : Q) : mat := Mat 0 q [(922350000%Z, 1); (922380000%Z, 2)].
Inductive op := Add (q : Q) | TockWith (cfg : st_cfg) (t : Z).
Definition vdo (s : outcome st_state) (o : op) : outcome st_state :=
  let* s' := s in
  match o with
  | Add q => Ok (st_add_mat s' (vmat q))
  | TockWith cfg t => let* '(s2, _) := st_tock (1 # 1000000) cfg t s' in Ok s2
  end.
(** StorageTest::TestBuffers: inventory, processing, ready, stocks. *)
Definition vbufs (ops : list op) : outcome (list Q) :=
  let* s := fold_left vdo ops (Ok st_empty) in
  Ok (map Qred [qty_of (ss_inventory s); qty_of (ss_processing s); qty_of (ss_ready s); qty_of (ss_stocks s)]).

(** Tock, storage_tests.cc:131-168 *)
Example Tock_0 : vbufs [Add 20; TockWith (vcfg 10 20 200) 0] = Ok [0; 20; 0; 0].
Proof. vm_compute. reflexivity. Qed.
Example Tock_9 : vbufs [Add 20; TockWith (vcfg 10 20 200) 0; TockWith (vcfg 10 20 200) 8] = Ok [0; 20; 0; 0].
Proof. vm_compute. reflexivity. Qed.
Example Tock_10 : vbufs [Add 20; TockWith (vcfg 10 20 200) 0; TockWith (vcfg 10 20 200) 10] = Ok [0; 0; 0; 20].
Proof. vm_compute. reflexivity. Qed.
(** NoProcessTime, 171-189 *)
Example NoProcessTime : vbufs [Add 20; TockWith (vcfg 0 20 200) 0] = Ok [0; 0; 0; 20].
Proof. vm_compute. reflexivity. Qed.
(** MultipleSmallBatches, 217-251 *)
Example MultipleSmallBatches_a : vbufs [Add 4; TockWith (vcfg 10 20 200) 0; TockWith (vcfg 10 20 200) 2; Add 6]
  = Ok [6; 4; 0; 0].
Proof. vm_compute. reflexivity. Qed.
Example MultipleSmallBatches_b : vbufs [Add 4; TockWith (vcfg 10 20 200) 0; TockWith (vcfg 10 20 200) 2; Add 6;
  TockWith (vcfg 10 20 200) 2; TockWith (vcfg 10 20 200) 10] = Ok [0; 6; 0; 4].
Proof. vm_compute. reflexivity. Qed.
Example MultipleSmallBatches_c : vbufs [Add 4; TockWith (vcfg 10 20 200) 0; TockWith (vcfg 10 20 200) 2; Add 6;
  TockWith (vcfg 10 20 200) 2; TockWith (vcfg 10 20 200) 10; TockWith (vcfg 10 20 200) 12] = Ok [0; 0; 0; 10].
Proof. vm_compute. reflexivity. Qed.
(** ChangeCapacity, 254-303 *)
Definition cc1 := [Add 300; TockWith (vcfg 10 300 10000) 0; Add 500; TockWith (vcfg 10 500 10000) 2;
  Add 500; TockWith (vcfg 10 500 10000) 3; TockWith (vcfg 10 500 10000) 10].
Example ChangeCapacity_a : vbufs cc1 = Ok [0; 1000; 0; 300].
Proof. vm_compute. reflexivity. Qed.
Example ChangeCapacity_b : vbufs (cc1 ++ [TockWith (vcfg 10 400 10000) 12]) = Ok [0; 500; 100; 700].
Proof. vm_compute. reflexivity. Qed.
Example ChangeCapacity_c : vbufs (cc1 ++ [TockWith (vcfg 10 400 10000) 12; TockWith (vcfg 10 400 10000) 13])
  = Ok [0; 0; 200; 1100].
Proof. vm_compute. reflexivity. Qed.
Example ChangeCapacity_d : vbufs (cc1 ++ [TockWith (vcfg 10 400 10000) 12; TockWith (vcfg 10 400 10000) 13;
  TockWith (vcfg 10 400 10000) 14]) = Ok [0; 0; 0; 1300].
Proof. vm_compute. reflexivity. Qed.
(** TwoBatchSameTime, 305-328 *)
Example TwoBatchSameTime : vbufs [Add 4; Add 4; TockWith (vcfg 10 20 200) 0; TockWith (vcfg 10 20 200) 10] = Ok [0; 0; 0; 8].
Proof. vm_compute. reflexivity. Qed.
(** ChangeProcessTime, 330-378 *)
Definition cp := [Add 20; TockWith (vcfg 10 20 200) 0; Add 20; TockWith (vcfg 10 20 200) 8].
Example ChangeProcessTime_a : vbufs (cp ++ [TockWith (vcfg 15 20 200) 10; TockWith (vcfg 15 20 200) 13]) = Ok [0; 40; 0; 0].
Proof. vm_compute. reflexivity. Qed.
Example ChangeProcessTime_b : vbufs (cp ++ [TockWith (vcfg 15 20 200) 15]) = Ok [0; 20; 0; 20].
Proof. vm_compute. reflexivity. Qed.
Example ChangeProcessTime_c : vbufs (cp ++ [TockWith (vcfg 15 20 200) 15; TockWith (vcfg 12 20 200) 20]) = Ok [0; 0; 0; 40].
Proof. vm_compute. reflexivity. Qed.
