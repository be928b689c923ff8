(** The scenarios of /repo/src/reactor_tests.cc replayed in the model: the numbers
    on the right are the ones the unit tests expect.  These are checks of the
    model against the recorded behaviour of the code, not properties. *)
From Verif Require Import Outcome KernelMaterial KernelResBuf ReactorModel ReactorSpec ReactorCheck ReactorExample.
Local Open Scope Z_scope.
Local Open Scope string_scope.

Definition vcfg (batch co fr sp cyc ref : Z) (exit : Z) : rx_cfg :=
  {| n_batch := batch; n_core := co; n_fresh := fr; n_spent := sp; assem := 1%Q;
     cycle_t := cyc; refuel_t := ref; power_cap := 1000%Q; incommods := ["a"]; outcommods := ["x"];
     side_products := []; side_qty := []; decom_all := false; pc_times := []; pc_commods := []; pc_vals := [];
     rc_times := []; rc_commods := []; rc_in := []; rc_out := []; exit_t := exit |}.
Definition vstart (cfg : rx_cfg) : rx_state :=
  match enter_notify cfg (rx_new cfg ["fresh_a"] ["spent_a"] [] 0) with Ok s => s | _ => rx_new cfg [] [] [] 0 end.

(** Run for [dur] steps; [nd t] assemblies are available at time [t]; the spent fuel is taken iff [sink]. *)
Definition vrun (cfg : rx_cfg) (dur : nat) (nd : nat -> nat) (sink : bool) : list rx_env * list rx_out :=
  let es := drive 0%Q ex_recipe cfg 0 (vstart cfg) 1
              (map (fun t => ("a", [(922350000, 1%Q)], nd t, 1000%nat, if sink then ["x"] else [])) (seq 0 dur)) in
  (es, match rx_run 0%Q ex_recipe cfg 0 (vstart cfg) es with Ok os => os | _ => [] end).
Definition received (r : list rx_env * list rx_out) : list nat := map (fun e => List.length (e_deliv e)) (fst r).
Definition total (l : list nat) : nat := fold_right Nat.add O l.
Definition powers (r : list rx_env * list rx_out) : list Q := List.concat (map power_record (snd r)).
Definition sent (r : list rx_env * list rx_out) : nat := total (map (fun o => List.length (o_shipped o)) (snd r)).
Definition big : Z := 1000000000.
Definition many : nat -> nat := fun _ => 1000%nat.
Definition countq (q : Q) (l : list Q) : nat := List.length (filter (Qeq_bool q) l).

Example JustInTimeOrdering : total (received (vrun (vcfg 1 1 0 big 1 0 (-1)) 50 many false)) = 50%nat.
Proof. vm_compute. reflexivity. Qed.
Example BatchSizes : total (received (vrun (vcfg 3 7 0 big 1 0 (-1)) 50 many false)) = (7 + 3 * 49)%nat.
Proof. vm_compute. reflexivity. Qed.
Example RefuelTimes : total (received (vrun (vcfg 1 1 0 big 4 3 (-1)) 49 many false)) = 8%nat.
Proof. vm_compute. reflexivity. Qed.
Example DecomTimes : let p := powers (vrun (vcfg 1 3 0 big 2 2 6) 12 many false) in
  (countq 1000%Q p, countq 0%Q p) = (4, 3)%nat.
Proof. vm_compute. reflexivity. Qed.
Example DecomZeroRefuel : countq 1000%Q (powers (vrun (vcfg 1 3 0 big 2 0 5) 8 many false)) = 6%nat.
Proof. vm_compute. reflexivity. Qed.
Example OrderAtRefuelStart : total (received (vrun (vcfg 1 1 0 big 4 3 (-1)) 7 many false)) = 2%nat.
Proof. vm_compute. reflexivity. Qed.
Example MultiFuelMix : total (received (vrun (vcfg 3 3 3 big 1 0 (-1)) 50 (fun _ => 4%nat) false)) = (3 * 50 + 3)%nat.
Proof. vm_compute. reflexivity. Qed.
Example FullSpentInventory : total (received (vrun (vcfg 1 1 0 3 1 0 (-1)) 10 many false)) = 4%nat.
Proof. vm_compute. reflexivity. Qed.
Example FullSpentInventoryShutdown : last (powers (vrun (vcfg 1 1 0 1 1 0 (-1)) 3 many false)) 1%Q = 0%Q.
Proof. vm_compute. reflexivity. Qed.
Definition shortage (t : nat) : nat :=
  if Nat.eqb t 0 then 1000%nat else if Nat.eqb t 9 then 2%nat else if Nat.leb 15 t then 1000%nat else 0%nat.
Example FuelShortage : let r := received (vrun (vcfg 3 3 0 big 7 0 (-1)) 50 shortage false) in
  (total (firstn 15 r), nth 15 r O, total (firstn 21 r), nth 22 r O) = (5, 1, 6, 3)%nat.
Proof. vm_compute. reflexivity. Qed.
Example DischargedFuelTransmute : map (fun r => m_comp (snd r)) (List.concat (map o_shipped (snd (vrun (vcfg 1 1 0 big 4 3 (-1)) 7 many true))))
  = [[(922380000, 23%Q); (942390000, 1%Q); (551370000, 1%Q)]].
Proof. vm_compute. reflexivity. Qed.
Example Retire : let r := vrun (vcfg 1 3 1 big 7 0 35) 50 many true in
  (total (received r), sent r, countq 1000%Q (powers r)) = (8, 8, 36)%nat.
Proof. vm_compute. reflexivity. Qed.
Example ByProduct : countq 1000%Q (powers (vrun (vcfg 3 7 0 big 1 1 (-1)) 10 many false)) = 5%nat.
Proof. vm_compute. reflexivity. Qed.
