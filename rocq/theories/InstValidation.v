(** Unit-test scenarios of /repo/src/deploy_inst_tests.cc and
    /repo/src/manager_inst_tests.cc replayed in the model. *)
From Verif Require Import Outcome InstModel.
Local Open Scope Q_scope.

Definition iv_foobar : proto := {| pr_arch := "Sink"; pr_name := "foobar"; pr_life := -1; pr_caps := None |}.
Definition iv_reg : registry := [("foobar", iv_foobar)]%string.
Definition iv_build (ts ns ls : list Z) := di_build true 0 {| di_protos := map (fun _ => "foobar"%string) ts; di_times := ts; di_nbuild := ns; di_lifes := ls |} iv_reg.
(** Number of facilities deployed at [t] with a name and a lifetime. *)
Definition iv_count (r : outcome (registry * list (Z * string))) (t l : Z) : option nat :=
  match r with
  | Ok (reg, sched) => match deployed reg sched t with
    | Ok ps => Some (List.length (filter (fun p => String.eqb (pr_name p) "foobar" && Z.eqb (pr_life p) l)%bool ps))
    | _ => None end
  | _ => None end.
(** ProtoNames, deploy_inst_tests.cc:28-46 *)
Example ProtoNames : iv_count (iv_build [1] [3] [2])%Z 1 2 = Some 3%nat.
Proof. vm_compute. reflexivity. Qed.
(** BuildTimes, 48-71 *)
Example BuildTimes : map (fun t => iv_count (iv_build [1; 3] [1; 7] [])%Z t (-1)) [1; 2; 3]%Z = [Some 1; Some 0; Some 7]%nat.
Proof. vm_compute. reflexivity. Qed.
(** FiniteLifetimes, 75-126 *)
Example FiniteLifetimes : map (fun tl => iv_count (iv_build [1; 1; 2] [1; 7; 3] [1; 2; -1])%Z (fst tl) (snd tl)) [(1, 1); (1, 2); (2, -1)]%Z = [Some 1; Some 7; Some 3]%nat.
Proof. vm_compute. reflexivity. Qed.
(** NoDupProtos, 128-155 *)
Example NoDupProtos : match (iv_build [1; 1; 2] [1; 7; 3] [1; 1; -1])%Z with Ok (reg, _) => Some (map fst reg) | _ => None end = Some ["foobar_life_1"; "foobar"]%string.
Proof. vm_compute. reflexivity. Qed.
(** productioncapacity, deploy_inst_tests.cc:207-213 and manager_inst_tests.cc:47-53 *)
Definition iv_producer : agent := {| ag_id := 1; ag_proto := {| pr_arch := "TestProducer"; pr_name := "foop"; pr_life := -1; pr_caps := Some [("commod", 5)]%string |} |}.
Example productioncapacity : forall k, In k [Deploy; Manager] -> match in_start iv_reg [] k [] with
  | Ok s => let s1 := child_built iv_producer s in let s2 := child_gone iv_producer s1 in
            map (fun s => Qred (total_capacity s "commod")) [s; s1; s2] = [0; 5; 0]
  | _ => False end.
Proof. intros k [<-|[<-|[]]]; vm_compute; reflexivity. Qed.
