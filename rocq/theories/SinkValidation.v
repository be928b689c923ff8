(** Unit-test scenarios of /repo/src/sink_tests.cc replayed in the model. *)
From Verif Require Import Outcome KernelMaterial SinkModel.
Local Open Scope Q_scope.

(** Generator with fixed answers. *)
Definition kv_rng (x : Q) (n : Z) : rng := {| g_uniform_real := fun _ _ => x; g_normal_real := fun _ _ _ _ => x;
                                              g_uniform_int := fun _ _ => n; g_normal_int := fun _ _ _ _ => n |}.
Definition kv_cfg (cs : list string) (ps : list Q) (mx cap : Q) (size freq : string) : sk_cfg := {|
  kc_commods := cs; kc_prefs := ps; kc_recipe := ""; kc_max_inv := mx; kc_capacity := cap;
  kc_size_type := size; kc_size_mean := 1; kc_size_stddev := 1 # 10;
  kc_freq_type := freq; kc_freq_mean := 1; kc_freq_stddev := 1; kc_freq_min := 1; kc_freq_max := 1000 |}.
Definition kv_cfg0 := kv_cfg ["acommod"; "bcommod"]%string [] 10 5 "None" "None".
(** InitialState, sink_tests.cc:44-59 *)
Example InitialState : sk_available kv_cfg0 (sk_new kv_cfg0) = 5 /\
  match sk_enter kv_cfg0 (kv_rng 0 0) 0 (sk_new kv_cfg0) with Ok s => ks_prefs s | _ => [] end = [1; 1].
Proof. vm_compute. auto. Qed.
(** Requests, 112-140 *)
Example Requests : match sk_enter kv_cfg0 (kv_rng 0 0) 0 (sk_new kv_cfg0) with
  | Ok s => match sk_mat_requests 0 (fun _ => None) kv_cfg0 (kv_rng 0 0) s with Ok (_, r) => r | _ => None end
  | _ => None end = Some {| mq_qty := 5; mq_comp := None; mq_items := [("acommod", 1); ("bcommod", 1)]%string |}.
Proof. vm_compute. reflexivity. Qed.
(** EmptyRequests, 143-151: capacity 0, requested amount left over from before. *)
Example EmptyRequests : let c := kv_cfg ["acommod"; "bcommod"]%string [] 10 0 "None" "None" in
  match sk_mat_requests 0 (fun _ => None) c (kv_rng 0 0) {| ks_prefs := []; ks_inv := []; ks_amt := 5; ks_next := 0 |} with
  | Ok (_, None) => true | _ => false end = true.
Proof. vm_compute. reflexivity. Qed.
(** Accept, 154-183 *)
Example Accept : match sk_accept 0 kv_cfg0 [rsrc_of_mat (Mat 1 (5 # 2) [(922350000%Z, 1)]); rsrc_of_mat (Mat 2 (5 # 2) [(922350000%Z, 1)])] (sk_new kv_cfg0) with
  | Ok s => Qred (rsrcs_qty (ks_inv s)) | _ => 0 end = 5.
Proof. vm_compute. reflexivity. Qed.
(** InRecipe, 186-219 *)
Example InRecipe : let c := kv_cfg ["some_u"]%string [] 10 5 "None" "None" in
  match sk_enter c (kv_rng 0 0) 0 (sk_new c) with
  | Ok s => match sk_mat_requests 0 (fun _ => None) c (kv_rng 0 0) s with Ok (_, Some r) => map fst (mq_items r) | _ => [] end
  | _ => [] end = ["some_u"%string].
Proof. vm_compute. reflexivity. Qed.

(** Times at which something is requested in [es], entering at time 0. *)
Fixpoint kv_times (t : Z) (os : list sk_out) : list (Z * Q) :=
  match os with
  | [] => []
  | o :: os' => match ko_mat o with Some r => [(t, mq_qty r)] | None => [] end ++ kv_times (t + 1) os'
  end.
Definition kv_sim (c : sk_cfg) (g0 : rng) (gs : list rng) : list (Z * Q) :=
  match (let* s0 := sk_enter c g0 0 (sk_new c) in
         sk_run 0 0 (fun _ => None) c 0 s0 (map (fun g => {| ke_rng := g; ke_rng2 := g; ke_mats := []; ke_prods := [] |}) gs)) with
  | Ok (_, os) => kv_times 0 os | _ => [] end.
(** RandomUniformSize, 345-364; the draw is part of the test's seed. *)
Example RandomUniformSize : kv_sim (kv_cfg ["commods_1"]%string [] 100 10 "UniformReal" "None") (kv_rng 9 0) [kv_rng (941 # 100) 0] = [(0%Z, 941 # 100)].
Proof. vm_compute. reflexivity. Qed.
(** RandomUniformFreq, 415-440: one purchase in three steps, at time 2. *)
Example RandomUniformFreq : map fst (kv_sim (kv_cfg ["commods_1"]%string [] 100 10 "None" "UniformInt") (kv_rng 0 2) (repeat (kv_rng 0 2) 3)) = [2%Z].
Proof. vm_compute. reflexivity. Qed.
(** RandomNormalFreqMultipleCycles, 497-528: draws 5, 2, 4 give purchases at times 5, 7 and 11. *)
Example RandomNormalFreqMultipleCycles :
  map fst (kv_sim (kv_cfg ["commods_1"]%string [] 100 10 "None" "NormalInt") (kv_rng 0 5)
     (repeat (kv_rng 0 9) 5 ++ [kv_rng 0 2; kv_rng 0 9; kv_rng 0 4; kv_rng 0 9; kv_rng 0 9; kv_rng 0 9; kv_rng 0 3])) = [5; 7; 11]%Z.
Proof. vm_compute. reflexivity. Qed.
