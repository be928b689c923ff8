(** Unit-test scenarios of /repo/src/mixer_tests.cc replayed in the model. *)
From Verif Require Import Outcome KernelMaterial KernelResBuf KernelBuf MixerModel.
Local Open Scope Q_scope.

Definition vm_cfg (ratios sizes : list Q) (thr : Q) : mx_cfg :=
  {| xc_streams := map (fun rc => {| xs_ratio := fst rc; xs_size := snd rc; xs_commods := [("in_c"%string, 1)] |})
       (combine ratios sizes);
     xc_out_commod := "out_com"; xc_out_size := 50; xc_throughput := thr |}.
Definition vm_start (cfg : mx_cfg) : mx_state :=
  match mx_enter (1 # 1000000) cfg (mx_new cfg) with Ok s => s | _ => mx_new cfg end.
(** StreamDefaultRatio, mixer_tests.cc:177-189 *)
Example StreamDefaultRatio : map Qred (xs_ratios (vm_start (vm_cfg [0; 0; 0] [30; 20; 10] 1000000))) = [1 # 3; 1 # 3; 1 # 3].
Proof. vm_compute. reflexivity. Qed.
(** StreamRatio, 192-229 *)
Example StreamRatio : map Qred (xs_ratios (vm_start (vm_cfg [2; 1; 5] [30; 20; 10] 1000000))) = [1 # 4; 1 # 8; 5 # 8] /\
  map Qred (xs_ratios (vm_start (vm_cfg [1 # 10; 2 # 10; 5 # 10] [30; 20; 10] 1000000))) = [1 # 8; 1 # 4; 5 # 8].
Proof. vm_compute. auto. Qed.
(** MixingComposition 232-275, Throughput 278-321: streams 30, 20, 10 kg of three kinds. *)
Definition vm_fill (s : mx_state) : mx_state :=
  {| xs_ratios := xs_ratios s;
     xs_bufs := map (fun bm => {| b_cap := b_cap (fst bm); b_items := [snd bm] |})
       (combine (xs_bufs s) [Mat 1 30 [(922380000%Z, 1)]; Mat 2 20 [(942390000%Z, 1)]; Mat 3 10 [(922350000%Z, 1)]]);
     xs_output := xs_output s; xs_extra := None |}.
Definition vm_cfg2 := vm_cfg [80 # 100; 15 # 100; 5 # 100] [30; 20; 10].
Example Throughput : match mx_tick (1 # 1000000) (vm_cfg2 (1 # 2)) (vm_fill (vm_start (vm_cfg2 (1 # 2)))) with
  | Ok (s, _) => (map (fun b => Qred (b_qty b)) (xs_bufs s), Qred (b_qty (xs_output s)))
  | _ => ([], 0)
  end = ([148 # 5; 797 # 40; 399 # 40], 1 # 2).
Proof. vm_compute. reflexivity. Qed.
Example MixingComposition : match mx_tick (1 # 1000000) (vm_cfg2 1000000) (vm_fill (vm_start (vm_cfg2 1000000))) with
  | Ok (s, _) => map (fun m => map (fun n => Qred (mass_of m n / m_qty m)) [922380000; 942390000; 922350000]%Z) (b_items (xs_output s))
  | _ => []
  end = [[4 # 5; 3 # 20; 1 # 20]].
Proof. vm_compute. reflexivity. Qed.
(** MultipleFissStreams 325-396: every stream receives what it asked for (three trades). *)
Definition vm_cfg3 := vm_cfg [8 # 10; 15 # 100; 5 # 100] [5 # 2; 3; 5] .
Example MultipleFissStreams :
  map xr_qty (mx_requests (1 # 1000000) (vm_cfg3 1000000) (vm_start (vm_cfg3 1000000))) = [Some (5 # 2); Some 3; Some 5].
Proof. vm_compute. reflexivity. Qed.
