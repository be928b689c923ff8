(** More of C32: a restart of the Mixer. *)
From Coq Require Import Lqa.
From Verif Require Import Outcome KernelMaterial KernelResBuf KernelFacts KernelMass KernelBuf MixerModel MixerSpec MixerProofs MixerRun MixerProps MixerRestartSpec MixerRestartProofs.
Local Open Scope Q_scope.

(** A mixer saved while its output is empty loses nothing: whatever follows, the loaded facility does the same as the saved one
    would have done, or fails in the same way. *)
Theorem C32_restart_when_empty : forall eps cfg es s0 s os s',
  0 <= eps -> 0 <= xc_out_size cfg -> mx_enter eps cfg (mx_new cfg) = Ok s0 ->
  exchanges_ok eps cfg s0 es -> mx_sane es -> mx_run eps cfg s0 es = Ok (s, os) -> b_items (xs_output s) = [] ->
  reloaded eps cfg (mx_snapshot s) s' -> forall es2,
  match mx_run eps cfg s es2, mx_run eps cfg s' es2 with
  | Ok (s2, os2), Ok (s2', os2') => xs_bufs s2' = xs_bufs s2 /\ xs_output s2' = xs_output s2 /\ map seen os2' = map seen os2
  | Throw x, Throw y => x = y
  | UB x, UB y => x = y
  | Diverge, Diverge => True
  | _, _ => False
  end.
Proof. exact restart_empty_final. Qed.
Print Assumptions C32_restart_when_empty.
(** A facility that was loaded once never again saves any mixed material. *)
Theorem C32_saved_after_a_restart : forall eps cfg saved s' es s2 os,
  reloaded eps cfg saved s' -> mx_run eps cfg s' es = Ok (s2, os) -> fst (mx_snapshot s2) = [].
Proof. exact resaved_final. Qed.
Print Assumptions C32_saved_after_a_restart.

(** Worked case: the output is sold out in the second step; then 11 kg are in the streams. *)
Definition xr_es : list mx_env :=
  [ {| xe_sales := []; xe_receipts := [(0%nat, Mat 1 9 xx_a); (1%nat, Mat 2 2 xx_a); (2%nat, Mat 3 2 xx_b)] |};
    {| xe_sales := [4]; xe_receipts := [(0%nat, Mat 4 3 xx_a)] |} ].
Definition xr_s : mx_state := match mx_run 0 xx_cfg xx_s0 xr_es with Ok (s, _) => s | _ => xx_s0 end.
Definition xr_os : list mx_out := match mx_run 0 xx_cfg xx_s0 xr_es with Ok (_, os) => os | _ => [] end.
Example C32_empty_case : mx_enter 0 xx_cfg (mx_new xx_cfg) = Ok xx_s0 /\ exchanges_ok 0 xx_cfg xx_s0 xr_es /\ mx_sane xr_es /\
  mx_run 0 xx_cfg xx_s0 xr_es = Ok (xr_s, xr_os) /\ b_items (xs_output xr_s) = [] /\ map (fun b => Qred (b_qty b)) (xs_bufs xr_s) = [9; 3] /\
  reloaded 0 xx_cfg (mx_snapshot xr_s) (restored xx_cfg xr_s) /\
  match mx_run 0 xx_cfg xr_s [xx_e] with Ok (s2, [o]) => Qred (qty_of (xo_shipped o)) = 5 # 2 | _ => False end.
Proof.
  assert (S : mx_sane xr_es) by (apply saneb_sound; vm_compute; reflexivity).
  assert (X : exchanges_ok 0 xx_cfg xx_s0 xr_es) by (apply exchangesb_sound; vm_compute; reflexivity).
  assert (R : mx_run 0 xx_cfg xx_s0 xr_es = Ok (xr_s, xr_os)) by (vm_compute; reflexivity).
  split; [exact xx_entered|]. split; [exact X|]. split; [exact S|]. split; [exact R|]. split; [vm_compute; reflexivity|]. split; [vm_compute; reflexivity|].
  split; [|vm_compute; reflexivity]. apply (reload_state 0 xx_cfg xr_es xx_s0 xr_s xr_os); try assumption; try reflexivity; cbn; lra.
Qed.
(** The restored facility mixes 4 kg and sells 2.5 kg of them; a snapshot then has the streams but not the other 1.5 kg. *)
Example C32_saved_case : match mx_run 0 xx_cfg (restored xx_cfg xr_s) [xx_e] with
  | Ok (s2, _) => Qred (b_qty (xs_output s2)) = 3 # 2 /\ fst (mx_snapshot s2) = [] /\ map (fun l => Qred (qty_of l)) (snd (mx_snapshot s2)) = [8; 3]
  | _ => False end.
Proof. vm_compute. repeat split. Qed.
