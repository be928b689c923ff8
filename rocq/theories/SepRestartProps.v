(** C27, continued: saving a Separations facility that had been restored. *)
From Coq Require Import Lqa.
From Verif Require Import Outcome KernelMaterial KernelResBuf KernelBuf SeparationsModel SeparationsSpec SeparationsProps SepRestartSpec SepRestartProofs.
Local Open Scope Q_scope.

(** Whatever a restored facility receives, processes and sells until it is saved and restored again, its feed
    and its leftover are then again those of the first save: the processing in between is undone for them. *)
Theorem C27_saved_after_a_restart : forall eps recipe cfg prefs s s1 es s2 os s3,
  (forall c, reserved c -> ~ In c (map st_name (pc_streams cfg))) ->
  lived eps recipe cfg s -> reloaded eps cfg (sp_snapshot s) s1 ->
  Forall (fun e => Forall (fun t => ~ reserved (fst t)) (pe_trades e)) es -> sp_run eps recipe cfg prefs s1 es = Ok (s2, os) ->
  reloaded eps cfg (sp_snapshot s2) s3 ->
  b_items (ps_feed s3) = b_items (ps_feed s) /\ b_items (ps_left s3) = b_items (ps_left s).
Proof. exact second_restart. Qed.
Print Assumptions C27_saved_after_a_restart.

(** Fuel arrives; the facility is saved and restored; it processes, sells and receives; it is saved and restored again. *)
Definition ry_first : list sp_env := firstn 1 sx_es.
Definition ry_then : list sp_env := skipn 1 sx_es.
Definition ry_s0 : sp_state * list Q := match sp_enter sx_eps sx_cfg (sp_new sx_cfg) with Ok r => r | _ => (sx_state, []) end.
Definition ry_s : sp_state := match sp_run sx_eps (fun _ => None) sx_cfg (snd ry_s0) (fst ry_s0) ry_first with Ok (s, _) => s | _ => sx_state end.
Definition ry_s1 : sp_state := match sp_init_inv sx_eps (sp_snapshot ry_s) (fst ry_s0) with Ok s => s | _ => sx_state end.
Definition ry_s2 : sp_state := match sp_run sx_eps (fun _ => None) sx_cfg (snd ry_s0) ry_s1 ry_then with Ok (s, _) => s | _ => sx_state end.
Definition ry_s3 : sp_state := match sp_init_inv sx_eps (sp_snapshot ry_s2) (fst ry_s0) with Ok s => s | _ => sx_state end.
Example C27_saved_nontrivial : (forall c, reserved c -> ~ In c (map st_name (pc_streams sx_cfg))) /\
  sp_enter sx_eps sx_cfg (sp_new sx_cfg) = Ok ry_s0 /\
  (exists os, sp_run sx_eps (fun _ => None) sx_cfg (snd ry_s0) (fst ry_s0) ry_first = Ok (ry_s, os)) /\
  sp_init_inv sx_eps (sp_snapshot ry_s) (fst ry_s0) = Ok ry_s1 /\
  (exists os, sp_run sx_eps (fun _ => None) sx_cfg (snd ry_s0) ry_s1 ry_then = Ok (ry_s2, os)) /\
  sp_init_inv sx_eps (sp_snapshot ry_s2) (fst ry_s0) = Ok ry_s3 /\
  qty_of (b_items (ps_feed ry_s)) == 14 /\ qty_of (b_items (ps_feed ry_s2)) < 14 /\ 0 < qty_of (b_items (ps_left ry_s2)) /\
  qty_of (b_items (ps_feed ry_s3)) == 14 /\ b_items (ps_left ry_s3) = [] /\
  Forall (fun e => Forall (fun t => ~ reserved (fst t)) (pe_trades e)) sx_es.
Proof.
  split; [intros c [-> | ->] H; repeat destruct H as [H|H]; try discriminate; contradiction|].
  split; [vm_compute; reflexivity|]. split; [eexists; vm_compute; reflexivity|]. split; [vm_compute; reflexivity|]. split; [eexists; vm_compute; reflexivity|].
  split; [vm_compute; reflexivity|]. split; [vm_compute; reflexivity|]. split; [vm_compute; reflexivity|]. split; [vm_compute; reflexivity|]. split; [vm_compute; reflexivity|]. split; [vm_compute; reflexivity|].
  repeat constructor; intros [H|H]; discriminate.
Qed.
