(** A concrete reactor history used by the Examples in DecomProps.v: the spent fuel is not collected for a while, the reactor retires with fuel in all its inventories, then the spent fuel is collected. *)
From Verif Require Import Outcome KernelMaterial KernelResBuf ReactorModel ReactorSpec ReactorCheck ReactorExample.
Local Open Scope Z_scope.
Local Open Scope string_scope.
Definition dc_cfg : rx_cfg :=
  {| n_batch := 1; n_core := 1; n_fresh := 1; n_spent := 1; assem := 10%Q; cycle_t := 1; refuel_t := 0; power_cap := 1000%Q; incommods := ["a"]; outcommods := ["x"]; side_products := []; side_qty := []; decom_all := false;
     pc_times := []; pc_commods := []; pc_vals := []; rc_times := []; rc_commods := []; rc_in := []; rc_out := []; exit_t := 2 |}.
Definition dc_start : rx_state := match enter_notify dc_cfg (rx_new dc_cfg ["fresh_a"] ["spent_a"] [1%Q] 0) with Ok s => s | _ => rx_new dc_cfg [] [] [] 0 end.
Definition dc_plan : list (string * comp * nat * nat * list string) :=
  let a := [(922350000, 1%Q); (922380000, 24%Q)] in [ ("a", a, 2, 0, []); ("a", a, 2, 0, []); ("a", a, 2, 0, []); ("a", a, 0, 1, ["x"]); ("a", a, 0, 1, ["x"]) ]%nat.
Definition dc_envs : list rx_env := drive 0%Q ex_recipe dc_cfg 0 dc_start 1 dc_plan.
Definition dc_outs : list rx_out := match rx_run 0%Q ex_recipe dc_cfg 0 dc_start dc_envs with Ok os => os | _ => [] end.
