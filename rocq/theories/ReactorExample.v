(** A concrete reactor history used by the Examples in ReactorProps.v: two fuels,
    one scheduled preference change, one scheduled recipe change, a spent pool
    that fills up (failed discharges), a fuel shortage, and retirement. *)
From Verif Require Import Outcome KernelMaterial KernelResBuf ReactorModel ReactorSpec ReactorCheck.
Local Open Scope Z_scope.
Local Open Scope string_scope.

Definition ex_recipe (r : string) : option comp :=
  if String.eqb r "fresh_a" then Some [(922350000, 1%Q); (922380000, 24%Q)]
  else if String.eqb r "spent_a" then Some [(922380000, 23%Q); (942390000, 1%Q); (551370000, 1%Q)]
  else if String.eqb r "fresh_b" then Some [(942390000, 1%Q); (922380000, 9%Q)]
  else if String.eqb r "spent_b" then Some [(942390000, 1%Q); (922380000, 8%Q); (551370000, 1%Q)]
  else if String.eqb r "spent_a2" then Some [(922380000, 22%Q); (942390000, 2%Q); (551370000, 1%Q)]
  else None.

Definition ex_cfg : rx_cfg :=
  {| n_batch := 1; n_core := 2; n_fresh := 1; n_spent := 2; assem := 10%Q;
     cycle_t := 2; refuel_t := 1; power_cap := 1000%Q;
     incommods := ["a"; "b"]; outcommods := ["x"; "y"];
     side_products := ["heat"]; side_qty := [7%Q]; decom_all := false;
     pc_times := [4]; pc_commods := ["b"]; pc_vals := [9%Q];
     rc_times := [6]; rc_commods := ["a"]; rc_in := ["fresh_a"]; rc_out := ["spent_a2"];
     exit_t := 19 |}.

Definition ex_start : rx_state :=
  match enter_notify ex_cfg (rx_new ex_cfg ["fresh_a"; "fresh_b"] ["spent_a"; "spent_b"] [1%Q; 2%Q] 0) with
  | Ok s => s
  | _ => rx_new ex_cfg [] [] [] 0
  end.

(** Per step: commodity and composition delivered, how many at most, how many
    spent assemblies are taken per commodity at most, who asks for spent fuel. *)
Definition ex_plan : list (string * comp * nat * nat * list string) :=
  let a := [(922350000, 1%Q); (922380000, 24%Q)] in
  let b := [(942390000, 1%Q); (922380000, 9%Q)] in
  [ ("a", a, 1, 0, []); ("b", b, 2, 0, ["x"; "y"]); ("b", b, 1, 0, []); ("a", a, 1, 0, ["x"]);
    ("a", a, 0, 0, []); ("a", a, 1, 0, ["x"]); ("b", b, 1, 0, ["y"]); ("b", b, 2, 0, []);
    ("b", b, 2, 0, ["x"]); ("a", a, 2, 0, ["x"; "y"]); ("a", a, 2, 0, []); ("a", a, 2, 1, ["x"; "y"]);
    ("a", a, 2, 1, ["y"]); ("b", b, 2, 0, []); ("b", b, 2, 1, ["x"; "y"]); ("b", b, 2, 1, ["x"; "y"]);
    ("a", a, 2, 1, ["x"]); ("a", a, 2, 1, ["x"]); ("a", a, 2, 0, []); ("a", a, 2, 0, ["x"; "y"]);
    ("a", a, 0, 0, ["x"; "y"]); ("a", a, 0, 1, ["x"; "y"]); ("a", a, 0, 2, ["x"; "y"]); ("a", a, 0, 2, ["x"; "y"]);
    ("a", a, 0, 2, ["x"; "y"]); ("a", a, 0, 2, ["x"; "y"]) ]%nat.

Definition ex_envs : list rx_env := drive 0%Q ex_recipe ex_cfg 0 ex_start 1 ex_plan.
Definition ex_outs : list rx_out :=
  match rx_run 0%Q ex_recipe ex_cfg 0 ex_start ex_envs with Ok os => os | _ => [] end.
