(** C93: the production capacity that Source, Storage and Reactor advertise. *)
From Coq Require Import Lia.
From Verif Require Import Outcome KernelMaterial KernelFacts ReactorModel StorageModel ProducerModel ProducerSpec ProducerProofs.
From Verif Require SourceModel.
Local Open Scope Q_scope.

(** ** C93.  A reactor (and every clone of it) advertises its power and its side
    products with their quantities, and nothing else; the first entry counts if
    a commodity appears twice. *)
Theorem C93_reactor : forall power cfg n, (List.length (side_products cfg) <= List.length (side_qty cfg))%nat ->
  exists p, rx_advertise power cfg = Ok p /\
    advertises (clone n p) ((power, power_cap cfg) :: combine (side_products cfg) (side_qty cfg)).
Proof. exact reactor_final. Qed.
Print Assumptions C93_reactor.
Definition px_cfg (ps : list string) (qs : list Q) : rx_cfg :=
  {| n_batch := 1; n_core := 2; n_fresh := 1; n_spent := 2; assem := 10; cycle_t := 2; refuel_t := 1; power_cap := 1000;
     incommods := ["a"]%string; outcommods := ["x"]%string; side_products := ps; side_qty := qs; decom_all := false;
     pc_times := []; pc_commods := []; pc_vals := []; rc_times := []; rc_commods := []; rc_in := []; rc_out := []; exit_t := 19 |}.
Example C93_reactor_case : exists p, rx_advertise "power" (px_cfg ["heat"; "steam"]%string [7; 9]) = Ok p /\
  map (fun c => option_map pi_capacity (pd_find (clone 3 p) c)) ["steam"; "power"; "heat"; "fuel"]%string = [Some 9; Some 1000; Some 7; None].
Proof. eexists. split; vm_compute; reflexivity. Qed.
(** With too few quantities, loading the reactor reads past the end of a list. *)
Theorem C93_reactor_undefined : forall power cfg, (List.length (side_qty cfg) < List.length (side_products cfg))%nat ->
  exists u, rx_advertise power cfg = UB u.
Proof. exact reactor_undefined. Qed.
Print Assumptions C93_reactor_undefined.
Example C93_undefined_case : exists u, rx_advertise "power" (px_cfg ["heat"; "steam"]%string [7]) = UB u.
Proof. eexists. vm_compute. reflexivity. Qed.
(** A source advertises its throughput. *)
Theorem C93_source : forall cfg n, advertises (clone n (sr_advertise cfg)) [(SourceModel.sc_commod cfg, SourceModel.sc_throughput cfg)].
Proof. exact source_final. Qed.
Print Assumptions C93_source.
Example C93_source_case : map (fun c => option_map pi_capacity (pd_find (clone 2 (sr_advertise
  {| SourceModel.sc_commod := "u"; SourceModel.sc_recipe := ""; SourceModel.sc_inv_size := 20; SourceModel.sc_throughput := 6 |})) c)) ["u"; "v"]%string = [Some 6; None].
Proof. vm_compute. reflexivity. Qed.
(** A storage facility advertises its throughput, for its first output commodity only. *)
Theorem C93_storage : forall default cfg n c r, sc_out_commods cfg = c :: r ->
  exists p, st_advertise default cfg = Ok p /\ advertises (clone n p) [(c, sc_throughput cfg)].
Proof. exact storage_final. Qed.
Print Assumptions C93_storage.
Definition px_st : st_cfg := {|
  sc_in_commods := ["spent"]%string; sc_in_prefs := [1]; sc_out_commods := ["aged"]%string; sc_in_recipe := ""; sc_residence := 2; sc_throughput := 5;
  sc_max_inv := 40; sc_discrete := false; sc_package := "unpackaged"; sc_transport_unit := "unrestricted"; sc_reorder_point := -(1);
  sc_reorder_quantity := 0; sc_cumulative_cap := 0 |}.
Example C93_storage_case : exists p, st_advertise {| pi_capacity := 0; pi_cost := 0 |} px_st = Ok p /\
  map (fun c => option_map pi_capacity (pd_find (clone 1 p) c)) ["spent"; "aged"]%string = [None; Some 5].
Proof. eexists. split; vm_compute; reflexivity. Qed.
