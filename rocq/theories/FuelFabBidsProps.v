(** Property C70 of FuelFab, continued: when offers are made at all.  Statements use FuelFabSpec.v; the proof is a single [exact]; the example is the one of FuelFabProps.v. *)
From Coq Require Import Lqa.
From Verif Require Import Outcome KernelMaterial KernelResBuf KernelFacts KernelMass KernelBuf FuelFabModel FuelFabSpec FuelFabBids FuelFabProps.
Local Open Scope Q_scope.

(** With its recipes known, a facility answers requests for its fuel with a bid portfolio (the one C70_offers, C70_streams and C70_blend describe) exactly if it has some throughput and there is a request. *)
Theorem C70_when : forall nz D recipe cfg s reqs, (b_items (fb_fill s) = [] -> recipe (fc_fill_recipe cfg) <> None) ->
  (fc_fiss_recipe cfg <> ""%string -> recipe (fc_fiss_recipe cfg) <> None) -> (fc_topup_recipe cfg <> ""%string -> recipe (fc_topup_recipe cfg) <> None) ->
  (~ fc_throughput cfg == 0 /\ reqs <> [] -> exists B, ff_get_bids nz D recipe cfg s reqs = Ok (Some B)) /\
  (fc_throughput cfg == 0 \/ reqs = [] -> ff_get_bids nz D recipe cfg s reqs = Ok None).
Proof. exact when_final. Qed.
Print Assumptions C70_when.
(** Before anything has been delivered only the recipes are known; offers are made nevertheless. *)
Example C70_when_case : fx_recipe (fc_fill_recipe fx_cfg) <> None /\ (fc_fiss_recipe fx_cfg <> ""%string -> fx_recipe (fc_fiss_recipe fx_cfg) <> None) /\
  (fc_topup_recipe fx_cfg <> ""%string -> fx_recipe (fc_topup_recipe fx_cfg) <> None) /\ ~ fc_throughput fx_cfg == 0 /\ fx_reqs <> [] /\ b_items (fb_fill (ff_new fx_cfg)) = [].
Proof. repeat split; try (intros H; vm_compute in H; congruence). Qed.
