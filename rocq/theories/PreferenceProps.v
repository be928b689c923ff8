(** C116: preferences that are left out, and wrong numbers of them. *)
From Coq Require Import Lia.
From Verif Require Import Outcome KernelMaterial KernelResBuf KernelBuf ReactorModel StorageModel SeparationsModel FuelFabModel SinkModel
  PreferenceSpec PreferenceProofs ReactorExample.
From Verif Require FuelFabProps SinkProps StorageProps SeparationsProps.
Local Open Scope Q_scope.

(** ** C116.  FuelFab: accepted at start-up exactly if both lists are empty or of the right length; then these preferences are in force. *)
Theorem C116_fuel_fab : forall cfg fiss fill, ff_enter cfg = Ok (fiss, fill) <->
  (fits (fc_fiss_prefs cfg) (fc_fiss_commods cfg) /\ settled (fc_fiss_prefs cfg) (fc_fiss_commods cfg) fiss) /\
  (fits (fc_fill_prefs cfg) (fc_fill_commods cfg) /\ settled (fc_fill_prefs cfg) (fc_fill_commods cfg) fill).
Proof. exact fuel_fab_final. Qed.
Print Assumptions C116_fuel_fab.
Example C116_fuel_fab_case : fc_fiss_prefs FuelFabProps.fx_cfg = [] /\ fc_fill_prefs FuelFabProps.fx_cfg = [2] /\ ff_enter FuelFabProps.fx_cfg = Ok ([1; 1], [2]).
Proof. repeat split. Qed.

(** Sink. *)
Theorem C116_sink : forall cfg g t s,
  (forall s1, sk_enter cfg g t s = Ok s1 -> fits (ks_prefs s) (kc_commods cfg) /\ settled (ks_prefs s) (kc_commods cfg) (ks_prefs s1)) /\
  (fits (ks_prefs s) (kc_commods cfg) -> exists s1, sk_enter cfg g t s = Ok s1) /\
  (~ fits (ks_prefs s) (kc_commods cfg) -> sk_enter cfg g t s = Throw ValueError).
Proof. exact sink_final. Qed.
Print Assumptions C116_sink.
Example C116_sink_case : forall g, let cfg := SinkProps.kx_cfg "None" "None" 1 in
  fits (ks_prefs (sk_new cfg)) (kc_commods cfg) /\ ~ fits [2; 3; 4] (kc_commods cfg) /\
  sk_enter cfg g 0 {| ks_prefs := [2; 3; 4]; ks_inv := []; ks_amt := 0; ks_next := 0 |} = Throw ValueError /\
  (exists s1, sk_enter cfg g 0 {| ks_prefs := []; ks_inv := []; ks_amt := 0; ks_next := 0 |} = Ok s1 /\ ks_prefs s1 = [1; 1]).
Proof.
  intros g cfg. split; [right; reflexivity|]. split; [intros [H|H]; discriminate|]. split; [reflexivity|]. eexists. split; reflexivity.
Qed.

(** Storage: what the buy policy is told. *)
Theorem C116_storage : forall recipe package unit cfg en, st_enter recipe package unit cfg = Ok en ->
  fits (sc_in_prefs cfg) (sc_in_commods cfg) /\ settled (sc_in_prefs cfg) (sc_in_commods cfg) (map snd (en_buys en)) /\
  map fst (en_buys en) = sc_in_commods cfg.
Proof. exact storage_final. Qed.
Print Assumptions C116_storage.
Example C116_storage_case : exists en, st_enter (fun _ => None) (fun _ => true) (fun _ => true) (StorageProps.sx_cfg true) = Ok en /\
  en_buys en = [("spent"%string, 1); ("scrap"%string, 2)].
Proof. eexists. split; [vm_compute; reflexivity|reflexivity]. Qed.

(** Reactor: the preferences of the fuels, until they are changed (C12). *)
Theorem C116_reactor : forall cfg s s1, enter_notify cfg s = Ok s1 ->
  settled (prefs s) (outcommods cfg) (prefs s1) /\ inrecipes s1 = inrecipes s /\ outrecipes s1 = outrecipes s.
Proof. exact reactor_final. Qed.
Print Assumptions C116_reactor.
Example C116_reactor_case : exists s1, enter_notify ex_cfg (rx_new ex_cfg ["fresh_a"; "fresh_b"]%string ["spent_a"; "spent_b"]%string [] 0) = Ok s1 /\
  prefs s1 = [1; 1] /\ inrecipes s1 = ["fresh_a"; "fresh_b"]%string.
Proof. eexists. split; [vm_compute; reflexivity|split; reflexivity]. Qed.

(** Separations. *)
Theorem C116_separations : forall eps cfg s s0 prefs, sp_enter eps cfg s = Ok (s0, prefs) -> settled (pc_feed_prefs cfg) (pc_feed_commods cfg) prefs.
Proof. exact SeparationsProps.C29_default_preferences. Qed.
Print Assumptions C116_separations.
Example C116_separations_case : pc_feed_prefs SeparationsProps.sx_noprefs = [] /\
  exists s0, sp_enter 0 SeparationsProps.sx_noprefs (sp_new SeparationsProps.sx_noprefs) = Ok (s0, [1; 1]).
Proof. split; [reflexivity|]. eexists. vm_compute. reflexivity. Qed.

(** Reactor and Separations do not check the number of preferences: both start with one preference for two commodities. *)
Theorem C116_number_refuted :
  (exists cfg s s1, ~ fits (prefs s) (incommods cfg) /\ enter_notify cfg s = Ok s1) /\
  (exists eps cfg s0 prefs, ~ fits (pc_feed_prefs cfg) (pc_feed_commods cfg) /\ sp_enter eps cfg (sp_new cfg) = Ok (s0, prefs)).
Proof.
  split.
  - exists ex_cfg, (rx_new ex_cfg ["fresh_a"; "fresh_b"]%string ["spent_a"; "spent_b"]%string [2] 0). eexists. split; [intros [H|H]; discriminate H|vm_compute; reflexivity].
  - exists 0, {| pc_feed_commods := ["a"; "b"]%string; pc_feed_prefs := [1]; pc_feed_recipe := ""; pc_feed_size := 100; pc_throughput := 10;
      pc_leftover_commod := "waste"; pc_leftover_size := 50; pc_streams := []; pc_exit := -1 |}.
    do 2 eexists. split; [intros [H|H]; discriminate H|vm_compute; reflexivity].
Qed.
Print Assumptions C116_number_refuted.
