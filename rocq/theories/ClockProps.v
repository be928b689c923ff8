(** C111: the calendars of Storage and Sink, computed in 32-bit ints, are those of the exact models. *)
From Coq Require Import Lia.
From Verif Require Import Outcome KernelMaterial KernelResBuf ReactorMachineModel StorageModel SinkModel SinkSpec ClockModel ClockSpec ClockProofs.
From Verif Require StorageProps SinkProps.
Local Open Scope Z_scope.

(** Storage: whatever the residence time and the clock, both not negative, as long as fewer than 2^31 parcels arrive. *)
Theorem C111_storage : forall eps cfg s es, 0 <= sc_residence cfg < 2 ^ 31 -> Forall (fun e => 0 <= se_time e < 2 ^ 31) es ->
  parcels_ever s es < 2 ^ 31 -> m_st_run eps cfg s es = st_run eps cfg s es.
Proof. intros eps cfg s es. exact (storage_same eps cfg es s). Qed.
Print Assumptions C111_storage.
Example C111_storage_case : 0 <= sc_residence (StorageProps.sx_cfg true) < 2 ^ 31 /\
  Forall (fun e => 0 <= se_time e < 2 ^ 31) StorageProps.sx_es /\ parcels_ever st_empty StorageProps.sx_es = 5 /\
  m_st_run 0 (StorageProps.sx_cfg true) st_empty StorageProps.sx_es = Ok (StorageProps.sx_state true, StorageProps.sx_outs true).
Proof.
  split; [cbn; lia|]. split; [repeat (apply Forall_cons || apply Forall_nil); cbn; lia|]. split; vm_compute; reflexivity.
Qed.
(** A negative residence time is accepted and overflows: here in the first step. *)
Definition st_back : st_cfg := {|
  sc_in_commods := ["spent"]%string; sc_in_prefs := [1%Q];
  sc_out_commods := ["aged"]%string; sc_in_recipe := ""; sc_residence := - 2 ^ 31; sc_throughput := 5%Q;
  sc_max_inv := 40%Q; sc_discrete := true; sc_package := "unpackaged";
  sc_transport_unit := "unrestricted"; sc_reorder_point := (-1)%Q; sc_reorder_quantity := 0%Q;
  sc_cumulative_cap := 0%Q |}.
Theorem C111_storage_refuted : exists recipe package unit cfg en e, fits (sc_residence cfg) /\ st_enter recipe package unit cfg = Ok en /\
  se_time e = 0 /\ m_st_run 0 cfg st_empty [e] = UB IntOverflow.
Proof.
  exists (fun _ => None), (fun _ => true), (fun _ => true), st_back. eexists. exists {| se_time := 0; se_sales := []; se_receipts := [] |}.
  split; [split; vm_compute; congruence|]. split; [vm_compute; reflexivity|]. split; [reflexivity|]. vm_compute. reflexivity.
Qed.
Print Assumptions C111_storage_refuted.

(** Sink: as long as the upper bound of the intervals, added to the last time of the history, is an int. *)
Theorem C111_sink : forall eps eg recipe cfg g t s es, 0 <= t -> rng_ok g -> rngs_ok es -> calendar_fits cfg (t + zlen es) ->
  m_sk_enter cfg g t s = sk_enter cfg g t s /\
  forall s1, m_sk_run eps eg recipe cfg t s1 es = sk_run eps eg recipe cfg t s1 es.
Proof. intros eps eg recipe cfg g t s es. exact (sink_final eps eg recipe cfg g t s es). Qed.
Print Assumptions C111_sink.
Example C111_sink_case : rng_ok SinkProps.kx_low /\ rngs_ok SinkProps.kx_es /\ random_times SinkProps.kx_c2 /\
  calendar_fits SinkProps.kx_c2 (4 + zlen SinkProps.kx_es).
Proof.
  split; [exact SinkProps.kx_low_ok|]. split; [exact SinkProps.kx_rngs0|]. split; [left; reflexivity|]. intros _.
  split; [cbn; lia|]. split; [split; cbn; lia|]. vm_compute. reflexivity.
Qed.
(** False in full: the upper bound may be the largest int (its default is CY_LARGE_INT, sink.h:254); a draw near it,
    at any time but the very first, overflows.  Here in the first purchase of a sink that asks every 1 to 2^31-1 steps. *)
Definition sk_unbounded : sk_cfg := {|
  kc_commods := ["a"]%string; kc_prefs := []; kc_recipe := ""; kc_max_inv := 12%Q; kc_capacity := 5%Q;
  kc_size_type := "None"; kc_size_mean := 1%Q; kc_size_stddev := 0%Q;
  kc_freq_type := "UniformInt"; kc_freq_mean := 1%Q; kc_freq_stddev := 1%Q; kc_freq_min := 1; kc_freq_max := 2 ^ 31 - 1 |}.
Theorem C111_sink_refuted : exists eps eg recipe cfg g s e, rng_ok g /\ rngs_ok [e] /\
  1 <= kc_freq_min cfg <= kc_freq_max cfg /\ fits (kc_freq_max cfg) /\
  m_sk_enter cfg g 0 (sk_new cfg) = Ok s /\ ks_next s = 1 /\ m_sk_run eps eg recipe cfg 1 s [e] = UB IntOverflow.
Proof.
  exists 0%Q, 0%Q, (fun _ => None), sk_unbounded, SinkProps.kx_low. eexists. exists (SinkProps.kx_env SinkProps.kx_top [] []).
  split; [exact SinkProps.kx_low_ok|]. split; [constructor; [split; exact SinkProps.kx_top_ok|constructor]|].
  split; [split; vm_compute; congruence|]. split; [split; vm_compute; congruence|]. split; [vm_compute; reflexivity|].
  split; [reflexivity|]. vm_compute. reflexivity.
Qed.
Print Assumptions C111_sink_refuted.
