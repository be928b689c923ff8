(** Vocabulary for C111. *)
From Verif Require Import Outcome KernelMaterial StorageModel SinkModel SinkSpec.
Local Open Scope Z_scope.

(** Representable in 32 bits. *)
Definition fits (n : Z) : Prop := - 2 ^ 31 <= n < 2 ^ 31.
(** The parcels that wait in a storage facility or arrive in a history. *)
Definition parcels_ever (s : st_state) (es : list st_env) : Z :=
  zlen (ss_entry_times s) + zlen (ss_inventory s) + zlen (List.concat (map se_receipts es)).
(** The sink buys at random times. *)
Definition random_times (cfg : sk_cfg) : Prop := kc_freq_type cfg = "UniformInt"%string \/ kc_freq_type cfg = "NormalInt"%string.
(** Every next purchase drawn up to time [last] falls within the 32-bit calendar. *)
Definition calendar_fits (cfg : sk_cfg) (last : Z) : Prop :=
  random_times cfg -> kc_freq_min cfg <= kc_freq_max cfg /\ fits (kc_freq_min cfg) /\ last + kc_freq_max cfg < 2 ^ 31.
