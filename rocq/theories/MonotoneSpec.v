(** Vocabulary for C121: histories of two facilities to be compared. *)
From Verif Require Import Outcome KernelMaterial KernelResBuf ConversionModel ConversionSpec StorageModel StorageSpec.
Local Open Scope Q_scope.
(** As many steps, and before each of them at least as much was received. *)
Definition received_as_much (es es' : list cv_env) : Prop :=
  List.length es' = List.length es /\ forall n, qty_of (cv_received (firstn n es)) <= qty_of (cv_received (firstn n es')).
(** The same arrivals at the same times; what is sold may differ. *)
Definition same_arrivals (es es' : list st_env) : Prop :=
  Forall2 (fun e e' => se_time e' = se_time e /\ se_receipts e' = se_receipts e) es es'.
(** A store that is at least as fast: no less throughput, no longer residence. *)
Definition as_fast (cfg cfg' : st_cfg) : Prop :=
  0 <= sc_throughput cfg <= sc_throughput cfg' /\ (sc_residence cfg' <= sc_residence cfg)%Z.
