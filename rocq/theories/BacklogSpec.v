(** Vocabulary for C118: how much a facility has processed, and had to process, at a time. *)
From Verif Require Import Outcome KernelMaterial KernelResBuf ConversionModel ConversionSpec StorageModel StorageSpec.
Local Open Scope Q_scope.

(** What a conversion facility has converted so far: what it shipped and what waits for shipment. *)
Definition converted (s : cv_state) (os : list cv_out) : Q := qty_of (cv_shipped os) + qty_of (vs_output s).
(** What had been kept for its residence time [r] at the end of a history. *)
Definition matured (r : Z) (es : list st_env) : Q := qty_of (due r (last (map se_time es) (-1)%Z) (arrivals es)).
(** [n] steps at throughput [t]. *)
Definition at_full {A} (t : Q) (steps : list A) : Q := inject_Z (zlen steps) * t.
