(** Vocabulary for C113. *)
From Verif Require Import Outcome FuelFabModel.
Local Open Scope Q_scope.

(** The nuclear data has both cross sections of the two reference nuclides, uranium-238 and plutonium-239. *)
Definition references_known (D : nucdata) (spectrum : string) : Prop :=
  forall n r, In n [922380000%Z; 942390000%Z] -> In r ["fission"%string; "absorption"%string] -> d_xs D n r spectrum <> None.
