(** Specification vocabulary for the Conversion properties: only the record
    types of the model that describe a history and what is observed of it. *)
From Verif Require Import Outcome KernelMaterial KernelResBuf ConversionModel.
Local Open Scope Q_scope.

(** Everything delivered to, and everything shipped by the facility. *)
Definition cv_received (es : list cv_env) : list mat := flat_map ve_receipts es.
Definition cv_shipped (os : list cv_out) : list mat := flat_map vo_shipped os.

(** Deliveries within what was requested in that step (nothing when nothing was requested). *)
Definition within_request (e : cv_env) (o : cv_out) : Prop :=
  match vo_requests o with
  | None => ve_receipts e = []
  | Some (_, limit) => qty_of (ve_receipts e) <= limit
  end.
