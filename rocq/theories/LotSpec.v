(** A trade carried out in one lot or in two (C150). *)
From Coq Require Import List.
From Verif Require Import Outcome KernelMaterial KernelResBuf KernelBuf NetworkSpec SimulationSpec.
Local Open Scope Q_scope.

(** The same trade with another amount. *)
Definition lot (q : Q) (d : trade) : trade := {| t_from := t_from d; t_to := t_to d; t_commod := t_commod d; t_slot := t_slot d; t_amt := q; t_want := t_want d |}.
(** Neither the seller nor the buyer is a reactor: reactors trade whole assemblies (/repo/src/reactor.cc:240, 337). *)
Definition in_bulk (fs : list fac) (d : trade) : Prop :=
  forall f, nth_error fs (t_from d) = Some f \/ nth_error fs (t_to d) = Some f -> match f with Reac _ _ => False | _ => True end.
