(** What it means to advertise production capacity (C93). *)
From Coq Require Import Lia.
From Verif Require Import Outcome KernelMaterial KernelFacts ReactorModel StorageModel ProducerModel.
From Verif Require SourceModel.
Local Open Scope Q_scope.

(** ** Specification: a list of (commodity, quantity); the first entry of a commodity counts. *)
Definition quantity_of (l : list (string * Q)) (c : string) : option Q :=
  match find (fun e => String.eqb (fst e) c) l with Some e => Some (snd e) | None => None end.
(** A facility advertises exactly this. *)
Definition advertises (p : producer) (l : list (string * Q)) : Prop :=
  forall c, option_map pi_capacity (pd_find p c) = quantity_of l c.
(** [n]-th generation clone: a new object initialised from its original. *)
Fixpoint clone (n : nat) (p : producer) : producer := match n with O => p | S n' => pd_copy (clone n' p) [] end.

