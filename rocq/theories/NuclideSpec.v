(** Statements about the networks of SimulationSpec.v: where nuclides come from (C133). *)
From Verif Require Import Outcome KernelMaterial KernelResBuf KernelBuf KernelMass NetworkSpec SimulationSpec LedgerSpec.
From Verif Require ReactorModel SourceModel.
Local Open Scope Q_scope.

(** The names of the recipes by which a facility makes material: the recipe of a source (/repo/src/source.h:94-104); the recipes to which a reactor burns fuel, given
    at the start (/repo/src/reactor.h:220-228) or by a later change of recipes (/repo/src/reactor.h:259-267).  The other facilities make none. *)
Definition makes_by (f : fac) : list string :=
  match f with
  | Srce c _ => [SourceModel.sc_recipe c]
  | Reac c s => ReactorModel.outrecipes s ++ ReactorModel.rc_out c
  | _ => []
  end.
(** A recipe without the nuclide [n]. *)
Definition without (w : world) (n : Z) (name : string) : Prop := forall r, w_recipe w name = Some r -> cget n r == 0.
(** A source that has a recipe (one without supplies whatever is asked for, /repo/src/source.cc:168-170). *)
Definition has_recipe (f : fac) : Prop := match f with Srce c _ => SourceModel.sc_recipe c <> ""%string | _ => True end.
