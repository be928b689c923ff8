(** Two simulations that agree in everything but what the material is made of (C148): they are equal once all compositions are blanked out (BareSpec.v). *)
From Coq Require Import List.
From Verif Require Import Outcome KernelMaterial KernelResBuf KernelBuf NetworkSpec SimulationSpec BareSpec.
Import ListNotations.

(** A facility without the compositions of what it holds. *)
Definition bare_fac (f : fac) : fac :=
  match f with
  | Conv c s => Conv c (bare_conversion s)
  | Stor c s => Stor c (bare_storage s)
  | Mixr c s => Mixr c (bare_mixer s)
  | Srce c s => Srce c (bare_source s)
  | Snk c s => Snk c (bare_sink s)
  | Reac c s => Reac c (bare_reactor s)
  end.
(** A trade without the composition asked for, with and without its parcel; what a facility is told, without the compositions others ask for. *)
Definition bare_trade (d : trade) : trade :=
  {| t_from := t_from d; t_to := t_to d; t_commod := t_commod d; t_slot := t_slot d; t_amt := t_amt d; t_want := [] |}.
Definition bare_parcel (x : trade * mat) : trade * mat := (bare_trade (fst x), bare (snd x)).
Definition bare_signal (g : signal) : signal :=
  {| g_reqs := g_reqs g; g_wants := map bare_named (g_wants g); g_rng := g_rng g; g_rng2 := g_rng2 g |}.
Definition bare_result (p : fac * list mat) : fac * list mat := (bare_fac (fst p), map bare (snd p)).
(** The same tolerances, the same names of recipes; the recipes may be any. *)
Definition other_materials (w w' : world) : Prop := w_eps w' = w_eps w /\ w_eg w' = w_eg w /\ same_names (w_recipe w) (w_recipe w').
(** What is asked for is a composition. *)
Definition proper_want (d : trade) : Prop := Forall (fun x => (0 <= snd x)%Q) (t_want d) /\ (0 < csum (t_want d))%Q.
