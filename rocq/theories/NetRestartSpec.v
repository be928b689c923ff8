(** Saving and loading whole networks (C131).  The functions that save and load single facilities are those of RestartModel.v. *)
From Verif Require Import Outcome KernelMaterial KernelResBuf KernelBuf KernelMass NetworkSpec SimulationSpec RestartModel.
From Verif Require ReactorModel StorageModel SinkModel SinkSpec SourceModel.
Local Open Scope Q_scope.

(** [restarts … t f f1 f']: the facility [f], saved at time [t], runs on as [f1]; loaded again it is [f'].  [package] and [unit] are the packages and transport
    units known to the simulation, [g] the random numbers drawn when a sink is loaded. *)
Inductive restarts (w : world) (package unit : string -> bool) (t : Z) : fac -> fac -> fac -> Prop :=
| restarts_stor c s en en' s' : StorageModel.st_enter (w_recipe w) package unit c = Ok en ->
    st_load (w_recipe w) package unit c (st_save (StorageModel.en_prefs en) s) = Ok (en', s') ->
    restarts w package unit t (Stor c s) (Stor c s) (Stor (st_with_prefs c (StorageModel.en_prefs en')) s')
| restarts_srce c s v s1 s' : sr_save (w_eps w) s = Ok (v, s1) -> sr_load (w_eps w) v = Ok s' ->
    restarts w package unit t (Srce c s) (Srce c s1) (Srce c s')
| restarts_snk c s v s1 s' g : sk_save (w_eps w) c s = Ok (v, s1) -> sk_load (w_eps w) c g t v = Ok s' ->
    restarts w package unit t (Snk c s) (Snk c s1) (Snk c s')
| restarts_reac c s v s1 s' : rx_save (w_eps w) s = Ok (v, s1) -> rx_load (w_eps w) c v = Ok s' ->
    restarts w package unit t (Reac c s) (Reac c s1) (Reac c s').

(** The same for a network. *)
Definition net_restarts (w : world) (package unit : string -> bool) (t : Z) (fs fs1 fs' : list fac) : Prop :=
  List.length fs1 = List.length fs /\ List.length fs' = List.length fs /\
  forall i f f1 f', nth_error fs i = Some f -> nth_error fs1 i = Some f1 -> nth_error fs' i = Some f' -> restarts w package unit t f f1 f'.

(** Facilities for which a restart is exact (C87, C88, C91, C92; for conversion facilities and mixers see C62 and C32), as they were when they were deployed. *)
Definition savable (w : world) (package unit : string -> bool) (f : fac) : Prop :=
  match f with
  | Stor c _ => exists en, StorageModel.st_enter (w_recipe w) package unit c = Ok en
  | Srce _ _ => True
  | Snk c _ => ~ SinkSpec.random_frequency c
  | Reac c s => exists inr outr pf k, ReactorModel.enter_notify c (ReactorModel.rx_new c inr outr pf k) = Ok s
  | _ => False
  end.
