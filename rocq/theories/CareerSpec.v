(** The whole life of one facility in the networks of SimulationSpec.v: what it has received and shipped (C132). *)
From Verif Require Import Outcome KernelMaterial KernelResBuf KernelBuf KernelMass NetworkSpec SimulationSpec.
From Verif Require ReactorModel StorageModel ConversionModel MixerModel SinkModel SourceModel.
Local Open Scope Q_scope.

(** [career w t0 t id fs i f0 got sold]: in a network that has become [fs] at time [t], the facility at position [i] was deployed at time [t0], was then [f0], and has since
    received and shipped the masses [got] and [sold]. *)
Inductive career (w : world) : Z -> Z -> Z -> list fac -> nat -> fac -> Q -> Q -> Prop :=
| employed t id fs f : reached w t id fs -> deployed w t f -> career w t t id (fs ++ [f]) (List.length fs) f 0 0
| other_hired t0 t id fs i f0 got sold f : career w t0 t id fs i f0 got sold -> deployed w t f -> career w t0 t id (fs ++ [f]) i f0 got sold
| earlier_fired t0 t id a f b i f0 got sold : career w t0 t id (a ++ f :: b) (S i) f0 got sold -> (List.length a <= i)%nat -> career w t0 t id (a ++ b) i f0 got sold
| later_fired t0 t id a f b i f0 got sold : career w t0 t id (a ++ f :: b) i f0 got sold -> (i < List.length a)%nat -> career w t0 t id (a ++ b) i f0 got sold
| worked t0 t id fs i f0 got sold gs ds fs' sent : career w t0 t id fs i f0 got sold -> (forall j, signal_ok (gs j)) -> orderly w t gs fs ds ->
    nstep w t id gs fs ds fs' sent -> career w t0 (t + 1) (id + zlen ds) fs' i f0 (got + total (bought_by i ds)) (sold + total (sold_by i ds)).

(** The throughput of a facility: /repo/src/conversion.h:99-108, /repo/src/storage.h:169-176, /repo/src/mixer.h:100-108, /repo/src/source.h:119-128. *)
Definition throughput (f : fac) : option Q :=
  match f with
  | Conv c _ => Some (ConversionModel.vc_throughput c)
  | Stor c _ => Some (StorageModel.sc_throughput c)
  | Mixr c _ => Some (MixerModel.xc_throughput c)
  | Srce c _ => Some (SourceModel.sc_throughput c)
  | _ => None
  end.
(** How much a sink takes in a time step: /repo/src/sink.h:156-164. *)
Definition appetite (f : fac) : option Q := match f with Snk c _ => Some (SinkModel.kc_capacity c) | _ => None end.
