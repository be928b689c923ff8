(** Statements about the networks of SimulationSpec.v: the sizes of the facilities (C129) and the accounts of a whole simulation (C130). *)
From Verif Require Import Outcome KernelMaterial KernelResBuf KernelBuf KernelMass NetworkSpec SimulationSpec.
From Verif Require ReactorModel ReactorSpec StorageModel ConversionModel MixerModel MixerSpec SinkModel SinkSpec SourceModel.
Local Open Scope Q_scope.

(** A facility holds no more than its input allows: the input capacity of a conversion facility (/repo/src/conversion.h:111-120), the maximum inventory of a storage
    (/repo/src/storage.h:177-185), the sizes of a mixer's streams and of its output (/repo/src/mixer.h:63-72, 86-95), the initial inventory of a source (/repo/src/source.h:109-117), the maximum
    inventory of a sink (/repo/src/sink.h:148-154) and the numbers of assemblies of a reactor (/repo/src/reactor.h:270-316).  A negative capacity of a conversion facility or a storage is no
    capacity. *)
Definition in_bounds (f : fac) : Prop :=
  match f with
  | Conv c s => 0 <= ConversionModel.vc_capacity c -> qty_of (ConversionModel.vs_input s) <= ConversionModel.vc_capacity c
  | Stor c s => 0 <= StorageModel.sc_max_inv c -> qty_of (inside f) <= StorageModel.sc_max_inv c
  | Mixr c s => b_qty (MixerModel.xs_output s) <= MixerModel.xc_out_size c /\
      forall i st b, nth_error (MixerModel.xc_streams c) i = Some st -> nth_error (MixerModel.xs_bufs s) i = Some b -> 0 <= MixerModel.xs_size st -> b_qty b <= MixerModel.xs_size st
  | Srce c s => qty_of (inside f) <= SourceModel.sc_inv_size c
  | Snk c s => qsum (map SinkModel.r_qty (SinkModel.ks_inv s)) <= SinkModel.kc_max_inv c
  | Reac c s => (zlen (rb_items (ReactorModel.fresh s)) <= ReactorModel.n_fresh c)%Z /\
      (zlen (rb_items (ReactorModel.core s)) <= ReactorModel.n_core c)%Z /\
      (zlen (rb_items (ReactorModel.spent s)) <= ReactorModel.n_spent c)%Z /\
      Forall (fun m => m_qty m == ReactorModel.assem c) (inside f)
  end.

(** A simulation with its books: [ever] are the facilities deployed so far (as they were when they were deployed), [gone] the facilities retired (as they were when they were retired). *)
Inductive chronicle (w : world) : Z -> Z -> list fac -> list fac -> list fac -> Prop :=
| opened id : chronicle w 0 id [] [] []
| hired t id fs ever gone f : chronicle w t id fs ever gone -> deployed w t f -> chronicle w t id (fs ++ [f]) (ever ++ [f]) gone
| fired t id a f b ever gone : chronicle w t id (a ++ f :: b) ever gone -> chronicle w t id (a ++ b) ever (gone ++ [f])
| lived t id fs ever gone gs ds fs' sent : chronicle w t id fs ever gone -> (forall i, signal_ok (gs i)) -> orderly w t gs fs ds ->
    nstep w t id gs fs ds fs' sent -> chronicle w (t + 1) (id + zlen ds) fs' ever gone.

(** The mass a facility brings into a simulation: the initial inventory of a source (/repo/src/source.h:109-117). *)
Definition declared (f : fac) : Q := match f with Srce c _ => SourceModel.sc_inv_size c | _ => 0 end.
(** A facility that brings none of the nuclide [n]: not a source, or a source whose recipe does not contain it. *)
Definition brings_no (w : world) (n : Z) (f : fac) : Prop :=
  match f with Srce c _ => exists r, w_recipe w (SourceModel.sc_recipe c) = Some r /\ cget n r == 0 | _ => True end.
