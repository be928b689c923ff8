(** Property C132: what a facility receives and ships in the whole of its life, in any network that can arise (SimulationSpec.v).  Statements use SimulationSpec.v, LedgerSpec.v and
    CareerSpec.v; proofs are a single [exact]; the examples follow the network of LedgerProps.v, in which a conversion facility of throughput 4 receives 10 and ships 3 in two time steps. *)
From Coq Require Import Lia Lqa.
From Verif Require Import Outcome KernelMaterial KernelResBuf KernelBuf KernelFacts KernelMass NetworkSpec SimulationSpec SimulationCheck SimulationProps LedgerSpec LedgerProps CareerSpec CareerProofs.
From Verif Require SinkModel SourceModel ConversionModel.
Local Open Scope Q_scope.

Example cr_reached1 : reached sm_w 0 0 (firstn 1 lg_fs0).
Proof. apply (deploying sm_w 0 0 []); [constructor|]. split; [cbn; lra|reflexivity]. Qed.
Example cr_conv : career sm_w 0 2 3 lg_fs2 1 (Conv lg_conv ConversionModel.cv_empty) (0 + total (bought_by 1 lg_ds0) + total (bought_by 1 lg_ds1)) (0 + total (sold_by 1 lg_ds0) + total (sold_by 1 lg_ds1)).
Proof.
  refine (worked sm_w 0 1 1 _ _ _ _ _ _ _ _ _ (worked sm_w 0 0 0 lg_fs0 _ _ _ _ _ _ _ _ _ sm_signals lg_orderly0 lg_step0) sm_signals lg_orderly1 lg_step1).
  refine (other_hired sm_w 0 0 0 [_; _] 1 _ 0 0 _ (employed sm_w 0 0 _ _ cr_reached1 _) _).
  - split; [cbn; lra|reflexivity].
  - split; [cbn; lra|]. split; [cbn; lra|]. split; [discriminate|]. split; [left; reflexivity|]. exists sm_rng. reflexivity.
Qed.
Example cr_sink : career sm_w 0 2 3 lg_fs2 2 (Snk sm_sink sm_sink0) (0 + total (bought_by 2 lg_ds0) + total (bought_by 2 lg_ds1)) (0 + total (sold_by 2 lg_ds0) + total (sold_by 2 lg_ds1)).
Proof.
  refine (worked sm_w 0 1 1 _ _ _ _ _ _ _ _ _ (worked sm_w 0 0 0 lg_fs0 _ _ _ _ _ _ _ _ _ sm_signals lg_orderly0 lg_step0) sm_signals lg_orderly1 lg_step1).
  refine (employed sm_w 0 0 [_; _] _ (deploying sm_w 0 0 [_] _ cr_reached1 _) _).
  - split; [cbn; lra|reflexivity].
  - split; [cbn; lra|]. split; [cbn; lra|]. split; [discriminate|]. split; [left; reflexivity|]. exists sm_rng. reflexivity.
Qed.

(** Every facility of every network has such a life; *)
Theorem C132_careers : forall w t id fs, reached w t id fs -> forall i f, nth_error fs i = Some f -> exists t0 f0 got sold, career w t0 t id fs i f0 got sold.
Proof. exact has_career. Qed.
Print Assumptions C132_careers.
(** what it holds is what it started with and what it has received, less what it has shipped; *)
Theorem C132_account : forall w t0 t id fs i f0 got sold, world_ok w -> career w t0 t id fs i f0 got sold ->
  exists f, nth_error fs i = Some f /\ qty_of (inside f) + sold == declared f0 + got.
Proof. exact account. Qed.
Print Assumptions C132_account.
(** a conversion facility, storage, mixer or source ships no more than its throughput times its age; *)
Theorem C132_throughput : forall w t0 t id fs i f0 got sold p, world_ok w -> career w t0 t id fs i f0 got sold -> throughput f0 = Some p -> 0 <= p ->
  sold <= p * inject_Z (t - t0).
Proof. exact shipped_rate. Qed.
Print Assumptions C132_throughput.
(** a sink receives no more than its capacity times its age; *)
Theorem C132_capacity : forall w t0 t id fs i f0 got sold p, world_ok w -> career w t0 t id fs i f0 got sold -> appetite f0 = Some p -> got <= p * inject_Z (t - t0).
Proof. exact received_rate. Qed.
Print Assumptions C132_capacity.
(** in each single time step a source ships no more than its throughput and a sink receives no more than its capacity. *)
Theorem C132_each_step : forall w t id fs gs ds fs' sent, world_ok w -> reached w t id fs -> (forall j, signal_ok (gs j)) -> orderly w t gs fs ds -> nstep w t id gs fs ds fs' sent ->
  forall i f, nth_error fs i = Some f ->
  match f with
  | Srce c _ => 0 <= SourceModel.sc_throughput c -> total (sold_by i ds) <= SourceModel.sc_throughput c
  | Snk c _ => total (bought_by i ds) <= SinkModel.kc_capacity c
  | _ => True
  end.
Proof. exact step_rates. Qed.
Print Assumptions C132_each_step.
Example C132_case : world_ok sm_w /\
  career sm_w 0 2 3 lg_fs2 1 (Conv lg_conv ConversionModel.cv_empty) (0 + total (bought_by 1 lg_ds0) + total (bought_by 1 lg_ds1)) (0 + total (sold_by 1 lg_ds0) + total (sold_by 1 lg_ds1)) /\
  career sm_w 0 2 3 lg_fs2 2 (Snk sm_sink sm_sink0) (0 + total (bought_by 2 lg_ds0) + total (bought_by 2 lg_ds1)) (0 + total (sold_by 2 lg_ds0) + total (sold_by 2 lg_ds1)) /\
  Qred (0 + total (bought_by 1 lg_ds0) + total (bought_by 1 lg_ds1)) = 10 /\ Qred (0 + total (sold_by 1 lg_ds0) + total (sold_by 1 lg_ds1)) = 3 /\
  throughput (Conv lg_conv ConversionModel.cv_empty) = Some 4 /\ Qred (0 + total (bought_by 2 lg_ds0) + total (bought_by 2 lg_ds1)) = 3.
Proof. split; [exact sm_world|]. split; [exact cr_conv|]. split; [exact cr_sink|]. vm_compute. repeat split. Qed.
