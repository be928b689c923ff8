(** Property C149: sources only give, sinks keep.  Statements use SimulationSpec.v and CareerSpec.v; proofs are a single [exact]. *)
From Coq Require Import Lia Lqa List.
From Verif Require Import Outcome KernelMaterial KernelResBuf KernelBuf KernelFacts NetworkSpec SimulationSpec SimulationCheck SimulationProps LedgerSpec LedgerProps CareerSpec CareerProps EndsProofs.
From Verif Require SinkModel SourceModel ConversionModel.
Import ListNotations.
Local Open Scope Q_scope.

(** In every network that can arise, whatever an exchange may decide that keeps to what is requested and offered: a sink sells nothing in a time step, still holds every parcel it held, as it was, and
    holds besides these exactly the parcels sent to it, each with its quantity and composition; *)
Theorem C149_sink : forall w t id gs fs ds fs' sent i c s, world_ok w -> reached w t id fs -> (forall j, signal_ok (gs j)) -> orderly w t gs fs ds -> nstep w t id gs fs ds fs' sent ->
  nth_error fs i = Some (Snk c s) ->
  sold_by i ds = [] /\ exists s', nth_error fs' i = Some (Snk c s') /\
    inside (Snk c s') = inside (Snk c s) ++ map (fun x => Mat 0 (m_qty (snd x)) (m_comp (snd x))) (filter (fun x => Nat.eqb (t_to (fst x)) i) (combine ds sent)).
Proof. exact sink_step. Qed.
Print Assumptions C149_sink.
Example C149_sink_case : world_ok sm_w /\ reached sm_w 1 1 sm_fs1 /\ (forall i, signal_ok (sm_sig i)) /\ orderly sm_w 1 sm_sig sm_fs1 sm_ds1 /\ nstep sm_w 1 1 sm_sig sm_fs1 sm_ds1 sm_fs2 sm_sent1 /\
  exists s, nth_error sm_fs1 2 = Some (Snk sm_sink s) /\ map (fun x => m_qty (snd x)) (filter (fun x => Nat.eqb (t_to (fst x)) 2) (combine sm_ds1 sm_sent1)) = [10].
Proof.
  split; [exact sm_world|]. split; [exact sm_reached1|]. split; [exact sm_signals|]. split; [exact sm_orderly1|]. split; [exact sm_step1|]. eexists. split; vm_compute; reflexivity.
Qed.
(** a source buys nothing in a time step and has as much less as it sells; *)
Theorem C149_source : forall w t id gs fs ds fs' sent i c s, world_ok w -> reached w t id fs -> (forall j, signal_ok (gs j)) -> orderly w t gs fs ds -> nstep w t id gs fs ds fs' sent ->
  nth_error fs i = Some (Srce c s) ->
  bought_by i ds = [] /\ exists s', nth_error fs' i = Some (Srce c s') /\ qty_of (inside (Srce c s')) + total (sold_by i ds) == qty_of (inside (Srce c s)).
Proof. exact source_step. Qed.
Print Assumptions C149_source.
Example C149_source_case : world_ok sm_w /\ reached sm_w 1 1 sm_fs1 /\ (forall i, signal_ok (sm_sig i)) /\ orderly sm_w 1 sm_sig sm_fs1 sm_ds1 /\ nstep sm_w 1 1 sm_sig sm_fs1 sm_ds1 sm_fs2 sm_sent1 /\
  exists s, nth_error sm_fs1 0 = Some (Srce sm_src s) /\ qty_of (inside (Srce sm_src s)) == 90 /\ total (sold_by 0 sm_ds1) == 10.
Proof.
  split; [exact sm_world|]. split; [exact sm_reached1|]. split; [exact sm_signals|]. split; [exact sm_orderly1|]. split; [exact sm_step1|]. eexists. split; [vm_compute; reflexivity|]. vm_compute. split; reflexivity.
Qed.
(** and so over the whole life of the facility: a sink holds all that it ever received, and a source has what it was given at the start less what it has shipped, which is never more than that. *)
Theorem C149_life : forall w t0 t id fs i f0 got sold, world_ok w -> career w t0 t id fs i f0 got sold ->
  match f0 with
  | Snk c _ => sold == 0 /\ exists s, nth_error fs i = Some (Snk c s) /\ qty_of (inside (Snk c s)) == got
  | Srce c _ => got == 0 /\ exists s, nth_error fs i = Some (Srce c s) /\ qty_of (inside (Srce c s)) == SourceModel.sc_inv_size c - sold /\ sold <= SourceModel.sc_inv_size c
  | _ => True
  end.
Proof. exact life_of_ends. Qed.
Print Assumptions C149_life.
(** The cases: the sink and the source of the network of LedgerProps.v after two time steps. *)
Example C149_life_sink_case : world_ok sm_w /\
  career sm_w 0 2 3 lg_fs2 2 (Snk sm_sink sm_sink0) (0 + total (bought_by 2 lg_ds0) + total (bought_by 2 lg_ds1)) (0 + total (sold_by 2 lg_ds0) + total (sold_by 2 lg_ds1)) /\
  0 + total (bought_by 2 lg_ds0) + total (bought_by 2 lg_ds1) == 3.
Proof. split; [exact sm_world|]. split; [exact cr_sink|]. vm_compute. reflexivity. Qed.
Example C149_life_source_case : exists c s, world_ok sm_w /\
  career sm_w 0 2 3 lg_fs2 0 (Srce c s) (0 + total (bought_by 0 lg_ds0) + total (bought_by 0 lg_ds1)) (0 + total (sold_by 0 lg_ds0) + total (sold_by 0 lg_ds1)) /\
  SourceModel.sc_inv_size c == 100 /\ 0 + total (sold_by 0 lg_ds0) + total (sold_by 0 lg_ds1) == 10.
Proof.
  eexists. eexists. split; [exact sm_world|]. split.
  - refine (worked sm_w 0 1 1 _ _ _ _ _ _ _ _ _ (worked sm_w 0 0 0 lg_fs0 _ _ _ _ _ _ _ _ _ sm_signals lg_orderly0 lg_step0) sm_signals lg_orderly1 lg_step1).
    refine (other_hired sm_w 0 0 0 [_; _] 0 _ 0 0 _ (other_hired sm_w 0 0 0 [_] 0 _ 0 0 _ (employed sm_w 0 0 [] _ (at_start _ _) _) _) _).
    + split; [cbn; lra|reflexivity].
    + split; [cbn; lra|reflexivity].
    + split; [cbn; lra|]. split; [cbn; lra|]. split; [discriminate|]. split; [left; reflexivity|]. exists sm_rng. reflexivity.
  - vm_compute. split; reflexivity.
Qed.
