(** Property C137: two simulations can be run side by side as one.  Statements use SimulationSpec.v, IdSpec.v, ApartSpec.v and TogetherSpec.v; proofs are a single [exact]; the example runs the network of
    SimulationProps.v beside a source and a sink of ore. *)
From Coq Require Import Lia Lqa.
From Verif Require Import Outcome KernelMaterial KernelResBuf KernelBuf NetworkSpec SimulationSpec SimulationCheck SimulationProps IdSpec ApartSpec ApartProps TogetherSpec TogetherProofs.
From Verif Require ReactorModel SinkModel SourceModel.
Local Open Scope Q_scope.

(** ** The example: the network of SimulationProps.v, whose objects are numbered from 0, *)
Example tg_deployed : forall f, In f sm_fs0 -> deployed sm_w 0 f /\ blank_table f.
Proof.
  intros f [<-|[<-|[<-|[]]]].
  - split; [split; [cbn; lra|reflexivity]|exact I].
  - split; [|reflexivity]. split; [split; cbn; (lia || lra || reflexivity || discriminate || (left; reflexivity) || idtac)|]. split; [constructor|]. split; [|reflexivity].
    split; cbn; try (repeat split; (lia || reflexivity)); try constructor; repeat constructor; discriminate.
  - split; [|exact I]. split; [cbn; lra|]. split; [cbn; lra|]. split; [discriminate|]. split; [left; reflexivity|]. exists sm_rng. reflexivity.
Qed.
Example tg_first : simulated sm_w 1 1 sm_fs1.
Proof.
  assert (D : forall f, In f sm_fs0 -> deployed sm_w 0 f) by (intros f H; exact (proj1 (tg_deployed f H))).
  assert (B : forall f, In f sm_fs0 -> blank_table f) by (intros f H; exact (proj2 (tg_deployed f H))).
  pose proof (sim_deploying sm_w 0 0 [] (Srce sm_src sm_src0) (sim_start _ 0) (D _ (or_introl eq_refl)) (B _ (or_introl eq_refl))) as A1.
  pose proof (sim_deploying sm_w 0 0 _ (Reac sm_rx sm_rx0) A1 (D _ (or_intror (or_introl eq_refl))) (B _ (or_intror (or_introl eq_refl)))) as A2.
  pose proof (sim_deploying sm_w 0 0 _ (Snk sm_sink sm_sink0) A2 (D _ (or_intror (or_intror (or_introl eq_refl)))) (B _ (or_intror (or_intror (or_introl eq_refl))))) as A3.
  exact (sim_stepping sm_w 0 0 sm_fs0 sm_sig sm_ds0 sm_fs1 sm_sent0 A3 sm_signals sm_orderly0 sm_step0).
Qed.
(** and a source and a sink of ore, whose objects are numbered from 0 as well. *)
Definition tg_fs0 : list fac := [Srce ap_src ap_src0; Snk ap_sink ap_sink0].
Definition tg_ds : list trade := [{| t_from := 0; t_to := 1; t_commod := "ore"; t_slot := 0; t_amt := 15; t_want := sm_fresh |}].
Definition tg_sent : list mat := snd (get (Srce ap_src ap_src0, []) (fstep sm_w 0 (ap_sig 0) (Srce ap_src ap_src0) (sold_by 0 tg_ds) [])).
Definition tg_fs1 : list fac :=
  map (fun x => fst (get (snd x, []) (fstep sm_w 0 (ap_sig (fst x)) (snd x) (sold_by (fst x) tg_ds) (filter (fun y => Nat.eqb (t_to (fst y)) (fst x)) (combine tg_ds (renumber 0 tg_sent))))))
    (combine (seq 0 2) tg_fs0).
Example tg_orderly : orderly sm_w 0 ap_sig tg_fs0 tg_ds.
Proof. apply orderlyb_sound. vm_compute. reflexivity. Qed.
Example tg_step : nstep sm_w 0 0 ap_sig tg_fs0 tg_ds tg_fs1 tg_sent.
Proof.
  split; [vm_compute; reflexivity|]. split; [vm_compute; reflexivity|].
  intros [|[|i]] f f' N N'; try (destruct i; discriminate); injection N as <-; vm_compute in N'; injection N' as <-; vm_compute; reflexivity.
Qed.
Example tg_second : simulated sm_w 1 1 tg_fs1.
Proof.
  assert (D1 : deployed sm_w 0 (Srce ap_src ap_src0)) by (split; [cbn; lra|reflexivity]).
  assert (D2 : deployed sm_w 0 (Snk ap_sink ap_sink0)).
  { split; [cbn; lra|]. split; [cbn; lra|]. split; [discriminate|]. split; [left; reflexivity|]. exists sm_rng. reflexivity. }
  pose proof (sim_deploying sm_w 0 0 [] (Srce ap_src ap_src0) (sim_start _ 0) D1 I) as A1.
  pose proof (sim_deploying sm_w 0 0 _ (Snk ap_sink ap_sink0) A1 D2 I) as A2.
  exact (sim_stepping sm_w 0 0 tg_fs0 ap_sig tg_ds tg_fs1 tg_sent A2 ap_signals tg_orderly tg_step).
Qed.

(** Whatever two simulations have arrived at at the same time, one simulation of all their facilities can have arrived at, in which the two parts never trade with each other: the facilities of each
    part are in the same states and hold the same parcels, up to the numbers of the objects. *)
Theorem C137_together : forall w t id1 id2 fs1 fs2, simulated w t id1 fs1 -> simulated w t id2 fs2 ->
  exists id m rho1 rho2, apart w t id m /\ one_to_one rho1 /\ one_to_one rho2 /\ Forall2 (alike rho1) fs1 (part true m) /\ Forall2 (alike rho2) fs2 (part false m) /\
    same_parcels (stock fs1) (stock (part true m)) /\ same_parcels (stock fs2) (stock (part false m)).
Proof. exact together. Qed.
Example C137_together_case : simulated sm_w 1 1 sm_fs1 /\ simulated sm_w 1 1 tg_fs1 /\ map (fun f => Qred (qty_of (inside f))) tg_fs1 = [45; 15] /\
  map (fun f => map m_id (inside f)) sm_fs1 = [[0%Z]; [0%Z]; []] /\ map (fun f => map m_id (inside f)) tg_fs1 = [[0%Z]; [0%Z]].
Proof. split; [exact tg_first|]. split; [exact tg_second|]. vm_compute. repeat split. Qed.
Print Assumptions C137_together.
(** The simulations meant here are those of C128 whose reactors start with an empty table of received objects. *)
Theorem C137_simulations : forall w t id fs, simulated w t id fs -> reached w t id fs.
Proof. exact simulated_reached. Qed.
Example C137_simulations_case : simulated sm_w 1 1 sm_fs1.
Proof. exact tg_first. Qed.
Print Assumptions C137_simulations.
