(** Property C135: parts of a simulation that do not trade with each other do not influence each other.  Statements use SimulationSpec.v, IdSpec.v and ApartSpec.v; proofs are a single [exact]; the
    example puts a source and a sink of ore beside the network of SimulationProps.v. *)
From Coq Require Import Lia Lqa.
From Verif Require Import Outcome KernelMaterial KernelResBuf KernelBuf NetworkSpec SimulationSpec SimulationCheck SimulationProps IdSpec ApartSpec ApartProofs.
From Verif Require ReactorModel SinkModel SourceModel.
Local Open Scope Q_scope.

(** ** The example *)
Definition ap_src : SourceModel.sr_cfg := {| SourceModel.sc_commod := "ore"; SourceModel.sc_recipe := "fresh"; SourceModel.sc_inv_size := 60; SourceModel.sc_throughput := 20 |}.
Definition ap_sink : SinkModel.sk_cfg := {| SinkModel.kc_commods := ["ore"%string]; SinkModel.kc_prefs := []; SinkModel.kc_recipe := ""; SinkModel.kc_max_inv := 50; SinkModel.kc_capacity := 30;
  SinkModel.kc_size_type := "None"; SinkModel.kc_size_mean := 1; SinkModel.kc_size_stddev := 1; SinkModel.kc_freq_type := "None"; SinkModel.kc_freq_mean := 1; SinkModel.kc_freq_stddev := 1;
  SinkModel.kc_freq_min := 1; SinkModel.kc_freq_max := 1 |}.
Definition ap_src0 : SourceModel.sr_state := get {| SourceModel.ss_inv := new_buf |} (SourceModel.sr_build (1 # 1000) sm_recipe ap_src).
Definition ap_sink0 : SinkModel.sk_state := get (SinkModel.sk_new ap_sink) (SinkModel.sk_enter ap_sink sm_rng 0 (SinkModel.sk_new ap_sink)).
Definition ap_m0 : marked := [(false, Srce ap_src ap_src0); (true, Srce sm_src sm_src0); (true, Reac sm_rx sm_rx0); (false, Snk ap_sink ap_sink0)].
Definition ap_sig (i : nat) : signal :=
  {| g_reqs := fun _ => []; g_wants := [("ore"%string, Mat 0 15 sm_fresh); ("fuel"%string, Mat 0 10 sm_fresh)]; g_rng := sm_rng; g_rng2 := sm_rng |}.
(** Ore goes from the first to the last facility, fuel from the second to the third. *)
Definition ap_ds : list trade :=
  [{| t_from := 0; t_to := 3; t_commod := "ore"; t_slot := 0; t_amt := 15; t_want := sm_fresh |};
   {| t_from := 1; t_to := 2; t_commod := "fuel"; t_slot := 0; t_amt := 10; t_want := sm_fresh |}].
Definition ap_ship (i : nat) (f : fac) : list mat := snd (get (f, []) (fstep sm_w 0 (ap_sig i) f (sold_by i ap_ds) [])).
Definition ap_sent : list mat := ap_ship 0 (Srce ap_src ap_src0) ++ ap_ship 1 (Srce sm_src sm_src0).
Definition ap_m1 : marked :=
  map (fun x => (fst (snd x), fst (get (snd (snd x), []) (fstep sm_w 0 (ap_sig (fst x)) (snd (snd x)) (sold_by (fst x) ap_ds) (filter (fun y => Nat.eqb (t_to (fst y)) (fst x)) (combine ap_ds (renumber 0 ap_sent)))))))
    (combine (seq 0 4) ap_m0).
Example ap_started : apart sm_w 0 0 ap_m0.
Proof.
  assert (D : forall x, In x ap_m0 -> deployed sm_w 0 (snd x) /\ blank_table (snd x)).
  { intros x [<-|[<-|[<-|[<-|[]]]]]; split; try exact I; try reflexivity.
    - split; [cbn; lra|reflexivity].
    - split; [cbn; lra|reflexivity].
    - split; [split; cbn; (lia || lra || reflexivity || discriminate || (left; reflexivity) || idtac)|]. split; [constructor|]. split; [|reflexivity].
      split; cbn; try (repeat split; (lia || reflexivity)); try constructor; repeat constructor; discriminate.
    - split; [cbn; lra|]. split; [cbn; lra|]. split; [discriminate|]. split; [left; reflexivity|]. exists sm_rng. reflexivity. }
  assert (P : forall b f, In (b, f) ap_m0 -> deployed sm_w 0 f) by (intros b f H; exact (proj1 (D (b, f) H))).
  assert (R : forall b f, In (b, f) ap_m0 -> blank_table f) by (intros b f H; exact (proj2 (D (b, f) H))).
  pose proof (apart_deploying sm_w 0 0 [] false (Srce ap_src ap_src0) (apart_start _ 0) (P false (Srce ap_src ap_src0) ltac:(cbn; tauto)) (R false (Srce ap_src ap_src0) ltac:(cbn; tauto))) as A1.
  pose proof (apart_deploying sm_w 0 0 _ true (Srce sm_src sm_src0) A1 (P true (Srce sm_src sm_src0) ltac:(cbn; tauto)) (R true (Srce sm_src sm_src0) ltac:(cbn; tauto))) as A2.
  pose proof (apart_deploying sm_w 0 0 _ true (Reac sm_rx sm_rx0) A2 (P true (Reac sm_rx sm_rx0) ltac:(cbn; tauto)) (R true (Reac sm_rx sm_rx0) ltac:(cbn; tauto))) as A3.
  exact (apart_deploying sm_w 0 0 _ false (Snk ap_sink ap_sink0) A3 (P false (Snk ap_sink ap_sink0) ltac:(cbn; tauto)) (R false (Snk ap_sink ap_sink0) ltac:(cbn; tauto))).
Qed.
Example ap_signals : forall i, signal_ok (ap_sig i).
Proof. intro i. split; (split; [|split; [|split]]); cbn; intros; (lra || lia). Qed.
Example ap_orderly : orderly sm_w 0 ap_sig (map snd ap_m0) ap_ds.
Proof. apply orderlyb_sound. vm_compute. reflexivity. Qed.
Example ap_step : nstep sm_w 0 0 ap_sig (map snd ap_m0) ap_ds (map snd ap_m1) ap_sent.
Proof.
  split; [vm_compute; reflexivity|]. split; [vm_compute; reflexivity|].
  intros [|[|[|[|i]]]] f f' N N'; try (destruct i; discriminate); injection N as <-; vm_compute in N'; injection N' as <-; vm_compute; reflexivity.
Qed.
Example ap_kept : kept_apart ap_m0 ap_ds.
Proof. repeat constructor. Qed.
Example ap_later : apart sm_w 1 2 ap_m1.
Proof. exact (apart_stepping sm_w 0 0 ap_m0 ap_sig ap_ds ap_m1 ap_sent ap_started ap_signals ap_orderly ap_kept eq_refl ap_step). Qed.

(** Simulations in which the parts are kept apart are simulations; *)
Theorem C135_is_simulation : forall w t id m, apart w t id m -> reached w t id (map snd m).
Proof. exact apart_reached. Qed.
Example C135_is_simulation_case : apart sm_w 1 2 ap_m1 /\ map (fun f => Qred (qty_of (inside f))) (map snd ap_m1) = [45; 90; 10; 15].
Proof. split; [exact ap_later|vm_compute; reflexivity]. Qed.
Print Assumptions C135_is_simulation.

(** and each of the two parts is, up to the numbers of the objects, what a simulation of its own can arrive at at the same time: without the other part the facilities of this one
    can have the same states and hold the same parcels. *)
Theorem C135_alone : forall w b t id m, apart w t id m ->
  exists id' fs' rho, reached w t id' fs' /\ one_to_one rho /\ Forall2 (alike rho) fs' (part b m) /\ same_parcels (stock fs') (stock (part b m)).
Proof. exact alone. Qed.
Example C135_alone_case : apart sm_w 1 2 ap_m1 /\ List.length (part true ap_m1) = 2%nat /\ List.length (part false ap_m1) = 2%nat /\
  map (fun m => (m_id m, Qred (m_qty m))) (inside (nth 1 (part true ap_m1) (Srce ap_src ap_src0))) = [(1%Z, 10)].
Proof. split; [exact ap_later|]. vm_compute. repeat split. Qed.
Print Assumptions C135_alone.
