(** Property C128: a simulation of conversion facilities, storages, mixers, sources, sinks and reactors never fails in an exchange that keeps to what
    the facilities request and offer.  Statements use SimulationSpec.v; proofs are a single [exact]; the examples follow the network of a source, a
    reactor and a sink through two time steps. *)
From Coq Require Import Lia Lqa.
From Verif Require Import Outcome KernelMaterial KernelResBuf KernelBuf KernelFacts KernelMass NetworkSpec SimulationSpec SimulationCheck SimulationNetwork.
From Verif Require ReactorModel ReactorSpec SinkModel SinkSpec SourceModel EnrichmentSpec.
Local Open Scope Q_scope.

(** ** A network: a source of fuel, a reactor of one assembly, a sink for the spent fuel *)
Definition sm_recipe (r : string) : option comp :=
  if String.eqb r "fresh" then Some [(922350000%Z, 1); (922380000%Z, 3)] else if String.eqb r "used" then Some [(922380000%Z, 3); (942390000%Z, 1)] else None.
Definition sm_w : world := {| w_eps := 1 # 1000; w_eg := 1 # 1000; w_nz := 1;
  w_D := {| FuelFabModel.d_aw := fun _ => 1; FuelFabModel.d_xs := fun _ _ _ => None |};
  w_V := fun _ => 0; w_aw := fun _ => 0; w_recipe := sm_recipe |}.
Definition sm_src : SourceModel.sr_cfg := {| SourceModel.sc_commod := "fuel"; SourceModel.sc_recipe := "fresh"; SourceModel.sc_inv_size := 100; SourceModel.sc_throughput := 20 |}.
Definition sm_rx : ReactorModel.rx_cfg :=
  {| ReactorModel.n_batch := 1; ReactorModel.n_core := 1; ReactorModel.n_fresh := 0; ReactorModel.n_spent := 1; ReactorModel.assem := 10;
     ReactorModel.cycle_t := 1; ReactorModel.refuel_t := 0; ReactorModel.power_cap := 5; ReactorModel.incommods := ["fuel"%string]; ReactorModel.outcommods := ["spent"%string];
     ReactorModel.side_products := []; ReactorModel.side_qty := []; ReactorModel.decom_all := false; ReactorModel.pc_times := []; ReactorModel.pc_commods := []; ReactorModel.pc_vals := [];
     ReactorModel.rc_times := []; ReactorModel.rc_commods := []; ReactorModel.rc_in := []; ReactorModel.rc_out := []; ReactorModel.exit_t := -1 |}.
Definition sm_sink : SinkModel.sk_cfg := {| SinkModel.kc_commods := ["spent"%string]; SinkModel.kc_prefs := []; SinkModel.kc_recipe := ""; SinkModel.kc_max_inv := 50; SinkModel.kc_capacity := 30;
  SinkModel.kc_size_type := "None"; SinkModel.kc_size_mean := 1; SinkModel.kc_size_stddev := 1; SinkModel.kc_freq_type := "None"; SinkModel.kc_freq_mean := 1; SinkModel.kc_freq_stddev := 1;
  SinkModel.kc_freq_min := 1; SinkModel.kc_freq_max := 1 |}.
Definition sm_rng : SinkModel.rng := {| SinkModel.g_uniform_real := fun lo _ => lo; SinkModel.g_normal_real := fun _ _ lo _ => lo; SinkModel.g_uniform_int := fun lo _ => lo; SinkModel.g_normal_int := fun _ _ lo _ => lo |}.
Definition sm_sig (i : nat) : signal :=
  {| g_reqs := fun c => if String.eqb c "spent" then [30] else []; g_wants := [("fuel"%string, Mat 0 10 [(922350000%Z, 1); (922380000%Z, 3)])]; g_rng := sm_rng; g_rng2 := sm_rng |}.
Definition get {A} (d : A) (o : outcome A) : A := match o with Ok x => x | _ => d end.
Definition sm_src0 : SourceModel.sr_state := get {| SourceModel.ss_inv := new_buf |} (SourceModel.sr_build (1 # 1000) sm_recipe sm_src).
Definition sm_new : ReactorModel.rx_state := ReactorModel.rx_new sm_rx ["fresh"%string] ["used"%string] [1] 0.
Definition sm_rx0 : ReactorModel.rx_state := get sm_new (ReactorModel.enter_notify sm_rx sm_new).
Definition sm_sink0 : SinkModel.sk_state := get (SinkModel.sk_new sm_sink) (SinkModel.sk_enter sm_sink sm_rng 0 (SinkModel.sk_new sm_sink)).
Definition sm_fs0 : list fac := [Srce sm_src sm_src0; Reac sm_rx sm_rx0; Snk sm_sink sm_sink0].
Definition sm_fresh : comp := [(922350000%Z, 1); (922380000%Z, 3)].
Definition sm_fuel : trade := {| t_from := 0; t_to := 1; t_commod := "fuel"; t_slot := 0; t_amt := 10; t_want := sm_fresh |}.
Definition sm_spent : trade := {| t_from := 1; t_to := 2; t_commod := "spent"; t_slot := 0; t_amt := 10; t_want := sm_fresh |}.
(** The exchange decides on a first delivery of fuel, then on a second one and on the shipment of the spent assembly. *)
Definition sm_ds0 : list trade := [sm_fuel].
Definition sm_ds1 : list trade := [sm_spent; sm_fuel].
Definition sm_moves (t id : Z) (fs : list fac) (ds : list trade) (sent : list mat) : list fac :=
  map (fun x => fst (get (snd x, []) (fstep sm_w t (sm_sig (fst x)) (snd x) (sold_by (fst x) ds) (filter (fun y => Nat.eqb (t_to (fst y)) (fst x)) (combine ds (renumber id sent))))))
    (combine (seq 0 (List.length fs)) fs).
Definition sm_ships (t : Z) (fs : list fac) (ds : list trade) (i : nat) (f : fac) : list mat := snd (get (f, []) (fstep sm_w t (sm_sig i) f (sold_by i ds) [])).
Definition sm_sent0 : list mat := sm_ships 0 sm_fs0 sm_ds0 0 (Srce sm_src sm_src0).
Definition sm_fs1 : list fac := sm_moves 0 0 sm_fs0 sm_ds0 sm_sent0.
Definition sm_sent1 : list mat := sm_ships 1 sm_fs1 sm_ds1 1 (nth 1 sm_fs1 (Reac sm_rx sm_rx0)) ++ sm_ships 1 sm_fs1 sm_ds1 0 (nth 0 sm_fs1 (Reac sm_rx sm_rx0)).
Definition sm_fs2 : list fac := sm_moves 1 1 sm_fs1 sm_ds1 sm_sent1.

Example sm_world : world_ok sm_w.
Proof.
  split; [cbn; lra|]. split; [cbn; lra|]. intros k c E. cbn [w_recipe sm_w] in E. unfold sm_recipe in E.
  destruct (String.eqb k "fresh"); [injection E as <-|destruct (String.eqb k "used"); [injection E as <-|discriminate]];
    (split; [repeat constructor; cbn; lra|cbn; lra]).
Qed.
Example sm_signals : forall i, signal_ok (sm_sig i).
Proof. intro i. split; (split; [|split; [|split]]); cbn; intros; (lra || lia). Qed.
Example sm_deployed : reached sm_w 0 0 sm_fs0.
Proof.
  assert (D : forall f, In f sm_fs0 -> deployed sm_w 0 f).
  { intros f [<-|[<-|[<-|[]]]].
    - split; [cbn; lra|reflexivity].
    - split; [split; cbn; (lia || lra || reflexivity || discriminate || (left; reflexivity) || idtac)|]. split; [constructor|]. split; [|reflexivity].
      split; cbn; try (repeat split; (lia || reflexivity)); try constructor; repeat constructor; discriminate.
    - split; [cbn; lra|]. split; [cbn; lra|]. split; [discriminate|]. split; [left; reflexivity|]. exists sm_rng. reflexivity. }
  apply (deploying sm_w 0 0 [_; _]); [apply (deploying sm_w 0 0 [_]); [apply (deploying sm_w 0 0 []); [constructor|]|]|]; apply D; cbn; auto.
Qed.
Example sm_orderly0 : orderly sm_w 0 sm_sig sm_fs0 sm_ds0.
Proof. apply orderlyb_sound. vm_compute. reflexivity. Qed.
Example sm_step0 : nstep sm_w 0 0 sm_sig sm_fs0 sm_ds0 sm_fs1 sm_sent0.
Proof.
  split; [vm_compute; reflexivity|]. split; [vm_compute; reflexivity|].
  intros [|[|[|i]]] f f' N N'; try (destruct i; discriminate); injection N as <-; vm_compute in N'; injection N' as <-; vm_compute; reflexivity.
Qed.
Example sm_reached1 : reached sm_w 1 1 sm_fs1.
Proof. exact (stepping sm_w 0 0 _ _ _ _ _ sm_deployed sm_signals sm_orderly0 sm_step0). Qed.
Example sm_orderly1 : orderly sm_w 1 sm_sig sm_fs1 sm_ds1.
Proof. apply orderlyb_sound. vm_compute. reflexivity. Qed.
Example sm_step1 : nstep sm_w 1 1 sm_sig sm_fs1 sm_ds1 sm_fs2 sm_sent1.
Proof.
  split; [vm_compute; reflexivity|]. split; [vm_compute; reflexivity|].
  intros [|[|[|i]]] f f' N N'; try (destruct i; discriminate); vm_compute in N; injection N as <-; vm_compute in N'; injection N' as <-; vm_compute; reflexivity.
Qed.

(** In every network that can arise, every facility tells the exchange what it requests and offers; and whatever the exchange then decides, as long as it keeps to
    that, the time step succeeds, in exactly one way, and every trade is served with the amount decided. *)
Theorem C128_never_stuck : forall w t id fs gs, world_ok w -> reached w t id fs -> (forall i, signal_ok (gs i)) ->
  (forall i f, nth_error fs i = Some f -> exists n, publish w t (gs i) f = Ok n) /\
  (forall ds, orderly w t gs fs ds ->
     exists fs' sent, nstep w t id gs fs ds fs' sent /\ Forall2 (fun d m => m_qty m == t_amt d) ds sent /\
       forall fs2 sent2, nstep w t id gs fs ds fs2 sent2 -> fs2 = fs' /\ sent2 = sent).
Proof. exact never_stuck. Qed.
Example C128_never_stuck_case : world_ok sm_w /\ reached sm_w 1 1 sm_fs1 /\ (forall i, signal_ok (sm_sig i)) /\ orderly sm_w 1 sm_sig sm_fs1 sm_ds1 /\
  map m_qty sm_sent1 = [10; 10] /\ map (fun m => Qeq_bool (mass_of m 942390000) (5 # 2)) sm_sent1 = [true; false].
Proof.
  split; [exact sm_world|]. split; [exact sm_reached1|]. split; [exact sm_signals|]. split; [exact sm_orderly1|]. vm_compute. split; reflexivity.
Qed.
Print Assumptions C128_never_stuck.

(** Such a time step keeps the mass in the network; and the mass of every nuclide, if there is no reactor in it and no source that supplies whatever
    is asked for. *)
Theorem C128_nothing_lost : forall w t id fs gs ds fs' sent, world_ok w -> reached w t id fs -> (forall i, signal_ok (gs i)) -> orderly w t gs fs ds ->
  nstep w t id gs fs ds fs' sent ->
  qty_of (stock fs') == qty_of (stock fs) /\ (Forall inert fs -> forall n, mass_in n (stock fs') == mass_in n (stock fs)).
Proof. exact conserved. Qed.
Example C128_nothing_lost_case : world_ok sm_w /\ reached sm_w 1 1 sm_fs1 /\ (forall i, signal_ok (sm_sig i)) /\ orderly sm_w 1 sm_sig sm_fs1 sm_ds1 /\
  nstep sm_w 1 1 sm_sig sm_fs1 sm_ds1 sm_fs2 sm_sent1 /\ map (fun f => Qred (qty_of (inside f))) sm_fs2 = [80; 10; 10].
Proof.
  split; [exact sm_world|]. split; [exact sm_reached1|]. split; [exact sm_signals|]. split; [exact sm_orderly1|]. split; [exact sm_step1|]. vm_compute. reflexivity.
Qed.
Print Assumptions C128_nothing_lost.
