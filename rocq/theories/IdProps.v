(** Property C134: the numbers of resource objects do not influence anything.  Statements use SimulationSpec.v and IdSpec.v; proofs are a single [exact]; the refutation
    is a computed witness; the examples use the network of a source, a reactor and a sink of SimulationProps.v. *)
From Coq Require Import Lia Lqa.
From Verif Require Import Outcome KernelMaterial KernelResBuf KernelBuf NetworkSpec SimulationSpec SimulationProps IdSpec IdReactor IdProofs.
From Verif Require ReactorModel SinkModel SourceModel.
Local Open Scope Q_scope.

(** A reactor whose objects have other numbers, with the same deliveries under their new numbers, lives the same life: the same requests and records, bids and
    shipments of the same objects, or the same failure. *)
Theorem C134_reactor : forall eps recipe cfg rho, one_to_one rho -> forall es t s,
  ReactorModel.rx_run eps recipe cfg t (ren_reactor rho s) (map (ren_reactor_step rho) es) =
  on (map (ren_reactor_out rho)) (ReactorModel.rx_run eps recipe cfg t s es).
Proof. exact run_ren. Qed.
Definition id_es : list ReactorModel.rx_env :=
  [{| ReactorModel.e_reqs := fun _ => []; ReactorModel.e_pick := []; ReactorModel.e_deliv := [("fuel"%string, Mat 4 10 sm_fresh)] |};
   {| ReactorModel.e_reqs := fun _ => [30]; ReactorModel.e_pick := ["spent"%string]; ReactorModel.e_deliv := [("fuel"%string, Mat 6 10 sm_fresh)] |}].
Definition id_view (o : outcome (list ReactorModel.rx_out)) : outcome (list (list (string * Z)) * list (list (Z * nat))) :=
  on (fun os => (map (fun o => map (fun x => (fst x, m_id (snd x))) (ReactorModel.o_shipped o)) os, map (fun o => ReactorModel.idx (ReactorModel.o_state o)) os)) o.
Example C134_reactor_case : one_to_one (fun x => 7 - 2 * x)%Z /\
  id_view (ReactorModel.rx_run (1 # 1000) sm_recipe sm_rx 0 sm_rx0 id_es) = Ok ([[]; [("spent"%string, 4%Z)]], [[(4%Z, 0%nat)]; [(6%Z, 0%nat)]]) /\
  id_view (ReactorModel.rx_run (1 # 1000) sm_recipe sm_rx 0 (ren_reactor (fun x => 7 - 2 * x)%Z sm_rx0) (map (ren_reactor_step (fun x => 7 - 2 * x)%Z) id_es)) =
    Ok ([[]; [("spent"%string, (-1)%Z)]], [[((-1)%Z, 0%nat)]; [((-5)%Z, 0%nat)]]).
Proof. split; [intros x y E; lia|]. split; vm_compute; reflexivity. Qed.
Print Assumptions C134_reactor.

(** Any facility: one whose objects have other numbers publishes the same; and given the same sales and the same deliveries under new numbers its time step ends in the
    same way, with a state and shipments that differ in numbers only. *)
Theorem C134_facility : forall w rho t g f f', one_to_one rho -> alike rho f f' ->
  publish w t g f' = publish w t g f /\
  forall sales got, agrees (fun p p' => alike rho (fst p) (fst p') /\ same_parcels (snd p) (snd p'))
    (fstep w t g f sales got) (fstep w t g f' sales (map (redelivered rho) got)).
Proof. exact facility_same. Qed.
Definition id_rx1 : ReactorModel.rx_state := match nth 1 sm_fs1 (Snk sm_sink sm_sink0) with Reac _ s => s | _ => sm_rx0 end.
Example C134_facility_case : one_to_one (Z.add 5) /\ alike (Z.add 5) (Reac sm_rx id_rx1) (Reac sm_rx (ren_reactor (Z.add 5) id_rx1)) /\
  map m_id (inside (Reac sm_rx id_rx1)) = [0%Z] /\ map m_id (inside (Reac sm_rx (ren_reactor (Z.add 5) id_rx1))) = [5%Z] /\
  on (fun n => map of_commod (n_offers n)) (publish sm_w 1 (sm_sig 1) (Reac sm_rx (ren_reactor (Z.add 5) id_rx1))) = Ok ["spent"%string].
Proof. split; [intros x y E; lia|]. split; [split; reflexivity|]. vm_compute. repeat split. Qed.
Print Assumptions C134_facility.

(** A time step of a network: with all objects numbered [k] higher the exchange has the same choices, and the time step takes the same course. *)
Theorem C134_step : forall w k t id gs fs fs' ds, Forall2 (alike (Z.add k)) fs fs' ->
  (orderly w t gs fs ds <-> orderly w t gs fs' ds) /\
  forall fs1 sent, orderly w t gs fs ds -> nstep w t id gs fs ds fs1 sent ->
    exists fs1' sent', nstep w t (k + id) gs fs' ds fs1' sent' /\ Forall2 (alike (Z.add k)) fs1 fs1' /\ same_parcels sent sent'.
Proof. exact step_same. Qed.
Definition id_shift (f : fac) : fac := match f with Reac c s => Reac c (ren_reactor (Z.add 5) s) | _ => f end.
Example C134_step_case : Forall2 (alike (Z.add 5)) sm_fs1 (map id_shift sm_fs1) /\ orderly sm_w 1 sm_sig sm_fs1 sm_ds1 /\
  nstep sm_w 1 1 sm_sig sm_fs1 sm_ds1 sm_fs2 sm_sent1 /\ map m_id (stock sm_fs1) <> map m_id (stock (map id_shift sm_fs1)).
Proof.
  split; [assert (R : forall fs, Forall2 (alike (Z.add 5)) fs (map id_shift fs)); [induction fs as [|[c s|c s|c s|c s|c s|c s] fs IH]; constructor; auto; split; reflexivity|apply R]|].
  split; [exact sm_orderly1|]. split; [exact sm_step1|]. vm_compute. discriminate.
Qed.
Print Assumptions C134_step.

(** Hence whole simulations: every network that can arise when the first object of the simulation gets some number can also arise when it gets any other, with the same facilities
    holding the same parcels but for their numbers. *)
Theorem C134_network : forall w k t id fs, reached w t id fs ->
  exists fs', reached w t (k + id) fs' /\ Forall2 (alike (Z.add k)) fs fs' /\ same_parcels (stock fs) (stock fs').
Proof. exact network_same. Qed.
Example C134_network_case : reached sm_w 1 1 sm_fs1 /\ map m_id (stock (map id_shift sm_fs1)) = [0; 5]%Z /\ same_parcels (stock sm_fs1) (stock (map id_shift sm_fs1)).
Proof. split; [exact sm_reached1|]. split; vm_compute; reflexivity. Qed.
Print Assumptions C134_network.

(** But no two objects may have the same number: with numbers that occur twice a reactor mixes up its assemblies.  Witness: two spent assemblies that came in as different commodities; under one number
    both are offered as the spent fuel of the same one. *)
Definition id_rx2 : ReactorModel.rx_cfg :=
  {| ReactorModel.n_batch := 1; ReactorModel.n_core := 1; ReactorModel.n_fresh := 0; ReactorModel.n_spent := 2; ReactorModel.assem := 10;
     ReactorModel.cycle_t := 5; ReactorModel.refuel_t := 0; ReactorModel.power_cap := 5; ReactorModel.incommods := ["uox"; "mox"]%string; ReactorModel.outcommods := ["spent_uox"; "spent_mox"]%string;
     ReactorModel.side_products := []; ReactorModel.side_qty := []; ReactorModel.decom_all := false; ReactorModel.pc_times := []; ReactorModel.pc_commods := []; ReactorModel.pc_vals := [];
     ReactorModel.rc_times := []; ReactorModel.rc_commods := []; ReactorModel.rc_in := []; ReactorModel.rc_out := []; ReactorModel.exit_t := -1 |}.
Definition id_st2 : ReactorModel.rx_state :=
  {| ReactorModel.fresh := {| rb_cap := 0; rb_items := [] |}; ReactorModel.core := {| rb_cap := 10; rb_items := [] |};
     ReactorModel.spent := {| rb_cap := 20; rb_items := [Mat 1 10 sm_fresh; Mat 2 10 sm_fresh] |}; ReactorModel.inrecipes := ["fresh"; "fresh"]%string; ReactorModel.outrecipes := ["used"; "used"]%string;
     ReactorModel.prefs := [1; 1]; ReactorModel.cyc := 0; ReactorModel.disch := false; ReactorModel.idx := [(1%Z, 0%nat); (2%Z, 1%nat)]; ReactorModel.hybrid := false |}.
Definition id_sig2 : signal := {| g_reqs := fun _ => [30]; g_wants := []; g_rng := sm_rng; g_rng2 := sm_rng |}.
Theorem C134_shared_numbers_refuted : exists w rho t g f f', alike rho f f' /\ publish w t g f' <> publish w t g f.
Proof.
  exists sm_w, (fun _ => 9%Z), 0%Z, id_sig2, (Reac id_rx2 id_st2), (Reac id_rx2 (ren_reactor (fun _ => 9%Z) id_st2)). split; [split; reflexivity|]. vm_compute. discriminate.
Qed.
Print Assumptions C134_shared_numbers_refuted.
