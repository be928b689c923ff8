(** A network for C143: a source of fuel, a reactor of one assembly that retires after the first time step, and a sink for the spent fuel. *)
From Coq Require Import Lia Lqa.
From Verif Require Import Outcome KernelMaterial KernelResBuf KernelBuf KernelFacts KernelMass NetworkSpec SimulationSpec SimulationCheck SimulationProps LifeSpec.
From Verif Require ReactorModel ReactorSpec SinkModel SinkSpec SourceModel.
Local Open Scope Q_scope.

Definition dn_rx : ReactorModel.rx_cfg :=
  {| ReactorModel.n_batch := 1; ReactorModel.n_core := 1; ReactorModel.n_fresh := 0; ReactorModel.n_spent := 1; ReactorModel.assem := 10;
     ReactorModel.cycle_t := 1; ReactorModel.refuel_t := 0; ReactorModel.power_cap := 5; ReactorModel.incommods := ["fuel"%string]; ReactorModel.outcommods := ["spent"%string];
     ReactorModel.side_products := []; ReactorModel.side_qty := []; ReactorModel.decom_all := false; ReactorModel.pc_times := []; ReactorModel.pc_commods := []; ReactorModel.pc_vals := [];
     ReactorModel.rc_times := []; ReactorModel.rc_commods := []; ReactorModel.rc_in := []; ReactorModel.rc_out := []; ReactorModel.exit_t := 0 |}.
Definition dn_new : ReactorModel.rx_state := ReactorModel.rx_new dn_rx ["fresh"%string] ["used"%string] [1] 0.
Definition dn_rx0 : ReactorModel.rx_state := get dn_new (ReactorModel.enter_notify dn_rx dn_new).
Definition dn_fs0 : list fac := [Srce sm_src sm_src0; Reac dn_rx dn_rx0; Snk sm_sink sm_sink0].
(** Fuel is delivered, the spent assembly is collected, and then there is nothing to trade. *)
Definition dn_at (i : nat) (fs : list fac) : fac := nth i fs (Reac dn_rx dn_rx0).
Definition dn_sent0 : list mat := sm_ships 0 dn_fs0 [sm_fuel] 0 (dn_at 0 dn_fs0).
Definition dn_fs1 : list fac := sm_moves 0 0 dn_fs0 [sm_fuel] dn_sent0.
Definition dn_sent1 : list mat := sm_ships 1 dn_fs1 [sm_spent] 1 (dn_at 1 dn_fs1).
Definition dn_fs2 : list fac := sm_moves 1 1 dn_fs1 [sm_spent] dn_sent1.
Definition dn_fs3 : list fac := sm_moves 2 2 dn_fs2 [] [].
Example dn_orderly0 : orderly sm_w 0 sm_sig dn_fs0 [sm_fuel].
Proof. apply orderlyb_sound. vm_compute. reflexivity. Qed.
Example dn_orderly1 : orderly sm_w 1 sm_sig dn_fs1 [sm_spent].
Proof. apply orderlyb_sound. vm_compute. reflexivity. Qed.
Example dn_orderly2 : orderly sm_w 2 sm_sig dn_fs2 [].
Proof. apply orderlyb_sound. vm_compute. reflexivity. Qed.
Ltac dn_step := split; [vm_compute; reflexivity|]; split; [vm_compute; reflexivity|];
  intros [|[|[|i]]] f f' N N'; try (destruct i; discriminate); vm_compute in N; injection N as <-; vm_compute in N'; injection N' as <-; vm_compute; reflexivity.
Example dn_step0 : nstep sm_w 0 0 sm_sig dn_fs0 [sm_fuel] dn_fs1 dn_sent0.
Proof. dn_step. Qed.
Example dn_step1 : nstep sm_w 1 1 sm_sig dn_fs1 [sm_spent] dn_fs2 dn_sent1.
Proof. dn_step. Qed.
Example dn_step2 : nstep sm_w 2 2 sm_sig dn_fs2 [] dn_fs3 [].
Proof. dn_step. Qed.
Definition dn_page (t id : Z) (fs : list fac) (ds : list trade) (fs' : list fac) (sent : list mat) : page :=
  {| pg_time := t; pg_told := sm_sig 1; pg_said := get {| n_offers := []; n_asks := [] |} (publish sm_w t (sm_sig 1) (dn_at 1 fs)); pg_sold := sold_by 1 ds;
     pg_got := filter (fun x => Nat.eqb (t_to (fst x)) 1) (combine ds (renumber id sent));
     pg_sent := map snd (filter (fun x => Nat.eqb (t_from (fst x)) 1) (combine ds sent)); pg_now := dn_at 1 fs' |}.
Definition dn_pages : list page := [dn_page 0 0 dn_fs0 [sm_fuel] dn_fs1 dn_sent0; dn_page 1 1 dn_fs1 [sm_spent] dn_fs2 dn_sent1; dn_page 2 2 dn_fs2 [] dn_fs3 []].
Example dn_deployed : forall f, In f dn_fs0 -> deployed sm_w 0 f.
Proof.
  intros f [<-|[<-|[<-|[]]]].
  - split; [cbn; lra|reflexivity].
  - split; [split; cbn; (lia || lra || reflexivity || discriminate || (left; reflexivity) || idtac)|]. split; [constructor|]. split; [|reflexivity].
    split; cbn; try (repeat split; (lia || reflexivity)); try constructor; repeat constructor; discriminate.
  - split; [cbn; lra|]. split; [cbn; lra|]. split; [discriminate|]. split; [left; reflexivity|]. exists sm_rng. reflexivity.
Qed.
Example dn_diary : diary sm_w 0 3 2 dn_fs3 1 (Reac dn_rx dn_rx0) dn_pages.
Proof.
  assert (S0 : reached sm_w 0 0 [Srce sm_src sm_src0]) by (apply (deploying sm_w 0 0 []); [constructor|]; apply dn_deployed; left; reflexivity).
  assert (D0 : diary sm_w 0 0 0 dn_fs0 1 (Reac dn_rx dn_rx0) []).
  { apply (another_begun sm_w 0 0 0 [Srce sm_src sm_src0; Reac dn_rx dn_rx0] 1 (Reac dn_rx dn_rx0) [] (Snk sm_sink sm_sink0)); [|apply dn_deployed; right; right; left; reflexivity].
    apply (begun sm_w 0 0 [Srce sm_src sm_src0] (Reac dn_rx dn_rx0) S0). apply dn_deployed. right. left. reflexivity. }
  pose proof (continued sm_w 0 0 0 dn_fs0 1 (Reac dn_rx dn_rx0) [] sm_sig [sm_fuel] dn_fs1 dn_sent0 (dn_at 1 dn_fs0) (pg_said (dn_page 0 0 dn_fs0 [sm_fuel] dn_fs1 dn_sent0)) (dn_at 1 dn_fs1)
    D0 sm_signals dn_orderly0 dn_step0 eq_refl eq_refl eq_refl) as D1.
  pose proof (continued sm_w 0 1 1 dn_fs1 1 (Reac dn_rx dn_rx0) _ sm_sig [sm_spent] dn_fs2 dn_sent1 (dn_at 1 dn_fs1) (pg_said (dn_page 1 1 dn_fs1 [sm_spent] dn_fs2 dn_sent1)) (dn_at 1 dn_fs2)
    D1 sm_signals dn_orderly1 dn_step1 eq_refl eq_refl eq_refl) as D2.
  exact (continued sm_w 0 2 2 dn_fs2 1 (Reac dn_rx dn_rx0) _ sm_sig [] dn_fs3 [] (dn_at 1 dn_fs2) (pg_said (dn_page 2 2 dn_fs2 [] dn_fs3 [])) (dn_at 1 dn_fs3)
    D2 sm_signals dn_orderly2 dn_step2 eq_refl eq_refl eq_refl).
Qed.
Definition dn_outs : list ReactorModel.rx_out := get [] (ReactorModel.rx_run (w_eps sm_w) (w_recipe sm_w) dn_rx 0 dn_rx0 (map reac_day dn_pages)).
Definition hd_out (os : list ReactorModel.rx_out) : ReactorModel.rx_out := hd {| ReactorModel.o_state := dn_rx0; ReactorModel.o_ticked := dn_rx0; ReactorModel.o_reqs := []; ReactorModel.o_bids := []; ReactorModel.o_shipped := []; ReactorModel.o_events := [] |} os.
