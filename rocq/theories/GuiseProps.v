(** Property C148: what material is made of does not influence a simulation.  Statements use SimulationSpec.v, BareSpec.v and GuiseSpec.v; proofs are a single [exact]; the examples follow the network
    of SimulationProps.v with recipes for iron and lead in place of those for fuel. *)
From Coq Require Import Lia Lqa List.
From Verif Require Import Outcome KernelMaterial KernelResBuf KernelBuf KernelFacts NetworkSpec SimulationSpec SimulationCheck SimulationProps BareSpec GuiseSpec GuiseProofs.
From Verif Require ReactorModel ReactorSpec SinkModel SinkSpec SourceModel.
Import ListNotations.
Local Open Scope Q_scope.

(** ** The network of SimulationProps.v, with other recipes of the same names *)
Definition gs_recipe (r : string) : option comp :=
  if String.eqb r "fresh" then Some [(260560000%Z, 1)] else if String.eqb r "used" then Some [(260560000%Z, 1); (822080000%Z, 4)] else None.
Definition gs_w : world := {| w_eps := 1 # 1000; w_eg := 1 # 1000; w_nz := 1; w_D := w_D sm_w; w_V := fun _ => 0; w_aw := fun _ => 0; w_recipe := gs_recipe |}.
Definition gs_src0 : SourceModel.sr_state := get {| SourceModel.ss_inv := new_buf |} (SourceModel.sr_build (1 # 1000) gs_recipe sm_src).
Definition gs_fs0 : list fac := [Srce sm_src gs_src0; Reac sm_rx sm_rx0; Snk sm_sink sm_sink0].
Definition gs_fuel : trade := {| t_from := 0; t_to := 1; t_commod := "fuel"; t_slot := 0; t_amt := 10; t_want := [(260560000%Z, 2)] |}.
Definition gs_spent : trade := {| t_from := 1; t_to := 2; t_commod := "spent"; t_slot := 0; t_amt := 10; t_want := [(10010000%Z, 1)] |}.
Definition gs_ds0 : list trade := [gs_fuel].
Definition gs_ds1 : list trade := [gs_spent; gs_fuel].
Definition gs_moves (t id : Z) (fs : list fac) (ds : list trade) (sent : list mat) : list fac :=
  map (fun x => fst (get (snd x, []) (fstep gs_w t (sm_sig (fst x)) (snd x) (sold_by (fst x) ds) (filter (fun y => Nat.eqb (t_to (fst y)) (fst x)) (combine ds (renumber id sent))))))
      (combine (seq 0 (List.length fs)) fs).
Definition gs_ships (t : Z) (ds : list trade) (i : nat) (f : fac) : list mat := snd (get (f, []) (fstep gs_w t (sm_sig i) f (sold_by i ds) [])).
Definition gs_sent0 : list mat := gs_ships 0 gs_ds0 0 (Srce sm_src gs_src0).
Definition gs_fs1 : list fac := gs_moves 0 0 gs_fs0 gs_ds0 gs_sent0.
Example gs_world : world_ok gs_w.
Proof.
  split; [cbn; lra|]. split; [cbn; lra|]. intros k c E. cbn [w_recipe gs_w] in E. unfold gs_recipe in E.
  destruct (String.eqb k "fresh"); [injection E as <-|destruct (String.eqb k "used"); [injection E as <-|discriminate]];
    (split; [repeat constructor; cbn; lra|cbn; lra]).
Qed.
Example gs_other : other_materials sm_w gs_w.
Proof.
  split; [reflexivity|]. split; [reflexivity|]. intro r. cbn [w_recipe sm_w gs_w]. unfold sm_recipe, gs_recipe.
  destruct (String.eqb r "fresh"); [split; discriminate|]. destruct (String.eqb r "used"); [split; discriminate|]. split; reflexivity.
Qed.
Example gs_reached1 : reached gs_w 1 1 gs_fs1.
Proof.
  assert (D : forall f, In f gs_fs0 -> deployed gs_w 0 f).
  { intros f [<-|[<-|[<-|[]]]].
    - split; [cbn; lra|reflexivity].
    - split; [split; cbn; (lia || lra || reflexivity || discriminate || (left; reflexivity) || idtac)|]. split; [constructor|]. split; [|reflexivity].
      split; cbn; try (repeat split; (lia || reflexivity)); try constructor; repeat constructor; discriminate.
    - split; [cbn; lra|]. split; [cbn; lra|]. split; [discriminate|]. split; [left; reflexivity|]. exists sm_rng. reflexivity. }
  assert (R : reached gs_w 0 0 gs_fs0).
  { apply (deploying gs_w 0 0 [_; _]); [apply (deploying gs_w 0 0 [_]); [apply (deploying gs_w 0 0 []); [constructor|]|]|]; apply D; cbn; auto. }
  refine (stepping gs_w 0 0 _ sm_sig gs_ds0 _ gs_sent0 R sm_signals _ _); [apply orderlyb_sound; vm_compute; reflexivity|].
  split; [vm_compute; reflexivity|]. split; [vm_compute; reflexivity|].
  intros [|[|[|i]]] f f' N N'; try (destruct i; discriminate); injection N as <-; vm_compute in N'; injection N' as <-; vm_compute; reflexivity.
Qed.
Example gs_same1 : map bare_fac gs_fs1 = map bare_fac sm_fs1 /\ gs_fs1 <> sm_fs1.
Proof. split; [vm_compute; reflexivity|]. vm_compute. intro X. discriminate X. Qed.
Example gs_trades1 : map bare_trade gs_ds1 = map bare_trade sm_ds1 /\ Forall proper_want gs_ds1.
Proof. split; [reflexivity|]. repeat constructor; cbn; lra. Qed.

(** ** The property *)
(** A facility that holds the same quantities in the same places, made of anything, in a simulation with other recipes of the same names, and that is told the same but for what others want material
    to be made of: it requests and offers the same, and in a time step with the same trades it becomes the same and ships the same, but for what that is made of, or fails in the same way; *)
Theorem C148_facility : forall w w' t g g' f f', other_materials w w' -> bare_fac f' = bare_fac f -> bare_signal g' = bare_signal g ->
  publish w' t g' f' = publish w t g f /\
  forall sales sales' got got', map bare_trade sales' = map bare_trade sales -> map bare_parcel got' = map bare_parcel got ->
    on bare_result (fstep w' t g' f' sales' got') = on bare_result (fstep w t g f sales got).
Proof. exact guise_facility. Qed.
Print Assumptions C148_facility.
Example C148_facility_case : other_materials sm_w gs_w /\ exists f f', nth_error sm_fs1 1 = Some f /\ nth_error gs_fs1 1 = Some f' /\ bare_fac f' = bare_fac f /\ f' <> f /\
  map bare_trade [gs_spent] = map bare_trade [sm_spent] /\
  exists g g' m m', fstep sm_w 1 (sm_sig 1) f [sm_spent] [] = Ok (g, [m]) /\ fstep gs_w 1 (sm_sig 1) f' [gs_spent] [] = Ok (g', [m']) /\
    m_qty m == 10 /\ m_qty m' == 10 /\ mass_of m 942390000 == 5 # 2 /\ mass_of m' 822080000 == 8.
Proof.
  split; [exact gs_other|]. eexists. eexists. split; [vm_compute; reflexivity|]. split; [vm_compute; reflexivity|]. split; [vm_compute; reflexivity|].
  split; [intro X; discriminate X|]. split; [reflexivity|]. do 4 eexists. split; [vm_compute; reflexivity|]. split; [vm_compute; reflexivity|]. vm_compute. repeat split.
Qed.
(** the same for networks: the same trades are admissible, and the time step ends in the same, but for what material is made of; *)
Theorem C148_step : forall w w' t id gs gs' fs fs' ds ds' fs1 sent, other_materials w w' -> world_ok w' -> reached w' t id fs' -> map bare_fac fs' = map bare_fac fs ->
  (forall i, bare_signal (gs' i) = bare_signal (gs i)) -> (forall i, signal_ok (gs' i)) -> map bare_trade ds' = map bare_trade ds -> Forall proper_want ds' -> orderly w t gs fs ds -> nstep w t id gs fs ds fs1 sent ->
  orderly w' t gs' fs' ds' /\ exists fs1' sent', nstep w' t id gs' fs' ds' fs1' sent' /\ map bare_fac fs1' = map bare_fac fs1 /\ map bare sent' = map bare sent.
Proof. exact step_guise. Qed.
Print Assumptions C148_step.
Example C148_step_case : other_materials sm_w gs_w /\ world_ok gs_w /\ reached gs_w 1 1 gs_fs1 /\ map bare_fac gs_fs1 = map bare_fac sm_fs1 /\ gs_fs1 <> sm_fs1 /\ (forall i, signal_ok (sm_sig i)) /\
  map bare_trade gs_ds1 = map bare_trade sm_ds1 /\ Forall proper_want gs_ds1 /\ orderly sm_w 1 sm_sig sm_fs1 sm_ds1 /\ nstep sm_w 1 1 sm_sig sm_fs1 sm_ds1 sm_fs2 sm_sent1 /\
  map (fun f => Qred (qty_of (inside f))) sm_fs2 = [80; 10; 10].
Proof.
  split; [exact gs_other|]. split; [exact gs_world|]. split; [exact gs_reached1|]. split; [exact (proj1 gs_same1)|]. split; [exact (proj2 gs_same1)|]. split; [exact sm_signals|].
  split; [exact (proj1 gs_trades1)|]. split; [exact (proj2 gs_trades1)|]. split; [exact sm_orderly1|]. split; [exact sm_step1|]. vm_compute. reflexivity.
Qed.
(** and so for whole simulations: each network that can arise with some recipes can arise at the same time with any others, but for what its material is made of. *)
Theorem C148_network : forall w w', other_materials w w' -> world_ok w -> world_ok w' -> forall t id fs, reached w t id fs -> exists fs', reached w' t id fs' /\ map bare_fac fs' = map bare_fac fs.
Proof. exact network_guise. Qed.
Print Assumptions C148_network.
Example C148_network_case : other_materials sm_w gs_w /\ world_ok sm_w /\ world_ok gs_w /\ reached sm_w 1 1 sm_fs1 /\ reached gs_w 1 1 gs_fs1 /\ map bare_fac gs_fs1 = map bare_fac sm_fs1 /\ gs_fs1 <> sm_fs1.
Proof.
  split; [exact gs_other|]. split; [exact sm_world|]. split; [exact gs_world|]. split; [exact sm_reached1|]. split; [exact gs_reached1|exact gs_same1].
Qed.
