(** Property C151: in a simulation a storage keeps what it receives for its residence time and ships it in the order of arrival.  Statements use SimulationSpec.v, LifeSpec.v, StorageSpec.v and CoolSpec.v;
    proofs are a single [exact]. *)
From Coq Require Import Lia Lqa List ZArith.
From Verif Require Import Outcome KernelMaterial KernelResBuf KernelBuf KernelFacts NetworkSpec SimulationSpec SimulationCheck SimulationProps LifeSpec QueueExample CoolSpec CoolProofs.
From Verif Require StorageModel StorageSpec SinkModel SourceModel.
Import ListNotations.
Local Open Scope Q_scope.

(** ** The storage of QueueExample.v, which receives twenty kilograms in one time step and ships them in the next *)
Definition co_page (t id : Z) (fs : list fac) (ds : list trade) (fs' : list fac) (sent : list mat) : page :=
  {| pg_time := t; pg_told := sm_sig 1; pg_said := get {| n_offers := []; n_asks := [] |} (publish sm_w t (sm_sig 1) (nth 1 fs (Reac sm_rx sm_rx0))); pg_sold := sold_by 1 ds;
     pg_got := filter (fun x => Nat.eqb (t_to (fst x)) 1) (combine ds (renumber id sent));
     pg_sent := map snd (filter (fun x => Nat.eqb (t_from (fst x)) 1) (combine ds sent)); pg_now := nth 1 fs' (Reac sm_rx sm_rx0) |}.
Definition co_page0 : page := co_page 0 0 qu_fs0 qu_ds0 qu_fs1 qu_sent0.
Definition co_page1 : page := co_page 1 2 qu_fs1 qu_ds1 (qu_fs2 qu_ds1) (qu_sent qu_ds1).
Example co_diary : diary sm_w 0 2 4 (qu_fs2 qu_ds1) 1 (Stor qu_store StorageModel.st_empty) ([co_page0] ++ [co_page1]).
Proof.
  assert (K : deployed sm_w 0 (Snk sm_sink sm_sink0)).
  { split; [cbn; lra|]. split; [cbn; lra|]. split; [discriminate|]. split; [left; reflexivity|]. exists sm_rng. reflexivity. }
  assert (D0 : diary sm_w 0 0 0 qu_fs0 1 (Stor qu_store StorageModel.st_empty) []).
  { apply (another_begun sm_w 0 0 0 [_; _; _] 1 _ [] _); [|exact K]. apply (another_begun sm_w 0 0 0 [_; _] 1 _ [] _); [|exact K].
    apply (begun sm_w 0 0 [Srce qu_src qu_src0]); [apply (deploying sm_w 0 0 []); [constructor|split; [cbn; lra|reflexivity]]|].
    split; [split; [reflexivity|split; [discriminate|reflexivity]]|]. split; [left; reflexivity|reflexivity]. }
  pose proof (continued sm_w 0 0 0 qu_fs0 1 _ [] sm_sig qu_ds0 qu_fs1 qu_sent0 (nth 1 qu_fs0 (Reac sm_rx sm_rx0)) (pg_said co_page0) (nth 1 qu_fs1 (Reac sm_rx sm_rx0))
    D0 sm_signals qu_orderly0 qu_step0 eq_refl eq_refl eq_refl) as D1.
  exact (continued sm_w 0 1 2 qu_fs1 1 _ _ sm_sig qu_ds1 (qu_fs2 qu_ds1) (qu_sent qu_ds1) (nth 1 qu_fs1 (Reac sm_rx sm_rx0)) (pg_said co_page1) (nth 1 (qu_fs2 qu_ds1) (Reac sm_rx sm_rx0))
    D1 sm_signals qu_orderly1 qu_step1 eq_refl eq_refl eq_refl).
Qed.

(** In every network that can arise, for every storage and every time step of its life: all that it has shipped up to and in that step, in total and of each nuclide, is no more than what had been
    delivered to it more than the residence time before; *)
Theorem C151_cooled : forall w t0 t id fs i c s0 ps p, world_ok w -> diary w t0 t id fs i (Stor c s0) (ps ++ [p]) ->
  qty_of (dispatched (ps ++ [p])) <= qty_of (aged (StorageModel.sc_residence c) (pg_time p) ps) /\
  forall n, mass_in n (dispatched (ps ++ [p])) <= mass_in n (aged (StorageModel.sc_residence c) (pg_time p) ps).
Proof. exact cooled. Qed.
Print Assumptions C151_cooled.
Example C151_cooled_case : world_ok sm_w /\ diary sm_w 0 2 4 (qu_fs2 qu_ds1) 1 (Stor qu_store StorageModel.st_empty) ([co_page0] ++ [co_page1]) /\
  Qred (qty_of (dispatched ([co_page0] ++ [co_page1]))) = 20 /\ Qred (qty_of (aged 0 1 [co_page0])) = 20 /\ Qred (qty_of (aged 0 0 [co_page0])) = 0.
Proof. split; [exact sm_world|]. split; [exact co_diary|]. vm_compute. repeat split. Qed.
(** and what it has shipped, followed by what it holds, is what it has received, in the order of arrival, up to the division into parcels. *)
Theorem C151_order : forall w t0 t id fs i c s0 ps, world_ok w -> diary w t0 t id fs i (Stor c s0) ps ->
  exists f, nth_error fs i = Some f /\ StorageSpec.regroup (received ps) (dispatched ps ++ inside f).
Proof. exact first_in. Qed.
Print Assumptions C151_order.
Example C151_order_case : world_ok sm_w /\ diary sm_w 0 2 4 (qu_fs2 qu_ds1) 1 (Stor qu_store StorageModel.st_empty) ([co_page0] ++ [co_page1]) /\
  map (fun m => Qred (mass_of m 922350000)) (received ([co_page0] ++ [co_page1])) = [10; 0] /\ map (fun m => Qred (mass_of m 922350000)) (dispatched ([co_page0] ++ [co_page1])) = [10; 0].
Proof. split; [exact sm_world|]. split; [exact co_diary|]. vm_compute. repeat split. Qed.
