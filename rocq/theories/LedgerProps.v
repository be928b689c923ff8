(** Properties C129 and C130: in every network that can arise (SimulationSpec.v) no facility holds more than its input allows, and the books of a whole simulation
    balance.  Statements use SimulationSpec.v and LedgerSpec.v; proofs are a single [exact]; the examples follow a source, a conversion facility and a sink through two time steps
    and then retire the source. *)
From Coq Require Import Lia Lqa.
From Verif Require Import Outcome KernelMaterial KernelResBuf KernelBuf KernelFacts KernelMass NetworkSpec SimulationSpec SimulationCheck SimulationProps LedgerSpec LedgerProofs.
From Verif Require SinkModel SourceModel ConversionModel.
Local Open Scope Q_scope.

(** ** A network: a source, a conversion facility of small capacity, a sink *)
Definition lg_conv : ConversionModel.cv_cfg := {| ConversionModel.vc_incommods := ["fuel"%string]; ConversionModel.vc_outcommod := "spent"; ConversionModel.vc_throughput := 4; ConversionModel.vc_capacity := 6 |}.
Definition lg_fs0 : list fac := [Srce sm_src sm_src0; Conv lg_conv ConversionModel.cv_empty; Snk sm_sink sm_sink0].
Definition lg_in (q : Q) : trade := {| t_from := 0; t_to := 1; t_commod := "fuel"; t_slot := 0; t_amt := q; t_want := sm_fresh |}.
Definition lg_out (q : Q) : trade := {| t_from := 1; t_to := 2; t_commod := "spent"; t_slot := 0; t_amt := q; t_want := sm_fresh |}.
Definition lg_ds0 : list trade := [lg_in 6].
Definition lg_ds1 : list trade := [lg_out 3; lg_in 4].
Definition lg_sent0 : list mat := sm_ships 0 lg_fs0 lg_ds0 0 (Srce sm_src sm_src0).
Definition lg_fs1 : list fac := sm_moves 0 0 lg_fs0 lg_ds0 lg_sent0.
Definition lg_sent1 : list mat := sm_ships 1 lg_fs1 lg_ds1 1 (nth 1 lg_fs1 (Reac sm_rx sm_rx0)) ++ sm_ships 1 lg_fs1 lg_ds1 0 (nth 0 lg_fs1 (Reac sm_rx sm_rx0)).
Definition lg_fs2 : list fac := sm_moves 1 1 lg_fs1 lg_ds1 lg_sent1.
Example lg_started : chronicle sm_w 0 0 lg_fs0 lg_fs0 [].
Proof.
  assert (D : forall f, In f lg_fs0 -> deployed sm_w 0 f).
  { intros f [<-|[<-|[<-|[]]]].
    - split; [cbn; lra|reflexivity].
    - split; [cbn; lra|reflexivity].
    - split; [cbn; lra|]. split; [cbn; lra|]. split; [discriminate|]. split; [left; reflexivity|]. exists sm_rng. reflexivity. }
  apply (hired sm_w 0 0 [_; _] [_; _]); [apply (hired sm_w 0 0 [_] [_]); [apply (hired sm_w 0 0 [] []); [constructor|]|]|]; apply D; cbn; auto.
Qed.
Example lg_orderly0 : orderly sm_w 0 sm_sig lg_fs0 lg_ds0.
Proof. apply orderlyb_sound. vm_compute. reflexivity. Qed.
Example lg_step0 : nstep sm_w 0 0 sm_sig lg_fs0 lg_ds0 lg_fs1 lg_sent0.
Proof.
  split; [vm_compute; reflexivity|]. split; [vm_compute; reflexivity|].
  intros [|[|[|i]]] f f' N N'; try (destruct i; discriminate); injection N as <-; vm_compute in N'; injection N' as <-; vm_compute; reflexivity.
Qed.
Example lg_orderly1 : orderly sm_w 1 sm_sig lg_fs1 lg_ds1.
Proof. apply orderlyb_sound. vm_compute. reflexivity. Qed.
Example lg_step1 : nstep sm_w 1 1 sm_sig lg_fs1 lg_ds1 lg_fs2 lg_sent1.
Proof.
  split; [vm_compute; reflexivity|]. split; [vm_compute; reflexivity|].
  intros [|[|[|i]]] f f' N N'; try (destruct i; discriminate); vm_compute in N; injection N as <-; vm_compute in N'; injection N' as <-; vm_compute; reflexivity.
Qed.
Example lg_lived : chronicle sm_w 2 3 lg_fs2 lg_fs0 [].
Proof. exact (lived sm_w 1 1 _ _ _ _ _ _ _ (lived sm_w 0 0 _ _ _ _ _ _ _ lg_started sm_signals lg_orderly0 lg_step0) sm_signals lg_orderly1 lg_step1). Qed.
Example lg_retired : chronicle sm_w 2 3 (tl lg_fs2) lg_fs0 [nth 0 lg_fs2 (Reac sm_rx sm_rx0)].
Proof. exact (fired sm_w 2 3 [] _ (tl lg_fs2) _ _ lg_lived). Qed.

(** ** C129 *)
Theorem C129_sizes : forall w t id fs, world_ok w -> reached w t id fs -> Forall in_bounds fs.
Proof. exact bounds. Qed.
Example C129_case : world_ok sm_w /\ reached sm_w 2 3 lg_fs2 /\
  map (fun f => match f with Conv _ s => Some (Qred (qty_of (ConversionModel.vs_input s))) | _ => None end) lg_fs2 = [None; Some 6; None].
Proof. split; [exact sm_world|]. split; [exact (chronicle_reached _ _ _ _ _ _ lg_lived)|]. vm_compute. reflexivity. Qed.
Print Assumptions C129_sizes.

(** ** C130: every network has books; *)
Theorem C130_books : forall w t id fs, reached w t id fs <-> exists ever gone, chronicle w t id fs ever gone.
Proof. exact (fun w t id fs => conj (reached_chronicle w t id fs) (fun H => match H with ex_intro _ ever (ex_intro _ gone C) => chronicle_reached w t id fs ever gone C end)). Qed.
Example C130_books_case : reached sm_w 2 3 (tl lg_fs2) /\ chronicle sm_w 2 3 (tl lg_fs2) lg_fs0 [nth 0 lg_fs2 (Reac sm_rx sm_rx0)].
Proof. exact (conj (chronicle_reached _ _ _ _ _ _ lg_retired) lg_retired). Qed.
Print Assumptions C130_books.
(** they balance: what the facilities hold and what the retired ones held is the initial inventory of all sources ever deployed; *)
Theorem C130_balance : forall w t id fs ever gone, world_ok w -> chronicle w t id fs ever gone ->
  qty_of (stock fs) + qty_of (stock gone) == qsum (map declared ever).
Proof. exact accounts. Qed.
Example C130_balance_case : world_ok sm_w /\ chronicle sm_w 2 3 (tl lg_fs2) lg_fs0 [nth 0 lg_fs2 (Reac sm_rx sm_rx0)] /\
  map (fun f => Qred (qty_of (inside f))) (tl lg_fs2) = [7; 3] /\ Qred (qty_of (stock [nth 0 lg_fs2 (Reac sm_rx sm_rx0)])) = 90 /\ Qred (qsum (map declared lg_fs0)) = 100.
Proof. split; [exact sm_world|]. split; [exact lg_retired|]. vm_compute. repeat split. Qed.
Print Assumptions C130_balance.
(** they balance for every nuclide if no reactor and no source that supplies whatever is asked for was ever deployed; *)
Theorem C130_nuclides : forall w t id fs ever gone, world_ok w -> chronicle w t id fs ever gone -> Forall inert ever ->
  forall n, mass_in n (stock fs) + mass_in n (stock gone) == mass_in n (stock ever).
Proof. exact (fun w t id fs ever gone W H I => proj2 (accounts_nuclide w t id fs ever gone W H I)). Qed.
(** and then a nuclide that no source brings never appears. *)
Theorem C130_foreign : forall w n t id fs ever gone, world_ok w -> chronicle w t id fs ever gone -> Forall inert ever -> Forall (brings_no w n) ever ->
  mass_in n (stock fs) == 0.
Proof. exact foreign_none. Qed.
Example C130_nuclides_case : world_ok sm_w /\ chronicle sm_w 2 3 (tl lg_fs2) lg_fs0 [nth 0 lg_fs2 (Reac sm_rx sm_rx0)] /\ Forall inert lg_fs0 /\
  Forall (brings_no sm_w 942390000) lg_fs0 /\ Qred (mass_in 922350000 (stock (tl lg_fs2))) = 5 # 2 /\ Qred (mass_in 922350000 (stock lg_fs0)) = 25.
Proof.
  split; [exact sm_world|]. split; [exact lg_retired|]. split; [repeat constructor; discriminate|]. split; [|vm_compute; split; reflexivity].
  constructor; [exists sm_fresh; split; reflexivity|]. repeat constructor.
Qed.
Print Assumptions C130_nuclides.
Print Assumptions C130_foreign.
