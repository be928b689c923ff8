(** C128: storage in an orderly exchange. *)
From Coq Require Import Lia Lqa Sorting.Sorted.
From Verif Require Import Outcome KernelMaterial KernelResBuf KernelBuf KernelFacts KernelMass NetworkSpec SimulationSpec SimulationProofs.
From Verif Require Import StorageModel StorageSpec StorageProofs StorageGlue.
Local Open Scope Q_scope.

Lemma sell_all_exact eps : forall sales stocks sold stocks' sold', mats_ok stocks -> Forall (fun q => 0 < q) sales -> qsum sales <= qty_of stocks ->
  sell_all eps sales stocks sold = Ok (stocks', sold') -> exists new, sold' = sold ++ new /\ Forall2 (fun m q => m_qty m == q) new sales /\ mats_ok new.
Proof.
  induction sales as [|q sales IH]; intros stocks sold stocks' sold' O P L H; cbn [sell_all] in H.
  - injection H as <- <-. exists []. rewrite app_nil_r. repeat split; constructor.
  - apply bind_ok in H as ([m st1] & T & H). inversion P as [|? ? Pq P']; subst. change (qsum (q :: sales)) with (q + qsum sales) in L.
    assert (N : 0 <= qsum sales). { clear -P'. induction P' as [|x l X _ I]; [apply Qle_refl|]. change (qsum (x :: l)) with (x + qsum l). lra. }
    destruct (pop_tol_facts _ _ _ _ _ O (Qlt_le_weak _ _ Pq) T) as (A & B & _ & C & D & _). rewrite Q.min_l in A by lra.
    destruct (IH _ _ _ _ D P' ltac:(lra) H) as (new & -> & F & K). exists (m :: new). rewrite <- app_assoc. split; [reflexivity|]. split; constructor; assumption.
Qed.
Lemma sorted_snoc (l : list Z) x : StronglySorted Z.lt l -> Forall (fun y => (y < x)%Z) l -> StronglySorted Z.lt (l ++ [x]).
Proof.
  induction 1 as [|y l S IH H]; intro F; cbn; [repeat constructor|]. inversion F; subst. constructor; [apply IH; assumption|].
  apply Forall_app. split; [exact H|repeat constructor; assumption].
Qed.
Lemma as_sold_ok S ms : Forall2 as_sold S ms -> mats_ok ms.
Proof. induction 1 as [|d m S ms [_ O] _ IH]; constructor; assumption. Qed.
Lemma stor_works w t id id' g c s : world_ok w -> (0 <= t)%Z -> good w t id (Stor c s) -> works w t id id' g (Stor c s).
Proof.
  intros (EP & _) T0 (CO & D & IC & es & os & HI & BE & R0).
  unfold works. cbn [publish]. eexists. split; [reflexivity|]. intros S R HS HR AR _.
  set (e := {| se_time := t; se_sales := map t_amt S; se_receipts := map snd R |}).
  assert (HE : st_history (es ++ [e])).
  { destruct HI as (A & B & C). split; [|split].
    - rewrite map_app. apply sorted_snoc; [exact A|]. apply Forall_map. exact BE.
    - apply Forall_app. split; [exact B|]. repeat constructor. exact T0.
    - unfold arrivals in *. rewrite flat_map_app, map_app. apply Forall_app. split; [exact C|]. cbn [flat_map]. rewrite app_nil_r, map_snd_pair. exact (got_ok _ _ _ AR). }
  assert (LE : qsum (se_sales e) <= qty_of (ss_stocks s)).
  { destruct CO as (_ & _ & C3). destruct (sc_out_commods c) as [|k [|k2 r]]; try discriminate. exact (sales_one _ _ _ HS eq_refl). }
  pose proof (sales_pos _ _ HS : Forall (fun q => 0 < q) (se_sales e)) as PO.
  destruct (step_ok _ _ es e s os EP CO D HE R0 PO LE) as (s' & o & T).
  exists (Stor c s'), (so_sold o). cbn [fstep]. fold e. rewrite T. split; [reflexivity|].
  assert (R1 : st_run (w_eps w) c st_empty (es ++ [e]) = Ok (s', os ++ [o])). { rewrite run_app, R0. cbn [bind st_run]. rewrite T. reflexivity. }
  assert (BL : qty_of (inside (Stor c s')) + qty_of (so_sold o) == qty_of (inside (Stor c s)) + qty_of (map snd R)).
  { destruct (conserved _ _ _ _ _ HI R0) as [Q0 _]. destruct (conserved _ _ _ _ _ HE R1) as [Q1 _].
    unfold all_sold, arrivals in *. rewrite !flat_map_app, map_app in Q1. cbn [flat_map] in Q1. rewrite !app_nil_r, map_snd_pair in Q1.
    cbn [inside]. rewrite !qty_of_app in *. cbn [se_receipts e] in Q1. lra. }
  assert (AS : Forall2 as_sold S (so_sold o)).
  { assert (OS : mats_ok (ss_stocks s)).
    { destruct (history_inv _ _ _ _ _ HI R0) as (I1 & I2 & I3 & I4 & I5 & I6 & I7 & _).
      assert (O6 : mats_ok (all_released os ++ ss_ready s)) by (eapply regroup_ok; [exact I6|]; apply mats_ok_filter, I4). apply Forall_app in O6 as (Orel & _).
      assert (O7 : mats_ok (all_sold os ++ ss_stocks s)) by (eapply regroup_ok; [exact I7|]; auto). apply Forall_app in O7. tauto. }
    unfold st_step, st_trade in T. apply bind_ok in T as ([s1 sold] & SA & T). apply bind_ok in SA as ([st1 sold1] & SA & X). injection X as _ <-.
    apply bind_ok in T as ([s2 o2] & _ & T). injection T as _ <-. cbn [so_sold].
    destruct (sell_all_exact _ _ _ _ _ _ OS PO LE SA) as (new & -> & F & K). cbn [app]. exact (sold_shape _ _ _ eq_refl F K). }
  split; [exact AS|split].
  - split; [exact CO|]. split; [exact D|]. split.
    { intro MP. specialize (IC MP). pose proof (mats_qty_nonneg _ (as_sold_ok _ _ AS)) as N1. pose proof (got_total _ _ _ AR) as GT.
      destruct (buys_one _ _ _ _ HR eq_refl eq_refl) as [N|L].
      - destruct R; [|discriminate]. cbn [map] in BL. rewrite qty_of_nil in BL. lra.
      - unfold st_capacity in L. assert (ST : qty_of (inside (Stor c s)) == st_total s) by (cbn [inside]; rewrite !qty_of_app; unfold st_total; ring).
        rewrite Q.max_r in L by lra. lra. }
    exists (es ++ [e]), (os ++ [o]). split; [exact HE|]. split; [|exact R1].
    apply Forall_app. split; [eapply Forall_impl; [|exact BE]; cbn; intros; lia|]. repeat constructor. cbn. lia.
  - split; [cbn; tauto|]. split; [exact BL|]. intros _ n.
    destruct (conserved _ _ _ _ _ HI R0) as [_ M0]. destruct (conserved _ _ _ _ _ HE R1) as [_ M1]. unfold all_sold, arrivals in *. cbn [inside].
    specialize (M0 n). specialize (M1 n). rewrite !flat_map_app, map_app in M1. cbn [flat_map] in M1. rewrite !app_nil_r, map_snd_pair in M1. rewrite !mass_in_app in *. cbn [se_receipts e] in M1. lra.
Qed.
