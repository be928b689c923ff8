(** Simulations that follow a deployment plan (C141): the proofs. *)
From Coq Require Import Lia.
From Verif Require Import Outcome KernelMaterial KernelResBuf KernelBuf KernelFacts NetworkSpec SimulationSpec SimulationProofs SimulationNetwork UnitSpec UnitProofs ReplayProofs PlanSpec.
From Verif Require InstModel InstSpec InstProofs.
From Verif Require ReactorModel StorageModel ConversionModel MixerModel SinkModel SourceModel.
Local Open Scope Z_scope.

Lemma alike_refl f : alike f f.
Proof. destruct f; reflexivity. Qed.
Lemma alike_trans f g h : alike f g -> alike g h -> alike f h.
Proof. destruct f, g; cbn [alike]; try contradiction; destruct h; cbn [alike]; try contradiction; congruence. Qed.
Lemma fstep_alike w t g f S R f' ms : fstep w t g f S R = Ok (f', ms) -> alike f f'.
Proof.
  destruct f; cbn [fstep]; intro H; apply bind_ok in H as (x & _ & H); try destruct x as [s' o]; injection H as <- _; reflexivity.
Qed.
Lemma nstep_alike w t id gs fs ds fs' sent : nstep w t id gs fs ds fs' sent -> Forall2 alike fs fs'.
Proof.
  intros (_ & L & N). assert (X : forall i f f', nth_error fs i = Some f -> nth_error fs' i = Some f' -> alike f f') by (intros i f f' A B; eapply fstep_alike, (N i f f' A B)).
  clear N. revert fs' L X. induction fs as [|f fs IH]; intros [|f' fs'] L X; try discriminate L; constructor.
  - exact (X 0%nat f f' eq_refl eq_refl).
  - apply IH; [injection L as L; exact L|]. intros i. exact (X (S i)).
Qed.
Lemma alike_app l m l' m' : Forall2 alike l l' -> Forall2 alike m m' -> Forall2 alike (l ++ m) (l' ++ m').
Proof. apply Forall2_app. Qed.
Lemma alike_all l : Forall2 alike l l.
Proof. induction l; constructor; auto using alike_refl. Qed.
Lemma alike_list_trans l : forall m n, Forall2 alike l m -> Forall2 alike m n -> Forall2 alike l n.
Proof. induction l as [|x l IH]; intros m n A B; inversion A; subst; inversion B; subst; constructor; eauto using alike_trans. Qed.

Lemma part_refl {A} (l : list A) : part l l.
Proof. induction l; constructor; auto. Qed.
Lemma part_app {A} (a b c d : list A) : part a b -> part c d -> part (a ++ c) (b ++ d).
Proof. induction 1; intro P; cbn; [exact P|constructor; auto..]. Qed.
Lemma part_trans {A} (b c : list A) : part b c -> forall a, part a b -> part a c.
Proof. induction 1 as [|x b c P IH|x b c P IH]; intros a H; [exact H| |constructor; auto]. inversion H; subst; constructor; auto. Qed.
Lemma part_without {A} i : forall l : list A, part (without i l) l.
Proof.
  unfold without. induction i as [|i IH]; intros [|x l]; cbn; try constructor; [apply part_refl|]. apply IH.
Qed.
Lemma part_depart {A} is : forall l : list A, part (depart is l) l.
Proof. induction is as [|i is IH]; intro l; [apply part_refl|]. cbn. eapply part_trans; [apply part_without|apply IH]. Qed.
Lemma length_without {A} i (l : list A) : (i < List.length l)%nat -> S (List.length (without i l)) = List.length l.
Proof. intro H. unfold without. rewrite app_length, firstn_length, skipn_length. lia. Qed.
Lemma length_depart {A} is : forall l : list A, possible is l -> (List.length (depart is l) + List.length is = List.length l)%nat.
Proof. induction is as [|i is IH]; intros l H; [cbn; lia|]. destruct H as [H1 H2]. cbn. specialize (IH _ H2). pose proof (length_without i l H1). lia. Qed.
Lemma without_spec {A} i (l : list A) : (i < List.length l)%nat -> exists a f b, l = a ++ f :: b /\ List.length a = i /\ without i l = a ++ b.
Proof.
  intro H. destruct (nth_error l i) as [f|] eqn:E; [|apply nth_error_None in E; lia]. apply nth_error_split in E as (a & b & -> & <-). exists a, f, b. split; [reflexivity|]. split; [reflexivity|].
  unfold without. rewrite firstn_app, Nat.sub_diag, firstn_all, skipn_app. cbn [firstn]. rewrite app_nil_r. rewrite skipn_all2 by lia. replace (S (List.length a) - List.length a)%nat with 1%nat by lia. reflexivity.
Qed.
Lemma part_alike a : forall b b', Forall2 alike b b' -> part a b' -> exists a0, part a0 b /\ Forall2 alike a0 a.
Proof.
  intros b b' F P. revert b F. induction P as [|x l m P IH|x l m P IH]; intros b F; inversion F as [|y z b0 m0 A B E1 E2]; subst.
  - exists []. split; constructor.
  - destruct (IH _ B) as (a0 & P0 & F0). exists (y :: a0). split; constructor; assumption.
  - destruct (IH _ B) as (a0 & P0 & F0). exists a0. split; [constructor|]; assumption.
Qed.

(** ** Time *)
Lemma steps_next t : 0 <= t -> steps_before (t + 1) = steps_before t ++ [t].
Proof. intro T. unfold steps_before. rewrite Z2Nat.inj_add by lia. change (Z.to_nat 1) with 1%nat. rewrite seq_app, map_app. cbn. rewrite Z2Nat.id by lia. reflexivity. Qed.
Lemma planned_next plan t : 0 <= t -> planned plan (t + 1) = planned plan t ++ plan t.
Proof. intro T. unfold planned. rewrite steps_next by exact T. rewrite flat_map_app. cbn. rewrite app_nil_r. reflexivity. Qed.
Lemma runs_time w id0 plan days t id fs : runs w id0 plan days t id fs -> t = zlen days.
Proof. induction 1; [reflexivity|]. unfold zlen in *. rewrite app_length. cbn. lia. Qed.
Lemma runs_now w id0 plan days t id fs : runs w id0 plan days t id fs -> 0 <= t.
Proof. intro H. rewrite (runs_time _ _ _ _ _ _ _ H). unfold zlen. lia. Qed.

(** ** A run is a simulation *)
Lemma deployments_app a b : deployments (a ++ b) = deployments a ++ deployments b.
Proof. apply flat_map_app. Qed.
Lemma deploy_all w id0 t id l : forall ms fs, plays w id0 ms t id fs -> Forall (deployed w t) l -> plays w id0 (ms ++ map (Deploy t) l) t id (fs ++ l).
Proof.
  induction l as [|f l IH]; intros ms fs P F; cbn [map]; [rewrite !app_nil_r; exact P|]. inversion F as [|? ? A B]; subst.
  pose proof (IH _ _ (pl_deploy w id0 ms t id fs f P A) B) as Q. rewrite <- !app_assoc in Q. exact Q.
Qed.
Lemma retire_all w id0 t id is : forall ms fs, plays w id0 ms t id fs -> possible is fs -> plays w id0 (ms ++ map Retire is) t id (depart is fs).
Proof.
  induction is as [|i is IH]; intros ms fs P H; cbn [map]; [rewrite app_nil_r; exact P|]. destruct H as [H1 H2]. destruct (without_spec i fs H1) as (a & f & b & -> & L & E).
  cbn [depart]. pose proof (pl_retire w id0 ms t id a f b P) as Q. rewrite L, <- E in Q. pose proof (IH _ _ Q H2) as X. rewrite <- app_assoc in X. exact X.
Qed.
Lemma deployments_all t l : deployments (map (Deploy t) l) = map (pair t) l.
Proof. unfold deployments. induction l; cbn; congruence. Qed.
Lemma deployments_none l : deployments (map Retire l) = [].
Proof. unfold deployments. induction l; cbn; auto. Qed.
Lemma is_simulation w id0 plan : (forall t, 0 <= t -> Forall (deployed w t) (plan t)) -> forall days t id fs, runs w id0 plan days t id fs ->
  exists ms, plays w id0 ms t id fs /\ deployments ms = flat_map (fun x => map (pair x) (plan x)) (steps_before t).
Proof.
  intro D. induction 1 as [|days t id fs y fs' sent R (ms & P & E) G O N L].
  - exists []. split; [constructor|reflexivity].
  - pose proof (runs_now _ _ _ _ _ _ _ R) as T. pose proof (deploy_all _ _ _ _ (plan t) _ _ P (D t T)) as P1. pose proof (pl_trade _ _ _ _ _ _ _ _ _ _ P1 G O N) as P2. pose proof (retire_all _ _ _ _ _ _ _ P2 L) as P3.
    eexists. split; [exact P3|]. rewrite !deployments_app, deployments_all, deployments_none, E, steps_next by exact T. rewrite flat_map_app. cbn. rewrite !app_nil_r. reflexivity.
Qed.
(** ** Who is there *)
Lemma roster w id0 plan days t id fs : runs w id0 plan days t id fs ->
  (exists l, part l (planned plan t) /\ Forall2 alike l fs) /\ (List.length fs + leavers days = List.length (planned plan t))%nat.
Proof.
  induction 1 as [|days t id fs y fs' sent R ((l & P & A) & C) G O N L].
  - split; [exists []; split; constructor|reflexivity].
  - pose proof (runs_now _ _ _ _ _ _ _ R) as T. rewrite planned_next by exact T. pose proof (nstep_alike _ _ _ _ _ _ _ _ N) as B.
    pose proof (alike_list_trans _ _ _ (alike_app _ _ _ _ A (alike_all (plan t))) B) as B1. split.
    + destruct (part_alike _ _ _ B1 (part_depart (dy_leave y) fs')) as (l0 & P0 & F0). exists l0. split; [|exact F0]. eapply part_trans; [|exact P0]. apply part_app; [exact P|apply part_refl].
    + pose proof (length_depart _ _ L) as E. destruct N as (_ & LN & _). rewrite app_length in LN. unfold leavers in *. rewrite map_app. rewrite list_sum_app. cbn. rewrite app_length. lia.
Qed.
Lemma part_all {A} (l m : list A) : part l m -> List.length l = List.length m -> l = m.
Proof.
  induction 1 as [|x l m P IH|x l m P IH]; intro E; [reflexivity|injection E as E; rewrite IH by exact E; reflexivity|]. exfalso.
  assert (X : forall a b : list A, part a b -> (List.length a <= List.length b)%nat) by (induction 1; cbn; lia). specialize (X _ _ P). cbn in E. lia.
Qed.
Lemma full_roster w id0 plan days t id fs : runs w id0 plan days t id fs -> leavers days = 0%nat -> Forall2 alike (planned plan t) fs.
Proof.
  intros R Z. destruct (roster _ _ _ _ _ _ _ R) as ((l & P & A) & C). assert (E : List.length l = List.length fs) by (clear - A; induction A; cbn; congruence). rewrite (part_all _ _ P) in A; [exact A|]. lia.
Qed.
(** ** It goes on *)
Lemma next_day w id0 plan days t id fs y : world_ok w -> (forall t, 0 <= t -> Forall (deployed w t) (plan t)) -> runs w id0 plan days t id fs -> (forall i, signal_ok (dy_sig y i)) ->
  orderly w t (dy_sig y) (fs ++ plan t) (dy_trades y) -> possible (dy_leave y) (fs ++ plan t) -> exists fs', runs w id0 plan (days ++ [y]) (t + 1) (id + zlen (dy_trades y)) fs'.
Proof.
  intros W D R G O L. pose proof (runs_now _ _ _ _ _ _ _ R) as T. destruct (is_simulation _ _ _ D _ _ _ _ R) as (ms & P & _). pose proof (deploy_all _ _ _ _ (plan t) _ _ P (D t T)) as P1.
  destruct (reached_good w W _ _ _ (plays_reached _ _ _ _ _ _ P1)) as [_ A]. destruct (nstep_exists w t id _ _ _ W T G A O) as (fs' & sent & N & _). eexists. eapply rn_day; try eassumption.
  destruct N as (_ & E & _). clear - L E. revert E L. generalize (fs ++ plan t). generalize (dy_leave y). intro is. revert fs'. induction is as [|i is IH]; intros fs' l E L; [exact I|]. destruct L as [L1 L2].
  split; [lia|]. apply (IH _ (without i l)); [|exact L2]. pose proof (length_without i l L1). assert (L3 : (i < List.length fs')%nat) by lia. pose proof (length_without i fs' L3). lia.
Qed.
(** ** Institutions *)
Lemma runs_plan w id0 plan plan' : (forall t, 0 <= t -> plan t = plan' t) -> forall days t id fs, runs w id0 plan days t id fs -> runs w id0 plan' days t id fs.
Proof.
  intros E. induction 1 as [|days t id fs y fs' sent R IH G O N L]; [constructor|]. pose proof (runs_now _ _ _ _ _ _ _ R) as T. rewrite (E t T) in *. eapply rn_day; eassumption.
Qed.
Lemma inst_asked make strict now cfg reg : InstSpec.consistent cfg -> InstSpec.known reg cfg -> InstSpec.no_clash reg cfg -> InstSpec.future now cfg ->
  exists reg' sched, InstModel.di_build strict now cfg reg = Ok (reg', sched) /\ forall t, inst_plan make reg' sched t = asked_for make reg now cfg t.
Proof.
  intros C K N F. destruct (InstProofs.schedule_final strict now cfg reg C K N F) as (reg' & sched & B & D & _). exists reg', sched. split; [exact B|]. intro t. destruct (D t) as (l & E & X).
  unfold inst_plan, asked_for. rewrite E, <- X. clear. induction l; cbn; congruence.
Qed.
Lemma planned_ext p q t : (forall x, p x = q x) -> planned p t = planned q t.
Proof. intro E. unfold planned. induction (steps_before t) as [|x l IH]; [reflexivity|]. cbn. rewrite E, IH. reflexivity. Qed.
Lemma institution w id0 make strict now cfg reg : InstSpec.consistent cfg -> InstSpec.known reg cfg -> InstSpec.no_clash reg cfg -> InstSpec.future now cfg ->
  exists reg' sched, InstModel.di_build strict now cfg reg = Ok (reg', sched) /\
    forall days t id fs, runs w id0 (inst_plan make reg' sched) days t id fs ->
      (exists l, part l (planned (asked_for make reg now cfg) t) /\ Forall2 alike l fs) /\ (List.length fs + leavers days = List.length (planned (asked_for make reg now cfg) t))%nat /\
      (leavers days = 0%nat -> Forall2 alike (planned (asked_for make reg now cfg) t) fs).
Proof.
  intros C K N F. destruct (inst_asked make strict now cfg reg C K N F) as (reg' & sched & B & E). exists reg', sched. split; [exact B|]. intros days t id fs R.
  rewrite <- (planned_ext _ _ t E). destruct (roster _ _ _ _ _ _ _ R) as [X Y]. split; [exact X|]. split; [exact Y|]. exact (full_roster _ _ _ _ _ _ _ R).
Qed.
