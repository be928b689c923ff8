(** A simulation can always go on, and the exchange may leave out any trades (C144): the proofs. *)
From Coq Require Import Lia Lqa.
From Verif Require Import Outcome KernelMaterial KernelResBuf KernelBuf KernelFacts KernelBufFacts KernelMass NetworkSpec SimulationSpec SimulationProofs SimulationNetwork PlanSpec.
From Verif Require ReactorModel ReactorSpec ReactorProofs ReactorHistory ReactorTradeProofs StorageModel StorageProofs StorageGlue ConversionModel MixerModel MixerProofs SourceModel SinkModel.
Local Open Scope Q_scope.

(** ** No facility offers a negative amount *)
Lemma mats_nonneg ms : mats_ok ms -> 0 <= qty_of ms.
Proof. intro H. apply qty_of_nonneg. eapply Forall_impl; [|exact H]. intros m (A & _). exact A. Qed.
Lemma limits_nonneg w t id g f n : world_ok w -> good w t id f -> publish w t g f = Ok n -> Forall (fun o => 0 <= of_limit o) (n_offers n).
Proof.
  intros (EP & EG & RO) G P. destruct f as [c s|c s|c s|c s|c s|c s]; cbn [publish good] in *.
  - apply bind_ok in P as (s1 & _ & P). apply bind_ok in P as (b & B & P). injection P as <-. cbn [n_offers]. destruct b as [[l q]|]; [|constructor].
    unfold ConversionModel.cv_bids in B. destruct (Qle_bool _ 0) eqn:L; [discriminate|]. apply bind_ok in B as (x & _ & B). injection B as _ <-. constructor; [|constructor]. cbn [of_limit].
    assert (~ qty_of (ConversionModel.vs_output s1) <= 0) by (intro X; apply Qle_bool_iff in X; congruence). lra.
  - injection P as <-. cbn [n_offers]. destruct G as (CO & D & IC & es & os & HI & BE & R0). apply Forall_map, Forall_forall. intros k _. cbn [of_limit]. apply mats_nonneg.
    destruct (StorageProofs.history_inv _ _ _ _ _ HI R0) as (I1 & I2 & I3 & I4 & I5 & I6 & I7 & _).
    assert (O6 : mats_ok (StorageSpec.all_released os ++ StorageModel.ss_ready s)) by (eapply StorageProofs.regroup_ok; [exact I6|]; apply StorageProofs.mats_ok_filter, I4). apply Forall_app in O6 as (Orel & _).
    assert (O7 : mats_ok (StorageSpec.all_sold os ++ StorageModel.ss_stocks s)) by (eapply StorageProofs.regroup_ok; [exact I7|]; auto). apply Forall_app in O7. tauto.
  - apply bind_ok in P as ([s1 sup] & T & P). injection P as <-. cbn [n_offers]. constructor; [|constructor]. cbn [of_limit]. destruct G as (_ & IV & _).
    destruct (MixerProofs.tick_facts _ _ _ _ _ IV T) as ((_ & _ & _ & O & _) & _). apply mats_nonneg. exact O.
  - apply bind_ok in P as ([q p] & B & P). injection P as <-. cbn [n_offers]. destruct p as [b|]; [|constructor]. constructor; [|constructor]. cbn [of_limit].
    unfold SourceModel.sr_get_bids in B. destruct (Qltb _ (w_eg w)) eqn:L; [discriminate|]. apply Qltb_false in L. destruct (map snd _) as [|x l]; [discriminate|]. apply bind_ok in B as (bs & _ & X).
    injection X as _ <-. cbn [SourceModel.sp_limit]. lra.
  - apply bind_ok in P as ([s1 r] & _ & P). apply bind_ok in P as ([s2 r2] & _ & P). injection P as <-. constructor.
  - destruct G as (C & K & I & _). apply bind_ok in P as ([s1 ev1] & T & P). apply bind_ok in P as ([rs ev2] & _ & P). apply bind_ok in P as (bs & B & P). injection P as <-. cbn [n_offers].
    destruct (ReactorProofs.tick_ok (w_eps w) (w_recipe w) c EP C K t s I) as (s1' & ev1' & T' & I1 & _). rewrite T in T'. injection T' as <- <-.
    destruct (ReactorTradeProofs.get_bids_spec (w_eps w) (w_recipe w) c EP C s1 (g_reqs g) I1) as (bs' & B' & F). rewrite B in B'. injection B' as <-.
    apply Forall_map. eapply Forall_impl; [|exact F]. intros p (_ & E & _). cbn [of_limit]. rewrite E. apply qty_of_nonneg. apply Forall_forall. intros m M. unfold ReactorTradeProofs.on in M. apply filter_In in M as [M _].
    pose proof (ReactorSpec.ok_sizes _ _ _ I1) as Z. rewrite Forall_forall in Z. rewrite (Z m); [|unfold ReactorSpec.assemblies; rewrite !in_app_iff; auto]. pose proof (ReactorSpec.cc_assem _ C). lra.
Qed.
Lemma idle w t id fs gs : world_ok w -> reached w t id fs -> orderly w t gs fs [].
Proof.
  intros W H. destruct (reached_good w W _ _ _ H) as [_ A]. split; [constructor|]. intros i f n N P. unfold all_good in A. rewrite Forall_forall in A.
  pose proof (limits_nonneg _ _ _ _ _ _ W (A f (nth_error_In _ _ N)) P) as L. split; [|apply buys_nothing]. split; [constructor|]. intros o O. rewrite Forall_forall in L. exact (L o O).
Qed.

(** ** Leaving out trades *)
Lemma part_in {A} (l m : list A) : part l m -> forall x, In x l -> In x m.
Proof. induction 1; cbn; intros y I; [exact I|destruct I as [->|I]; auto|auto]. Qed.
Lemma part_filter {A} (p : A -> bool) (l m : list A) : part l m -> part (filter p l) (filter p m).
Proof. induction 1 as [|x l m H IH|x l m H IH]; cbn; [constructor| |]; destruct (p x); try exact IH; constructor; exact IH. Qed.
Lemma part_all {A} (P : A -> Prop) (l m : list A) : part l m -> Forall P m -> Forall P l.
Proof. intros H F. rewrite Forall_forall in F |- *. intros x I. exact (F x (part_in _ _ H _ I)). Qed.
Lemma part_total l m : part l m -> Forall (fun d => 0 < t_amt d) m -> total l <= total m.
Proof.
  induction 1 as [|x l m H IH|x l m H IH]; intro F; [lra| |]; inversion F as [|? ? F1 F2]; subst; specialize (IH F2); unfold total in *; cbn [map].
  - change (t_amt x + qsum (map t_amt l) <= t_amt x + qsum (map t_amt m)). lra.
  - change (qsum (map t_amt l) <= t_amt x + qsum (map t_amt m)). lra.
Qed.
Lemma fewer_sales n l m : part l m -> sales_ok n m -> sales_ok n l.
Proof.
  intros H [A B]. split; [exact (part_all _ _ _ H A)|]. intros o O. eapply Qle_trans; [|exact (B o O)]. apply part_total; [apply part_filter, H|].
  apply Forall_forall. intros d D. apply filter_In in D as [D _]. rewrite Forall_forall in A. apply (A d D).
Qed.
Lemma fewer_buys n l m : part l m -> Forall (fun d => 0 < t_amt d) m -> buys_ok n m -> buys_ok n l.
Proof.
  intros H PO [A B]. split; [exact (part_all _ _ _ H A)|]. intros p a E. specialize (B p a E). cbv zeta in *. set (mine := filter _ l). match type of B with Forall _ ?x /\ _ => set (all := x) in * end.
  assert (K : part mine all) by (apply part_filter, H). destruct B as [B1 B2]. split; [exact (part_all _ _ _ K B1)|]. intros q Q0 NE. eapply Qle_trans; [|apply (B2 q Q0)].
  - apply part_total; [exact K|]. apply Forall_forall. intros d D. apply filter_In in D as [D _]. rewrite Forall_forall in PO. exact (PO d D).
  - intro Z. destruct mine as [|d r]; [congruence|]. pose proof (part_in _ _ K d (or_introl eq_refl)) as I. rewrite Z in I. exact I.
Qed.
Lemma fewer w t id fs gs ds ds' : world_ok w -> reached w t id fs -> (forall i, signal_ok (gs i)) -> orderly w t gs fs ds -> part ds' ds -> orderly w t gs fs ds'.
Proof.
  intros W H G [R O] K. destruct (never_stuck w t id fs gs W H G) as [PB _].
  assert (PO : Forall (fun d => 0 < t_amt d) ds).
  { apply Forall_forall. intros d D. rewrite Forall_forall in R. destruct (R d D) as [L _]. destruct (nth_error fs (t_from d)) as [f|] eqn:N; [|apply nth_error_None in N; lia].
    destruct (PB _ _ N) as (n & P). destruct (O _ _ _ N P) as [[S _] _]. rewrite Forall_forall in S. apply (S d). unfold sold_by. apply filter_In. split; [exact D|apply Nat.eqb_refl]. }
  split; [exact (part_all _ _ _ K R)|]. intros i f n N P. destruct (O i f n N P) as [S B]. split; [exact (fewer_sales _ _ _ (part_filter _ _ _ K) S)|].
  apply (fewer_buys _ _ _ (part_filter _ _ _ K)); [|exact B]. apply Forall_forall. intros d D. apply filter_In in D as [D _]. rewrite Forall_forall in PO. exact (PO d D).
Qed.
Lemma fewer_step w t id fs gs ds ds' : world_ok w -> reached w t id fs -> (forall i, signal_ok (gs i)) -> orderly w t gs fs ds -> part ds' ds ->
  orderly w t gs fs ds' /\ exists fs' sent, nstep w t id gs fs ds' fs' sent /\ Forall2 (fun d m => m_qty m == t_amt d) ds' sent.
Proof.
  intros W H G O K. pose proof (fewer _ _ _ _ _ _ _ W H G O K) as O'. split; [exact O'|]. destruct (never_stuck w t id fs gs W H G) as [_ X]. destruct (X _ O') as (fs' & sent & N & S & _). eauto.
Qed.
Lemma forever w t id fs : world_ok w -> reached w t id fs -> forall (gs : Z -> nat -> signal), (forall x i, signal_ok (gs x i)) -> forall n,
  exists fs', reached w (t + Z.of_nat n) id fs' /\ List.length fs' = List.length fs /\ qty_of (stock fs') == qty_of (stock fs).
Proof.
  intros W H gs G n. induction n as [|n (fs1 & H1 & L1 & Q1)].
  - exists fs. rewrite Z.add_0_r. split; [exact H|]. split; [reflexivity|lra].
  - set (x := (t + Z.of_nat n)%Z) in *. pose proof (idle w x id fs1 (gs x) W H1) as O. destruct (never_stuck w x id fs1 (gs x) W H1 (G x)) as [_ X]. destruct (X _ O) as (fs' & sent & N & _).
    exists fs'. pose proof (stepping w x id fs1 (gs x) [] fs' sent H1 (G x) O N) as R. replace (t + Z.of_nat (S n))%Z with (x + 1)%Z by lia. change (zlen (@nil trade)) with 0%Z in R. rewrite Z.add_0_r in R.
    split; [exact R|]. split; [destruct N as (_ & N & _); congruence|]. rewrite (proj1 (conserved _ _ _ _ _ _ _ _ W H1 (G x) O N)). exact Q1.
Qed.
