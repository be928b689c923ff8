(** C133: where nuclides come from.  The reactor. *)
From Coq Require Import Lia Lqa Permutation.
From Verif Require Import Outcome KernelMaterial KernelResBuf KernelBuf KernelFacts KernelMass NetworkSpec SimulationSpec SimulationProofs.
From Verif Require Import ReactorModel ReactorSpec ReactorProofs ReactorTradeProofs ReactorHistory ReactorCycle ReactorRetire SimulationReactor.
Local Open Scope Q_scope.

(** ** The recipes in use *)
Lemma vec_set_all {A} (P : A -> Prop) : forall v i a v', vec_set v i a = Ok v' -> P a -> Forall P v -> Forall P v'.
Proof.
  induction v as [|x v IH]; intros i a v' H PA F; destruct i as [|i]; cbn in H; try discriminate.
  - injection H as <-. inversion F; subst. constructor; assumption.
  - apply bind_ok in H as (v2 & H & E). injection E as <-. inversion F; subst. constructor; [assumption|]. eapply IH; eassumption.
Qed.
Lemma vec_at_In {A} (v : list A) i a : vec_at v i = Ok a -> In a v.
Proof. unfold vec_at. destruct (nth_error v i) eqn:E; [|discriminate]. intro H. injection H as <-. apply (nth_error_In _ _ E). Qed.
Lemma loop_keeps {A B} (P : A -> Prop) (f : A -> B -> outcome A) : (forall a b a', f a b = Ok a' -> P a -> P a') -> forall l a a', loop f l a = Ok a' -> P a -> P a'.
Proof.
  intros K. induction l as [|b l IH]; intros a a' H PA; cbn in H; [injection H as <-; exact PA|]. apply bind_ok in H as (a1 & H1 & H). eapply IH; [exact H|]. eapply K; eassumption.
Qed.
Lemma changes_clean (P : string -> Prop) cfg t s s' : apply_changes cfg t s = Ok s' -> Forall P (rc_out cfg) -> Forall P (outrecipes s) -> Forall P (outrecipes s').
Proof.
  intros H R F. unfold apply_changes in H. apply bind_ok in H as (s1 & H1 & H).
  refine (loop_keeps (fun s => Forall P (outrecipes s)) _ _ _ _ _ H _).
  - intros a b a' E PA. unfold recipe_change in E. apply bind_ok in E as (ct & _ & E). destruct (negb (Z.eqb t ct)); [injection E as <-; exact PA|].
    apply bind_ok in E as (c & _ & E). destruct (find_commod c (incommods cfg) 0); [|injection E as <-; exact PA].
    apply bind_ok in E as (vi & _ & E). apply bind_ok in E as (ri & _ & E). apply bind_ok in E as (vo & V & E). apply bind_ok in E as (ro & W & E). injection E as <-. cbn.
    eapply vec_set_all; [exact W| |exact PA]. rewrite Forall_forall in R. apply R, (vec_at_In _ _ _ V).
  - refine (loop_keeps (fun s => Forall P (outrecipes s)) _ _ _ _ _ H1 F).
    intros a b a' E PA. unfold pref_change in E. apply bind_ok in E as (ct & _ & E). destruct (negb (Z.eqb t ct)); [injection E as <-; exact PA|].
    apply bind_ok in E as (c & _ & E). destruct (find_commod c (incommods cfg) 0); [|injection E as <-; exact PA].
    apply bind_ok in E as (vi & _ & E). apply bind_ok in E as (ri & _ & E). injection E as <-. exact PA.
Qed.

(** ** Burning *)
Definition burns_to (recipe : string -> option comp) (P : mat -> Prop) (clean : string -> Prop) : Prop :=
  forall nm r m, clean nm -> recipe nm = Some r -> P (transmute m r).
Lemma burn_clean recipe (P : mat -> Prop) clean s m : burns_to recipe P clean -> Forall clean (outrecipes s) -> P m -> P (burn recipe s m).
Proof.
  intros HB F H. unfold burn. destruct (nth_error _ _) as [r|] eqn:N; [|exact H]. destruct (recipe r) as [k|] eqn:E; [|exact H].
  apply (HB r); [|exact E]. rewrite Forall_forall in F. apply F, (nth_error_In _ _ N).
Qed.
Lemma burn_some_clean recipe (P : mat -> Prop) clean s n l : burns_to recipe P clean -> Forall clean (outrecipes s) -> Forall P l -> Forall P (map (burn recipe s) (firstn n l) ++ skipn n l).
Proof.
  intros HB F H. apply Forall_app. split; [|apply Forall_skipn, H]. apply Forall_map. eapply Forall_impl; [|apply Forall_firstn, H]. intros m. apply (burn_clean _ _ clean); assumption.
Qed.
Lemma tick_clean eps recipe cfg t s s1 ev P clean : 0 <= eps -> config_consistent cfg -> recipes_known recipe cfg -> burns_to recipe P clean ->
  reactor_ok recipe cfg s -> tick eps recipe cfg t s = Ok (s1, ev) -> Forall clean (outrecipes s ++ rc_out cfg) -> Forall P (assemblies s) -> Forall P (assemblies s1) /\ Forall clean (outrecipes s1).
Proof.
  intros EP C K HB I T FC H. unfold assemblies in H. apply Forall_app in H as [HF H]. apply Forall_app in H as [HC HS]. apply Forall_app in FC as [FO FR].
  destruct (retired cfg t) eqn:Hr.
  - destruct (tick_retired_spec eps recipe cfg EP C t s I Hr) as (s' & ev' & n & m & E & _ & SR & _ & _ & C1 & F1 & S1 & _).
    rewrite T in E. injection E as <- <-. unfold assemblies. rewrite C1, F1, S1. split.
    + assert (HR : Forall P (rcore1 recipe cfg t s)) by (unfold rcore1; destruct (Z.eqb t _); [apply (burn_some_clean _ _ clean); assumption|exact HC]).
      repeat (apply Forall_app; split); auto using Forall_firstn, Forall_skipn.
    + assert (EO : outrecipes s1 = outrecipes s) by apply SR. rewrite EO. exact FO.
  - destruct (tick_spec_full eps recipe cfg EP C K t s I Hr) as (s' & ev' & E & _ & TR & sa & EA & _ & _ & OA & _). rewrite T in E. injection E as <- <-.
    unfold assemblies. rewrite (tr_core _ _ _ _ _ TR), (tr_fresh _ _ _ _ _ TR), (tr_spent _ _ _ _ _ TR). split.
    + assert (HR : Forall P (core1 recipe cfg s)) by (unfold core1; destruct (Z.eqb _ _); [apply (burn_some_clean _ _ clean); assumption|exact HC]).
      unfold core2, moved. destruct (success cfg s); repeat (apply Forall_app; split); auto using Forall_firstn, Forall_skipn.
    + apply (changes_clean clean _ _ _ _ EA FR). rewrite OA. exact FO.
Qed.

(** ** A time step: what is in the reactor and what it ships was there, was delivered, or was burned. *)
Lemma reac_origin w t id id' g c s n S R f' ms clean : world_ok w -> good w t id (Reac c s) -> publish w t g (Reac c s) = Ok n -> sales_ok n S -> buys_ok n (map fst R) ->
  Forall (as_agreed id id') R -> NoDup (map (fun x => m_id (snd x)) R) -> fstep w t g (Reac c s) S R = Ok (f', ms) ->
  forall P, burns_to (w_recipe w) P clean -> Forall clean (outrecipes s ++ rc_out c) -> Forall P (assemblies s) -> Forall P (map snd R) ->
  exists s', f' = Reac c s' /\ Forall P (assemblies s') /\ Forall P ms /\ Forall clean (outrecipes s' ++ rc_out c).
Proof.
  intros (EP & _ & RO) (C & K & I & IB & RE) PB HS HR AR ND ST P HB QO PA PR.
  destruct (tick_ok (w_eps w) (w_recipe w) c EP C K t s I) as (s1 & ev1 & T & I1 & M1 & _ & _).
  destruct (get_requests_spec (w_recipe w) c C t s1 I1) as (p & mc & PO & _ & RQ & ON).
  destruct (portfolio_spec (w_recipe w) c s1 I1) as (p' & PO' & _ & PF). rewrite PO in PO'. injection PO' as <-.
  destruct (get_bids_spec (w_eps w) (w_recipe w) c EP C s1 (g_reqs g) I1) as (bs & BD & BF).
  destruct (tick_clean _ _ _ _ _ _ _ _ _ EP C K HB I T QO PA) as [PA1 PO1].
  pose proof (ids_by_tags (fun k => (k < id)%Z) _ _ M1 IB) as IB1. cbv beta in IB1.
  pose proof (cc_assem _ C) as AP.
  cbn [publish] in PB. rewrite T in PB. cbn [bind] in PB. rewrite RQ in PB. cbn [bind] in PB. rewrite BD in PB. cbn [bind] in PB. injection PB as <-.
  set (rs := repeat p (Z.to_nat (order_size c t s1))) in *.
  set (ds := map (fun d : trade * mat => (t_commod (fst d), snd d)) R).
  (* deliveries *)
  assert (UA : Forall (fun k => ak_limit k = Some (assem c) /\ ak_unit k = Some (assem c))
     (map (fun p0 : list request => {| ak_commods := map r_commod p0; ak_limit := Some (assem c); ak_unit := Some (assem c) |}) rs)).
  { apply Forall_map. apply Forall_forall. intros x _. split; reflexivity. }
  destruct (exclusive_count _ _ _ HR AP UA) as [NB AB]. cbn [n_asks] in NB. rewrite !zlen_map_ in NB.
  assert (DF : Forall (fun d => In (fst d) (incommods c) /\ m_qty (snd d) == assem c) ds).
  { destruct HR as [HR _]. unfold ds. apply Forall_map. cbn [fst snd]. apply Forall_forall. intros x X. cbn [n_asks] in HR.
    rewrite Forall_forall in HR, AB, AR. specialize (HR (fst x) (in_map _ _ _ X)). specialize (AB (fst x) (in_map _ _ _ X)). destruct (AR x X) as (_ & E & _).
    split; [|rewrite E; exact AB]. apply nth_error_In, in_flat_map in HR as (k & Kin & Cin). apply in_map_iff in Kin as (p0 & <- & Pin). cbn [ak_commods] in Cin.
    apply repeat_spec in Pin. subst p0. apply in_map_iff in Cin as (r & <- & Rin). apply In_nth_error in Rin as (j & J). destruct (PF _ _ J) as (rn & X1 & _).
    apply (nth_error_In _ _ X1). }
  assert (DL : (zlen ds <= n_core c - rb_count (core s1) + (n_fresh c - rb_count (fresh s1)))%Z).
  { unfold ds. rewrite zlen_map_. assert (LR : zlen rs = order_size c t s1) by (unfold rs, zlen; rewrite repeat_length, Z2Nat.id by exact ON; reflexivity). rewrite LR in NB.
    destruct (ok_limits _ _ _ I1) as (L1 & L2 & L3). unfold order_size in *. unfold rb_count in *.
    destruct (retired c t); [lia|]. destruct (Z.eqb (exit_t c) (-1)); lia. }
  assert (DN : NoDup (map (fun d => m_id (snd d)) ds ++ map m_id (assemblies s1))).
  { assert (EM : map (fun d : string * mat => m_id (snd d)) ds = map (fun x : trade * mat => m_id (snd x)) R) by (unfold ds; rewrite map_map; reflexivity).
    rewrite EM. apply NoDup_join; [exact ND|apply (ok_distinct _ _ _ I1)|]. intros k K1 K2. apply in_map_iff in K1 as (x & <- & X). apply in_map_iff in K2 as (m & E & M).
    rewrite Forall_forall in AR, IB1. destruct (AR x X) as (_ & _ & _ & LB & _). specialize (IB1 m M). cbv beta in IB1. lia. }
  (* sales *)
  destruct HS as [HS HL]. cbn [n_offers] in HS, HL.
  assert (SA : Forall (fun d => t_amt d == assem c) S).
  { eapply Forall_impl; [|exact HS]. intros d (_ & _ & _ & o & O & _ & F). apply in_map_iff in O as (b & <- & _). exact F. }
  assert (PK : forall k, In k (map t_commod S) -> (count_commod k (map t_commod S) <= zlen (on (ocommod c s1) k (rb_items (spent s1))))%Z).
  { refine (picks_ok (w_eps w) (w_recipe w) c EP C s1 bs (g_reqs g) (map t_commod S) I1 BD _). intros k Kin. apply in_map_iff in Kin as (d & <- & D).
    rewrite Forall_forall in HS. destruct (HS d D) as (_ & _ & _ & o & O & E & _). pose proof (HL o O) as LO. apply in_map_iff in O as (b & <- & B). cbn [of_commod of_limit] in *.
    exists b. split; [exact B|]. split; [exact E|]. rewrite count_filter, <- E, <- (total_alike (assem c)); [exact LO|].
    apply Forall_forall. intros x X. apply filter_In in X as [X _]. rewrite Forall_forall in SA. apply SA, X. }
  destruct (exchange_phase (w_eps w) (w_recipe w) c EP C s1 (map t_commod S) ds I1 PK DL DF DN)
    as (s2 & resp & s3 & ev3 & E4 & E5 & RS & I2 & I3 & F2 & C2 & (C3 & F3) & S3 & PS & _ & _ & _ & _ & OU & _).
  destruct (tock_ok c C t s3) as (s4 & ev4 & cy & di & E6 & ->).
  cbn [fstep] in ST. unfold rx_step in ST. cbn [e_reqs e_pick e_deliv] in ST. rewrite T in ST. cbn [bind] in ST. rewrite RQ in ST. cbn [bind] in ST. rewrite BD in ST. cbn [bind] in ST.
  fold ds in ST. rewrite E4 in ST. cbn [bind] in ST. rewrite E5 in ST. cbn [bind] in ST. rewrite E6 in ST. cbn [bind o_state o_shipped] in ST. injection ST as <- <-.
  exists (upd_cyc s3 cy di). split; [reflexivity|].
  assert (PD : Forall P (map snd ds)) by (unfold ds; rewrite map_map; exact PR).
  unfold assemblies in PA1. apply Forall_app in PA1 as [X PA1]. apply Forall_app in PA1 as [Y Z]. apply (Permutation_Forall PS) in Z. apply Forall_app in Z as [Z1 Z2].
  split; [|split; [exact Z1|change (Forall clean (outrecipes s3 ++ rc_out c)); rewrite OU; apply Forall_app; split; [exact PO1|apply Forall_app in QO; apply QO]]].
  change (Forall P (assemblies s3)). unfold assemblies. rewrite C3, F3, S3. repeat (apply Forall_app; split); auto using Forall_firstn, Forall_skipn.
Qed.
