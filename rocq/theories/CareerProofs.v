(** C132: the whole life of one facility. *)
From Coq Require Import Lia Lqa.
From Verif Require Import Outcome KernelMaterial KernelResBuf KernelBuf KernelFacts KernelMass NetworkSpec SimulationSpec SimulationProofs SimulationNetwork LedgerSpec LedgerProofs CareerSpec.
From Verif Require ReactorModel ReactorSpec StorageModel StorageSpec StorageProofs StorageGlue SimulationStorage SimulationMixer ConversionModel ConversionSpec ConversionProofs MixerModel MixerSpec MixerProofs MixerRun SinkModel SinkSpec SinkProofs SourceModel SourceSpec SourceProofs.
Local Open Scope Q_scope.

(** ** One facility in one step *)
Lemma step_each w t id gs fs ds fs' sent i f : world_ok w -> reached w t id fs -> (forall j, signal_ok (gs j)) -> orderly w t gs fs ds -> nstep w t id gs fs ds fs' sent ->
  nth_error fs i = Some f ->
  exists n f' R, nth_error fs' i = Some f' /\ publish w t (gs i) f = Ok n /\ sales_ok n (sold_by i ds) /\ buys_ok n (map fst R) /\ map fst R = bought_by i ds /\
    Forall (as_agreed id (id + zlen ds)) R /\ (NoDup (map (fun x => m_id (snd x)) R) /\ incl R (combine ds (renumber id sent))) /\ fstep w t (gs i) f (sold_by i ds) R = Ok (f', shipped_by i ds sent) /\ Forall2 as_sold (sold_by i ds) (shipped_by i ds sent) /\
    good w t id f /\ balanced f f' (shipped_by i ds sent) R.
Proof.
  intros W H G O N Nf. destruct (reached_good w W _ _ _ H) as [T A].
  destruct (nstep_exists w t id gs fs ds W T G A O) as (fs2 & sent2 & N2 & SS & _). destruct (nstep_functional _ _ _ _ _ _ _ _ _ _ (proj1 O) N N2) as [<- <-]. clear N2.
  destruct N as (SL & FL & FP). pose proof (zlen_nonneg ds) as ZN.
  assert (GF : good w t id f) by (unfold all_good in A; rewrite Forall_forall in A; apply A, (nth_error_In _ _ Nf)).
  destruct (nth_error fs' i) as [f'|] eqn:Nf'; [|apply nth_error_None in Nf'; assert (X : nth_error fs i <> None) by congruence; apply nth_error_Some in X; lia].
  pose proof (FP i f f' Nf Nf') as ST. destruct (good_works w t id (id + zlen ds) (gs i) f W T ltac:(lia) (G i) GF) as (n & PB & K).
  destruct (proj2 O i f n Nf PB) as [SO BO].
  set (R := filter (fun x : trade * mat => Nat.eqb (t_to (fst x)) i) (combine ds (renumber id sent))) in *.
  assert (PL : List.length ds = List.length (renumber id sent)) by (rewrite renumber_length; congruence).
  assert (RB : map fst R = bought_by i ds) by (unfold R; apply (combine_filter_fst (fun d => Nat.eqb (t_to d) i)); exact PL).
  assert (PO : Forall (fun d => 0 < t_amt d) ds).
  { apply Forall_forall. intros d D. destruct O as [RG OR]. rewrite Forall_forall in RG. destruct (RG d D) as [L _]. destruct (nth_error fs (t_from d)) as [g|] eqn:Ng; [|apply nth_error_None in Ng; lia].
    destruct (good_works w t id (id + zlen ds) (gs (t_from d)) g W T ltac:(lia) (G _)) as (m & PB' & _); [unfold all_good in A; rewrite Forall_forall in A; apply A, (nth_error_In _ _ Ng)|].
    destruct (OR _ _ _ Ng PB') as [[S _] _]. rewrite Forall_forall in S. apply (S d). unfold sold_by. apply filter_In. split; [exact D|apply Nat.eqb_refl]. }
  assert (AG : Forall (as_agreed id (id + zlen ds)) R).
  { apply Forall_forall. intros x X. apply filter_In in X as [X _]. pose proof (agreed ds id (id + zlen ds) sent PO SS (Z.le_refl _)) as Y. rewrite Forall_forall in Y. apply Y, X. }
  assert (ND : NoDup (map (fun x : trade * mat => m_id (snd x)) R)).
  { unfold R. apply (NoDup_map_filter (fun x : trade * mat => m_id (snd x))).
    assert (E : forall l : list (trade * mat), map (fun x => m_id (snd x)) l = map m_id (map snd l)) by (intro l; rewrite map_map; reflexivity). rewrite E, combine_snd by exact PL.
    rewrite renumber_ids. apply FinFun.Injective_map_NoDup; [intros a b X; lia|apply seq_NoDup]. }
  rewrite <- RB in BO. destruct (K (sold_by i ds) R SO BO AG ND) as (f2 & ms & F1 & F2 & _ & F4). fold (shipped_by i ds sent) in ST. rewrite ST in F1. injection F1 as <- <-.
  exists n, f', R. do 6 (split; [assumption || reflexivity|]). split; [split; [exact ND|intros x X; apply filter_In in X; apply X]|]. repeat (split; [assumption || reflexivity|]). assumption.
Qed.
Lemma sold_qty S ms : Forall2 as_sold S ms -> qty_of ms == total S.
Proof. induction 1 as [|d m S ms [E _] _ IH]; [reflexivity|]. rewrite qty_of_cons, E, IH. reflexivity. Qed.

(** ** Rates *)
Definition finished (f : fac) : Q :=
  match f with
  | Conv _ s => qty_of (ConversionModel.vs_output s)
  | Stor _ s => qty_of (StorageModel.ss_stocks s)
  | Mixr _ s => b_qty (MixerModel.xs_output s)
  | _ => 0
  end.
Lemma rate w t id id' g f n S R f' ms p : world_ok w -> (0 <= t)%Z -> good w t id f -> publish w t g f = Ok n -> sales_ok n S -> Forall (as_agreed id id') R ->
  fstep w t g f S R = Ok (f', ms) -> Forall2 as_sold S ms -> throughput f = Some p -> 0 <= p -> throughput f' = Some p /\ finished f' + total S <= finished f + p.
Proof.
  intros W T0 GD PB HS AR ST AS E P. rewrite <- (sold_qty _ _ AS). destruct f as [c s|c s|c s|c s|c s|c s]; cbn [throughput] in E; try discriminate; injection E as <-; cbn [fstep] in ST.
  - apply bind_ok in ST as ([s' o] & ST & X). injection X as <- <-. split; [reflexivity|]. destruct GD as (TP & _ & es & os & O & R0). cbn [finished].
    assert (SN : ConversionProofs.cv_sane s) by (apply (ConversionProofs.cv_run_facts _ _ _ _ _ _ ConversionProofs.cv_empty_sane O P R0)).
    destruct (fun X => ConversionProofs.cv_step_inv _ _ _ _ _ _ SN X P ST) as (TK & SN1 & _ & _ & TR & _); [exact (got_ok _ _ _ AR)|].
    destruct (ConversionProofs.tick_facts _ _ _ SN P TK) as (_ & QO & _). destruct (ConversionProofs.cv_trades_facts _ _ _ _ _ (proj1 (proj2 SN1)) (Forall_nil _) TR) as (_ & _ & _ & Q1 & _).
    rewrite qty_of_nil in Q1. pose proof (Q.le_min_l (ConversionModel.vc_throughput c) (qty_of (ConversionModel.vs_input s))). lra.
  - apply bind_ok in ST as ([s' o] & ST & X). injection X as <- <-. split; [reflexivity|]. pose proof GD as GD0. destruct GD as (CO & D & _ & es & os & HI & BE & R0). cbn [finished].
    assert (HE : StorageSpec.st_history (es ++ [ {| StorageModel.se_time := t; StorageModel.se_sales := map t_amt S; StorageModel.se_receipts := map snd R |} ])).
    { destruct HI as (A & B & C). split; [|split].
      - rewrite map_app. apply SimulationStorage.sorted_snoc; [exact A|]. apply Forall_map. exact BE.
      - apply Forall_app. split; [exact B|]. repeat constructor. exact T0.
      - unfold StorageSpec.arrivals in *. rewrite flat_map_app, map_app. apply Forall_app. split; [exact C|]. cbn [flat_map]. rewrite app_nil_r, StorageProofs.map_snd_pair. exact (got_ok _ _ _ AR). }
    destruct (StorageGlue.after_history _ _ _ _ _ _ _ _ HE R0 ST) as (q & st1 & _ & _ & _ & A4 & A5 & A6 & _). specialize (A6 P).
    assert (OS : mats_ok (StorageModel.ss_stocks s)).
    { assert (X : mats_ok (inside (Stor c s))) by (exact (good_sound w t id (Stor c s) GD0 I)). unfold inside in X. apply Forall_app in X. apply X. }
    destruct (StorageProofs.regroup_facts _ _ A4 OS) as (_ & E & _). rewrite A5, qty_of_app. rewrite qty_of_app in E. lra.
  - apply bind_ok in ST as ([s' o] & ST & X). injection X as <- <-. split; [reflexivity|]. destruct GD as (SE & IV & CO & WI). cbn [finished].
    destruct (fun X Y => MixerRun.step_facts _ _ _ _ _ _ IV CO X Y ST) as (_ & _ & _ & _ & _ & Q1 & TK & _).
    { cbn. apply Forall_map. eapply Forall_impl; [|exact AR]. intros x (_ & _ & X & _). exact X. } { exact (sales_pos _ _ HS). }
    destruct (MixerProofs.tick_facts _ _ _ _ _ IV TK) as (_ & _ & [X|(k & m & _ & K & _ & M & B & _)] & _).
    + rewrite X in Q1. lra.
    + unfold b_qty in *. rewrite B, qty_of_app, qty_of_cons, qty_of_nil in Q1.
      match type of K with _ == Qmin ?a ?b => pose proof (Q.le_min_r a b) end. lra.
  - apply bind_ok in ST as ([s' o] & ST & X). injection X as <- <-. split; [reflexivity|]. cbn [finished]. rewrite (sold_qty _ _ AS). cbn [publish] in PB. apply bind_ok in PB as ([q b] & BD & X). injection X as <-.
    destruct b as [b|].
    + pose proof (sales_one _ _ _ HS eq_refl) as L. cbn [of_limit] in L. unfold SourceModel.sr_get_bids in BD. destruct (Qltb _ (w_eg w)); [discriminate|].
      destruct (map snd _) as [|x l]; [discriminate|]. apply bind_ok in BD as (bs & _ & X). injection X as _ <-. cbn [SourceModel.sp_limit] in L.
      match type of L with _ <= Qmin ?a ?b => pose proof (Q.le_min_l a b) end. lra.
    + rewrite (sales_none _ _ HS eq_refl). cbn. lra.
Qed.
Lemma hunger w t id id' g f n R p : world_ok w -> signal_ok g -> good w t id f -> publish w t g f = Ok n -> buys_ok n (map fst R) -> Forall (as_agreed id id') R ->
  appetite f = Some p -> 0 <= p /\ total (map fst R) <= p.
Proof.
  intros W [G1 _] GD PB HB AR E. destruct f as [c s|c s|c s|c s|c s|c s]; cbn [appetite] in E; try discriminate; injection E as <-.
  destruct GD as (HC & HM & CN & RC & [P1 P2] & B & OI). split; [exact HC|]. cbn [publish] in PB. apply bind_ok in PB as ([s1 d] & T & PB). apply bind_ok in PB as ([s2 mr] & RQ & X). injection X as <-.
  destruct mr as [r|]; [|rewrite (buys_none _ _ HB eq_refl); cbn; exact HC].
  destruct (buys_one _ _ _ _ HB eq_refl eq_refl) as [->|L]; [cbn; exact HC|].
  pose proof (SinkProofs.amount_range c HC (g_rng g) t s G1) as [A0 A].
  pose proof (SinkProofs.tick_facts _ _ _ _ _ _ _ T) as (TP & TI & (TA & TN) & _). destruct (SinkProofs.request_same c (g_rng g) s s1 TI) as [AV _].
  change (SinkModel.ks_amt s1 = SinkProofs.amount c (g_rng g) t s) in TA.
  apply SinkProofs.mat_requests_facts in RQ as [_ Y]; [|rewrite AV, TA; exact A|rewrite TP; exact P2].
  destruct (Qltb (w_eg w) (SinkModel.ks_amt s1)); [|discriminate]. injection Y as Y. rewrite Y in L. cbn [ak_limit SinkModel.mq_qty] in L. rewrite TA in L.
  unfold SinkModel.sk_available in A. match type of A with _ <= Qmin ?a ?b => pose proof (Q.le_min_l a b) end. lra.
Qed.
Lemma hunger_kept w t g f S R f' ms : fstep w t g f S R = Ok (f', ms) -> appetite f' = appetite f.
Proof.
  destruct f as [c s|c s|c s|c s|c s|c s]; cbn [fstep]; intro H;
  [apply bind_ok in H as ([s' o] & _ & X)|apply bind_ok in H as ([s' o] & _ & X)|apply bind_ok in H as ([s' o] & _ & X)|apply bind_ok in H as ([s' o] & _ & X)|
   apply bind_ok in H as ([s' o] & _ & X)|apply bind_ok in H as (o & _ & X)]; injection X as <- <-; reflexivity.
Qed.

(** ** A career *)
Lemma career_reached w t0 t id fs i f0 got sold : career w t0 t id fs i f0 got sold -> reached w t id fs.
Proof.
  induction 1; [apply deploying; assumption|apply deploying; assumption|apply (retiring _ _ _ _ f); assumption|apply (retiring _ _ _ _ f); assumption|eapply stepping; eassumption].
Qed.
Lemma nth_drop {A} (a : list A) f b i : (List.length a <= i)%nat -> nth_error (a ++ b) i = nth_error (a ++ f :: b) (S i).
Proof. intro L. rewrite !nth_error_app2 by lia. replace (S i - List.length a)%nat with (S (i - List.length a)) by lia. reflexivity. Qed.
Lemma career_inv w t0 t id fs i f0 got sold : world_ok w -> career w t0 t id fs i f0 got sold ->
  exists f, nth_error fs i = Some f /\ qty_of (inside f) + sold == declared f0 + got /\ (t0 <= t)%Z /\
    (forall p, throughput f0 = Some p -> 0 <= p -> throughput f = Some p /\ finished f + sold <= p * inject_Z (t - t0)) /\
    (forall p, appetite f0 = Some p -> appetite f = Some p /\ got <= p * inject_Z (t - t0)).
Proof.
  intros W H. induction H as [t id fs f H D|t0 t id fs i f0 got sold f H IH D|t0 t id a f b i f0 got sold H IH L|t0 t id a f b i f0 got sold H IH L|t0 t id fs i f0 got sold gs ds fs' sent H IH G O N].
  - exists f. split; [rewrite nth_error_app2 by lia; rewrite Nat.sub_diag; reflexivity|]. split; [rewrite (declared_right _ _ _ W D); ring|]. split; [lia|]. rewrite Z.sub_diag.
    split; intros p E; [intros P|]; split; try exact E; change (inject_Z 0) with 0; [|lra].
    assert (F : finished f == 0).
    { destruct f as [c s|c s|c s|c s|c s|c s]; cbn [finished deployed] in *; try reflexivity.
      - destruct D as (_ & ->). reflexivity.
      - destruct D as (_ & _ & ->). reflexivity.
      - destruct D as (A & B). rewrite (MixerRun.enter_new _ _ (proj1 W)) in B. injection B as <-. reflexivity. }
    lra.
  - destruct IH as (g & A & B). exists g. split; [rewrite nth_error_app1; [exact A|apply nth_error_Some; congruence]|exact B].
  - destruct IH as (g & A & B). exists g. split; [rewrite (nth_drop a f b i L); exact A|exact B].
  - destruct IH as (g & A & B). exists g. split; [|exact B]. rewrite nth_error_app1 in A |- * by exact L. exact A.
  - destruct IH as (f & A & B & TT & C & D). pose proof (career_reached _ _ _ _ _ _ _ _ _ H) as RE. destruct (reached_good w W _ _ _ RE) as [T _].
    destruct (step_each w t id gs fs ds fs' sent i f W RE G O N A) as (n & f' & R & A' & PB & SO & BO & RB & AG & ND & ST & AS & GD & (_ & BL & _)).
    exists f'. split; [exact A'|]. split; [|split; [lia|]].
    + rewrite (sold_qty _ _ AS) in BL. rewrite (got_total _ _ _ AG), RB in BL. lra.
    + assert (K : inject_Z (t + 1 - t0) == inject_Z (t - t0) + 1) by (change 1 with (inject_Z 1); rewrite <- inject_Z_plus; replace (t - t0 + 1)%Z with (t + 1 - t0)%Z by lia; reflexivity). split.
      * intros p E P. destruct (C p E P) as [C1 C2]. destruct (rate _ _ _ _ _ _ _ _ _ _ _ _ W T GD PB SO AG ST AS C1 P) as [E1 E2]. split; [exact E1|]. rewrite K. lra.
      * intros p E. destruct (D p E) as [D1 D2]. destruct (hunger _ _ _ _ _ _ _ _ _ W (G i) GD PB BO AG D1) as [P Q1]. rewrite RB in Q1. split; [rewrite (hunger_kept _ _ _ _ _ _ _ _ ST); exact D1|]. rewrite K. lra.
Qed.
Lemma finished_nonneg w t id f : good w t id f -> 0 <= finished f.
Proof.
  intro G. destruct f as [c s|c s|c s|c s|c s|c s]; cbn [finished]; try lra.
  - pose proof (good_sound _ _ _ _ G I) as O. cbn [inside] in O. apply Forall_app in O as [_ O]. exact (mats_qty_nonneg _ O).
  - pose proof (good_sound _ _ _ _ G I) as O. cbn [inside] in O. apply Forall_app in O as [O _]. exact (mats_qty_nonneg _ O).
  - pose proof (good_sound _ _ _ _ G I) as O. cbn [inside] in O. unfold MixerSpec.mx_held in O. apply Forall_app in O as [_ O]. exact (mats_qty_nonneg _ O).
Qed.
Lemma account w t0 t id fs i f0 got sold : world_ok w -> career w t0 t id fs i f0 got sold ->
  exists f, nth_error fs i = Some f /\ qty_of (inside f) + sold == declared f0 + got.
Proof. intros W H. destruct (career_inv _ _ _ _ _ _ _ _ _ W H) as (f & A & B & _). eauto. Qed.
Lemma shipped_rate w t0 t id fs i f0 got sold p : world_ok w -> career w t0 t id fs i f0 got sold -> throughput f0 = Some p -> 0 <= p -> sold <= p * inject_Z (t - t0).
Proof.
  intros W H E P. destruct (career_inv _ _ _ _ _ _ _ _ _ W H) as (f & A & _ & _ & C & _). destruct (C p E P) as [_ C2].
  destruct (reached_good w W _ _ _ (career_reached _ _ _ _ _ _ _ _ _ H)) as [_ GD]. unfold all_good in GD. rewrite Forall_forall in GD. pose proof (finished_nonneg _ _ _ _ (GD f (nth_error_In _ _ A))). lra.
Qed.
Lemma received_rate w t0 t id fs i f0 got sold p : world_ok w -> career w t0 t id fs i f0 got sold -> appetite f0 = Some p -> got <= p * inject_Z (t - t0).
Proof. intros W H E. destruct (career_inv _ _ _ _ _ _ _ _ _ W H) as (f & _ & _ & _ & _ & D). apply (D p E). Qed.
Lemma has_career w t id fs : reached w t id fs -> forall i f, nth_error fs i = Some f -> exists t0 f0 got sold, career w t0 t id fs i f0 got sold.
Proof.
  induction 1 as [id|t id fs f H IH D|t id a f b H IH|t id fs gs ds fs' sent H IH G O N]; intros i g E.
  - destruct i; discriminate.
  - destruct (Nat.lt_ge_cases i (List.length fs)) as [L|L].
    + rewrite nth_error_app1 in E by exact L. destruct (IH i g E) as (t0 & f0 & got & sold & C). exists t0, f0, got, sold. apply other_hired; assumption.
    + rewrite nth_error_app2 in E by exact L. destruct (i - List.length fs)%nat as [|k] eqn:Z; [|destruct k; discriminate]. assert (i = List.length fs) by lia. subst i.
      exists t, f, 0, 0. apply employed; assumption.
  - destruct (Nat.lt_ge_cases i (List.length a)) as [L|L].
    + rewrite nth_error_app1 in E by exact L. destruct (IH i g) as (t0 & f0 & got & sold & C); [rewrite nth_error_app1 by exact L; exact E|]. exists t0, f0, got, sold. apply (later_fired _ _ _ _ _ f); assumption.
    + rewrite (nth_drop a f b i L) in E. destruct (IH _ g E) as (t0 & f0 & got & sold & C). exists t0, f0, got, sold. apply (earlier_fired _ _ _ _ _ f); assumption.
  - destruct (nth_error fs i) as [f|] eqn:F.
    + destruct (IH i f F) as (t0 & f0 & got & sold & C). exists t0, f0, (got + total (bought_by i ds)), (sold + total (sold_by i ds)). eapply worked; eassumption.
    + apply nth_error_None in F. destruct N as (_ & L & _). assert (X : nth_error fs' i <> None) by congruence. apply nth_error_Some in X. lia.
Qed.
Lemma step_rates w t id fs gs ds fs' sent : world_ok w -> reached w t id fs -> (forall j, signal_ok (gs j)) -> orderly w t gs fs ds -> nstep w t id gs fs ds fs' sent ->
  forall i f, nth_error fs i = Some f ->
  match f with
  | Srce c _ => 0 <= SourceModel.sc_throughput c -> total (sold_by i ds) <= SourceModel.sc_throughput c
  | Snk c _ => total (bought_by i ds) <= SinkModel.kc_capacity c
  | _ => True
  end.
Proof.
  intros W RE G O N i f A. destruct (reached_good w W _ _ _ RE) as [T _].
  destruct (step_each w t id gs fs ds fs' sent i f W RE G O N A) as (n & f' & R & A' & PB & SO & BO & RB & AG & ND & ST & AS & GD & _).
  destruct f as [c s|c s|c s|c s|c s|c s]; try exact I.
  - intro P. destruct (rate _ _ _ _ _ _ _ _ _ _ _ _ W T GD PB SO AG ST AS eq_refl P) as [_ E2]. assert (finished f' == 0); [|cbn [finished] in E2; lra].
    cbn [fstep] in ST. apply bind_ok in ST as ([s' o] & _ & X). injection X as <- _. reflexivity.
  - destruct (hunger _ _ _ _ _ _ _ _ _ W (G i) GD PB BO AG eq_refl) as [_ Q1]. rewrite RB in Q1. exact Q1.
Qed.
