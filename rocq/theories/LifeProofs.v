(** C136: what a facility lives through in a network is a history of its own model. *)
From Coq Require Import Lia Lqa Permutation.
From Verif Require Import Outcome KernelMaterial KernelResBuf KernelBuf KernelFacts KernelMass NetworkSpec NetworkProofs SimulationSpec SimulationProofs SimulationMixer SimulationReactor SimulationNetwork CareerProofs LifeSpec.
From Verif Require ReactorModel ReactorSpec StorageModel StorageSpec StorageProofs StorageGlue SimulationStorage ConversionModel ConversionSpec MixerModel MixerSpec MixerProofs MixerRun SinkModel SinkSpec SinkProofs SourceModel SourceSpec SourceProofs.
Local Open Scope Q_scope.

(** ** One facility by itself *)
Inductive line (w : world) (t0 : Z) (f0 : fac) : Z -> Z -> list page -> fac -> Prop :=
| line_nil id : deployed w t0 f0 -> good w t0 id f0 -> line w t0 f0 t0 id [] f0
| line_snoc t id id' ps f p : line w t0 f0 t id ps f -> (0 <= t)%Z -> good w t id f -> pg_time p = t -> signal_ok (pg_told p) -> publish w t (pg_told p) f = Ok (pg_said p) ->
    sales_ok (pg_said p) (pg_sold p) -> buys_ok (pg_said p) (map fst (pg_got p)) -> Forall (as_agreed id id') (pg_got p) ->
    NoDup (map (fun x => m_id (snd x)) (pg_got p)) -> fstep w t (pg_told p) f (pg_sold p) (pg_got p) = Ok (pg_now p, pg_sent p) ->
    line w t0 f0 (t + 1) id' (ps ++ [p]) (pg_now p).

Lemma step_page w t id gs fs ds fs' sent i f f' n : world_ok w -> reached w t id fs -> (forall j, signal_ok (gs j)) -> orderly w t gs fs ds -> nstep w t id gs fs ds fs' sent ->
  nth_error fs i = Some f -> nth_error fs' i = Some f' -> publish w t (gs i) f = Ok n ->
  let R := filter (fun x : trade * mat => Nat.eqb (t_to (fst x)) i) (combine ds (renumber id sent)) in
  (0 <= t)%Z /\ good w t id f /\ sales_ok n (sold_by i ds) /\ buys_ok n (map fst R) /\ Forall (as_agreed id (id + zlen ds)) R /\
  NoDup (map (fun x => m_id (snd x)) R) /\ fstep w t (gs i) f (sold_by i ds) R = Ok (f', map snd (filter (fun x => Nat.eqb (t_from (fst x)) i) (combine ds sent))).
Proof.
  intros W H G O N Nf Nf' PB R. destruct (reached_good w W _ _ _ H) as [T A].
  destruct (nstep_exists w t id gs fs ds W T G A O) as (fs2 & sent2 & N2 & SS & _). destruct (nstep_functional _ _ _ _ _ _ _ _ _ _ (proj1 O) N N2) as [<- <-]. clear N2.
  destruct N as (SL & FL & FP). pose proof (zlen_nonneg ds) as ZN.
  assert (GF : good w t id f) by (unfold all_good in A; rewrite Forall_forall in A; apply A, (nth_error_In _ _ Nf)).
  pose proof (FP i f f' Nf Nf') as ST. destruct (proj2 O i f n Nf PB) as [SO BO].
  assert (PL : List.length ds = List.length (renumber id sent)) by (rewrite renumber_length; congruence).
  assert (RB : map fst R = bought_by i ds) by (unfold R; apply (combine_filter_fst (fun d => Nat.eqb (t_to d) i)); exact PL).
  assert (PO : Forall (fun d => 0 < t_amt d) ds).
  { apply Forall_forall. intros d D. destruct O as [RG OR]. rewrite Forall_forall in RG. destruct (RG d D) as [L _]. destruct (nth_error fs (t_from d)) as [g|] eqn:Ng; [|apply nth_error_None in Ng; lia].
    destruct (good_works w t id (id + zlen ds) (gs (t_from d)) g W T ltac:(lia) (G _)) as (m & PB' & _); [unfold all_good in A; rewrite Forall_forall in A; apply A, (nth_error_In _ _ Ng)|].
    destruct (OR _ _ _ Ng PB') as [[S _] _]. rewrite Forall_forall in S. apply (S d). unfold sold_by. apply filter_In. split; [exact D|apply Nat.eqb_refl]. }
  assert (AG : Forall (as_agreed id (id + zlen ds)) R).
  { apply Forall_forall. intros x X. apply filter_In in X as [X _]. pose proof (agreed ds id (id + zlen ds) sent PO SS (Z.le_refl _)) as Y. rewrite Forall_forall in Y. apply Y, X. }
  assert (ND : NoDup (map (fun x : trade * mat => m_id (snd x)) R)).
  { unfold R. apply (NoDup_map_filter (fun x : trade * mat => m_id (snd x))).
    assert (E : forall l : list (trade * mat), map (fun x => m_id (snd x)) l = map m_id (map snd l)) by (intro l; rewrite map_map; reflexivity). rewrite E, combine_snd by exact PL.
    rewrite renumber_ids. apply FinFun.Injective_map_NoDup; [intros a b X; lia|apply seq_NoDup]. }
  rewrite <- RB in BO. repeat (split; [assumption|]). exact ST.
Qed.
Lemma diary_reached w t0 t id fs i f0 ps : diary w t0 t id fs i f0 ps -> reached w t id fs.
Proof.
  induction 1; [apply deploying; assumption|apply deploying; assumption|apply (retiring _ _ _ _ f); assumption|apply (retiring _ _ _ _ f); assumption|eapply stepping; eassumption].
Qed.
Lemma diary_line w t0 t id fs i f0 ps : world_ok w -> diary w t0 t id fs i f0 ps -> exists f, nth_error fs i = Some f /\ line w t0 f0 t id ps f.
Proof.
  intros W H. induction H as [t id fs f H D|t0 t id fs i f0 ps f H IH D|t0 t id a f b i f0 ps H IH L|t0 t id a f b i f0 ps H IH L|t0 t id fs i f0 ps gs ds fs' sent f n f' H IH G O N Nf PB Nf'].
  - exists f. split; [rewrite nth_error_app2 by lia; rewrite Nat.sub_diag; reflexivity|]. apply line_nil; [exact D|].
    destruct (reached_good w W _ _ _ (deploying _ _ _ _ _ H D)) as [_ A]. unfold all_good in A. rewrite Forall_forall in A. apply A, in_or_app. right. left. reflexivity.
  - destruct IH as (g & Ng & LN). exists g. split; [|exact LN]. rewrite nth_error_app1; [exact Ng|]. apply nth_error_Some. congruence.
  - destruct IH as (g & Ng & LN). exists g. split; [|exact LN]. rewrite (nth_drop a f b i L). exact Ng.
  - destruct IH as (g & Ng & LN). exists g. split; [|exact LN]. rewrite nth_error_app1 in Ng |- * by exact L. exact Ng.
  - destruct IH as (g & Ng & LN). assert (g = f) by congruence. subst g. exists f'. split; [exact Nf'|].
    destruct (step_page w t id gs fs ds fs' sent i f f' n W (diary_reached _ _ _ _ _ _ _ _ H) G O N Nf Nf' PB) as (T & GD & A1 & A2 & A3 & A4 & A5).
    apply (line_snoc w t0 f0 t id (id + zlen ds) ps f {| pg_time := t; pg_told := gs i; pg_said := n; pg_sold := sold_by i ds;
                  pg_got := filter (fun x => Nat.eqb (t_to (fst x)) i) (combine ds (renumber id sent));
                  pg_sent := map snd (filter (fun x => Nat.eqb (t_from (fst x)) i) (combine ds sent)); pg_now := f' |}); try assumption; try reflexivity; try apply G.
Qed.
Lemma line_time w t0 f0 t id ps f : line w t0 f0 t id ps f -> t = (t0 + Z.of_nat (List.length ps))%Z.
Proof. induction 1; [cbn; lia|]. rewrite app_length. cbn [List.length]. lia. Qed.
Lemma line_deployed w t0 f0 t id ps f : line w t0 f0 t id ps f -> deployed w t0 f0.
Proof. induction 1; assumption. Qed.
Lemma line_last w t0 f0 t id ps f : line w t0 f0 t id ps f -> f = last (map pg_now ps) f0.
Proof. destruct 1; [reflexivity|]. rewrite map_app. cbn [map]. rewrite last_last. reflexivity. Qed.


(** ** Conversion *)
Lemma conv_line w t0 c s0 t id ps f : line w t0 (Conv c s0) t id ps f ->
  exists s os, ConversionModel.cv_run (w_eps w) c ConversionModel.cv_empty (map (conv_day c) ps) = Ok (s, os) /\ mats_ok (ConversionSpec.cv_received (map (conv_day c) ps)) /\
    f = Conv c s /\ map pg_sent ps = map ConversionModel.vo_shipped os.
Proof.
  intros H. induction H as [id D G|t id id' ps f p H IH T GD PT SG PB HS HR AR ND ST].
  - destruct D as (_ & ->). exists ConversionModel.cv_empty, []. repeat split; constructor.
  - destruct IH as (s & os & R & K & -> & F). cbn [fstep] in ST. apply bind_ok in ST as ([s' o] & ST & X). injection X as NW SN.
    exists s', (os ++ [o]). rewrite !map_app. cbn [map]. split; [exact (cv_snoc _ _ _ _ _ _ _ _ _ R ST)|].
    split; [unfold ConversionSpec.cv_received in *; rewrite flat_map_app; apply Forall_app; split; [exact K|]; cbn; rewrite app_nil_r; exact (got_ok _ _ _ AR)|].
    split; [congruence|]. rewrite F, SN. reflexivity.
Qed.
(** ** Storage *)
Lemma stor_line w t0 c s0 t id ps f : line w t0 (Stor c s0) t id ps f ->
  exists s os, StorageModel.st_run (w_eps w) c StorageModel.st_empty (map stor_day ps) = Ok (s, os) /\ StorageSpec.st_history (map stor_day ps) /\
    Forall (fun e => (StorageModel.se_time e < t)%Z) (map stor_day ps) /\ f = Stor c s /\ map pg_sent ps = map StorageModel.so_sold os.
Proof.
  intros H. induction H as [id D G|t id id' ps f p H IH T GD PT SG PB HS HR AR ND ST].
  - destruct D as (_ & _ & ->). exists StorageModel.st_empty, []. repeat split; try constructor.
  - destruct IH as (s & os & R & (A & B & C) & BE & -> & F). cbn [fstep] in ST. apply bind_ok in ST as ([s' o] & ST & X). injection X as NW SN.
    rewrite <- PT in ST, BE |- *. change (StorageModel.st_step (w_eps w) c s (stor_day p) = Ok (s', o)) in ST.
    exists s', (os ++ [o]). rewrite !map_app. cbn [map]. split; [rewrite StorageGlue.run_app, R; cbn [bind StorageModel.st_run]; rewrite ST; reflexivity|].
    split; [|split; [|split; [congruence|rewrite F, SN; reflexivity]]].
    + split; [|split].
      * rewrite map_app. apply SimulationStorage.sorted_snoc; [exact A|]. rewrite Forall_map. exact BE.
      * apply Forall_app. split; [exact B|]. repeat constructor. cbn. lia.
      * unfold StorageSpec.arrivals in *. rewrite flat_map_app, map_app. apply Forall_app. split; [exact C|]. cbn [flat_map]. rewrite app_nil_r, StorageProofs.map_snd_pair. exact (got_ok _ _ _ AR).
    + apply Forall_app. split; [eapply Forall_impl; [|exact BE]; cbn; intros; lia|]. repeat constructor. cbn. lia.
Qed.
(** ** Mixer *)
Lemma mx_snoc eps c e : forall es s s1 os s2 o, MixerModel.mx_run eps c s es = Ok (s1, os) -> MixerModel.mx_step eps c s1 e = Ok (s2, o) ->
  MixerModel.mx_run eps c s (es ++ [e]) = Ok (s2, os ++ [o]).
Proof.
  induction es as [|a es IH]; intros s s1 os s2 o H T; cbn [app MixerModel.mx_run] in *.
  - injection H as <- <-. rewrite T. reflexivity.
  - apply bind_ok in H as ([x p] & T1 & H). apply bind_ok in H as ([y os1] & R & H). injection H as <- <-. rewrite T1. cbn [bind].
    rewrite (IH _ _ _ _ _ R T). reflexivity.
Qed.
Lemma mx_ok_snoc eps c e : forall es s s1 os, MixerModel.mx_run eps c s es = Ok (s1, os) -> MixerSpec.exchanges_ok eps c s es ->
  (forall s2 sup, MixerModel.mx_tick eps c s1 = Ok (s2, sup) -> MixerSpec.exchange_ok (MixerModel.mx_requests eps c s2) (b_qty (MixerModel.xs_output s2)) e) ->
  MixerSpec.exchanges_ok eps c s (es ++ [e]).
Proof.
  induction es as [|a es IH]; intros s s1 os H K T; cbn [app MixerModel.mx_run MixerSpec.exchanges_ok] in *.
  - injection H as <- <-. split; [exact T|]. intros; exact I.
  - destruct K as [K1 K2]. split; [exact K1|]. intros s' o O. apply bind_ok in H as ([x p] & T1 & H). apply bind_ok in H as ([y os1] & R & H). injection H as <- <-.
    assert (x = s') by congruence. subst x. exact (IH _ _ _ R (K2 _ _ O) T).
Qed.
Lemma mixr_exchange w t id id' c s p n : world_ok w -> good w t id (Mixr c s) -> publish w t (pg_told p) (Mixr c s) = Ok n -> sales_ok n (pg_sold p) -> buys_ok n (map fst (pg_got p)) ->
  Forall (as_agreed id id') (pg_got p) ->
  forall s1 sup, MixerModel.mx_tick (w_eps w) c s = Ok (s1, sup) -> MixerSpec.exchange_ok (MixerModel.mx_requests (w_eps w) c s1) (b_qty (MixerModel.xs_output s1)) (mixr_day p).
Proof.
  intros (EP & _) (SE & IV & CO & WI) PB HS HR AR s1 sup TK. cbn [publish] in PB. rewrite TK in PB. cbn [bind] in PB. injection PB as <-.
  set (reqs := MixerModel.mx_requests (w_eps w) c s1) in *. change (map (fun r => {| ak_commods := map fst (MixerModel.xr_items r); ak_limit := MixerModel.xr_qty r; ak_unit := None |}) reqs) with (map to_ask reqs) in *.
  pose proof (sales_pos _ _ HS) as PO. pose proof (sales_one _ _ _ HS eq_refl) as LE. cbn [of_limit] in LE.
  destruct (reqs_streams (w_eps w) (MixerModel.xc_streams c) 0 (MixerModel.xs_bufs s1)) as [_ ND]. change (NoDup (map MixerModel.xr_stream reqs)) in ND.
  set (R := pg_got p) in *. change (mixr_day p) with {| MixerModel.xe_sales := map t_amt (pg_sold p); MixerModel.xe_receipts := responses R |}.
  assert (SL : Forall (fun d => (t_slot (fst d) < List.length (MixerSpec.asked reqs))%nat) R).
  { destruct HR as [HR _]. rewrite Forall_map in HR. eapply Forall_impl; [|exact HR]. intros d X. cbn [n_asks] in X. rewrite <- asked_commods in X.
    rewrite <- (map_length snd). apply nth_error_Some. congruence. }
  assert (OR : Forall (fun jm => mat_ok (snd jm)) (responses R)).
  { apply Forall_map. eapply Forall_impl; [|exact AR]. intros x (_ & _ & X & _). exact X. }
  split; [|split; [exact OR|split; [|split; [exact PO|exact LE]]]].
  - apply Forall_map. exact SL.
  - intros q0 q I Q1. apply In_nth_error in I as (k & E). cbn [MixerModel.xe_receipts]. rewrite (deliveries_filter _ _ _ _ ND E SL).
    destruct HR as [_ HR]. specialize (HR k (to_ask q0)). cbn [n_asks] in HR. rewrite nth_error_map, E in HR. specialize (HR eq_refl). cbv zeta in HR. destruct HR as [_ HR].
    specialize (HR q Q1). change (fun d => match nth_error (slots 0 (map to_ask reqs)) (t_slot d) with Some p' => Nat.eqb p' k | None => false end) with (picks (map to_ask reqs) k) in HR.
    rewrite filter_map_comm in HR. rewrite (got_total _ _ _ (Forall_filter _ _ _ AR)).
    destruct (filter (fun x => picks (map to_ask reqs) k (fst x)) R) as [|y l]; [|apply HR; discriminate].
    cbn. assert (0 <= q); [|lra].
    destruct (MixerProofs.tick_facts _ _ _ _ _ IV TK) as (IV1 & _).
    destruct (MixerRun.asked_stream (w_eps w) c s1 q0) as (st & b & _ & Q2 & _ & Q3); [eapply nth_error_In; exact E|]. rewrite Q1 in Q2. specialize (Q3 q (eq_sym Q2)). lra.
Qed.
Lemma mixr_line w t0 c s0 t id ps f : world_ok w -> line w t0 (Mixr c s0) t id ps f ->
  exists s os, MixerModel.mx_run (w_eps w) c s0 (map mixr_day ps) = Ok (s, os) /\ MixerSpec.mx_sane (map mixr_day ps) /\ MixerSpec.exchanges_ok (w_eps w) c s0 (map mixr_day ps) /\
    f = Mixr c s /\ map pg_sent ps = map MixerModel.xo_shipped os.
Proof.
  intros W H. induction H as [id D G|t id id' ps f p H IH T GD PT SG PB HS HR AR ND ST].
  - exists s0, []. repeat split; constructor.
  - destruct IH as (s & os & R & K & X & -> & F). pose proof (mixr_exchange _ _ _ _ _ _ _ _ W GD PB HS HR AR) as EX.
    cbn [fstep] in ST. apply bind_ok in ST as ([s' o] & ST & Y). injection Y as NW SN. change (MixerModel.mx_step (w_eps w) c s (mixr_day p) = Ok (s', o)) in ST.
    exists s', (os ++ [o]). rewrite !map_app. cbn [map]. split; [exact (mx_snoc _ _ _ _ _ _ _ _ _ R ST)|].
    split; [apply Forall_app; split; [exact K|]; constructor; [|constructor]; split|].
    + cbn. apply Forall_map. eapply Forall_impl; [|exact AR]. intros x (_ & _ & Z & _). exact Z.
    + exact (sales_pos _ _ HS).
    + split; [exact (mx_ok_snoc _ _ _ _ _ _ _ R X EX)|]. split; [congruence|]. rewrite F, SN. reflexivity.
Qed.
(** ** Source *)
Lemma sr_snoc eps eg recipe c e : forall es s s1 os s2 o, SourceModel.sr_run eps eg recipe c s es = Ok (s1, os) -> SourceModel.sr_step eps eg recipe c s1 e = Ok (s2, o) ->
  SourceModel.sr_run eps eg recipe c s (es ++ [e]) = Ok (s2, os ++ [o]).
Proof.
  induction es as [|a es IH]; intros s s1 os s2 o H T; cbn [app SourceModel.sr_run] in *.
  - injection H as <- <-. rewrite T. reflexivity.
  - apply bind_ok in H as ([x p] & T1 & H). apply bind_ok in H as ([y os1] & R & H). injection H as <- <-. rewrite T1. cbn [bind].
    rewrite (IH _ _ _ _ _ R T). reflexivity.
Qed.
Lemma whole_ok : SourceSpec.filler_ok whole.
Proof. intros i q H. unfold whole. split; [repeat constructor; exact H|]. cbn. lra. Qed.
Lemma srce_line w t0 c s0 t id ps f : line w t0 (Srce c s0) t id ps f ->
  exists s os, SourceModel.sr_run (w_eps w) (w_eg w) (w_recipe w) c s0 (map srce_day ps) = Ok (s, os) /\ Forall SourceSpec.env_ok (map srce_day ps) /\
    f = Srce c s /\ map pg_sent ps = map (fun o => map snd (SourceModel.so_sent o)) os.
Proof.
  intros H. induction H as [id D G|t id id' ps f p H IH T GD PT SG PB HS HR AR ND ST].
  - exists s0, []. repeat split; constructor.
  - destruct IH as (s & os & R & K & -> & F). cbn [fstep] in ST. apply bind_ok in ST as ([s' o] & ST & Y). injection Y as NW SN.
    change (SourceModel.sr_step (w_eps w) (w_eg w) (w_recipe w) c s (srce_day p) = Ok (s', o)) in ST.
    exists s', (os ++ [o]). rewrite !map_app. cbn [map]. split; [exact (sr_snoc _ _ _ _ _ _ _ _ _ _ _ R ST)|].
    split; [apply Forall_app; split; [exact K|]; constructor; [|constructor]; split; [exact whole_ok|split; [exact whole_ok|]]|].
    + cbn [srce_day SourceModel.se_trades]. apply Forall_map. cbn [fst]. pose proof (sales_pos _ _ HS) as PO. rewrite Forall_map in PO. eapply Forall_impl; [|exact PO]. cbn. intros; lra.
    + split; [congruence|]. rewrite F, SN. reflexivity.
Qed.
(** ** Sink *)
Lemma sk_snoc eps eg recipe c e : forall es t s s1 os s2 o, SinkModel.sk_run eps eg recipe c t s es = Ok (s1, os) ->
  SinkModel.sk_step eps eg recipe c (t + Z.of_nat (List.length es)) s1 e = Ok (s2, o) -> SinkModel.sk_run eps eg recipe c t s (es ++ [e]) = Ok (s2, os ++ [o]).
Proof.
  induction es as [|a es IH]; intros t s s1 os s2 o H T; cbn [app SinkModel.sk_run] in *.
  - injection H as <- <-. cbn in T. rewrite Z.add_0_r in T. rewrite T. reflexivity.
  - apply bind_ok in H as ([x p] & T1 & H). apply bind_ok in H as ([y os1] & R & H). injection H as <- <-. rewrite T1. cbn [bind].
    rewrite (IH _ _ _ _ s2 o R); [reflexivity|]. cbn [List.length] in T. replace (t + 1 + Z.of_nat (List.length es))%Z with (t + Z.of_nat (S (List.length es)))%Z by lia. exact T.
Qed.
Lemma sk_asks_more eg recipe cfg g s s' r : SinkModel.sk_mat_requests eg recipe cfg g s = Ok (s', Some r) -> eg < SinkModel.mq_qty r.
Proof.
  unfold SinkModel.sk_mat_requests. intro H. apply bind_ok in H as (c & _ & H). destruct (Qltb eg _) eqn:E; [|discriminate].
  apply bind_ok in H as (items & _ & H). injection H as _ <-. apply Qltb_true. exact E.
Qed.
Lemma snk_line w t0 c s0 t id ps f : world_ok w -> line w t0 (Snk c s0) t id ps f ->
  exists s os, SinkModel.sk_run (w_eps w) (w_eg w) (w_recipe w) c t0 s0 (map snk_day ps) = Ok (s, os) /\ SinkSpec.rngs_ok (map snk_day ps) /\ SinkSpec.fair (map snk_day ps) os /\
    f = Snk c s /\ Forall (fun p => pg_sent p = []) ps.
Proof.
  intros W H. induction H as [id D G|t id id' ps f p H IH T GD PT SG PB HS HR AR ND ST].
  - exists s0, []. repeat split; constructor.
  - destruct IH as (s & os & R & K & X & -> & F). cbn [fstep] in ST. apply bind_ok in ST as ([s' o] & ST & Y). injection Y as NW SN.
    change (SinkModel.sk_step (w_eps w) (w_eg w) (w_recipe w) c t s (snk_day p) = Ok (s', o)) in ST. pose proof (line_time _ _ _ _ _ _ _ H) as TM.
    exists s', (os ++ [o]). rewrite !map_app. cbn [map]. split; [apply (sk_snoc _ _ _ _ _ _ _ _ _ _ _ _ R); rewrite map_length, <- TM; exact ST|].
    split; [apply Forall_app; split; [exact K|]; constructor; [exact SG|constructor]|].
    split; [apply Forall2_app; [exact X|]; constructor; [|constructor]|].
    + split.
      * split; [|constructor]. cbn. pose proof (got_ok _ _ _ AR) as GK. unfold mats_ok in GK. eapply Forall_impl; [|exact GK]. intros m M. apply M.
      * unfold SinkSpec.delivered. cbn [snk_day SinkModel.ke_mats SinkModel.ke_prods map]. pose proof (got_total _ _ _ AR) as GT. unfold qty_of in GT. rewrite GT. change (qsum []) with 0.
        cbn [publish] in PB. unfold SinkModel.sk_step in ST. cbn [snk_day SinkModel.ke_rng SinkModel.ke_rng2] in ST.
        apply bind_ok in ST as ([s1 d] & T1 & ST). rewrite T1 in PB. cbn [bind] in PB. apply bind_ok in ST as ([s2 mr] & T2 & ST). rewrite T2 in PB. cbn [bind] in PB. injection PB as PB.
        apply bind_ok in ST as (s3 & _ & ST). apply bind_ok in ST as (s4 & _ & ST). injection ST as _ <-. unfold SinkSpec.requested. cbn [SinkModel.ko_mat]. rewrite <- PB in HR.
        destruct mr as [r|].
        -- destruct (buys_one _ _ _ _ HR eq_refl eq_refl) as [E|L]; [|cbn [ak_limit] in L; lra]. rewrite E. change (total []) with 0.
           pose proof (sk_asks_more _ _ _ _ _ _ _ T2). destruct W as (_ & EG & _). lra.
        -- rewrite (buys_none _ _ HR eq_refl). cbn. lra.
    + split; [congruence|]. apply Forall_app. split; [exact F|]. constructor; [congruence|constructor].
Qed.

(** ** Lives *)
Lemma has_diary w t id fs : world_ok w -> reached w t id fs -> forall i f, nth_error fs i = Some f -> exists t0 f0 ps, diary w t0 t id fs i f0 ps.
Proof.
  intros W H. induction H as [id|t id fs g H IH D|t id a g b H IH|t id fs gs ds fs' sent H IH G O N]; intros i f E.
  - destruct i; discriminate.
  - destruct (Nat.lt_ge_cases i (List.length fs)) as [L|L].
    + rewrite nth_error_app1 in E by exact L. destruct (IH i f E) as (t0 & f0 & ps & X). exists t0, f0, ps. apply another_begun; assumption.
    + rewrite nth_error_app2 in E by exact L. destruct (i - List.length fs)%nat as [|k] eqn:K; [|destruct k; discriminate]. injection E as <-.
      assert (i = List.length fs) by lia. subst i. exists t, g, []. apply begun; assumption.
  - destruct (Nat.lt_ge_cases i (List.length a)) as [L|L].
    + destruct (IH i f) as (t0 & f0 & ps & X); [rewrite nth_error_app1 in E |- * by exact L; exact E|]. exists t0, f0, ps. exact (later_gone _ _ _ _ _ _ _ _ _ _ X L).
    + destruct (IH (S i) f) as (t0 & f0 & ps & X); [rewrite <- (nth_drop a g b i L); exact E|]. exists t0, f0, ps. exact (earlier_gone _ _ _ _ _ _ _ _ _ _ X L).
  - assert (LN : List.length fs' = List.length fs) by apply N. assert (X : nth_error fs' i <> None) by congruence. apply nth_error_Some in X. rewrite LN in X. apply nth_error_Some in X.
    destruct (nth_error fs i) as [g|] eqn:Eg; [|congruence]. destruct (IH i g Eg) as (t0 & f0 & ps & D).
    destruct (proj1 (never_stuck w t id fs gs W H G) i g Eg) as (n & PB). do 3 eexists. eapply continued; eassumption.
Qed.
Lemma conv_life w t0 t id fs i c s0 ps : world_ok w -> diary w t0 t id fs i (Conv c s0) ps ->
  exists s os, ConversionModel.cv_run (w_eps w) c ConversionModel.cv_empty (map (conv_day c) ps) = Ok (s, os) /\ mats_ok (ConversionSpec.cv_received (map (conv_day c) ps)) /\
    nth_error fs i = Some (Conv c s) /\ map pg_sent ps = map ConversionModel.vo_shipped os.
Proof. intros W D. destruct (diary_line _ _ _ _ _ _ _ _ W D) as (f & Nf & L). destruct (conv_line _ _ _ _ _ _ _ _ L) as (s & os & A & B & -> & C). exists s, os. auto. Qed.
Lemma stor_life w t0 t id fs i c s0 ps : world_ok w -> diary w t0 t id fs i (Stor c s0) ps ->
  exists s os, StorageModel.st_run (w_eps w) c StorageModel.st_empty (map stor_day ps) = Ok (s, os) /\ StorageSpec.st_history (map stor_day ps) /\ StorageSpec.st_cfg_ok c /\
    nth_error fs i = Some (Stor c s) /\ map pg_sent ps = map StorageModel.so_sold os.
Proof.
  intros W D. destruct (diary_line _ _ _ _ _ _ _ _ W D) as (f & Nf & L). destruct (stor_line _ _ _ _ _ _ _ _ L) as (s & os & A & B & _ & -> & C). pose proof (line_deployed _ _ _ _ _ _ _ L) as (CO & _).
  exists s, os. auto.
Qed.
Lemma mixr_life w t0 t id fs i c s0 ps : world_ok w -> diary w t0 t id fs i (Mixr c s0) ps ->
  exists s os, MixerSpec.mx_lived (w_eps w) c (map mixr_day ps) s os /\ MixerSpec.mx_sensible c /\ MixerSpec.mx_sane (map mixr_day ps) /\ MixerSpec.exchanges_ok (w_eps w) c s0 (map mixr_day ps) /\
    nth_error fs i = Some (Mixr c s) /\ map pg_sent ps = map MixerModel.xo_shipped os.
Proof.
  intros W D. destruct (diary_line _ _ _ _ _ _ _ _ W D) as (f & Nf & L). destruct (mixr_line _ _ _ _ _ _ _ _ W L) as (s & os & A & B & X & -> & C). pose proof (line_deployed _ _ _ _ _ _ _ L) as (SE & EN).
  exists s, os. split; [exists s0; auto|]. auto.
Qed.
Lemma srce_life w t0 t id fs i c s0 ps : world_ok w -> diary w t0 t id fs i (Srce c s0) ps ->
  exists s os, SourceSpec.sr_lived (w_eps w) (w_eg w) (w_recipe w) c (map srce_day ps) s os /\ Forall SourceSpec.env_ok (map srce_day ps) /\
    nth_error fs i = Some (Srce c s) /\ map pg_sent ps = map (fun o => map snd (SourceModel.so_sent o)) os.
Proof.
  intros W D. destruct (diary_line _ _ _ _ _ _ _ _ W D) as (f & Nf & L). destruct (srce_line _ _ _ _ _ _ _ _ L) as (s & os & A & B & -> & C). pose proof (line_deployed _ _ _ _ _ _ _ L) as (SE & EN).
  exists s, os. split; [exists s0; auto|]. auto.
Qed.
Lemma snk_life w t0 t id fs i c s0 ps : world_ok w -> diary w t0 t id fs i (Snk c s0) ps ->
  exists g s os, SinkSpec.sk_lived (w_eps w) (w_eg w) (w_recipe w) c g t0 (map snk_day ps) s os /\ SinkSpec.rngs_ok (map snk_day ps) /\ SinkSpec.fair (map snk_day ps) os /\
    nth_error fs i = Some (Snk c s) /\ Forall (fun p => pg_sent p = []) ps.
Proof.
  intros W D. destruct (diary_line _ _ _ _ _ _ _ _ W D) as (f & Nf & L). destruct (snk_line _ _ _ _ _ _ _ _ W L) as (s & os & A & B & X & -> & C). pose proof (line_deployed _ _ _ _ _ _ _ L) as (_ & _ & _ & _ & g & EN).
  exists g, s, os. split; [exists s0; auto|]. auto.
Qed.
