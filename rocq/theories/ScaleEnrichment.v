(** Enrichment on two scales (C126). *)
From Coq Require Import Lia Lqa.
From Verif Require Import Outcome KernelMaterial KernelResBuf KernelBuf KernelFacts KernelMass KernelBufFacts EnrichmentModel EnrichmentProofs
  DivisionSpec DivisionProofs DivisionComp DivisionSeparations DivisionConversion DivisionEnrichment ScaleSpec ScaleProofs.
Local Open Scope Q_scope.

Section Scale.
Variable k : Q.
Hypothesis K : 0 < k.
Variables eps eps' eg eg' : Q.
Hypothesis He : 0 <= eps.
Hypothesis E : times k eps eps'.
Hypothesis Eg : times k eg eg'.
Variable V : Q -> Q.
Hypothesis HV : forall x y, x == y -> V x == V y.
Variable aw : Z -> Q.
Variable recipe : string -> option comp.
Variables cfg cfg' : en_cfg.
Hypothesis C : en_cfg_more k cfg cfg'.
Hypothesis Rc : forall c, recipe (ec_feed_recipe cfg) = Some c -> comp_ok c /\ 0 < csum c.

Definition feed2 (b b' : buf) : Prop := more_store k b b' /\ solid (b_items b).
Definition st2 (s s' : en_state) : Prop := en_more k s s' /\ solid (b_items (es_inv s)).
Lemma assay_more m m' : more k m m' -> assay m' == assay m.
Proof.
  intro M. pose proof (more_each k m m' u235 M) as A. pose proof (more_each k m m' u238 M) as B. unfold assay. cbv zeta. rewrite (t_ltb k K _ _ _ _ (t_0 k) (t_plus k _ _ _ _ A B)). destruct (Qltb 0 _); [|reflexivity].
  apply (t_ratio k K); auto. apply t_plus; auto.
Qed.
Lemma norm_get q c n : ~ csum c == 0 -> cget n (cnorm q c) == q * cget n (cnorm 1 c).
Proof. intro N. unfold cnorm. destruct (Qeq_bool (csum c) 0) eqn:B; [apply Qeq_bool_iff in B; contradiction|]. rewrite !cget_scale. field. exact N. Qed.
Lemma frac_more c c' n : mix k c c' -> ~ csum c == 0 -> cget n (cnorm 1 c') == cget n (cnorm 1 c).
Proof.
  intros M N. assert (T : times k 1 k) by (unfold times; lra). pose proof (mix_norm k _ _ _ _ M T) as X. pose proof (cmore_sum k _ _ X) as Sm. unfold times in Sm. pose proof (norm_sum 1 c N) as S1. rewrite S1 in Sm.
  assert (N' : ~ csum c' == 0). { intro Z. unfold cnorm in Sm at 1. destruct (Qeq_bool (csum c') 0) eqn:B; [lra|]. apply Qeq_bool_neq in B. contradiction. }
  specialize (X n). rewrite (norm_get k c' n N') in X. apply (Qmult_inj_l _ _ k); [lra|exact X].
Qed.
Lemma u_frac_more m m' : more k m m' -> ~ csum (m_comp m) == 0 -> u_frac m' == u_frac m.
Proof. intros [_ M] N. unfold u_frac. rewrite (frac_more _ _ u235 M N), (frac_more _ _ u238 M N). reflexivity. Qed.
Lemma solid_same b : solid (b_items b) -> same_feed b b. Proof. intro S. split; [reflexivity|]. split; [split; [reflexivity|intro; reflexivity]|]. auto. Qed.
Lemma like_more {A B} (R T : A -> B -> Prop) x y : likewise R x y -> (forall a b, x = Ok a -> y = Ok b -> R a b -> T a b) -> likewise T x y.
Proof. intros H F. destruct x, y; cbn in *; auto. Qed.
Definition blend2 (x y : mat * buf) : Prop := more k (fst x) (fst y) /\ feed2 (snd x) (snd y) /\ ~ csum (m_comp (fst x)) == 0.
Lemma real_sum m : mat_ok m -> 0 < m_qty m -> ~ csum (m_comp m) == 0.
Proof. intros O P. destruct O as (_ & _ & [O|O]); lra. Qed.
Lemma blend_more b b' : feed2 b b' -> likewise blend2 (blend eps b) (blend eps' b').
Proof.
  intros [F S]. apply (like_more (fun x y => more k (fst x) (fst y) /\ more_store k (snd x) (snd y))).
  - unfold blend. eapply like_bind; [apply ms_pop_tol; eauto using ms_qty|]. intros [m b1] [m' b1'] [M B]. cbn [fst snd] in *. eapply like_bind; [apply ms_push; eauto|]. intros b2 b2' B2. split; auto.
  - intros [m r] [m' r'] H _ [M B]. destruct (blend_same _ _ _ _ _ He (solid_same b S) H) as (m2 & r2 & H2 & A & O & _ & P & Sf & I1 & _). split; [exact M|]. cbn [fst snd] in *. split; [|apply real_sum; auto]. split; [exact B|]. apply Sf.
Qed.
Definition fa2 (x y : Q * buf) : Prop := fst y == fst x /\ feed2 (snd x) (snd y).
Lemma fa_more b b' : feed2 b b' -> likewise fa2 (feed_assay eps b) (feed_assay eps' b').
Proof.
  intros F. unfold feed_assay. pose proof F as [[_ I] _]. destruct (b_items b) as [|x l] eqn:X, (b_items b') as [|x' l'] eqn:X'; [|inversion I|inversion I|].
  - split; [reflexivity|exact F].
  - eapply like_bind; [apply blend_more, F|]. intros [m b1] [m' b1'] (M & B & _). split; cbn; [apply assay_more, M|exact B].
Qed.
Lemma fq_more q q' a a' : times k q q' -> as_feed a' == as_feed a -> as_product a' == as_product a -> as_tails a' == as_tails a -> agree (times k) (feed_qty q a) (feed_qty q' a') /\ agree (times k) (tails_qty q a) (tails_qty q' a').
Proof.
  intros Hq F P T. unfold feed_qty, tails_qty. assert (X : Qeq_bool (as_feed a' - as_tails a') 0 = Qeq_bool (as_feed a - as_tails a) 0).
  { destruct (Qeq_bool (as_feed a - as_tails a) 0) eqn:B; [apply Qeq_bool_iff in B; apply Qeq_bool_iff; rewrite F, T; exact B|]. apply Qeq_bool_neq in B. apply Bool.not_true_is_false. intro Z. apply Qeq_bool_iff in Z. apply B. rewrite <- F, <- T. exact Z. }
  rewrite X. destruct (Qeq_bool (as_feed a - as_tails a) 0); [split; exact I|]. split; cbn [agree]; apply t_multr; auto; rewrite F, P, T; reflexivity.
Qed.
Lemma swu_more q q' a a' : times k q q' -> as_feed a' == as_feed a -> as_product a' == as_product a -> as_tails a' == as_tails a -> agree (times k) (swu_required V q a) (swu_required V q' a').
Proof.
  intros Hq F P T. destruct (fq_more q q' a a' Hq F P T) as [A B]. unfold swu_required. destruct (feed_qty q a), (feed_qty q' a'); try contradiction; destruct (tails_qty q a), (tails_qty q' a'); try contradiction; try exact I. cbn [agree] in *.
  apply t_minus; [apply t_plus|]; apply t_multr; auto; symmetry; apply HV; auto.
Qed.
Lemma oplus_more a a' x x' : agree (times k) a a' -> times k x x' -> likewise (agree (times k)) (oplus a x) (oplus a' x').
Proof. intros A X. destruct a, a'; cbn in *; try contradiction; [apply t_plus; auto|reflexivity]. Qed.
Lemma almost_more a a' b b' : times k a a' -> times k b b' -> almost_eq eg' a' b' = almost_eq eg a b.
Proof. intros A B. unfold almost_eq. apply (t_ltb k K); auto. apply t_abs; auto. apply t_minus; auto. Qed.
Definition tr2 (x y : en_state * mat * en_record) : Prop := st2 (fst (fst x)) (fst (fst y)) /\ more k (snd (fst x)) (snd (fst y)) /\ en_rec_more k (snd x) (snd y).
Lemma enrich_more s s' off off' q q' : st2 s s' -> more k off off' -> times k q q' -> likewise tr2 (en_enrich eps eg V cfg s off q) (en_enrich eps' eg' V cfg' s' off' q').
Proof.
  intros [(Si & St & Sw & Is & If) So] O Hq. unfold en_enrich. eapply like_bind; [apply fa_more; split; eauto|]. intros [fa b0] [fa' b0'] [Fa F0]. cbn [fst snd] in *. cbv zeta.
  eapply like_bind; [apply blend_more, F0|]. intros [nat0 b1] [nat0' b1'] (M & F1 & Nz). cbn [fst snd] in *. set (a := {| as_feed := fa |}). set (a' := {| as_feed := fa' |}).
  pose proof C as (_ & _ & _ & _ & Ta & _). assert (Tq : as_tails a' == as_tails a) by (cbn; rewrite Ta; reflexivity).
  pose proof (swu_more q q' a a' Hq Fa (assay_more _ _ O) Tq) as Es. destruct (fq_more q q' a a' Hq Fa (assay_more _ _ O) Tq) as [Ef _].
  destruct (swu_required V q a) as [swu|], (swu_required V q' a') as [swu'|]; try contradiction; [|reflexivity]. destruct (feed_qty q a) as [fq|], (feed_qty q' a') as [fq'|]; try contradiction; [|reflexivity]. cbn [agree] in *.
  pose proof (u_frac_more _ _ M Nz) as Eu. replace (Qeq_bool (u_frac nat0') 0) with (Qeq_bool (u_frac nat0) 0) by (apply qeqb_eq; [symmetry; exact Eu|reflexivity]). destruct (Qeq_bool (u_frac nat0) 0); [reflexivity|].
  assert (Ex : times k (fq / u_frac nat0) (fq' / u_frac nat0')) by (apply t_div; auto; symmetry; exact Eu). destruct F1 as [F1 S1]. rewrite (almost_more _ _ _ _ Ex (ms_qty k _ _ F1)).
  eapply (like_bind (fun x y => more k (fst x) (fst y) /\ feed2 (snd x) (snd y))).
  { destruct (almost_eq eg _ _).
    - pose proof (more_squash k K _ _ (proj2 F1)) as Q. destruct (squash (b_items b1)), (squash (b_items b1')); cbn in *; try contradiction; try reflexivity. split; cbn; [exact Q|]. split; [split; [apply F1|constructor]|constructor].
    - pose proof (ms_pop_tol k K b1 b1' _ _ _ _ F1 Ex E) as Q. destruct (b_pop_tol b1 (fq / u_frac nat0) eps) as [[r b2]| | |] eqn:P, (b_pop_tol b1' _ eps'); cbn in *; try contradiction; try reflexivity. destruct Q as [Q1 Q2]. split; [exact Q1|]. split; [exact Q2|].
      unfold b_pop_tol in P. apply bind_ok in P as ([m0 r0] & P & X). injection X as _ <-. cbn. eapply pop_less; eauto. }
  intros [r b2] [r' b2'] [R F2]. cbn [fst snd] in *. eapply like_bind; [apply more_extract; eauto; apply O|]. intros [resp rest] [resp' rest'] [P1 P2]. cbn [fst snd] in *.
  eapply like_bind; [apply ms_push; eauto|]. intros t t' T. eapply like_bind; [apply oplus_more; [exact Sw|]|].
  { unfold times in *. lra. }
  intros cur cur' Cu. eapply like_bind; [apply oplus_more; [exact Is|exact Es]|]. intros isw isw' Iw. eapply like_bind; [apply oplus_more; [exact If|exact Ex]|]. intros ife ife' Ie. cbn [likewise].
  split; cbn; [|split; [exact P1|split; auto]]. destruct F2 as [F2 S2]. split; [|exact S2]. repeat split; cbn; auto; try apply F2; try apply T.
Qed.
Definition tl2 (x y : en_state * mat * list en_record) : Prop := st2 (fst (fst x)) (fst (fst y)) /\ more k (snd (fst x)) (snd (fst y)) /\ Forall2 (en_rec_more k) (snd x) (snd y).
Lemma trade1_more s s' t t' : st2 s s' -> et_more k t t' -> likewise tl2 (en_trade1 eps eg V cfg s t) (en_trade1 eps' eg' V cfg' s' t').
Proof.
  intros H (Tc & To & Ta). unfold en_trade1. pose proof C as (_ & _ & _ & Tl & _). rewrite <- Tc, <- Tl. destruct (String.eqb _ _).
  - destruct H as [(Si & St & Sw & Is & If) So]. eapply like_bind; [apply ms_pop_tol; eauto; apply t_min; auto; apply ms_qty, St|]. intros [m b] [m' b'] [M B]. cbn [fst snd] in *. cbn. split; cbn; [|split; [exact M|constructor]]. split; [|exact So]. repeat split; cbn; auto; try apply Si; try apply B.
  - eapply like_bind; [apply enrich_more; eauto|]. intros [[s1 m] r] [[s1' m'] r'] (H1 & M & R). cbn in *. split; cbn; auto.
Qed.
Definition ts2 (x y : en_state * list mat * list en_record) : Prop := st2 (fst (fst x)) (fst (fst y)) /\ Forall2 (more k) (snd (fst x)) (snd (fst y)) /\ Forall2 (en_rec_more k) (snd x) (snd y).
Lemma trade_loop_more ts ts' : Forall2 (et_more k) ts ts' -> forall s s', st2 s s' -> likewise ts2 (en_trade_loop eps eg V cfg s ts) (en_trade_loop eps' eg' V cfg' s' ts').
Proof.
  intro F. induction F as [|t t' l l' T F IH]; intros s s' H; cbn [en_trade_loop]; [split; [exact H|split; constructor]|]. eapply like_bind; [apply trade1_more; eauto|]. intros [[s1 m] r] [[s1' m'] r'] (H1 & M & R). cbn [fst snd] in *.
  eapply like_bind; [apply IH, H1|]. intros [[s2 ms] rs] [[s2' ms'] rs'] (H2 & Ms & Rs). cbn in *. split; cbn; [exact H2|]. split; [constructor; auto|apply Forall2_app; auto].
Qed.
Lemma neg_more a a' : times k a a' -> is_negative eg' a' = is_negative eg a.
Proof. intro A. unfold is_negative. apply (t_ltb k K); auto. unfold times in *. lra. Qed.
Lemma trades_more ts ts' s s' : Forall2 (et_more k) ts ts' -> st2 s s' -> likewise ts2 (en_trades eps eg V cfg ts s) (en_trades eps' eg' V cfg' ts' s').
Proof.
  intros F [(Si & St & Sw & Is & If) So]. unfold en_trades. cbv zeta. eapply like_bind; [apply trade_loop_more; [exact F|]|].
  { split; [|exact So]. repeat split; cbn; auto; try apply Si; try apply St; apply t_0. }
  intros [[s1 ms] rs] [[s1' ms'] rs'] (H1 & M & R). cbn [fst snd] in *. pose proof H1 as [(_ & St1 & Sw1 & _) _]. rewrite (neg_more _ _ (ms_qty k _ _ St1)). destruct (is_negative eg (b_qty _)); [reflexivity|].
  destruct (es_swu s1) as [c|], (es_swu s1') as [c'|]; try contradiction; [|reflexivity]. cbn [agree] in Sw1. rewrite (neg_more _ _ Sw1). destruct (is_negative eg c); [reflexivity|]. split; auto.
Qed.
Definition pm (m m' : mat) : Prop := more_of k m m' /\ ~ csum (m_comp m) == 0 /\ settled eg eg' cfg m.
Lemma of_more m m' : more_of k m m' -> ~ csum (m_comp m) == 0 -> more k m m'.
Proof. intros [Cm Q] N. split; [exact Q|]. rewrite <- Cm. apply mix_refl; auto. Qed.
Lemma product_more ms ms' : Forall2 pm ms ms' -> forall j, Forall2 (fun i j => fst i = fst j /\ more_of k (snd i) (snd j)) (product_offers aw eg cfg j ms) (product_offers aw eg' cfg' j ms').
Proof.
  intro F. induction F as [|m m' l l' (M & N & W) F IH]; intro j; cbn [product_offers]; [constructor|]. cbv zeta. pose proof C as (_ & _ & _ & _ & Ta & Me & _).
  assert (Vr : valid_req aw cfg' (m_comp m') = valid_req aw cfg (m_comp m)) by (unfold valid_req; rewrite <- (proj1 M), <- Ta; reflexivity).
  assert (A : assay m' == assay m) by (apply assay_more, of_more; auto).
  assert (X : (Qltb (assay m') (ec_max_enrich cfg') || almost_eq eg' (assay m') (ec_max_enrich cfg'))%bool = (Qltb (assay m) (ec_max_enrich cfg) || almost_eq eg (assay m) (ec_max_enrich cfg))%bool).
  { rewrite <- Me. destruct W as [W|[W1 W2]].
    - rewrite (proj2 (Qltb_true (assay m') _)), (proj2 (Qltb_true (assay m) _)) by lra. reflexivity.
    - assert (P : forall a t, a == assay m -> ec_max_enrich cfg + t <= assay m -> almost_eq t a (ec_max_enrich cfg) = false).
      { intros a t Ea L. unfold almost_eq. apply Qltb_false. rewrite Ea. eapply Qle_trans; [|apply Qle_Qabs]. lra. }
      rewrite (P _ _ A W2), (P _ _ (Qeq_refl _) W1). rewrite !Bool.orb_false_r. apply qltb_eq; [exact A|reflexivity]. }
  rewrite Vr, X. destruct (_ && _)%bool; [|apply IH]. constructor; [|apply IH]. split; [reflexivity|]. cbn. split; [cbn; rewrite (proj1 M); reflexivity|apply M].
Qed.
Lemma bids_more tr tr' pr pr' s s' : Forall2 (more k) tr tr' -> Forall2 pm pr pr' -> st2 s s' -> likewise (fun x y => st2 (fst x) (fst y) /\ en_bids_more k (snd x) (snd y)) (en_get_bids eps eg aw cfg tr pr s) (en_get_bids eps' eg' aw cfg' tr' pr' s').
Proof.
  intros Ft Fp H. pose proof H as [(Si & St & Sw & Is & If) So]. pose proof (ms_qty k _ _ St) as Qt. pose proof (ms_qty k _ _ Si) as Qi. unfold en_get_bids. cbv zeta.
  set (tb := match tr with [] => _ | _ => _ end). set (tb' := match tr' with [] => _ | _ => _ end).
  assert (T : agree (fun a b => Forall2 (more_for k) (tb_offers a) (tb_offers b) /\ times k (tb_limit a) (tb_limit b)) tb tb').
  { unfold tb, tb'. rewrite <- (forall2_len _ _ _ Ft), (t_ltb k K _ _ _ _ (t_0 k) Qt). destruct Ft as [|x x' l l' _ Ft]; [exact I|]. destruct (Qltb 0 _); [|exact I]. split; [|exact Qt]. cbn [tb_offers]. eapply (forall2_flat eq); [apply forall2_same; reflexivity|]. intros j ? <-. eapply forall2_map; [apply (proj2 St)|]. intros a b A. split; auto. }
  pose proof (product_more _ _ Fp 0%nat) as Po. rewrite (t_ltb k K _ _ _ _ (t_0 k) Qi). destruct Fp as [|x x' l l' Hx Fp].
  - split; cbn [fst snd]; [exact H|]. split; [exact Qt|]. split; [exact Qi|]. split; [exact T|exact I].
  - destruct (Qltb 0 (b_qty (es_inv s))).
    + eapply like_bind; [apply fa_more; split; eauto|]. intros [a1 b1] [a1' b1'] [_ F1]. cbn [fst snd] in *. eapply like_bind; [apply fa_more, F1|]. intros [a2 b2] [a2' b2'] [A2 F2]. cbn [fst snd] in *. cbn [likewise]. split; cbn [fst snd].
      * split; [|apply F2]. repeat split; cbn; auto; try apply F2; try apply St.
      * split; [exact Qt|]. split; [exact Qi|]. split; [exact T|]. cbn [eb_product agree]. split; [exact Po|]. cbn [pb_feed pb_swu pb_natu]. split; [symmetry; exact A2|]. split; [apply C|apply ms_qty, F2].
    + split; cbn [fst snd]; [exact H|]. split; [exact Qt|]. split; [exact Qi|]. split; [exact T|exact I].
Qed.
Lemma accept_more ms ms' s s' : Forall2 (fun m m' => more k m m' /\ real m) ms ms' -> st2 s s' -> likewise st2 (en_accept eps ms s) (en_accept eps' ms' s').
Proof.
  intros F [(Si & St & Sw & Is & If) So]. unfold en_accept. eapply (like_bind feed2).
  - eapply like_loop; [|exact F|split; auto]. intros b b' m m' [B S] [M R]. apply (like_more (more_store k)); [apply ms_push; auto|]. intros x y X _ G. split; [exact G|]. unfold b_push in X. destruct (b_fits _ _ _); [|discriminate]. injection X as <-. cbn. apply Forall_app. split; auto.
  - intros b b' [B S]. split; [|exact S]. repeat split; cbn; auto; try apply B; try apply St.
Qed.
Lemma requests_more s s' : st2 s s' -> likewise (agree (more_of k)) (en_requests eps recipe cfg s) (en_requests eps' recipe cfg' s').
Proof.
  intros [(Si & _) _]. unfold en_requests. cbv zeta. pose proof C as (_ & Fr & _ & _ & _ & _ & _ & _ & Mf & _). assert (Q : times k (Qmax 0 (ec_max_feed cfg - b_qty (es_inv s))) (Qmax 0 (ec_max_feed cfg' - b_qty (es_inv s')))).
  { apply t_max; auto; [apply t_0|]. apply t_minus; auto. apply ms_qty, Si. }
  rewrite <- Fr. eapply (like_bind eq); [apply like_eq; reflexivity|]. intros c ? <-. rewrite (t_ltb k K _ _ _ _ E Q). destruct (Qltb eps _); [|exact I]. split; [reflexivity|exact Q].
Qed.
Lemma en_step_more s s' e e' : st2 s s' -> en_env_more k eg eg' cfg e e' -> likewise (fun x y => st2 (fst x) (fst y) /\ en_out_more k (snd x) (snd y)) (en_step eps eg V aw recipe cfg s e) (en_step eps' eg' V aw recipe cfg' s' e').
Proof.
  intros H (Ft & Fp & Fs & Fr). unfold en_step. cbv zeta. assert (H1 : st2 (en_tick cfg s) (en_tick cfg' s')).
  { destruct H as [(Si & St & Sw & Is & If) So]. split; [|exact So]. repeat split; cbn; auto; try apply Si; try apply St. apply C. }
  eapply like_bind; [apply requests_more, H1|]. intros rq rq' Rq. eapply like_bind; [apply bids_more; eauto|]. intros [s2 b] [s2' b'] [H2 B]. cbn [fst snd] in *. eapply (like_bind ts2).
  - destruct Fs as [|t t' l l' T Fs]; [split; [exact H2|split; constructor]|]. apply trades_more; auto.
  - intros [[s3 ms] rs] [[s3' ms'] rs'] (H3 & M & R). cbn [fst snd] in *. eapply like_bind; [apply accept_more; eauto|]. intros s4 s4' H4. cbn [likewise fst snd]. split; [exact H4|]. destruct H4 as [(_ & _ & _ & I4 & F4) _]. repeat split; cbn; auto; try apply B.
Qed.
Lemma en_run_more es es' : Forall2 (en_env_more k eg eg' cfg) es es' -> forall s s', st2 s s' -> likewise (fun x y => st2 (fst x) (fst y) /\ Forall2 (en_out_more k) (snd x) (snd y)) (en_run eps eg V aw recipe cfg s es) (en_run eps' eg' V aw recipe cfg' s' es').
Proof.
  intro F. induction F as [|e e' l l' He1 F IH]; intros s s' H; cbn [en_run]; [split; [exact H|constructor]|]. eapply like_bind; [apply en_step_more; eauto|]. intros [s1 o] [s1' o'] [H1 O]. cbn [fst snd] in *. eapply like_bind; [apply IH, H1|]. intros [s2 os] [s2' os'] [H2 Os]. cbn in *. split; auto.
Qed.
Lemma en_build_more : likewise st2 (en_build eps recipe cfg) (en_build eps' recipe cfg').
Proof.
  pose proof C as (_ & Fr & _ & _ & _ & _ & _ & Fi & Mf & _). assert (N : st2 (en_new cfg) (en_new cfg')) by (split; [|constructor]; repeat split; cbn; auto).
  unfold en_build. cbv zeta. rewrite <- Fr, (t_ltb k K _ _ _ _ (t_0 k) Fi). destruct (Qltb 0 (ec_initial_feed cfg)) eqn:P; [|exact N]. apply Qltb_true in P. unfold en_recipe. pose proof Rc as Rd. destruct (recipe (ec_feed_recipe cfg)) as [c|] eqn:X; [|reflexivity]. cbn [bind].
  destruct (Rd _ eq_refl) as [Oc Pc]. destruct N as [(Ni & Nt & Nr) _].
  assert (M : more k (Mat 0 (ec_initial_feed cfg) c) (Mat 0 (ec_initial_feed cfg') c)) by (split; [exact Fi|]; cbn; apply mix_refl; auto; lra).
  eapply like_bind. { apply (like_more (more_store k)); [apply ms_push; [exact K|exact E|exact Ni|exact M]|]. intros a b Ha Hb G. exact (conj Ha (conj Hb G)). }
  intros b b' (Hb & _ & G). split; [split; [exact G|split; [exact Nt|exact Nr]]|]. cbn. unfold b_push in Hb. destruct (b_fits _ _ _); [|discriminate]. injection Hb as <-. cbn. constructor; [|constructor]. split; [|exact P]. split; [cbn; lra|]. split; [exact Oc|]. left. exact Pc.
Qed.
End Scale.
