(** Separations on two scales (C126). *)
From Coq Require Import Lia Lqa.
From Verif Require Import Outcome KernelMaterial KernelResBuf KernelBuf KernelFacts KernelMass KernelBufFacts SeparationsModel SeparationsProofs DivisionSpec DivisionProofs DivisionComp DivisionSeparations ScaleSpec ScaleProofs ScaleSimple.
Local Open Scope Q_scope.

Section Scale.
Variable k : Q.
Hypothesis K : 0 < k.
Notation mqty := (more_qty k).
Notation stream2 := (fun x y => st_name x = st_name y /\ times k (st_cap x) (st_cap y) /\ st_effs x = st_effs y).
Notation streams2 := (Forall2 (more_kept k)).
Lemma kept_find bm bm' n : streams2 bm bm' -> agree (more_store k) (bm_find n bm) (bm_find n bm').
Proof. induction 1 as [|[a b] [a' b'] l l' [E S] F IH]; [exact I|]. cbn [fst snd bm_find] in *. subst a'. destruct (String.eqb a n); [exact S|exact IH]. Qed.
Lemma kept_get bm bm' n : streams2 bm bm' -> more_store k (bm_get n bm) (bm_get n bm').
Proof. intro H. apply (kept_find _ _ n) in H. unfold bm_get. destruct (bm_find n bm), (bm_find n bm'); try contradiction; [exact H|apply ms_new]. Qed.
Lemma kept_set bm bm' n b b' : streams2 bm bm' -> more_store k b b' -> streams2 (bm_set n b bm) (bm_set n b' bm').
Proof.
  intros H S. induction H as [|[a x] [a' x'] l l' [E T] F IH]; [constructor; [split; auto|constructor]|]. cbn [fst snd bm_set] in *. subst a'. destruct (String.eqb a n); constructor; auto; split; auto.
Qed.
Lemma sp_new_more c c' : sp_cfg_more k c c' -> sp_more k (sp_new c) (sp_new c').
Proof. intros (_ & _ & _ & F & _ & _ & L & _). repeat split; cbn; auto. Qed.
Lemma effs_more l l' : Forall2 stream2 l l' -> flat_map st_effs l = flat_map st_effs l'.
Proof. induction 1 as [|x y l l' (_ & _ & E) F IH]; cbn; [reflexivity|]. rewrite E, IH. reflexivity. Qed.
Lemma sp_enter_more eps eps' c c' s s' : times k eps eps' -> sp_cfg_more k c c' -> sp_more k s s' ->
  likewise (fun x y => sp_more k (fst x) (fst y) /\ snd x = snd y) (sp_enter eps c s) (sp_enter eps' c' s').
Proof.
  intros E (Cc & Cp & _ & _ & _ & _ & _ & St & _) (F & L & B). unfold sp_enter. eapply (like_bind streams2).
  - eapply like_loop; [|exact St|exact B]. intros b b' x y Hb (N & Cap & _). rewrite (t_leb k K 0 0 _ _ (t_0 k) Cap). destruct (Qle_bool 0 (st_cap x)); [|exact Hb]. rewrite <- N. eapply (like_bind (more_store k)).
    + pose proof (kept_get _ _ (st_name x) Hb) as G. unfold set_cap. rewrite (t_ltb k K _ _ _ _ E (t_minus k _ _ _ _ (ms_qty k _ _ G) Cap)). destruct (Qltb eps _); [reflexivity|]. split; [exact Cap|apply G].
    + intros z z' Z. apply kept_set; auto.
  - intros b b' Hb. cbv zeta. rewrite <- (effs_more _ _ St), <- Cc, <- Cp. destruct (existsb _ _); [reflexivity|]. cbn. repeat split; auto; try apply F; try apply L.
Qed.
Lemma sep_more effs m m' : more k m m' -> likewise (fun x y => times k (m_qty x) (m_qty y) /\ cmore k (m_comp x) (m_comp y)) (sep_material effs m) (sep_material effs m').
Proof.
  intro A. unfold sep_material. fold (sepcomp effs (ccanon (cnorm (m_qty m) (m_comp m)))). fold (sepcomp effs (ccanon (cnorm (m_qty m') (m_comp m')))).
  set (c := sepcomp effs (ccanon (cnorm (m_qty m) (m_comp m)))) in *. set (c' := sepcomp effs (ccanon (cnorm (m_qty m') (m_comp m')))). cbv zeta.
  assert (C : cmore k c c') by (intro n; unfold c, c'; rewrite !cget_sepcomp, !cget_ccanon, (more_norm k _ _ A n); destruct (eff_for effs n); ring).
  assert (ND : NoDup (map fst c)) by apply sepcomp_nodup, ccanon_nodup. assert (ND' : NoDup (map fst c')) by apply sepcomp_nodup, ccanon_nodup.
  assert (N : all_nonneg c' = all_nonneg c).
  { destruct (all_nonneg c) eqn:X.
    - apply (nodup_nonneg c' ND'). intro n. rewrite (C n). apply Qmult_le_0_compat; [lra|]. apply (proj1 (nodup_nonneg c ND) X).
    - destruct (all_nonneg c') eqn:Y; [|reflexivity]. rewrite <- X. symmetry. apply (nodup_nonneg c ND). intro n. pose proof (proj1 (nodup_nonneg c' ND') Y n) as P. rewrite (C n) in P.
      destruct (Qlt_le_dec (cget n c) 0) as [L|L]; [|exact L]. assert (k * cget n c < k * 0) by (apply Qmult_lt_l; auto). lra. }
  rewrite N. destruct (all_nonneg c); [|reflexivity]. cbn. split; [apply cmore_sum, C|exact C].
Qed.
Definition staged2 (x y : string * mat) : Prop := fst x = fst y /\ times k (m_qty (snd x)) (m_qty (snd y)) /\ cmore k (m_comp (snd x)) (m_comp (snd y)).
Lemma stage_more s s' m m' x y z z' : streams2 (ps_streams s) (ps_streams s') -> more k m m' -> Forall2 staged2 (fst x) (fst y) -> snd x == snd y -> stream2 z z' ->
  likewise (fun a b => Forall2 staged2 (fst a) (fst b) /\ snd a == snd b) (stage_one s m x z) (stage_one s' m' y z').
Proof.
  intros B M X Y (N & _ & Ef). destruct x as [st q], y as [st' q']. cbn [fst snd] in *. unfold stage_one. rewrite <- Ef, <- N. eapply like_bind; [apply sep_more, M|]. intros a b [Qa Ca]. cbv zeta.
  pose proof (ms_space k K _ _ (kept_get _ _ (st_name z) B)) as Sp. cbn. split; cbn; [apply Forall2_app; [exact X|]; constructor; [|constructor]; repeat split; auto|].
  destruct (b_space (bm_get (st_name z) (ps_streams s))) as [sp|], (b_space (bm_get (st_name z) (ps_streams s'))) as [sp'|]; cbn in Sp; try contradiction; [|exact Y].
  rewrite (t_ltb k K 0 0 _ _ (t_0 k) Qa). destruct (Qltb 0 (m_qty a)); [|exact Y]. pose proof (t_ratio k K _ _ _ _ Sp Qa) as Rt. rewrite <- (qltb_eq (sp / m_qty a) (sp' / m_qty b) q q') by (auto; symmetry; auto).
  destruct (Qltb (sp / m_qty a) q); [symmetry; exact Rt|exact Y].
Qed.
Definition work2 (x y : mat * bmap * list (string * Q) * list (string * Q)) : Prop :=
  more k (fst (fst (fst x))) (fst (fst (fst y))) /\ streams2 (snd (fst (fst x))) (snd (fst (fst y))) /\ Forall2 (more_named k) (snd (fst x)) (snd (fst y)) /\ Forall2 (more_named k) (snd x) (snd y).
Lemma extract_more eps eps' f f' x y z z' : times k eps eps' -> f == f' -> work2 x y -> staged2 z z' -> likewise work2 (extract_one eps f x z) (extract_one eps' f' y z').
Proof.
  intros E Ef W (N & Qz & Cz). destruct x as [[[m b] l] r], y as [[[m' b'] l'] r'], z as [n a], z' as [n' a']. cbn [fst snd] in *. destruct W as (M & B & L & R). cbn [fst snd] in *. subst n'. unfold extract_one.
  eapply (like_bind (fun x y => more k (fst (fst x)) (fst (fst y)) /\ streams2 (snd (fst x)) (snd (fst y)) /\ Forall2 (more_named k) (snd x) (snd y))).
  - rewrite (t_ltb k K 0 0 _ _ (t_0 k) Qz). destruct (Qltb 0 (m_qty a)); [|repeat split; auto; apply M]. cbv zeta. rewrite (t_ltb k K _ _ _ _ (proj1 M) Qz).
    assert (Qq : times k (if Qltb (m_qty m) (m_qty a) then m_qty m else m_qty a) (if Qltb (m_qty m) (m_qty a) then m_qty m' else m_qty a')) by (destruct (Qltb (m_qty m) (m_qty a)); [apply M|exact Qz]).
    pose proof (t_multr k _ _ _ _ Ef Qq) as Qf. eapply like_bind; [apply more_extract; [exact K|exact E|exact M|apply cmore_mix; [exact K|exact Cz]|exact Qf]|]. intros [o rst] [o' rst'] [O Rs]. cbn [fst snd] in *.
    eapply like_bind; [apply ms_push; [exact K|exact E|apply kept_get, B|exact O]|]. intros s1 s1' S1. cbn. split; [exact Rs|]. split; [apply kept_set; auto|]. apply Forall2_app; [exact L|]. repeat constructor; auto.
  - intros [[m1 b1] l1] [[m1' b1'] l1'] (M1 & B1 & L1). cbn in *. pose proof (kept_get _ _ n B1) as G. split; [exact M1|]. split; [apply kept_set; auto|]. split; [exact L1|]. apply Forall2_app; [exact R|]. repeat constructor. cbn. apply ms_qty, G.
Qed.
Lemma sp_tick_more eps eps' c c' s s' : times k eps eps' -> sp_cfg_more k c c' -> sp_more k s s' ->
  likewise (fun x y => sp_more k (fst x) (fst y) /\ agree (sp_log_more k) (snd x) (snd y)) (sp_tick eps c s) (sp_tick eps' c' s').
Proof.
  intros E (_ & _ & _ & _ & Th & Lc & _ & St & _) H. pose proof H as (F & L & B). unfold sp_tick. pose proof (proj2 F) as Fi. pose proof (ms_qty k _ _ F) as Fq.
  destruct (b_items (ps_feed s)) as [|i0 l0], (b_items (ps_feed s')) as [|i0' l0']; [split; [exact H|exact I]|inversion Fi|inversion Fi|]. clear Fi. cbv zeta.
  eapply like_bind; [apply ms_pop_tol; [exact K|exact F|apply t_min; eauto|exact E]|]. intros [m f] [m' f'] [M F1]. cbn [fst snd] in *.
  eapply (like_bind (fun a b => Forall2 staged2 (fst a) (fst b) /\ snd a == snd b)).
  { eapply like_loop; [|exact St|split; [constructor|reflexivity]]. intros a b x y [A A2] X. apply stage_more; auto. }
  intros [sg q] [sg' q'] [Sg Qe]. cbn [fst snd] in *. eapply (like_bind work2).
  { eapply like_loop; [|exact Sg|repeat split; cbn; auto; apply M]. intros. apply extract_more; auto. }
  intros [[[m1 bm] sp] sr] [[[m1' bm'] sp'] sr'] (M1 & B1 & Sp & Sr). cbn [fst snd] in *.
  eapply (like_bind (drawn k)).
  { rewrite <- (qeqb_eq q q' 1 1 Qe (Qeq_refl 1)). destruct (Qeq_bool q 1); [split; auto|]. eapply like_bind; [apply more_extract_qty; [exact K|exact M1|apply t_mult; [rewrite Qe; reflexivity|apply M]]|].
    intros [bk rs] [bk' rs'] [Bk Rs]. cbn [fst snd] in *. eapply like_bind; [apply ms_push; eauto|]. intros g g' G. split; auto. }
  intros [m2 f2] [m2' f2'] [M2 F2]. cbn [fst snd] in *. eapply (like_bind (more_store k)).
  { rewrite (t_ltb k K 0 0 _ _ (t_0 k) (proj1 M2)). destruct (Qltb 0 (m_qty m2)); [|exact L]. apply ms_push; auto. }
  intros lf lf' Lf. cbn. split; [repeat split; cbn; auto; try apply F2; try apply Lf|]. split; [apply M|]. split; [exact Sp|]. cbn. apply Forall2_app; [exact Sr|]. constructor; [|constructor]. split; cbn; [exact Lc|]. apply ms_qty, Lf.
Qed.
Lemma sp_requests_more eps eps' rc c c' pf t s s' : times k eps eps' -> sp_cfg_more k c c' -> sp_more k s s' ->
  likewise (fun x y => more_named k (fst x) (fst y) /\ agree (sp_req_more k) (snd x) (snd y)) (sp_requests eps rc c pf t s) (sp_requests eps' rc c' pf t s').
Proof.
  intros E (Cc & _ & Cr & Cs & Ct & _ & _ & _ & Ce) (F & _). pose proof (ms_qty k _ _ F) as Fq. unfold sp_requests. cbv zeta. rewrite <- Cc, <- Cr, <- Ce.
  assert (Sp : times k (Qmax 0 (pc_feed_size c - b_qty (ps_feed s))) (Qmax 0 (pc_feed_size c' - b_qty (ps_feed s')))) by (apply t_max; auto; [apply t_0|]; apply t_minus; auto).
  eapply (like_bind eq); [apply like_eq; reflexivity|]. intros d ? <-. rewrite (t_leb k K _ _ _ _ (t_mult k (inject_Z (pc_exit c - t)) (inject_Z (pc_exit c - t)) _ _ (Qeq_refl _) Ct) Fq).
  destruct (_ && _)%bool; [split; [split; auto|exact I]|]. rewrite (t_ltb k K _ _ _ _ Sp E). destruct (Qltb _ eps); [split; [split; auto|exact I]|].
  eapply (like_bind eq); [apply like_eq; reflexivity|]. intros rc1 ? <-. eapply (like_bind eq); [apply like_eq; reflexivity|]. intros it ? <-. cbn. split; [split; auto|]. repeat split; auto.
Qed.
Lemma trade_more eps eps' c c' x y z z' : times k eps eps' -> sp_cfg_more k c c' -> sp_more k (fst x) (fst y) -> Forall2 (more k) (snd x) (snd y) -> more_named k z z' ->
  likewise (fun x y => sp_more k (fst x) (fst y) /\ Forall2 (more k) (snd x) (snd y)) (trade_one eps c x z) (trade_one eps' c' y z').
Proof.
  intros E (_ & _ & _ & _ & _ & Cl & _) H Rs [N A]. destruct x as [s r], y as [s' r'], z as [n a], z' as [n' a']. cbn [fst snd] in *. subst n'. destruct H as (F & L & B). unfold trade_one. rewrite <- Cl.
  destruct (String.eqb n (pc_leftover_commod c)).
  - cbv zeta. eapply like_bind; [apply ms_pop_tol; [exact K|exact L|apply t_min; [exact K|apply ms_qty, L|exact A]|exact E]|]. intros [m b] [m' b'] [M Hb]. cbn in *. split; [repeat split; auto; try apply F; apply Hb|]. apply Forall2_app; auto.
  - pose proof (kept_find _ _ n B) as G. destruct (bm_find n (ps_streams s)) as [sb|], (bm_find n (ps_streams s')) as [sb'|]; cbn in G; try contradiction; [|reflexivity]. cbv zeta.
    eapply like_bind; [apply ms_pop_tol; [exact K|exact G|apply t_min; [exact K|apply ms_qty, G|exact A]|exact E]|]. intros [m b] [m' b'] [M Hb]. cbn in *. split; [|apply Forall2_app; auto]. split; [exact F|]. split; [exact L|]. cbn. apply kept_set; auto.
Qed.
Lemma offer_more eps eps' q q' j : times k eps eps' -> times k q q' -> forall ms ms', Forall2 (more k) ms ms' -> forall t t', times k t t' -> Forall2 (more_for k) (offer_loop eps q t j ms) (offer_loop eps' q' t' j ms').
Proof.
  intros E Q ms ms' F. induction F as [|m m' l l' M F IH]; intros t t' T; cbn [offer_loop]; [constructor|]. cbv zeta. pose proof (t_plus k _ _ _ _ T (proj1 M)) as T1. rewrite (t_ltb k K _ _ _ _ E (proj1 M)), (t_leb k K _ _ _ _ Q T1).
  apply Forall2_app; [destruct (Qltb eps (m_qty m)); repeat constructor; apply M|]. destruct (Qle_bool q (t + m_qty m)); [constructor|apply IH, T1].
Qed.
Lemma bid_more2 eps eps' n b b' rs rs' : times k eps eps' -> more_store k b b' -> Forall2 (times k) rs rs' -> Forall2 (sp_bids_more k) (bid_on eps n b rs) (bid_on eps' n b' rs').
Proof.
  intros E B R. unfold bid_on. destruct R as [|r r' rs rs' Hr R]; [constructor|]. pose proof (ms_qty k _ _ B) as Q. rewrite (t_ltb k K _ _ _ _ Q E). destruct (Qltb (b_qty b) eps); [constructor|]. constructor; [|constructor].
  split; [reflexivity|]. split; [|exact Q]. cbn [bd_bids]. eapply forall2_flat; [apply (forall2_combine (times k)); constructor; eauto|]. intros [i q] [i' q'] [Ei Eq]. cbn in *. subst i'. apply offer_more; auto; [apply B|apply t_0].
Qed.
Lemma sp_bids_more2 eps eps' c c' s s' f f' : times k eps eps' -> sp_cfg_more k c c' -> sp_more k s s' -> (forall n, Forall2 (times k) (f n) (f' n)) -> Forall2 (sp_bids_more k) (sp_bids eps c s f) (sp_bids eps' c' s' f').
Proof.
  intros E (_ & _ & _ & _ & _ & Cl & _) (_ & L & B) R. unfold sp_bids. rewrite <- Cl. apply Forall2_app; [|apply bid_more2; auto]. eapply forall2_flat; [exact B|]. intros [n b] [n' b'] [N Hb]. cbn in *. subst n'. apply bid_more2; auto.
Qed.
Lemma sp_step_more eps eps' rc c c' pf s s' e e' : times k eps eps' -> sp_cfg_more k c c' -> sp_more k s s' -> sp_env_more k e e' ->
  likewise (fun x y => sp_more k (fst x) (fst y) /\ sp_out_more k (snd x) (snd y)) (sp_step eps rc c pf s e) (sp_step eps' rc c' pf s' e').
Proof.
  intros E C H (T & Rq & Ts & Re). unfold sp_step, sp_trades, sp_accept. rewrite <- T. eapply like_bind; [apply sp_tick_more; eauto|]. intros [s1 lg] [s1' lg'] [H1 Lg]. cbn [fst snd] in *.
  eapply like_bind; [apply sp_requests_more; eauto|]. intros [d r] [d' r'] [D R]. cbn [fst snd] in *.
  eapply (like_bind (fun x y => sp_more k (fst x) (fst y) /\ Forall2 (more k) (snd x) (snd y))).
  { eapply like_loop; [|exact Ts|split; [exact H1|constructor]]. intros a b x y [A A2] X. apply trade_more; auto. }
  intros [s2 sh] [s2' sh'] [H2 Sh]. cbn [fst snd] in *. eapply (like_bind (sp_more k)).
  { eapply (like_bind (more_store k)); [eapply like_loop; [|exact Re|apply H2]; intros; apply ms_push; auto|]. intros f f' F. destruct H2 as (_ & L2 & B2). split; [exact F|]. split; [exact L2|exact B2]. }
  intros s3 s3' H3. cbn. split; [exact H3|]. split; [exact Lg|]. split; [exact H1|]. split; [exact D|]. split; [exact R|]. split; [|exact Sh]. apply sp_bids_more2; auto.
Qed.
Lemma sp_run_more eps eps' rc c c' pf : times k eps eps' -> sp_cfg_more k c c' -> forall es es', Forall2 (sp_env_more k) es es' -> forall s s', sp_more k s s' ->
  likewise (fun x y => sp_more k (fst x) (fst y) /\ Forall2 (sp_out_more k) (snd x) (snd y)) (sp_run eps rc c pf s es) (sp_run eps' rc c' pf s' es').
Proof.
  intros E C es es' F. induction F as [|e e' l l' He F IH]; intros s s' H; cbn [sp_run]; [split; [exact H|constructor]|].
  eapply like_bind; [apply sp_step_more; eauto|]. intros [s1 o] [s1' o'] [H1 O]. eapply like_bind; [apply IH, H1|]. intros [s2 os] [s2' os'] [H2 Os]. cbn in *. split; [exact H2|]. constructor; auto.
Qed.
End Scale.
