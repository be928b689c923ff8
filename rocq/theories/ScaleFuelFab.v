(** FuelFab on two scales (C126). *)
From Coq Require Import Lia Lqa.
From Verif Require Import Outcome KernelMaterial KernelResBuf KernelBuf KernelFacts KernelMass KernelBufFacts FuelFabModel FuelFabSpec FuelFabMath
  DivisionSpec DivisionProofs DivisionComp DivisionEnrichment ScaleSpec ScaleProofs ScaleEnrichment.
Local Open Scope Q_scope.

Lemma pop_solid b q tol m r : solid (b_items b) -> b_pop_tol b q tol = Ok (m, r) -> solid (b_items r).
Proof. intros S H. unfold b_pop_tol in H. apply bind_ok in H as ([m0 r0] & P & X). injection X as _ <-. cbn. eapply pop_less; eauto. Qed.
Section Scale.
Variable k : Q.
Hypothesis K : 0 < k.
Variable nz : Q.
Variables eps eps' : Q.
Hypothesis E : times k eps eps'.
Variable D : nucdata.
Hypothesis AW : forall n, 0 < d_aw D n.
Variable recipe : string -> option comp.
Hypothesis Rc : forall n c, recipe n = Some c -> real_comp c.
Variables cfg cfg' : ff_cfg.
Hypothesis C : ff_cfg_more k cfg cfg'.

(** ** Weights do not depend on the unit *)
Definition made (c c' : comp) : Prop := mix k c c' /\ real_comp c.
Lemma made_prop c c' : made c c' -> exists r, ~ r == 0 /\ forall n, cget n c' == r * cget n c.
Proof.
  intros [M [_ P]]. assert (N : ~ csum c == 0) by lra. assert (T : times k 1 k) by (unfold times; lra).
  pose proof (mix_norm k _ _ _ _ M T) as X. pose proof (cmore_sum k _ _ X) as Sm. unfold times in Sm. pose proof (norm_sum 1 c N) as S1. rewrite S1 in Sm.
  assert (N' : ~ csum c' == 0). { intro Z. unfold cnorm in Sm at 1. destruct (Qeq_bool (csum c') 0) eqn:B; [lra|]. apply Qeq_bool_neq in B. contradiction. }
  exists (csum c' / csum c). split.
  - intro Z. apply N'. assert (Y : csum c' == csum c' / csum c * csum c) by (field; exact N). rewrite Y, Z. ring.
  - intro n. specialize (X n). unfold cnorm in X. destruct (Qeq_bool (csum c') 0) eqn:B1; [apply Qeq_bool_iff in B1; contradiction|]. destruct (Qeq_bool (csum c) 0) eqn:B2; [apply Qeq_bool_iff in B2; contradiction|].
    rewrite !cget_scale in X. apply (Qmult_inj_l _ _ (k / csum c')); [intro Z; assert (k == k / csum c' * csum c') by (field; exact N'); rewrite Z in *; lra|]. rewrite X. field. auto.
Qed.
Lemma cdot_times h c c' r : (forall n, cget n c' == r * cget n c) -> cdot h c' == r * cdot h c.
Proof.
  intro H. set (L := nodup Z.eq_dec (map fst c ++ map fst c')). assert (N : NoDup L) by apply NoDup_nodup. rewrite <- cdot_scale.
  rewrite <- (cdot_keys h c' L N), <- (cdot_keys h (cscale r c) L N).
  - apply qsum_map_ext. intros n _. rewrite cget_scale, (H n). reflexivity.
  - intros n I. apply nodup_In, in_or_app. left. unfold cscale in I. rewrite map_map in I. exact I.
  - intros n I. apply nodup_In, in_or_app. auto.
Qed.
Lemma cdot_norm h q c : ~ csum c == 0 -> cdot h (cnorm q c) == q * (cdot h c / csum c).
Proof. intro N. unfold cnorm. destruct (Qeq_bool (csum c) 0) eqn:B; [apply Qeq_bool_iff in B; contradiction|]. rewrite cdot_scale. field. exact N. Qed.
Lemma atom_side h q c c' : made c c' -> cdot h (cnorm q (atoms D c')) == cdot h (cnorm q (atoms D c)).
Proof.
  intro M. destruct (made_prop _ _ M) as (r & R & H). pose proof (NA_pos D AW c (proj2 M)) as P. unfold NA in P.
  pose proof (cdot_times (iaw D) c c' r H) as A. assert (N : ~ cdot (iaw D) c == 0) by lra. assert (N' : ~ cdot (iaw D) c' == 0).
  { rewrite A. intro Z. apply Qmult_integral in Z as [Z|Z]; auto. }
  rewrite !cdot_norm by (rewrite atoms_sum; assumption). rewrite !atoms_sum. unfold NA. rewrite !atoms_wmap, !cdot_mul, (cdot_times (fun n => iaw D n * h n) c c' r H), A. field. auto.
Qed.
Lemma weight_more sp c c' : made c c' -> cosi_weight D sp c' == cosi_weight D sp c.
Proof.
  intro M. assert (X : forall x, cosi_weight D sp x == cdot (pw D sp) (cnorm 1 (atoms D x))).
  { intro x. unfold cosi_weight, cdot, csum, wmap. rewrite map_map. apply qsum_map_ext. intros e _. simpl. unfold pw, Qdiv. ring. }
  rewrite !X. apply atom_side, M.
Qed.
Lemma norm_ext h q q' c : q == q' -> cdot h (cnorm q c) == cdot h (cnorm q' c).
Proof. intro H. unfold cnorm. destruct (Qeq_bool (csum c) 0); [reflexivity|]. rewrite !cdot_scale, H. reflexivity. Qed.
Lemma a2m_more f f' a a' b b' : f' == f -> made a a' -> made b b' -> atom_to_mass D f' a' b' == atom_to_mass D f a b.
Proof.
  intros F A B. unfold atom_to_mass. cbv zeta. assert (X : forall x, qsum (map (fun e => snd e * d_aw D (fst e)) x) == cdot (d_aw D) x) by (intro x; unfold cdot, csum, wmap; rewrite map_map; reflexivity).
  rewrite !X, !(atom_side _ _ _ _ A), !(atom_side _ _ _ _ B). rewrite (norm_ext _ f' f) by exact F. rewrite (norm_ext _ (1 - f') (1 - f)) by (rewrite F; reflexivity). reflexivity.
Qed.
Lemma qleb_eq a a' b b' : a == a' -> b == b' -> Qle_bool a b = Qle_bool a' b'.
Proof. intros A B. destruct (Qle_bool a b) eqn:X, (Qle_bool a' b') eqn:Y; auto; [apply Qle_bool_iff in X; rewrite A, B in X; apply Qle_bool_iff in X; congruence|apply Qle_bool_iff in Y; rewrite <- A, <- B in Y; apply Qle_bool_iff in Y; congruence]. Qed.
Definition eqv (x y : Q) : Prop := y == x.
Lemma valid_more lo lo' t t' hi hi' : lo' == lo -> t' == t -> hi' == hi -> valid_weights lo' t' hi' = valid_weights lo t hi.
Proof. intros A B H. unfold valid_weights. rewrite (qleb_eq lo' lo t' t A B), (qleb_eq t' t hi' hi B H). reflexivity. Qed.
Lemma high_more lo lo' t t' hi hi' : lo' == lo -> t' == t -> hi' == hi -> likewise eqv (high_frac nz lo t hi) (high_frac nz lo' t' hi').
Proof.
  intros A B H. unfold high_frac. cbv zeta. rewrite (valid_more lo lo' t t' hi hi' A B H). destruct (negb _); [reflexivity|]. rewrite (qeqb_eq lo' lo hi' hi A H), (qeqb_eq t' t lo' lo B A). destruct (_ && _)%bool; [reflexivity|].
  assert (X : Qabs ((t' - lo') / (hi' - lo')) == Qabs ((t - lo) / (hi - lo))) by (rewrite A, B, H; reflexivity).
  rewrite (qltb_eq (1 - Qabs ((t' - lo') / (hi' - lo'))) (1 - Qabs ((t - lo) / (hi - lo))) nz nz) by (try reflexivity; rewrite X; reflexivity). destruct (Qltb _ nz); [reflexivity|].
  rewrite (qltb_eq (Qabs ((t' - lo') / (hi' - lo'))) (Qabs ((t - lo) / (hi - lo))) nz nz) by (try reflexivity; exact X). destruct (Qltb _ nz); [reflexivity|exact X].
Qed.
Lemma low_more lo lo' t t' hi hi' : lo' == lo -> t' == t -> hi' == hi -> likewise eqv (low_frac nz lo t hi) (low_frac nz lo' t' hi').
Proof. intros A B H. unfold low_frac. eapply like_bind; [apply high_more; eauto|]. intros f f' F. unfold likewise, eqv in *. rewrite F. reflexivity. Qed.

(** ** The facility *)
Definition st2 (s s' : ff_state) : Prop := ff_more k s s' /\ ff_real s.
Definition buf2 (b b' : buf) : Prop := more_store k b b' /\ solid (b_items b).
Ltac cf := pose proof C as (Cflc & Cflp & Cflr & Cfls & Cfic & Cfip & Cfir & Cfis & Ctc & Ctp & Ctr & Cts & Coc & Cth & Csp).
Lemma mk2 a a' b b' c c' : buf2 a a' -> buf2 b b' -> buf2 c c' -> st2 {| fb_fill := a; fb_fiss := b; fb_topup := c |} {| fb_fill := a'; fb_fiss := b'; fb_topup := c' |}.
Proof. intros [A Sa] [B Sb] [G Sc]. split; (split; [|split]); assumption. Qed.
Lemma un2 s s' : st2 s s' -> buf2 (fb_fill s) (fb_fill s') /\ buf2 (fb_fiss s) (fb_fiss s') /\ buf2 (fb_topup s) (fb_topup s').
Proof. intros [(A & B & G) (Sa & Sb & Sc)]. split; [|split]; split; assumption. Qed.
Lemma real_made m m' : more k m m' -> real m -> made (m_comp m) (m_comp m').
Proof. intros [_ M] [(A & B & [P|P]) Q]; [|lra]. split; [exact M|]. split; [exact B|exact P]. Qed.
Lemma rec_made c : real_comp c -> made c c. Proof. intros R. split; [|exact R]. apply mix_refl. destruct R. lra. Qed.
Lemma ff_new_more : st2 (ff_new cfg) (ff_new cfg').
Proof. cf. apply mk2; (split; [split; [assumption|constructor]|constructor]). Qed.
Lemma ff_enter_more : ff_enter cfg = ff_enter cfg'.
Proof. cf. unfold ff_enter. rewrite Cfic, Cfip, Cflc, Cflp. reflexivity. Qed.
Lemma space_more b b' : more_store k b b' -> times k (ff_space b) (ff_space b').
Proof. intro B. pose proof (ms_space k K _ _ B) as X. unfold ff_space. destruct (b_space b), (b_space b'); try contradiction; [exact X|apply t_0]. Qed.
Lemma req1_more i b b' r its : more_store k b b' -> likewise (Forall2 (fr_more k)) (ff_req1 eps recipe i b r its) (ff_req1 eps' recipe i b' r its).
Proof.
  intro B. pose proof (space_more _ _ B) as S. unfold ff_req1. rewrite (t_ltb k K _ _ _ _ E S). destruct (Qltb eps _); [|constructor]. eapply (like_bind eq); [apply like_eq; reflexivity|]. intros c ? <-. cbn. repeat constructor; auto.
Qed.
Lemma requests_more pf s s' : st2 s s' -> likewise (Forall2 (fr_more k)) (ff_requests eps recipe cfg pf s) (ff_requests eps' recipe cfg' pf s').
Proof.
  intros [(A & B & G) _]. cf. unfold ff_requests. rewrite <- Cfir, <- Cfic, <- Cflr, <- Cflc, <- Ctr, <- Ctc, <- Ctp. eapply like_bind; [apply req1_more, B|]. intros x x' X. eapply like_bind; [apply req1_more, A|]. intros y y' Y. eapply like_bind; [apply req1_more, G|]. intros z z' Z. cbn. repeat apply Forall2_app; auto.
Qed.
Lemma invs_more l l' : Forall2 (fr_more k) l l' -> ff_req_inventories l = ff_req_inventories l'.
Proof. unfold ff_req_inventories. induction 1 as [|x y l l' (I & _ & _ & Is) F IH]; cbn; [reflexivity|]. rewrite I, Is, IH. reflexivity. Qed.
Lemma push2 b b' m m' : buf2 b b' -> more k m m' -> real m -> likewise buf2 (b_push eps b m) (b_push eps' b' m').
Proof.
  intros [B S] M R. apply (like_more (more_store k)); [apply ms_push; auto|]. intros x y X _ G. split; [exact G|]. unfold b_push in X. destruct (b_fits _ _ _); [|discriminate]. injection X as <-. cbn. apply Forall_app. split; auto.
Qed.
Lemma pop2 b b' q q' : buf2 b b' -> times k q q' -> likewise (fun x y => more k (fst x) (fst y) /\ buf2 (snd x) (snd y)) (b_pop_tol b q eps) (b_pop_tol b' q' eps').
Proof. intros [B S] Q. apply (like_more (drawn k)); [apply ms_pop_tol; auto|]. intros [m r] [m' r'] X _ [M R]. cbn in *. split; [exact M|]. split; [exact R|]. eapply pop_solid; eauto. Qed.
Lemma squash2 b b' : buf2 b b' -> likewise buf2 (ff_squash eps b) (ff_squash eps' b').
Proof.
  intros [B S]. pose proof B as [Cp F]. unfold ff_squash, b_count. rewrite <- (forall2_len _ _ _ F). destruct (Nat.ltb 1 _); [|split; auto].
  eapply (like_bind (fun m m' => more k m m' /\ real m)).
  - apply (like_more (more k)); [apply more_squash; auto|]. intros m m' X _ M. split; [exact M|]. destruct (squash_content _ _ _ S S (conj (Qeq_refl _) (fun n => Qeq_refl _)) X) as (m2 & _ & _ & O & _ & P). split; auto.
  - intros m m' [M R]. apply push2; auto. split; [split; [exact Cp|constructor]|constructor].
Qed.
Lemma accept1_more invs s s' x x' : st2 s s' -> more_for k x x' /\ real (snd x) -> likewise st2 (ff_accept1 eps invs s x) (ff_accept1 eps' invs s' x').
Proof.
  intros H [[I M] R]. apply un2 in H as (A & B & G). unfold ff_accept1. rewrite <- I. destruct (nth_error invs (fst x)) as [[]|]; [| | |reflexivity]; (eapply like_bind; [apply push2; eauto|]); intros b b' Hb; apply mk2; auto.
Qed.
Lemma accept_more invs rs rs' s s' : Forall2 (fun x y => more_for k x y /\ real (snd x)) rs rs' -> st2 s s' -> likewise st2 (ff_accept eps invs rs s) (ff_accept eps' invs rs' s').
Proof.
  intros F H. unfold ff_accept. eapply (like_bind st2); [eapply like_loop; [|exact F|exact H]; intros; apply accept1_more; auto|]. intros s1 s1' H1. apply un2 in H1 as (A & B & G).
  eapply like_bind; [apply squash2, A|]. intros x x' X. eapply like_bind; [apply squash2, B|]. intros y y' Y. eapply like_bind; [apply squash2, G|]. intros z z' Z. apply mk2; auto.
Qed.
Definition str2 (x y : ff_streams) : Prop :=
  made (fs_cfill x) (fs_cfill y) /\ made (fs_ctopup x) (fs_ctopup y) /\ made (fs_cfiss x) (fs_cfiss y) /\ fs_wfill y == fs_wfill x /\ fs_wtopup y == fs_wtopup x /\ fs_wfiss y == fs_wfiss x.
Lemma first2 b b' : buf2 b b' -> match b_items b, b_items b' with [], [] => True | m :: _, m' :: _ => made (m_comp m) (m_comp m') | _, _ => False end.
Proof. intros [[_ F] S]. destruct F as [|m m' l l' M F]; [exact I|]. inversion S; subst. apply real_made; auto. Qed.
Lemma rec2 n : likewise made (get_recipe recipe n) (get_recipe recipe n).
Proof. unfold get_recipe. pose proof (Rc n) as R. destruct (recipe n); [|reflexivity]. apply rec_made. auto. Qed.
Definition cw2 (x y : comp * Q) : Prop := made (fst x) (fst y) /\ snd y == snd x.
Lemma weigh_more s s' : st2 s s' -> likewise str2 (ff_weigh D recipe cfg s) (ff_weigh D recipe cfg' s').
Proof.
  intro H. apply un2 in H as (A & B & G). cf. apply first2 in A, B, G. unfold ff_weigh. cbv zeta. rewrite <- Csp, <- Cflr, <- Ctr, <- Cfir. eapply (like_bind made).
  - destruct (b_items (fb_fill s)), (b_items (fb_fill s')); try contradiction; [apply rec2|exact A].
  - intros cf cf' F. eapply (like_bind cw2).
    + destruct (b_items (fb_topup s)), (b_items (fb_topup s')); try contradiction.
      * destruct (String.eqb _ _); [split; [exact F|reflexivity]|]. eapply like_bind; [apply rec2|]. intros c c' M. split; cbn; [exact M|apply weight_more, M].
      * split; cbn; [exact G|apply weight_more, G].
    + intros t t' [T1 T2]. eapply (like_bind cw2).
      * destruct (b_items (fb_fiss s)), (b_items (fb_fiss s')); try contradiction.
        -- destruct (String.eqb _ _); [split; [exact F|apply weight_more, F]|]. eapply like_bind; [apply rec2|]. intros c c' M. split; cbn; [exact M|apply weight_more, M].
        -- split; cbn; [exact B|apply weight_more, B].
      * intros i i' [I1 I2]. repeat split; cbn; auto; try apply F; try apply T1; try apply I1. apply weight_more, F.
Qed.
Lemma offer_more st st' n tgt q q' : str2 st st' -> times k q q' -> likewise (agree (more k)) (ff_offer nz D cfg st n tgt q) (ff_offer nz D cfg' st' n tgt q').
Proof.
  intros (M1 & M2 & M3 & W1 & W2 & W3) Q. cf. unfold ff_offer. cbv zeta. rewrite <- Csp. set (w := cosi_weight D (fc_spectrum cfg) tgt).
  rewrite (valid_more (fs_wfill st) (fs_wfill st') w w (fs_wfiss st) (fs_wfiss st')), (valid_more (fs_wfiss st) (fs_wfiss st') w w (fs_wtopup st) (fs_wtopup st')) by (auto; reflexivity). destruct (valid_weights (fs_wfill st) w (fs_wfiss st)).
  - eapply like_bind; [apply high_more; [exact W1|reflexivity|exact W3]|]. intros f f' F. unfold eqv in F. cbn. assert (F1 : 1 - f' == 1 - f) by (rewrite F; reflexivity).
    apply more_absorb; auto; apply mix_cut; try apply M1; try apply M3; apply t_mult; auto; symmetry; apply a2m_more; auto.
  - destruct (_ && _)%bool; [|exact I]. eapply like_bind; [apply high_more; [exact W3|reflexivity|exact W2]|]. intros f f' F. unfold eqv in F. cbn. assert (F1 : 1 - f' == 1 - f) by (rewrite F; reflexivity).
    apply more_absorb; auto; apply mix_cut; try apply M2; try apply M3; apply t_mult; auto; symmetry; apply a2m_more; auto.
Qed.
Definition req2 (x y : comp * Q) : Prop := fst x = fst y /\ times k (snd x) (snd y).
Lemma offers_more st st' n : str2 st st' -> forall rs rs', Forall2 req2 rs rs' -> forall j, likewise (Forall2 (more_for k)) (ff_offers nz D cfg st n j rs) (ff_offers nz D cfg' st' n j rs').
Proof.
  intros S rs rs' F. induction F as [|[c q] [c' q'] l l' [H1 H2] F IH]; intro j; cbn [ff_offers]; [constructor|]. cbn in *. subst c'. eapply like_bind; [apply offer_more; eauto|]. intros o o' O. eapply like_bind; [apply IH|]. intros r r' R. destruct o, o'; try contradiction; cbn; [constructor; [split; auto|exact R]|exact R].
Qed.
Lemma bids_more rs rs' s s' : Forall2 req2 rs rs' -> st2 s s' -> likewise (agree (ff_bids_more k nz)) (ff_get_bids nz D recipe cfg s rs) (ff_get_bids nz D recipe cfg' s' rs').
Proof.
  intros F H. cf. pose proof H as [(A & B & G) _]. unfold ff_get_bids. rewrite (t_eqb k K _ _ _ _ Cth (t_0 k)). destruct (Qeq_bool _ 0); [exact I|]. pose proof (fun st st' n S => offers_more st st' n S _ _ F 0%nat) as O. destruct F as [|x x' l l' _ F]; [exact I|].
  eapply like_bind; [apply weigh_more, H|]. intros st st' S. unfold b_count. rewrite <- (forall2_len _ _ _ (proj2 G)). eapply like_bind; [apply O, S|]. intros o o' Oo. cbn [likewise agree].
  split; [exact Oo|]. split; [destruct S as (M1 & M2 & M3 & W1 & W2 & W3); split; [apply M1|]; split; [apply M2|]; split; [apply M3|]; cbn; repeat split; symmetry; assumption|].
  split; [|split; [|split; [|exact Cth]]]; (eexists; eexists; split; [|split; reflexivity]); apply ms_qty; assumption.
Qed.
Lemma bweight_more b b' : buf2 b b' -> ff_bweight D cfg' b' == ff_bweight D cfg b.
Proof. intro B. apply first2 in B. cf. unfold ff_bweight. rewrite <- Csp. destruct (b_items b), (b_items b'); try contradiction; [reflexivity|]. apply weight_more, B. Qed.
Lemma snap_more q q' x x' : times k q q' -> times k x x' -> times k (ff_snap eps q x) (ff_snap eps' q' x').
Proof. intros Q X. unfold ff_snap. rewrite (t_ltb k K _ _ _ _ (t_abs k K _ _ (t_minus k _ _ _ _ Q X)) E). destruct (Qltb _ eps); [apply t_min; auto|exact Q]. Qed.
Definition sm2 (x y : ff_state * mat) : Prop := st2 (fst x) (fst y) /\ more k (snd x) (snd y).
Lemma peek2 b b' : buf2 b b' -> likewise (fun m m' => made (m_comp m) (m_comp m')) (b_peek b) (b_peek b').
Proof. intro B. apply first2 in B. unfold b_peek. destruct (b_items b), (b_items b'); try contradiction; [reflexivity|exact B]. Qed.
Lemma trade1_more wf wf' wt wt' wi wi' s s' c q q' : wf' == wf -> wt' == wt -> wi' == wi -> st2 s s' -> times k q q' ->
  likewise sm2 (ff_trade1 eps nz D cfg wf wt wi s c q) (ff_trade1 eps' nz D cfg' wf' wt' wi' s' c q').
Proof.
  intros W1 W2 W3 H Q. apply un2 in H as (A & B & G). cf. unfold ff_trade1. cbv zeta. rewrite <- Csp. set (w := cosi_weight D (fc_spectrum cfg) c). unfold b_count.
  rewrite <- (forall2_len _ _ _ (proj2 (proj1 A))), <- (forall2_len _ _ _ (proj2 (proj1 B))). rewrite (valid_more wf wf' w w wi wi') by (auto; reflexivity).
  pose proof (ms_qty k _ _ (proj1 A)) as Qa. pose proof (ms_qty k _ _ (proj1 B)) as Qb. pose proof (ms_qty k _ _ (proj1 G)) as Qg.
  destruct (Nat.eqb _ 0).
  { eapply like_bind; [apply pop2; [exact A|apply snap_more; auto]|]. intros [m b] [m' b'] [M Bb]. cbn [fst snd] in *. split; cbn; [apply mk2; auto|exact M]. }
  destruct (Nat.eqb _ 0 && _)%bool.
  { eapply like_bind; [apply pop2; [exact B|apply snap_more; auto]|]. intros [m b] [m' b'] [M Bb]. cbn [fst snd] in *. split; cbn; [apply mk2; auto|exact M]. }
  destruct (valid_weights wf w wi).
  - eapply like_bind; [apply high_more; [exact W1|reflexivity|exact W3]|]. intros f f' F. eapply like_bind; [apply low_more; [exact W1|reflexivity|exact W3]|]. intros l l' L. unfold eqv in *.
    eapply like_bind; [apply peek2, B|]. intros pi pi' Pi. eapply like_bind; [apply peek2, A|]. intros pf pf' Pf. cbv beta in *.
    pose proof (a2m_more _ _ _ _ _ _ F Pi Pf) as X. pose proof (a2m_more _ _ _ _ _ _ L Pf Pi) as Y.
    eapply like_bind; [apply pop2; [exact B|apply snap_more; auto; apply t_mult; auto; symmetry; exact X]|]. intros [m b] [m' b'] [M Bb]. cbn [fst snd] in *.
    rewrite (qltb_eq 0 0 _ _ (Qeq_refl _) Y). destruct (Qltb 0 _).
    + eapply like_bind; [apply pop2; [exact A|apply snap_more; auto; apply t_mult; auto; symmetry; exact Y]|]. intros [m2 b2] [m2' b2'] [M2 Bb2]. cbn [fst snd] in *. split; cbn; [apply mk2; auto|apply more_absorb; auto].
    + split; cbn; [apply mk2; auto|exact M].
  - eapply like_bind; [apply high_more; [exact W3|reflexivity|exact W2]|]. intros f f' F. unfold eqv in F. eapply like_bind; [apply peek2, G|]. intros pt pt' Pt. eapply like_bind; [apply peek2, B|]. intros pi pi' Pi. cbv beta in *.
    assert (F1 : 1 - f' == 1 - f) by (rewrite F; reflexivity). pose proof (a2m_more _ _ _ _ _ _ F Pt Pi) as X. pose proof (a2m_more _ _ _ _ _ _ F1 Pi Pt) as Y.
    eapply like_bind; [apply pop2; [exact B|apply snap_more; auto; apply t_mult; auto; symmetry; exact Y]|]. intros [m b] [m' b'] [M Bb]. cbn [fst snd] in *.
    rewrite (qltb_eq 0 0 _ _ (Qeq_refl _) X). destruct (Qltb 0 _).
    + eapply like_bind; [apply pop2; [exact G|apply snap_more; auto; apply t_mult; auto; symmetry; exact X]|]. intros [m2 b2] [m2' b2'] [M2 Bb2]. cbn [fst snd] in *. split; cbn; [apply mk2; auto|apply more_absorb; auto].
    + split; cbn; [apply mk2; auto|exact M].
Qed.
Definition sms2 (x y : ff_state * list mat) : Prop := st2 (fst x) (fst y) /\ Forall2 (more k) (snd x) (snd y).
Lemma loop_more wf wf' wt wt' wi wi' : wf' == wf -> wt' == wt -> wi' == wi -> forall ts ts', Forall2 req2 ts ts' -> forall t t' s s', times k t t' -> st2 s s' ->
  likewise sms2 (ff_trade_loop eps nz D cfg wf wt wi t s ts) (ff_trade_loop eps' nz D cfg' wf' wt' wi' t' s' ts').
Proof.
  intros W1 W2 W3 ts ts' F. induction F as [|[c q] [c' q'] l l' [H1 H2] F IH]; intros t t' s s' T H; cbn [ff_trade_loop]; [split; [exact H|constructor]|]. cbn in H1, H2. subst c'. cbv zeta. cf. pose proof (t_plus k _ _ _ _ T H2) as T1.
  rewrite (t_ltb k K _ _ _ _ (t_plus k _ _ _ _ Cth E) T1). destruct (Qltb _ _); [reflexivity|]. eapply like_bind; [apply trade1_more; eauto|]. intros [s1 m] [s1' m'] [S1 M]. cbn [fst snd] in *. eapply like_bind; [apply IH; eauto|]. intros [s2 ms] [s2' ms'] [S2 Ms]. cbn in *. split; cbn; auto.
Qed.
Lemma targets_more rs rs' ts ts' : Forall2 req2 rs rs' -> Forall2 (fun x y => fst x = fst y /\ times k (snd x) (snd y)) ts ts' -> Forall2 req2 (ff_targets rs ts) (ff_targets rs' ts').
Proof.
  intros R F. induction F as [|[j q] [j' q'] l l' [H1 H2] F IH]; cbn; [constructor|]. cbn in H1, H2. subst j'. pose proof (forall2_nth _ _ _ R j) as N. destruct (nth_error rs j) as [[a b]|], (nth_error rs' j) as [[a' b']|]; try contradiction; [|exact IH]. constructor; [|exact IH]. split; [apply N|exact H2].
Qed.
Lemma ff_step_more pf s s' e e' : st2 s s' -> ff_env_more k e e' -> likewise (fun x y => st2 (fst x) (fst y) /\ ff_out_more k nz (snd x) (snd y)) (ff_step eps nz D recipe cfg pf s e) (ff_step eps' nz D recipe cfg' pf s' e').
Proof.
  intros H (R & T & Rs). unfold ff_step. eapply like_bind; [apply requests_more, H|]. intros rq rq' Rq. eapply like_bind; [apply bids_more; eauto|]. intros b b' B.
  pose proof (un2 _ _ H) as (A1 & A2 & A3). eapply like_bind; [apply loop_more; [apply bweight_more, A1|apply bweight_more, A3|apply bweight_more, A2|apply targets_more; eauto|apply t_0|exact H]|]. intros [s1 ms] [s1' ms'] [S1 M]. cbn [fst snd] in *.
  rewrite <- (invs_more _ _ Rq). eapply like_bind; [apply accept_more; eauto|]. intros s2 s2' S2. cbn. split; [exact S2|]. split; [exact Rq|]. split; [exact B|exact M].
Qed.
Lemma ff_run_more pf es es' : Forall2 (ff_env_more k) es es' -> forall s s', st2 s s' -> likewise (fun x y => st2 (fst x) (fst y) /\ Forall2 (ff_out_more k nz) (snd x) (snd y)) (ff_run eps nz D recipe cfg pf s es) (ff_run eps' nz D recipe cfg' pf s' es').
Proof.
  intro F. induction F as [|e e' l l' He1 F IH]; intros s s' H; cbn [ff_run]; [split; [exact H|constructor]|]. eapply like_bind; [apply ff_step_more; eauto|]. intros [s1 o] [s1' o'] [H1 O]. cbn [fst snd] in *. eapply like_bind; [apply IH, H1|]. intros [s2 os] [s2' os'] [H2 Os]. cbn in *. split; auto.
Qed.
End Scale.
