(** Materials and stores on two scales (C126). *)
From Coq Require Import Lia Lqa.
From Verif Require Import Outcome KernelMaterial KernelResBuf KernelBuf KernelFacts KernelMass KernelBufFacts DivisionSpec DivisionProofs DivisionComp ScaleSpec.
Local Open Scope Q_scope.

(** ** Likewise *)
Lemma like_bind {A A' B B'} (R : A -> A' -> Prop) (T : B -> B' -> Prop) x x' f f' :
  likewise R x x' -> (forall a a', R a a' -> likewise T (f a) (f' a')) -> likewise T (bind x f) (bind x' f').
Proof. intros H F. destruct x, x'; cbn in *; try contradiction; auto. Qed.
Lemma like_weak {A B} (R T : A -> B -> Prop) x y : likewise R x y -> (forall a b, R a b -> T a b) -> likewise T x y.
Proof. intros H F. destruct x, y; cbn in *; auto. Qed.
Lemma like_loop {A A' S S'} (RA : A -> A' -> Prop) (RS : S -> S' -> Prop) f f' l l' s s' :
  (forall s s' x x', RS s s' -> RA x x' -> likewise RS (f s x) (f' s' x')) -> Forall2 RA l l' -> RS s s' -> likewise RS (loop f l s) (loop f' l' s').
Proof. intros F G. revert s s'. induction G as [|x x' l l' Hx G IH]; intros s s' H; cbn [loop]; [exact H|]. eapply like_bind; [apply F; eauto|]. intros. apply IH. assumption. Qed.
Lemma like_same {A} (R : A -> A -> Prop) x : (forall a, R a a) -> likewise R x x.
Proof. intro H. destruct x; cbn; auto. Qed.
Lemma like_eq {A} (x y : outcome A) : x = y -> likewise eq x y.
Proof. intros <-. apply like_same. reflexivity. Qed.
Lemma forall2_same {A} (R : A -> A -> Prop) l : (forall a, R a a) -> Forall2 R l l. Proof. intro H. induction l; constructor; auto. Qed.
Lemma forall2_len {A B} (R : A -> B -> Prop) l l' : Forall2 R l l' -> List.length l = List.length l'.
Proof. induction 1; cbn; auto. Qed.
Lemma forall2_nth {A B} (R : A -> B -> Prop) l l' : Forall2 R l l' -> forall i, agree R (nth_error l i) (nth_error l' i).
Proof. induction 1 as [|x y l l' H F IH]; intros [|i]; cbn; auto. Qed.
Lemma forall2_vec {A B} (R : A -> B -> Prop) l l' : Forall2 R l l' -> forall i, likewise R (vec_at l i) (vec_at l' i).
Proof. intros F i. unfold vec_at. pose proof (forall2_nth R l l' F i) as H. destruct (nth_error l i), (nth_error l' i); cbn in *; auto. Qed.
Lemma forall2_map {A B C D} (R : A -> B -> Prop) (T : C -> D -> Prop) f g l l' : Forall2 R l l' -> (forall a b, R a b -> T (f a) (g b)) -> Forall2 T (map f l) (map g l').
Proof. intros F H. induction F; cbn; constructor; auto. Qed.
Lemma forall2_weak {A B} (R T : A -> B -> Prop) l l' : Forall2 R l l' -> (forall a b, R a b -> T a b) -> Forall2 T l l'.
Proof. intros F H. induction F; constructor; auto. Qed.
Lemma forall2_combine {A B} (R : A -> B -> Prop) l l' : Forall2 R l l' -> forall j, Forall2 (fun x y => fst x = fst y /\ R (snd x) (snd y)) (combine (seq j (List.length l)) l) (combine (seq j (List.length l')) l').
Proof. induction 1 as [|x y l l' H F IH]; intro j; cbn; constructor; auto. Qed.
Lemma forall2_flat {A B C D} (R : A -> B -> Prop) (T : C -> D -> Prop) f g l l' : Forall2 R l l' -> (forall a b, R a b -> Forall2 T (f a) (g b)) -> Forall2 T (flat_map f l) (flat_map g l').
Proof. intros F H. induction F; cbn; [constructor|]. apply Forall2_app; auto. Qed.

(** ** Numbers *)
Section Scale.
Variable k : Q.
Hypothesis K : 0 < k.
Lemma t_ltb a a' b b' : times k a a' -> times k b b' -> Qltb a' b' = Qltb a b.
Proof.
  unfold times. intros A B. destruct (Qltb a b) eqn:E.
  - apply Qltb_true in E. apply Qltb_true. rewrite A, B. apply Qmult_lt_l; auto.
  - apply Qltb_false in E. apply Qltb_false. rewrite A, B. apply Qmult_le_l; auto.
Qed.
Lemma t_leb a a' b b' : times k a a' -> times k b b' -> Qle_bool a' b' = Qle_bool a b.
Proof. intros A B. pose proof (t_ltb b b' a a' B A) as H. unfold Qltb in H. destruct (Qle_bool a' b'), (Qle_bool a b); auto; discriminate. Qed.
Lemma t_eqb a a' b b' : times k a a' -> times k b b' -> Qeq_bool a' b' = Qeq_bool a b.
Proof.
  unfold times. intros A B. destruct (Qeq_bool a b) eqn:E.
  - apply Qeq_bool_iff in E. apply Qeq_bool_iff. rewrite A, B, E. reflexivity.
  - apply Qeq_bool_false in E. apply Qeq_bool_false. intro X. apply E. rewrite A, B in X. apply (proj1 (Qmult_inj_l _ _ k ltac:(lra))) in X. exact X.
Qed.
Lemma t_0 : times k 0 0. Proof. unfold times. lra. Qed.
Lemma t_plus a a' b b' : times k a a' -> times k b b' -> times k (a + b) (a' + b'). Proof. unfold times. intros -> ->. lra. Qed.
Lemma t_minus a a' b b' : times k a a' -> times k b b' -> times k (a - b) (a' - b'). Proof. unfold times. intros -> ->. lra. Qed.
Lemma t_mult x y a a' : x == y -> times k a a' -> times k (x * a) (y * a'). Proof. unfold times. intros -> ->. ring. Qed.
Lemma t_multr x y a a' : x == y -> times k a a' -> times k (a * x) (a' * y). Proof. unfold times. intros -> ->. ring. Qed.
Lemma t_div x y a a' : x == y -> times k a a' -> times k (a / x) (a' / y). Proof. intros E H. unfold Qdiv. apply t_multr; [rewrite E; reflexivity|exact H]. Qed.
Lemma t_min a a' b b' : times k a a' -> times k b b' -> times k (Qmin a b) (Qmin a' b').
Proof.
  intros A B. pose proof (t_leb a a' b b' A B) as L. destruct (Qle_bool a b) eqn:E.
  - apply Qle_bool_iff in E. apply Qle_bool_iff in L. unfold times. rewrite !Q.min_l by assumption. exact A.
  - apply Qle_bool_false in E. apply Qle_bool_false in L. unfold times. rewrite !Q.min_r by lra. exact B.
Qed.
Lemma t_max a a' b b' : times k a a' -> times k b b' -> times k (Qmax a b) (Qmax a' b').
Proof.
  intros A B. pose proof (t_leb a a' b b' A B) as L. destruct (Qle_bool a b) eqn:E.
  - apply Qle_bool_iff in E. apply Qle_bool_iff in L. unfold times. rewrite !Q.max_r by assumption. exact B.
  - apply Qle_bool_false in E. apply Qle_bool_false in L. unfold times. rewrite !Q.max_l by lra. exact A.
Qed.
Lemma t_ratio a a' b b' : times k a a' -> times k b b' -> a' / b' == a / b.
Proof.
  unfold times. intros -> ->. destruct (Qeq_dec b 0) as [Z|Z]; [rewrite Z; unfold Qdiv; setoid_replace (k * 0) with 0 by lra; change (/ 0) with 0; ring|]. field. split; [exact Z|lra].
Qed.
Lemma t_eq a a' b b' : a == b -> a' == b' -> times k a a' -> times k b b'. Proof. unfold times. intros <- <-. auto. Qed.
Lemma t_abs a a' : times k a a' -> times k (Qabs a) (Qabs a').
Proof. unfold times. intros ->. rewrite Qabs_Qmult. rewrite (Qabs_pos k) by lra. reflexivity. Qed.
Lemma t_sum l l' : Forall2 (times k) l l' -> times k (qsum l) (qsum l').
Proof. induction 1 as [|x y l l' H F IH]; [apply t_0|]. change (times k (x + qsum l) (y + qsum l')). apply t_plus; auto. Qed.

(** ** Compositions *)
Definition cmore (c c' : comp) : Prop := forall n, cget n c' == k * cget n c.
Lemma cmore_sum c c' : cmore c c' -> times k (csum c) (csum c').
Proof.
  intro H. unfold times. assert (X : csame (cscale k c) c') by (intro n; rewrite cget_scale; symmetry; apply H). rewrite <- (csame_sum _ _ X), csum_scale. reflexivity.
Qed.
Lemma csame_more c c' q q' : csame c c' -> times k q q' -> ~ csum c == 0 -> cmore (cnorm q c) (cnorm q' c').
Proof.
  intros H E N n. pose proof (csame_sum c c' H) as Sm. unfold cnorm. destruct (Qeq_bool (csum c) 0) eqn:Z; [apply Qeq_bool_iff in Z; contradiction|].
  rewrite <- (qeqb_eq (csum c) (csum c') 0 0 Sm (Qeq_refl _)), Z. unfold times in *. rewrite !cget_scale, E, <- (H n), <- Sm. field. exact N.
Qed.
Lemma mix_norm c c' q q' : mix k c c' -> times k q q' -> cmore (cnorm q c) (cnorm q' c').
Proof. intros A E n. apply (A q q' E n). Qed.
Lemma more_norm m m' : more k m m' -> cmore (cnorm (m_qty m) (m_comp m)) (cnorm (m_qty m') (m_comp m')).
Proof. intros [E A] n. apply (A _ _ E n). Qed.
Lemma more_each m m' n : more k m m' -> times k (mass_of m n) (mass_of m' n).
Proof. intros [E A]. apply (A _ _ E n). Qed.
Lemma norm_own c n : cget n (cnorm (csum c) c) == cget n c.
Proof. unfold cnorm. destruct (Qeq_bool (csum c) 0) eqn:E; [reflexivity|]. apply Qeq_bool_false in E. rewrite cget_scale. field. exact E. Qed.
Lemma norm_more q q' c c' : cmore c c' -> times k q q' -> cmore (cnorm q c) (cnorm q' c').
Proof.
  intros H E n. pose proof (cmore_sum c c' H) as Sm. unfold cnorm. rewrite (t_eqb (csum c) (csum c') 0 0 Sm t_0). destruct (Qeq_bool (csum c) 0) eqn:Z; [apply H|].
  apply Qeq_bool_false in Z. unfold times in *. rewrite !cget_scale, E, (H n), Sm. field. split; [exact Z|lra].
Qed.
Lemma cmore_mix c c' : cmore c c' -> mix k c c'.
Proof. intros H q q' E n. apply norm_more; auto. Qed.
Lemma cmore_more i j q q' c c' : cmore c c' -> times k q q' -> more k (Mat i q c) (Mat j q' c').
Proof. intros H E. split; [exact E|]. apply cmore_mix, H. Qed.
Lemma mix_refl c : ~ csum c == 0 -> mix k c c.
Proof. intros N q q' E n. apply csame_more; auto. intro; reflexivity. Qed.
Lemma mix_nil : mix k [] [].
Proof. apply cmore_mix. intro n. cbn. lra. Qed.
Lemma mix_cut i j q q' c c' : mix k c c' -> times k q q' -> more k (Mat i q c) (Mat j q' c').
Proof. intros H E. split; auto. Qed.
Lemma more_cut m m' i j x x' : more k m m' -> times k x x' -> more k (Mat i x (m_comp m)) (Mat j x' (m_comp m')).
Proof. intros [_ A] E. split; auto. Qed.
Lemma more_absorb a a' b b' : more k a a' -> more k b b' -> more k (absorb a b) (absorb a' b').
Proof.
  intros A B. unfold absorb. apply cmore_more; [|destruct A, B; apply t_plus; auto]. intro n. rewrite !cget_cadd. rewrite (more_norm _ _ A n), (more_norm _ _ B n). ring.
Qed.
Lemma more_fold ms ms' : Forall2 (more k) ms ms' -> forall a a', more k a a' -> more k (fold_left absorb ms a) (fold_left absorb ms' a').
Proof. induction 1 as [|x y l l' H F IH]; intros a a' A; cbn [fold_left]; [exact A|]. apply IH, more_absorb; auto. Qed.
Lemma more_squash ms ms' : Forall2 (more k) ms ms' -> likewise (more k) (squash ms) (squash ms').
Proof. intro F. destruct F as [|x y l l' Hx F]; cbn; [reflexivity|]. apply more_fold; auto. Qed.
Lemma more_qty ms ms' : Forall2 (more k) ms ms' -> times k (qty_of ms) (qty_of ms').
Proof. intro F. apply t_sum. eapply forall2_map; [exact F|]. intros a b [H _]. exact H. Qed.
Lemma more_mass ms ms' n : Forall2 (more k) ms ms' -> times k (mass_in n ms) (mass_in n ms').
Proof. intro F. apply t_sum. eapply forall2_map; [exact F|]. intros a b H. apply more_each, H. Qed.
Lemma more_take ms ms' : Forall2 (more k) ms ms' -> forall q q', times k q q' ->
  Forall2 (more k) (fst (take_qty q ms)) (fst (take_qty q' ms')) /\ Forall2 (more k) (snd (take_qty q ms)) (snd (take_qty q' ms')).
Proof.
  induction 1 as [|x y l l' H F IH]; intros q q' E; [split; constructor|]. cbn [take_qty]. rewrite (t_leb q q' 0 0 E t_0).
  destruct (Qle_bool q 0) eqn:Z; [split; [constructor|constructor; auto]|]. apply Qle_bool_false in Z. pose proof (proj1 H) as Qe. rewrite (t_ltb q q' (m_qty x) (m_qty y) E Qe).
  destruct (Qltb q (m_qty x)) eqn:L.
  - apply Qltb_true in L. cbn [fst snd].
    split; [constructor; [apply more_cut; auto|constructor]|constructor; [apply more_cut; auto; apply t_minus; auto|exact F]].
  - specialize (IH _ _ (t_minus _ _ _ _ E Qe)). destruct (take_qty (q - m_qty x) l) as [a b], (take_qty (q' - m_qty y) l') as [a' b']. cbn [fst snd] in *. destruct IH. split; [constructor|]; auto.
Qed.
Definition popped (x y : mat * list mat) : Prop := more k (fst x) (fst y) /\ Forall2 (more k) (snd x) (snd y).
Lemma more_pop_qty ms ms' q q' : Forall2 (more k) ms ms' -> times k q q' -> likewise popped (items_pop_qty ms q) (items_pop_qty ms' q').
Proof.
  intros F E. unfold items_pop_qty. rewrite (t_ltb _ _ _ _ (more_qty _ _ F) E). destruct (Qltb (qty_of ms) q); [reflexivity|].
  destruct (more_take ms ms' F q q' E) as [A B]. destruct (take_qty q ms) as [a b], (take_qty q' ms') as [a' b']. cbn [fst snd] in *.
  eapply like_bind; [apply more_squash, A|]. intros m m' M. cbn. split; auto.
Qed.
Lemma more_pop_tol ms ms' q q' tol tol' : Forall2 (more k) ms ms' -> times k q q' -> times k tol tol' -> likewise popped (items_pop_tol ms q tol) (items_pop_tol ms' q' tol').
Proof.
  intros F E T. pose proof (more_qty _ _ F) as Qe. unfold items_pop_tol. rewrite (t_ltb (qty_of ms + tol) (qty_of ms' + tol') q q') by (auto using t_plus). destruct (Qltb (qty_of ms + tol) q); [reflexivity|].
  rewrite (t_leb (qty_of ms) (qty_of ms') q q') by auto. destruct (Qle_bool (qty_of ms) q); [|apply more_pop_qty; auto].
  eapply like_bind; [apply more_squash, F|]. intros m m' M. cbn. split; [exact M|constructor].
Qed.

Lemma more_extract_qty q q' m m' : more k m m' -> times k q q' -> likewise (fun x y => more k (fst x) (fst y) /\ more k (snd x) (snd y)) (extract_qty q m) (extract_qty q' m').
Proof.
  intros A E. unfold extract_qty. rewrite (t_ltb _ _ _ _ (proj1 A) E). destruct (Qltb (m_qty m) q); [reflexivity|]. cbn. split; (eapply more_cut; [exact A|]); auto. apply t_minus; auto. apply A.
Qed.

(** ** Stores *)
Lemma ms_qty b b' : more_store k b b' -> times k (b_qty b) (b_qty b'). Proof. intros [_ F]. apply more_qty, F. Qed.
Lemma ms_space b b' : more_store k b b' -> agree (times k) (b_space b) (b_space b').
Proof.
  intro H. pose proof (ms_qty _ _ H) as Qe. destruct H as [C _]. unfold b_space. destruct (b_cap b), (b_cap b'); cbn in *; try contradiction; [|exact I]. apply t_max; [apply t_0|]. apply t_minus; auto.
Qed.
Lemma ms_fits eps eps' b b' q q' : times k eps eps' -> more_store k b b' -> times k q q' -> b_fits eps' b' q' = b_fits eps b q.
Proof. intros E H Qe. pose proof (ms_space _ _ H) as Sp. unfold b_fits. destruct (b_space b), (b_space b'); cbn in *; try contradiction; [|reflexivity]. apply t_leb; auto. apply t_minus; auto. Qed.
Lemma ms_new : more_store k new_buf new_buf. Proof. split; [exact I|constructor]. Qed.
Lemma ms_push eps eps' b b' m m' : times k eps eps' -> more_store k b b' -> more k m m' -> likewise (more_store k) (b_push eps b m) (b_push eps' b' m').
Proof.
  intros E H M. unfold b_push. rewrite (ms_fits eps eps' b b' _ _ E H (proj1 M)). destruct (b_fits eps b (m_qty m)); [|reflexivity]. destruct H as [C F]. split; [exact C|]. cbn [b_items]. apply Forall2_app; [exact F|]. constructor; auto.
Qed.
Lemma ms_pushv eps eps' b b' ms ms' : times k eps eps' -> more_store k b b' -> Forall2 (more k) ms ms' -> likewise (more_store k) (b_pushv eps b ms) (b_pushv eps' b' ms').
Proof.
  intros E H M. unfold b_pushv. rewrite (ms_fits eps eps' b b' _ _ E H (more_qty _ _ M)). destruct (b_fits eps b (qty_of ms)); [|reflexivity]. destruct H as [C F]. split; [exact C|]. cbn [b_items]. apply Forall2_app; auto.
Qed.
Definition drawn (x y : mat * buf) : Prop := more k (fst x) (fst y) /\ more_store k (snd x) (snd y).
Lemma ms_pop_qty b b' q q' : more_store k b b' -> times k q q' -> likewise drawn (b_pop_qty b q) (b_pop_qty b' q').
Proof. intros [C F] E. unfold b_pop_qty. eapply like_bind; [apply more_pop_qty; eauto|]. intros [m r] [m' r'] [M R]. split; [exact M|]. split; auto. Qed.
Lemma ms_pop_tol b b' q q' tol tol' : more_store k b b' -> times k q q' -> times k tol tol' -> likewise drawn (b_pop_tol b q tol) (b_pop_tol b' q' tol').
Proof. intros [C F] E T. unfold b_pop_tol. eapply like_bind; [apply more_pop_tol; eauto|]. intros [m r] [m' r'] [M R]. split; [exact M|]. split; auto. Qed.

(** ** Extracting a composition *)
Lemma trim_more thr thr' x y : times k thr thr' -> times k x y -> times k (trim thr x) (trim thr' y).
Proof. intros T E. unfold trim. rewrite (t_ltb _ _ _ _ (t_abs _ _ E) T). destruct (Qltb (Qabs x) thr); [apply t_0|exact E]. Qed.
Definition parted (x y : mat * mat) : Prop := more k (fst x) (fst y) /\ more k (snd x) (snd y).
Lemma more_extract thr thr' q q' c c' m m' : times k thr thr' -> more k m m' -> mix k c c' -> times k q q' ->
  likewise parted (extract_comp thr q c m) (extract_comp thr' q' c' m').
Proof.
  intros T A Mx E. pose proof (mix_norm _ _ _ _ Mx E) as C. unfold extract_comp, csub. rewrite (t_ltb _ _ _ _ (proj1 A) E). destruct (Qltb (m_qty m) q); [reflexivity|]. cbv zeta.
  set (d := cnorm (m_qty m) (m_comp m) ++ cscale (-(1)) (cnorm q c)). set (d' := cnorm (m_qty m') (m_comp m') ++ cscale (-(1)) (cnorm q' c')).
  assert (D : cmore d d') by (intro n; unfold times, d, d'; rewrite !cget_app, !cget_scale, (more_norm _ _ A n), (C n); ring).
  assert (N : all_nonneg (cthreshold thr' (ccanon d')) = all_nonneg (cthreshold thr (ccanon d))).
  { destruct (all_nonneg (cthreshold thr (ccanon d))) eqn:X.
    - apply nonneg_trim. intro n. pose proof (proj1 (nonneg_trim thr d) X n) as P. pose proof (trim_more thr thr' _ _ T (D n)) as W. unfold times in W. rewrite W. apply Qmult_le_0_compat; lra.
    - destruct (all_nonneg (cthreshold thr' (ccanon d'))) eqn:Y; [|reflexivity]. rewrite <- X. symmetry. apply nonneg_trim. intro n. pose proof (proj1 (nonneg_trim thr' d') Y n) as P.
      pose proof (trim_more thr thr' _ _ T (D n)) as W. unfold times in W. rewrite W in P. destruct (Qlt_le_dec (trim thr (cget n d)) 0) as [L|L]; [|exact L]. assert (k * trim thr (cget n d) < k * 0) by (apply Qmult_lt_l; auto). lra. }
  rewrite N. destruct (all_nonneg (cthreshold thr (ccanon d))); [|reflexivity]. cbn. split; cbn [fst snd].
  - split; auto.
  - apply cmore_more; [|apply t_minus; [apply A|exact E]]. intro n. rewrite !cget_trim. exact (trim_more thr thr' _ _ T (D n)).
Qed.
End Scale.
