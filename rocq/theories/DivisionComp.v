(** Compositions that hold the same fractions, in any order (C125). *)
From Coq Require Import Lia Lqa.
From Verif Require Import Outcome KernelMaterial KernelResBuf KernelBuf KernelFacts KernelMass KernelBufFacts DivisionSpec DivisionProofs.
Local Open Scope Q_scope.

Definition csame (c c' : comp) : Prop := forall n, cget n c == cget n c'.
Lemma csame_sum c c' : csame c c' -> csum c == csum c'.
Proof.
  intro H. set (L := nodup Z.eq_dec (map fst c ++ map fst c')).
  assert (N : NoDup L) by apply NoDup_nodup.
  rewrite <- (sum_over_keys c L N), <- (sum_over_keys c' L N).
  - apply qsum_map_ext. intros n _. apply H.
  - intros n I. apply nodup_In, in_or_app. auto.
  - intros n I. apply nodup_In, in_or_app. auto.
Qed.
Lemma csame_norm c c' q q' : csame c c' -> q == q' -> csame (cnorm q c) (cnorm q' c').
Proof.
  intros H E n. pose proof (csame_sum c c' H) as S. unfold cnorm. rewrite (qeqb_eq (csum c) (csum c') 0 0 S) by reflexivity. destruct (Qeq_bool (csum c') 0); [apply H|].
  rewrite !cget_scale, E, (H n), S. reflexivity.
Qed.
Lemma csame_alike i j q q' c c' : csame c c' -> q == q' -> alike (Mat i q c) (Mat j q' c').
Proof. intros H E. split; [exact E|]. intro n. unfold mass_of. cbn [m_qty m_comp]. apply csame_norm; auto. Qed.
Lemma alike_norm m m' : alike m m' -> csame (cnorm (m_qty m) (m_comp m)) (cnorm (m_qty m') (m_comp m')).
Proof. intros [_ A] n. apply A. Qed.

(** Part of a material. *)
Lemma mass_scale i j q x c n : ~ csum c == 0 -> ~ q == 0 -> mass_of (Mat j x c) n == x / q * mass_of (Mat i q c) n.
Proof.
  intros H Hq. unfold mass_of. cbn [m_qty m_comp]. unfold cnorm. destruct (Qeq_bool (csum c) 0) eqn:E; [apply Qeq_bool_iff in E; contradiction|]. rewrite !cget_scale. field. auto.
Qed.
Lemma norm_sum q c : ~ csum c == 0 -> csum (cnorm q c) == q.
Proof. intro H. unfold cnorm. destruct (Qeq_bool (csum c) 0) eqn:E; [apply Qeq_bool_iff in E; contradiction|]. rewrite csum_scale. field. exact H. Qed.
Lemma alike_cut m m' i j x x' : alike m m' -> x == x' -> ~ m_qty m == 0 -> alike (Mat i x (m_comp m)) (Mat j x' (m_comp m')).
Proof.
  intros A E N. split; [exact E|]. intro n. destruct A as [Q A]. pose proof (csame_sum _ _ (A : csame (cnorm (m_qty m) (m_comp m)) (cnorm (m_qty m') (m_comp m')))) as S.
  destruct m as [a q c], m' as [b q' c']. cbn [m_qty m_comp] in *.
  destruct (Qeq_dec (csum c) 0) as [Z|Z], (Qeq_dec (csum c') 0) as [Z'|Z'].
  - unfold mass_of in *. cbn [m_qty m_comp] in *. specialize (A n). rewrite (cnorm_zero q c Z), (cnorm_zero q' c' Z') in A. rewrite (cnorm_zero x c Z), (cnorm_zero x' c' Z'). exact A.
  - rewrite (cnorm_zero q c Z), (norm_sum q' c' Z') in S. lra.
  - rewrite (cnorm_zero q' c' Z'), (norm_sum q c Z) in S. lra.
  - rewrite (mass_scale a i q x c n Z N), (mass_scale b j q' x' c' n Z'), (A n), E, Q by lra. reflexivity.
Qed.

(** Absorbing and squashing. *)
Lemma alike_absorb a a' b b' : alike a a' -> alike b b' -> alike (absorb a b) (absorb a' b').
Proof.
  intros A B. unfold absorb. apply csame_alike; [|destruct A, B; lra]. intro n. rewrite !cget_cadd. rewrite (alike_norm _ _ A n), (alike_norm _ _ B n). reflexivity.
Qed.
Lemma alike_fold ms ms' : Forall2 alike ms ms' -> forall a a', alike a a' -> alike (fold_left absorb ms a) (fold_left absorb ms' a').
Proof. induction 1 as [|x y l l' H F IH]; intros a a' A; cbn [fold_left]; [exact A|]. apply IH, alike_absorb; auto. Qed.
Lemma alike_squash ms ms' m : Forall2 alike ms ms' -> squash ms = Ok m -> exists m', squash ms' = Ok m' /\ alike m m'.
Proof. intros F H. destruct F as [|x y l l' Hx F]; [discriminate|]. cbn in H |- *. injection H as <-. eexists. split; [reflexivity|]. apply alike_fold; auto. Qed.
Lemma alike_qty ms ms' : Forall2 alike ms ms' -> qty_of ms == qty_of ms'.
Proof. induction 1 as [|x y l l' H F IH]; [reflexivity|]. rewrite !qty_of_cons. destruct H. lra. Qed.
Lemma alike_take ms ms' : Forall2 alike ms ms' -> forall q q', q == q' ->
  Forall2 alike (fst (take_qty q ms)) (fst (take_qty q' ms')) /\ Forall2 alike (snd (take_qty q ms)) (snd (take_qty q' ms')).
Proof.
  induction 1 as [|x y l l' H F IH]; intros q q' E; [split; constructor|]. cbn [take_qty]. rewrite (qleb_eq q q' 0 0) by (auto; reflexivity).
  destruct (Qle_bool q' 0) eqn:Z; [split; [constructor|constructor; auto]|]. apply Qle_bool_false in Z. pose proof (proj1 H) as Qe. rewrite (qltb_eq q q' (m_qty x) (m_qty y)) by auto.
  destruct (Qltb q' (m_qty y)) eqn:L.
  - apply Qltb_true in L. cbn [fst snd]. assert (N : ~ m_qty x == 0) by lra. split; [constructor; [apply alike_cut; auto|constructor]|constructor; [apply alike_cut; auto; lra|exact F]].
  - specialize (IH (q - m_qty x) (q' - m_qty y) ltac:(lra)). destruct (take_qty (q - m_qty x) l) as [a b], (take_qty (q' - m_qty y) l') as [a' b']. cbn [fst snd] in *. destruct IH. split; [constructor|]; auto.
Qed.
Lemma alike_pop_qty ms ms' q q' m r : Forall2 alike ms ms' -> q == q' -> items_pop_qty ms q = Ok (m, r) ->
  exists m' r', items_pop_qty ms' q' = Ok (m', r') /\ alike m m' /\ Forall2 alike r r'.
Proof.
  intros F E H. pose proof (alike_qty _ _ F) as Q. unfold items_pop_qty in *. rewrite (qltb_eq (qty_of ms') (qty_of ms) q' q) by lra. destruct (Qltb (qty_of ms) q); [discriminate|].
  destruct (alike_take ms ms' F q q' E) as [A B]. destruct (take_qty q ms) as [a b], (take_qty q' ms') as [a' b']. cbn [fst snd] in *. apply bind_ok in H as (m1 & S & H). injection H as -> ->.
  destruct (alike_squash _ _ _ A S) as (m' & -> & M). cbn [bind]. eauto 8.
Qed.
Lemma alike_pop_tol ms ms' q q' tol m r : Forall2 alike ms ms' -> q == q' -> items_pop_tol ms q tol = Ok (m, r) ->
  exists m' r', items_pop_tol ms' q' tol = Ok (m', r') /\ alike m m' /\ Forall2 alike r r'.
Proof.
  intros F E H. pose proof (alike_qty _ _ F) as Q. unfold items_pop_tol in *. rewrite (qltb_eq (qty_of ms' + tol) (qty_of ms + tol) q' q) by lra. destruct (Qltb (qty_of ms + tol) q); [discriminate|].
  rewrite (qleb_eq (qty_of ms') (qty_of ms) q' q) by lra. destruct (Qle_bool (qty_of ms) q); [|exact (alike_pop_qty _ _ _ _ _ _ F E H)].
  apply bind_ok in H as (m1 & S & H). injection H as -> <-. destruct (alike_squash _ _ _ F S) as (m' & -> & M). cbn [bind]. exists m', []. auto.
Qed.

(** ** Extracting a composition *)
Definition trim (thr x : Q) : Q := if Qltb (Qabs x) thr then 0 else x.
Lemma trim_eq thr x y : x == y -> trim thr x == trim thr y.
Proof. intro E. unfold trim. rewrite (qltb_eq (Qabs x) (Qabs y) thr thr) by (try (rewrite E); reflexivity). destruct (Qltb (Qabs y) thr); [reflexivity|exact E]. Qed.
Lemma trim_list thr f L n : NoDup L -> cget n (cthreshold thr (map (fun k => (k, f k)) L)) == if in_dec Z.eq_dec n L then trim thr (f n) else 0.
Proof.
  induction 1 as [|x L Hx HL IH]; [reflexivity|]. unfold cthreshold in *. cbn [map cget fst snd]. rewrite IH. fold (trim thr (f x)). destruct (Z.eqb_spec x n) as [->|E].
  - destruct (in_dec Z.eq_dec n L); [contradiction|]. destruct (in_dec Z.eq_dec n (n :: L)) as [_|F]; [ring|exfalso; apply F; left; auto].
  - destruct (in_dec Z.eq_dec n L); destruct (in_dec Z.eq_dec n (x :: L)) as [I|I]; try ring.
    + exfalso; apply I; right; auto.
    + destruct I as [I|I]; [congruence|contradiction].
Qed.
Lemma cget_trim thr d n : cget n (cthreshold thr (ccanon d)) == trim thr (cget n d).
Proof.
  unfold ccanon. rewrite (trim_list thr (fun k => cget k d) (ckeys d) n (ckeys_nodup d)). destruct (in_dec Z.eq_dec n (ckeys d)) as [_|N]; [reflexivity|].
  assert (Z : cget n d == 0) by (apply cget_notin; intro I; apply N, ckeys_in, I). rewrite (trim_eq thr _ _ Z). unfold trim. destruct (Qltb (Qabs 0) thr); reflexivity.
Qed.
Lemma nonneg_trim thr d : all_nonneg (cthreshold thr (ccanon d)) = true <-> forall n, 0 <= trim thr (cget n d).
Proof.
  unfold all_nonneg. rewrite forallb_forall. split.
  - intros H n. destruct (in_dec Z.eq_dec n (ckeys d)) as [I|N].
    + specialize (H (n, trim thr (cget n d))). cbn [snd] in H. apply Qle_bool_iff, H. unfold cthreshold, ccanon. rewrite map_map. apply in_map_iff. exists n. split; [reflexivity|exact I].
    + assert (Z : cget n d == 0) by (apply cget_notin; intro I; apply N, ckeys_in, I). rewrite (trim_eq thr _ _ Z). unfold trim. destruct (Qltb (Qabs 0) thr); lra.
  - intros H e I. unfold cthreshold, ccanon in I. rewrite map_map in I. apply in_map_iff in I as (n & <- & _). cbn [snd fst]. apply Qle_bool_iff, (H n).
Qed.
Lemma alike_extract thr q q' c c' m m' a b : alike m m' -> csame c c' -> q == q' -> extract_comp thr q c m = Ok (a, b) ->
  exists a' b', extract_comp thr q' c' m' = Ok (a', b') /\ alike a a' /\ alike b b' /\ comp_ok (m_comp b) /\ comp_ok (m_comp b').
Proof.
  intros A C E H. unfold extract_comp, csub in *. rewrite (qltb_eq (m_qty m') (m_qty m) q' q) by (destruct A; lra). destruct (Qltb (m_qty m) q); [discriminate|]. cbv zeta in *.
  set (d := cnorm (m_qty m) (m_comp m) ++ cscale (-(1)) (cnorm q c)) in *. set (d' := cnorm (m_qty m') (m_comp m') ++ cscale (-(1)) (cnorm q' c')).
  assert (D : csame d d') by (intro n; unfold d, d'; rewrite !cget_app, !cget_scale, (alike_norm _ _ A n), (csame_norm c c' q q' C E n); reflexivity).
  destruct (all_nonneg (cthreshold thr (ccanon d))) eqn:N; [|discriminate].
  assert (N' : all_nonneg (cthreshold thr (ccanon d')) = true) by (apply nonneg_trim; intro n; rewrite <- (trim_eq thr _ _ (D n)); apply (proj1 (nonneg_trim thr d) N)).
  rewrite N'. injection H as <- <-. eexists. eexists. split; [reflexivity|]. split; [apply csame_alike; auto|]. split; [apply csame_alike|].
  - intro n. rewrite !cget_trim. apply trim_eq, D.
  - destruct A; lra.
  - cbn [m_comp]. split; apply all_nonneg_iff; auto.
Qed.
