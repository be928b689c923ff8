(** Weights and fractions of FuelFab. *)
From Coq Require Import Lia Lqa.
From Verif Require Import Outcome KernelMaterial KernelResBuf KernelFacts KernelMass KernelBuf KernelBufFacts
  FuelFabModel FuelFabSpec.
Local Open Scope Q_scope.

(** ** Weighted sums over a composition *)
Definition wmap (h : Z -> Q) (c : comp) : comp := map (fun e => (fst e, snd e * h (fst e))) c.
Definition cdot (h : Z -> Q) (c : comp) : Q := csum (wmap h c).
Lemma wmap_keys h c : map fst (wmap h c) = map fst c.
Proof. unfold wmap. rewrite map_map. reflexivity. Qed.
Lemma wmap_get h c n : cget n (wmap h c) == h n * cget n c.
Proof.
  induction c as [|[k v] c IH]; [simpl; ring|]. simpl in *. rewrite IH.
  destruct (Z.eqb_spec k n) as [->|]; ring.
Qed.
Lemma cdot_cons h e c : cdot h (e :: c) == snd e * h (fst e) + cdot h c.
Proof. unfold cdot. cbn [wmap map]. rewrite csum_cons. reflexivity. Qed.
Lemma cdot_app h a b : cdot h (a ++ b) == cdot h a + cdot h b.
Proof. unfold cdot, wmap. rewrite map_app. apply csum_app. Qed.
Lemma cdot_scale h k c : cdot h (cscale k c) == k * cdot h c.
Proof.
  induction c as [|e c IH]; [unfold cdot, csum; simpl; ring|].
  change (cscale k (e :: c)) with ((fst e, k * snd e) :: cscale k c). rewrite !cdot_cons, IH. simpl. ring.
Qed.
Lemma cdot_keys h c L : NoDup L -> (forall n, In n (map fst c) -> In n L) ->
  qsum (map (fun n => h n * cget n c) L) == cdot h c.
Proof.
  intros ND H. unfold cdot. rewrite <- (sum_over_keys (wmap h c) L ND).
  - apply qsum_map_ext. intros n _. symmetry. apply wmap_get.
  - rewrite wmap_keys. exact H.
Qed.
Lemma cdot_canon h c : cdot h (ccanon c) == cdot h c.
Proof.
  rewrite <- (cdot_keys h c (ckeys c) (ckeys_nodup c)) by (intros; apply ckeys_in; auto).
  unfold cdot, wmap, ccanon, csum. rewrite !map_map. apply qsum_map_ext. intros n _. simpl. ring.
Qed.
Lemma cdot_cadd h a b : cdot h (cadd a b) == cdot h a + cdot h b.
Proof. unfold cadd. rewrite cdot_canon. apply cdot_app. Qed.
Lemma cdot_cnorm h q c : 0 < csum c -> cdot h (cnorm q c) == q * (cdot h c / csum c).
Proof. intro P. rewrite cnorm_pos, cdot_scale by auto. field. lra. Qed.
Lemma cdot_ext h g c : (forall n, h n == g n) -> cdot h c == cdot g c.
Proof. intro H. induction c as [|e c IH]; [reflexivity|]. rewrite !cdot_cons, IH, H. reflexivity. Qed.
Lemma cdot_nonneg h c : comp_ok c -> (forall n, 0 <= h n) -> 0 <= cdot h c.
Proof.
  intros O H. induction O as [|e c He _ IH]; [apply Qle_refl|]. rewrite cdot_cons.
  pose proof (Qmult_le_0_compat _ _ He (H (fst e))). lra.
Qed.
Lemma cdot_pos h c : comp_ok c -> 0 < csum c -> (forall n, 0 < h n) -> 0 < cdot h c.
Proof.
  intros O P H. induction O as [|e c He O IH]; [unfold csum in P; simpl in P; lra|].
  rewrite cdot_cons. rewrite csum_cons in P.
  assert (N : 0 <= cdot h c) by (apply cdot_nonneg; [auto|intro n; apply Qlt_le_weak, H]).
  pose proof (H (fst e)) as Hh. pose proof (csum_nonneg c O).
  destruct (Qlt_le_dec 0 (snd e)) as [E|E].
  - pose proof (Qmult_lt_0_compat _ _ E Hh). lra.
  - assert (0 < csum c) by lra. pose proof (IH H1). assert (Z : snd e == 0) by lra. rewrite Z. lra.
Qed.
Lemma cdot_mul h g c : cdot g (wmap h c) == cdot (fun n => h n * g n) c.
Proof.
  induction c as [|e c IH]; [reflexivity|]. cbn [wmap map]. fold (wmap h c). rewrite !cdot_cons, IH. simpl. ring.
Qed.
Lemma cdot_scale_fun h k c : cdot (fun n => k * h n) c == k * cdot h c.
Proof. induction c as [|e c IH]; [unfold cdot, csum; simpl; ring|]. rewrite !cdot_cons, IH. ring. Qed.
Lemma cdot_one c : cdot (fun _ => 1) c == csum c.
Proof. induction c as [|e c IH]; [reflexivity|]. rewrite cdot_cons, csum_cons, IH. ring. Qed.

(** ** Atoms and weights *)
Section DATA.
Context (D : nucdata) (AW : forall n, 0 < d_aw D n).
Definition iaw (n : Z) : Q := / d_aw D n.
Lemma iaw_pos n : 0 < iaw n.
Proof. apply Qinv_lt_0_compat, AW. Qed.
Lemma atoms_wmap c : atoms D c = wmap iaw c.
Proof. reflexivity. Qed.
(** Atoms per unit of [c]'s entries. *)
Definition NA (c : comp) : Q := cdot iaw c.
Lemma NA_pos c : real_comp c -> 0 < NA c.
Proof. intros [O P]. apply cdot_pos; [exact O|exact P|exact iaw_pos]. Qed.
Lemma atoms_sum c : csum (atoms D c) = NA c.
Proof. reflexivity. Qed.
Definition pw (sp : string) (n : Z) : Q := (p_of D sp n - p_u238 D sp) / (p_pu239 D sp - p_u238 D sp).
Definition PW sp c : Q := cdot (fun n => iaw n * pw sp n) c.
Lemma weight_eq sp c : real_comp c -> cosi_weight D sp c == PW sp c / NA c.
Proof.
  intro R. pose proof (NA_pos c R) as P. unfold cosi_weight.
  assert (E : qsum (map (fun e => snd e * (p_of D sp (fst e) - p_u238 D sp) / (p_pu239 D sp - p_u238 D sp))
                        (cnorm 1 (atoms D c))) == cdot (pw sp) (cnorm 1 (atoms D c))).
  { unfold cdot, csum, wmap. rewrite map_map. apply qsum_map_ext. intros e _. simpl. unfold pw, Qdiv. ring. }
  rewrite E. rewrite cdot_cnorm by (rewrite atoms_sum; exact P). rewrite atoms_sum, atoms_wmap, cdot_mul.
  fold (PW sp c). field. lra.
Qed.
(** Mean atomic mass. *)
Definition MA (c : comp) : Q := csum c / NA c.
Lemma MA_pos c : real_comp c -> 0 < MA c.
Proof. intro R. apply Qlt_shift_div_l; [apply NA_pos, R|]. destruct R as [_ P]. lra. Qed.
Lemma side_mass f c : real_comp c ->
  qsum (map (fun e => snd e * d_aw D (fst e)) (cnorm f (atoms D c))) == f * MA c.
Proof.
  intro R. pose proof (NA_pos c R) as P.
  assert (E : qsum (map (fun e => snd e * d_aw D (fst e)) (cnorm f (atoms D c))) == cdot (d_aw D) (cnorm f (atoms D c))).
  { unfold cdot, csum, wmap. rewrite map_map. reflexivity. }
  rewrite E, cdot_cnorm by (rewrite atoms_sum; exact P). rewrite atoms_sum, atoms_wmap, cdot_mul.
  assert (X : cdot (fun n => iaw n * d_aw D n) c == csum c).
  { rewrite <- cdot_one. apply cdot_ext. intro n. unfold iaw. field. pose proof (AW n). lra. }
  rewrite X. unfold MA. reflexivity.
Qed.
Lemma a2m_eq f c1 c2 : real_comp c1 -> real_comp c2 ->
  atom_to_mass D f c1 c2 == f * MA c1 / (f * MA c1 + (1 - f) * MA c2).
Proof. intros R1 R2. unfold atom_to_mass. rewrite !side_mass by auto. reflexivity. Qed.
Lemma a2m_den f c1 c2 : real_comp c1 -> real_comp c2 -> 0 <= f -> f <= 1 -> 0 < f * MA c1 + (1 - f) * MA c2.
Proof.
  intros R1 R2 A B. pose proof (MA_pos c1 R1) as P1. pose proof (MA_pos c2 R2) as P2.
  destruct (Qlt_le_dec 0 f) as [F|F].
  - pose proof (Qmult_lt_0_compat _ _ F P1). assert (0 <= (1 - f) * MA c2) by (apply Qmult_le_0_compat; lra). lra.
  - assert (Z : f == 0) by lra. rewrite Z. lra.
Qed.
Lemma a2m_flip f c1 c2 : real_comp c1 -> real_comp c2 -> 0 <= f -> f <= 1 ->
  atom_to_mass D (1 - f) c2 c1 == 1 - atom_to_mass D f c1 c2.
Proof.
  intros R1 R2 A B. rewrite !a2m_eq by auto. pose proof (a2m_den f c1 c2 R1 R2 A B) as P. field. lra.
Qed.
Lemma a2m_nonneg f c1 c2 : real_comp c1 -> real_comp c2 -> 0 <= f -> f <= 1 -> 0 <= atom_to_mass D f c1 c2.
Proof.
  intros R1 R2 A B. rewrite a2m_eq by auto. pose proof (a2m_den f c1 c2 R1 R2 A B) as P.
  apply Qle_shift_div_l; [auto|]. pose proof (MA_pos c1 R1).
  assert (0 <= f * MA c1) by (apply Qmult_le_0_compat; lra). lra.
Qed.
Lemma a2m_le f c1 c2 : real_comp c1 -> real_comp c2 -> 0 <= f -> f <= 1 -> atom_to_mass D f c1 c2 <= 1.
Proof.
  intros R1 R2 A B. pose proof (a2m_flip f c1 c2 R1 R2 A B).
  pose proof (a2m_nonneg (1 - f) c2 c1 R2 R1 ltac:(lra) ltac:(lra)). lra.
Qed.
Lemma a2m_pos f c1 c2 : real_comp c1 -> real_comp c2 -> 0 < f -> f <= 1 -> 0 < atom_to_mass D f c1 c2.
Proof.
  intros R1 R2 A B. rewrite a2m_eq by auto. pose proof (a2m_den f c1 c2 R1 R2 ltac:(lra) B) as P.
  apply Qlt_shift_div_l; [auto|]. pose proof (Qmult_lt_0_compat _ _ A (MA_pos c1 R1)). lra.
Qed.
Lemma a2m_zero f c1 c2 : real_comp c1 -> real_comp c2 -> f == 0 -> atom_to_mass D f c1 c2 == 0.
Proof. intros R1 R2 F. rewrite a2m_eq by auto. rewrite F. unfold Qdiv. ring. Qed.
Lemma a2m_one f c1 c2 : real_comp c1 -> real_comp c2 -> f == 1 -> atom_to_mass D f c1 c2 == 1.
Proof. intros R1 R2 F. rewrite a2m_eq by auto. rewrite F. pose proof (MA_pos c1 R1). field. lra. Qed.
Lemma a2m_ext f g c1 c2 : real_comp c1 -> real_comp c2 -> f == g ->
  atom_to_mass D f c1 c2 == atom_to_mass D g c1 c2.
Proof. intros R1 R2 F. rewrite !a2m_eq by auto. rewrite F. reflexivity. Qed.

(** ** Blending *)
Lemma blend_real i j x y c1 c2 : real_comp c1 -> real_comp c2 -> 0 <= x -> 0 <= y -> 0 < x + y ->
  real_comp (m_comp (absorb (Mat i x c1) (Mat j y c2))).
Proof.
  intros [O1 P1] [O2 P2] X Y XY. unfold absorb; cbn [m_comp m_qty]. split.
  - apply cadd_ok; apply cnorm_ok; auto.
  - rewrite csum_cadd, !csum_cnorm by auto. exact XY.
Qed.
Lemma blend_dot h i j x y c1 c2 : real_comp c1 -> real_comp c2 ->
  cdot h (m_comp (absorb (Mat i x c1) (Mat j y c2))) == x * (cdot h c1 / csum c1) + y * (cdot h c2 / csum c2).
Proof.
  intros [O1 P1] [O2 P2]. unfold absorb; cbn [m_comp m_qty]. rewrite cdot_cadd, !cdot_cnorm by auto. reflexivity.
Qed.
Lemma blend_weight sp i j x y c1 c2 : real_comp c1 -> real_comp c2 -> 0 <= x -> 0 <= y -> 0 < x + y ->
  cosi_weight D sp (m_comp (absorb (Mat i x c1) (Mat j y c2))) ==
  (x / MA c1 * cosi_weight D sp c1 + y / MA c2 * cosi_weight D sp c2) / (x / MA c1 + y / MA c2).
Proof.
  intros R1 R2 X Y XY. rewrite weight_eq by (apply blend_real; auto). rewrite !weight_eq by auto.
  unfold PW, NA at 1. rewrite !blend_dot by auto. fold (PW sp c1) (PW sp c2). fold (NA c1) (NA c2).
  pose proof (NA_pos c1 R1). pose proof (NA_pos c2 R2). unfold MA.
  assert (DD : 0 < x * (NA c1 / csum c1) + y * (NA c2 / csum c2)).
  { destruct R1 as [_ P1]. destruct R2 as [_ P2].
    assert (0 < NA c1 / csum c1) by (apply Qlt_shift_div_l; lra).
    assert (0 < NA c2 / csum c2) by (apply Qlt_shift_div_l; lra).
    destruct (Qlt_le_dec 0 x) as [F|F].
    - pose proof (Qmult_lt_0_compat _ _ F H1). pose proof (Qmult_le_0_compat y (NA c2 / csum c2) Y ltac:(lra)). lra.
    - assert (F2 : 0 < y) by lra. pose proof (Qmult_lt_0_compat _ _ F2 H2).
      pose proof (Qmult_le_0_compat x (NA c1 / csum c1) X ltac:(lra)). lra. }
  destruct R1 as [_ P1]. destruct R2 as [_ P2].
  assert (E1 : x / (csum c1 / NA c1) == x * (NA c1 / csum c1)) by (field; lra).
  assert (E2 : y / (csum c2 / NA c2) == y * (NA c2 / csum c2)) by (field; lra).
  rewrite E1, E2. set (den := x * (NA c1 / csum c1) + y * (NA c2 / csum c2)) in *.
  assert (N1 : x * (PW sp c1 / csum c1) + y * (PW sp c2 / csum c2) ==
               x * (NA c1 / csum c1) * (PW sp c1 / NA c1) + y * (NA c2 / csum c2) * (PW sp c2 / NA c2)) by (field; lra).
  fold (cdot (fun n => iaw n * pw sp n) c1). unfold PW in N1. rewrite N1. reflexivity.
Qed.
(** The blend with mass fractions belonging to atom fraction [f] has the interpolated weight. *)
Lemma frac_weight sp i j f q x y c1 c2 : real_comp c1 -> real_comp c2 -> 0 <= f -> f <= 1 -> 0 < q ->
  x == atom_to_mass D f c1 c2 * q -> y == (1 - atom_to_mass D f c1 c2) * q ->
  cosi_weight D sp (m_comp (absorb (Mat i x c1) (Mat j y c2))) ==
  f * cosi_weight D sp c1 + (1 - f) * cosi_weight D sp c2.
Proof.
  intros R1 R2 A B P X Y.
  pose proof (a2m_nonneg f c1 c2 R1 R2 A B) as U. pose proof (a2m_le f c1 c2 R1 R2 A B) as V.
  assert (0 <= x) by (rewrite X; apply Qmult_le_0_compat; lra).
  assert (0 <= y) by (rewrite Y; apply Qmult_le_0_compat; lra).
  rewrite blend_weight; auto; [|rewrite X, Y; lra].
  pose proof (a2m_den f c1 c2 R1 R2 A B) as DD. pose proof (MA_pos c1 R1) as M1. pose proof (MA_pos c2 R2) as M2.
  set (w1 := cosi_weight D sp c1). set (w2 := cosi_weight D sp c2).
  assert (X' : x / MA c1 == f * q / (f * MA c1 + (1 - f) * MA c2)) by (rewrite X, a2m_eq by auto; field; lra).
  assert (Y' : y / MA c2 == (1 - f) * q / (f * MA c1 + (1 - f) * MA c2)) by (rewrite Y, a2m_eq by auto; field; lra).
  rewrite X', Y'. field. lra.
Qed.
End DATA.

(** ** HighFrac and LowFrac *)
Definition hfrel (nz lo t hi f : Q) : Prop :=
  (lo == hi /\ f == 1) \/
  (lo < hi /\
    ((hi - t < nz * (hi - lo) /\ f == 1) \/
     (nz * (hi - lo) <= hi - t /\ t - lo < nz * (hi - lo) /\ f == 0) \/
     (nz * (hi - lo) <= hi - t /\ nz * (hi - lo) <= t - lo /\ f * (hi - lo) == t - lo))).
Lemma valid_iff lo t hi : valid_weights lo t hi = true <-> between lo t hi.
Proof. unfold valid_weights, between. rewrite andb_true_iff, !Qle_bool_iff. tauto. Qed.
Lemma valid_false lo t hi : valid_weights lo t hi = false <-> ~ between lo t hi.
Proof. rewrite <- valid_iff. destruct (valid_weights lo t hi); split; congruence. Qed.
Lemma high_frac_ok nz lo t hi : between lo t hi -> exists f, high_frac nz lo t hi = Ok f /\ hfrel nz lo t hi f.
Proof.
  intros B. unfold high_frac. rewrite (proj2 (valid_iff lo t hi) B). destruct B as [B1 B2]. cbn [negb].
  destruct (Qeq_bool lo hi) eqn:E.
  - apply Qeq_bool_iff in E. assert (T : Qeq_bool t lo = true) by (apply Qeq_bool_iff; lra). rewrite T. cbn [andb].
    exists 1. split; [reflexivity|]. left. split; [auto|reflexivity].
  - cbn [andb]. apply Qeq_bool_false in E.
    assert (L : lo < hi). { destruct (Qlt_le_dec lo hi); auto. exfalso. apply E. lra. }
    cbv zeta. set (r := (t - lo) / (hi - lo)).
    assert (R : r * (hi - lo) == t - lo) by (unfold r; field; lra).
    assert (R0 : 0 <= r) by (apply Qle_shift_div_l; lra).
    assert (A : Qabs r == r) by (apply Qabs_pos; auto).
    destruct (Qltb (1 - Qabs r) nz) eqn:C1.
    { apply Qltb_true in C1. exists 1. split; [reflexivity|]. right. split; [auto|]. left. split; [|reflexivity].
      rewrite A in C1. assert (X : hi - t == (1 - r) * (hi - lo)) by lra. rewrite X. apply Qmult_lt_compat_r; lra. }
    apply Qltb_false in C1. rewrite A in C1.
    assert (H1 : nz * (hi - lo) <= hi - t).
    { assert (X : hi - t == (1 - r) * (hi - lo)) by lra. rewrite X. apply Qmult_le_compat_r; lra. }
    destruct (Qltb (Qabs r) nz) eqn:C2.
    { apply Qltb_true in C2. rewrite A in C2. exists 0. split; [reflexivity|]. right. split; [auto|]. right. left.
      split; [auto|]. split; [|reflexivity]. rewrite <- R. apply Qmult_lt_compat_r; lra. }
    apply Qltb_false in C2. rewrite A in C2. exists (Qabs r). split; [reflexivity|]. right. split; [auto|].
    right. right. split; [auto|]. split; [rewrite <- R; apply Qmult_le_compat_r; lra|]. rewrite A. exact R.
Qed.
Lemma high_frac_bad nz lo t hi : ~ between lo t hi -> high_frac nz lo t hi = Throw ValueError.
Proof. intro B. unfold high_frac. apply valid_false in B. rewrite B. reflexivity. Qed.
Lemma hf_range nz lo t hi f : 0 <= nz -> between lo t hi -> hfrel nz lo t hi f -> 0 <= f /\ f <= 1.
Proof.
  intros N [B1 B2] [[E F]|[L [[E F]|[[E [E' F]]|[E [E' F]]]]]]; try lra.
  split.
  - destruct (Qlt_le_dec f 0) as [X|X]; [|auto]. exfalso.
    assert (0 < (- f) * (hi - lo)) by (apply Qmult_lt_0_compat; lra). lra.
  - destruct (Qlt_le_dec 1 f) as [X|X]; [|auto]. exfalso.
    assert (0 < (f - 1) * (hi - lo)) by (apply Qmult_lt_0_compat; lra). lra.
Qed.
Lemma hf_close nz lo t hi f : 0 <= nz -> between lo t hi -> hfrel nz lo t hi f ->
  Qabs (f * hi + (1 - f) * lo - t) <= nz * (hi - lo).
Proof.
  intros N [B1 B2] H.
  assert (P : 0 <= nz * (hi - lo)) by (apply Qmult_le_0_compat; lra).
  apply Qabs_Qle_condition.
  destruct H as [[E F]|[L [[E F]|[[E [E' F]]|[E [E' F]]]]]].
  - rewrite F. lra.
  - rewrite F. lra.
  - rewrite F. lra.
  - assert (X : f * hi + (1 - f) * lo - t == f * (hi - lo) - (t - lo)) by ring. rewrite X, F. lra.
Qed.
Lemma hf_exact nz lo t hi f : hfrel nz lo t hi f -> lo < hi -> nz * (hi - lo) <= hi - t -> nz * (hi - lo) <= t - lo ->
  f * hi + (1 - f) * lo == t.
Proof.
  intros [[E F]|[L [[E F]|[[E [E' F]]|[E [E' F]]]]]] X Y Z; try lra.
Qed.
Lemma hf_det nz lo t hi f lo' t' hi' f' : lo == lo' -> t == t' -> hi == hi' ->
  hfrel nz lo t hi f -> hfrel nz lo' t' hi' f' -> f == f'.
Proof.
  intros E1 E2 E3 H H'. unfold hfrel in H'. rewrite <- E1, <- E2, <- E3 in H'.
  destruct H as [[E F]|[L [[E F]|[[E [E' F]]|[E [E' F]]]]]];
  destruct H' as [[G K]|[M [[G K]|[[G [G' K]]|[G [G' K]]]]]]; try lra.
  apply (Qmult_inj_r f f' (hi - lo)); lra.
Qed.
(** What a blend made with fraction [f] weighs gives back the fraction [f]. *)
Lemma hf_again nz lo t hi f w f' : 0 <= nz -> nz <= 1 -> between lo t hi -> hfrel nz lo t hi f ->
  w == f * hi + (1 - f) * lo -> hfrel nz lo w hi f' -> f' == f.
Proof.
  intros N N1 [B1 B2] H W H'. unfold hfrel in H'. rewrite W in H'.
  destruct H as [[E F]|[L H]].
  - destruct H' as [[_ K]|[M _]]; lra.
  - destruct H' as [[K _]|[_ H']]; [lra|].
    assert (PL : 0 < hi - lo) by lra.
    destruct H as [[E F]|[[E [E' F]]|[E [E' F]]]]; rewrite F in H' || idtac.
    + assert (P : 0 <= nz * (hi - lo)) by (apply Qmult_le_0_compat; lra).
      destruct H' as [[G K]|[[G [G' K]]|[G [G' K]]]].
      * lra.
      * exfalso. assert (0 < (1 - nz) * (hi - lo) \/ 1 - nz == 0).
        { destruct (Qlt_le_dec nz 1) as [Z|Z]; [left; apply Qmult_lt_0_compat; lra|right; lra]. }
        rewrite F in *. destruct H as [H|H]; [lra|]. assert (nz == 1) by lra. rewrite H0 in *. lra.
      * rewrite F in *. apply (Qmult_inj_r f' 1 (hi - lo)); lra.
    + rewrite F in *. assert (P : nz * (hi - lo) <= 1 * (hi - lo)) by (apply Qmult_le_compat_r; lra).
      destruct H' as [[G K]|[[G [G' K]]|[G [G' K]]]].
      * exfalso. lra.
      * lra.
      * apply (Qmult_inj_r f' 0 (hi - lo)); lra.
    + assert (X : f * hi + (1 - f) * lo == t) by lra. rewrite X in H'.
      destruct H' as [[G K]|[[G [G' K]]|[G [G' K]]]]; try lra.
      apply (Qmult_inj_r f' f (hi - lo)); lra.
Qed.

(** ** Atom fractions *)
Section ATOMS.
Context (D : nucdata) (AW : forall n, 0 < d_aw D n).
Lemma all_atoms_eq q c : real_comp c -> all_atoms D q c == q / MA D c.
Proof.
  intro R. pose proof (NA_pos D AW c R) as P. destruct R as [O S]. unfold all_atoms, natoms, MA.
  assert (E : qsum (map (fun n => q * (cget n c / csum c) / d_aw D n) (ckeys c)) ==
              q / csum c * qsum (map (fun n => iaw D n * cget n c) (ckeys c))).
  { rewrite <- qsum_map_scale. apply qsum_map_ext. intros n _. unfold iaw. field. pose proof (AW n). lra. }
  rewrite E, (cdot_keys (iaw D) c (ckeys c) (ckeys_nodup c)) by (intros; apply ckeys_in; auto).
  fold (NA D c). field. lra.
Qed.
Lemma atom_fraction_eq c n : real_comp c -> atom_fraction D c n == iaw D n * cget n c / NA D c.
Proof.
  intro R. unfold atom_fraction. rewrite all_atoms_eq by auto. pose proof (NA_pos D AW c R) as P.
  destruct R as [O S]. unfold natoms, MA, iaw. field. pose proof (AW n). lra.
Qed.
Lemma atom_fraction_sum c : real_comp c -> qsum (map (atom_fraction D c) (ckeys c)) == 1.
Proof.
  intro R. pose proof (NA_pos D AW c R) as P.
  rewrite (qsum_map_ext _ (fun n => / NA D c * (iaw D n * cget n c)))
    by (intros n _; rewrite atom_fraction_eq by auto; field; lra).
  rewrite qsum_map_scale, (cdot_keys (iaw D) c (ckeys c) (ckeys_nodup c)) by (intros; apply ckeys_in; auto).
  fold (NA D c). field. lra.
Qed.
Lemma fractions_final c1 c2 f q i j : real_comp c1 -> real_comp c2 -> 0 <= f -> f <= 1 -> 0 < q ->
  let a := atom_to_mass D f c1 c2 in
  let b := atom_to_mass D (1 - f) c2 c1 in
  let m := absorb (Mat i (a * q) c1) (Mat j (b * q) c2) in
  (0 <= a /\ a <= 1) /\ (0 <= b /\ b <= 1) /\ a + b == 1 /\
  all_atoms D (a * q) c1 == f * (all_atoms D (a * q) c1 + all_atoms D (b * q) c2) /\
  all_atoms D (b * q) c2 == (1 - f) * (all_atoms D (a * q) c1 + all_atoms D (b * q) c2) /\
  (forall n, atom_fraction D (m_comp m) n == f * atom_fraction D c1 n + (1 - f) * atom_fraction D c2 n).
Proof.
  intros R1 R2 F0 F1 Q0 a b m.
  pose proof (a2m_nonneg D AW f c1 c2 R1 R2 F0 F1) as A0. pose proof (a2m_le D AW f c1 c2 R1 R2 F0 F1) as A1.
  pose proof (a2m_flip D AW f c1 c2 R1 R2 F0 F1) as AB. fold a in A0, A1, AB. fold b in AB.
  assert (S : a + b == 1) by (rewrite AB; ring).
  split; [auto|]. split; [lra|]. split; [exact S|].
  pose proof (a2m_den D AW f c1 c2 R1 R2 F0 F1) as DD. pose proof (MA_pos D AW c1 R1) as M1. pose proof (MA_pos D AW c2 R2) as M2.
  assert (EA : a * q / MA D c1 == f * q / (f * MA D c1 + (1 - f) * MA D c2)).
  { unfold a. rewrite (a2m_eq D AW) by auto. field. lra. }
  assert (EB : b * q / MA D c2 == (1 - f) * q / (f * MA D c1 + (1 - f) * MA D c2)).
  { rewrite AB. unfold a. rewrite (a2m_eq D AW) by auto. field. lra. }
  rewrite !all_atoms_eq by auto. rewrite EA, EB.
  split; [field; lra|]. split; [field; lra|]. intro n.
  assert (X0 : 0 <= a * q) by (apply Qmult_le_0_compat; lra).
  assert (Y0 : 0 <= b * q) by (apply Qmult_le_0_compat; lra).
  assert (XY : 0 < a * q + b * q) by (assert (Z : a * q + b * q == (a + b) * q) by ring; rewrite Z, S; lra).
  assert (RM : real_comp (m_comp m)) by (apply blend_real; auto).
  rewrite !atom_fraction_eq by auto.
  assert (NM : NA D (m_comp m) == a * q / MA D c1 + b * q / MA D c2).
  { unfold NA, m. rewrite blend_dot by auto. fold (NA D c1) (NA D c2). unfold MA.
    pose proof (NA_pos D AW c1 R1). pose proof (NA_pos D AW c2 R2). destruct R1, R2. field. lra. }
  assert (GM : cget n (m_comp m) == a * q * (cget n c1 / csum c1) + b * q * (cget n c2 / csum c2)).
  { unfold m, absorb; cbn [m_comp m_qty]. destruct R1, R2. rewrite cget_cadd, !cget_cnorm by auto. reflexivity. }
  rewrite NM, GM.
  assert (G1 : a * q * (cget n c1 / csum c1) == a * q / MA D c1 * (cget n c1 / NA D c1)).
  { unfold MA. pose proof (NA_pos D AW c1 R1). destruct R1. field. lra. }
  assert (G2 : b * q * (cget n c2 / csum c2) == b * q / MA D c2 * (cget n c2 / NA D c2)).
  { unfold MA. pose proof (NA_pos D AW c2 R2). destruct R2. field. lra. }
  rewrite G1, G2, EA, EB.
  assert (N1 := NA_pos D AW c1 R1). assert (N2 := NA_pos D AW c2 R2).
  set (d := f * MA D c1 + (1 - f) * MA D c2) in *. set (g1 := cget n c1). set (g2 := cget n c2). field. lra.
Qed.

(** ** The weight *)
Lemma production_det sp n p : production D sp n p -> p == p_of D sp n.
Proof.
  unfold production, p_of. destruct (d_xs D n "fission" sp) as [f|]; [|auto].
  destruct (d_xs D n "absorption" sp) as [a|]; [|auto].
  intros [(th & fa & I & T & F)|(N & E)].
  - unfold nu_of. destruct (String.eqb_spec sp "thermal") as [X|X].
    + rewrite (T X). simpl in I.
      destruct I as [I|[I|[I|[I|[]]]]]; injection I as <- <- <-; simpl; try reflexivity; ring.
    + rewrite (F X). simpl in I.
      destruct I as [I|[I|[I|[I|[]]]]]; injection I as <- <- <-; simpl; try reflexivity; ring.
  - rewrite E. unfold nu_of. simpl in N.
    destruct (Z.eqb_spec n 922350000); [exfalso; apply N; subst; tauto|].
    destruct (Z.eqb_spec n 922330000); [exfalso; apply N; subst; tauto|].
    destruct (Z.eqb_spec n 942390000); [exfalso; apply N; subst; tauto|].
    destruct (Z.eqb_spec n 942410000); [exfalso; apply N; subst; tauto|]. ring.
Qed.
Lemma weight_final sp c (p : Z -> Q) : real_comp c -> (forall n, production D sp n (p n)) ->
  cosi_weight D sp c ==
  qsum (map (fun n => atom_fraction D c n * ((p n - p 922380000%Z) / (p 942390000%Z - p 922380000%Z))) (ckeys c)).
Proof.
  intros R HP. rewrite (weight_eq D AW) by auto. pose proof (NA_pos D AW c R) as P.
  rewrite (qsum_map_ext _ (fun n => / NA D c * ((iaw D n * pw D sp n) * cget n c))).
  - rewrite qsum_map_scale, (cdot_keys (fun n => iaw D n * pw D sp n) c (ckeys c) (ckeys_nodup c)) by (intros; apply ckeys_in; auto).
    fold (PW D sp c). field. lra.
  - intros n _. rewrite atom_fraction_eq by auto. unfold pw, p_u238, p_pu239.
    rewrite (production_det sp n _ (HP n)), (production_det sp _ _ (HP 922380000%Z)), (production_det sp _ _ (HP 942390000%Z)).
    set (x := (p_of D sp n - p_of D sp 922380000) / (p_of D sp 942390000 - p_of D sp 922380000)). field. lra.
Qed.
End ATOMS.
Lemma pure_weight D sp n v : (forall n, 0 < d_aw D n) -> 0 < v -> cosi_weight D sp [(n, v)] == pw D sp n.
Proof.
  intros AW V. assert (R : real_comp [(n, v)]) by (split; [repeat constructor; simpl; lra|unfold csum; simpl; lra]).
  rewrite (weight_eq D AW) by auto. pose proof (NA_pos D AW _ R) as P. unfold PW, NA, cdot, csum in *. simpl in *.
  pose proof (iaw_pos D AW n). field. lra.
Qed.
Lemma scale_weight D sp k c : (forall n, 0 < d_aw D n) -> real_comp c -> 0 < k ->
  cosi_weight D sp (cscale k c) == cosi_weight D sp c.
Proof.
  intros AW R K. assert (R' : real_comp (cscale k c)).
  { destruct R as [O P]. split; [apply cscale_ok; [lra|exact O]|]. rewrite csum_scale. apply Qmult_lt_0_compat; auto. }
  rewrite !(weight_eq D AW) by auto. unfold PW, NA at 1. rewrite !cdot_scale. fold (NA D c).
  pose proof (NA_pos D AW c R). field. lra.
Qed.
Lemma references_final D sp v : data_ok D sp -> 0 < v ->
  cosi_weight D sp [(942390000%Z, v)] == 1 /\ cosi_weight D sp [(922380000%Z, v)] == 0.
Proof.
  intros (AW & _ & _ & NE) V. rewrite !pure_weight by auto. unfold pw, p_pu239, p_u238 in *.
  assert (~ p_of D sp 942390000 - p_of D sp 922380000 == 0) by (intro X; apply NE; lra).
  split; [field; auto|]. unfold Qdiv. ring.
Qed.
(** C34 *)
Lemma high_low_final nz lo t hi : 0 <= nz ->
  (lo <= t /\ t <= hi ->
   exists f g, high_frac nz lo t hi = Ok f /\ low_frac nz lo t hi = Ok g /\
     (0 <= f /\ f <= 1) /\ (0 <= g /\ g <= 1) /\ f + g == 1 /\
     Qabs (f * hi + g * lo - t) <= nz * (hi - lo) /\
     (nz * (hi - lo) <= t - lo -> nz * (hi - lo) <= hi - t -> f * hi + g * lo == t)) /\
  (~ (lo <= t /\ t <= hi) -> high_frac nz lo t hi = Throw ValueError /\ low_frac nz lo t hi = Throw ValueError).
Proof.
  intro N. split; intro B.
  - destruct (high_frac_ok nz lo t hi B) as (f & H & R). exists f, (1 - f). unfold low_frac. rewrite H. cbn [bind].
    pose proof (hf_range nz lo t hi f N B R). split; [auto|]. split; [auto|]. split; [auto|]. split; [lra|].
    split; [ring|]. split; [apply hf_close; auto|]. intros X Y.
    destruct (Qlt_le_dec lo hi) as [L|L]; [apply (hf_exact nz); auto|].
    assert (lo == t) by lra. assert (hi == t) by lra. rewrite H1, H2. ring.
  - unfold low_frac. rewrite (high_frac_bad nz lo t hi B). auto.
Qed.
