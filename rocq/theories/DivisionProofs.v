(** Stocks that differ only in how they are divided into parcels (C125). *)
From Coq Require Import Lia Lqa.
From Verif Require Import Outcome KernelMaterial KernelResBuf KernelBuf KernelFacts KernelMass DivisionSpec.
Local Open Scope Q_scope.

Lemma alike_refl m : alike m m. Proof. split; reflexivity. Qed.
Lemma alike_sym m m' : alike m m' -> alike m' m. Proof. intros [A B]. split; [symmetry; auto|intro; symmetry; auto]. Qed.
Lemma solid_ok l : solid l -> mats_ok l. Proof. intro H. eapply Forall_impl; [|exact H]. intros m [A _]. exact A. Qed.
Lemma solid_nil l : solid l -> qty_of l == 0 -> l = [].
Proof.
  intros H E. destruct H as [|m l [A B] H]; [reflexivity|]. rewrite qty_of_cons in E. pose proof (mats_qty_nonneg l (solid_ok l H)). lra.
Qed.
Lemma solid_app a b : solid a -> solid b -> solid (a ++ b). Proof. apply (fun A B => proj2 (Forall_app _ a b) (conj A B)). Qed.
Lemma qty_app a b : qty_of (a ++ b) == qty_of a + qty_of b.
Proof. unfold qty_of. rewrite map_app. apply qsum_app. Qed.
Lemma mass_app n a b : mass_in n (a ++ b) == mass_in n a + mass_in n b.
Proof. unfold mass_in. rewrite map_app. apply qsum_app. Qed.

(** ** Parts of a parcel *)
Lemma cnorm_eq q q' c n : q == q' -> cget n (cnorm q c) == cget n (cnorm q' c).
Proof. intro E. unfold cnorm. destruct (Qeq_bool (csum c) 0); [reflexivity|]. rewrite !cget_scale, E. reflexivity. Qed.
Lemma mass_eq i j q q' c n : q == q' -> mass_of (Mat i q c) n == mass_of (Mat j q' c) n.
Proof. intro E. unfold mass_of. cbn [m_qty m_comp]. apply cnorm_eq, E. Qed.
Lemma mass_nothing m n : mat_ok m -> m_qty m == 0 -> mass_of m n == 0.
Proof. intros O E. pose proof (mass_le_qty m n O). pose proof (mass_nonneg m n O). lra. Qed.

(** ** The oldest kilograms *)
Lemma among_neg x n l : x <= 0 -> among x n l == 0.
Proof. intro H. unfold among. rewrite take_qty_zero by exact H. reflexivity. Qed.
Lemma among_cons x n m l : 0 < x -> among x n (m :: l) == if Qltb x (m_qty m) then mass_of (Mat (m_id m) x (m_comp m)) n else mass_of m n + among (x - m_qty m) n l.
Proof.
  intro H. unfold among. cbn [take_qty]. assert (E : Qle_bool x 0 = false) by (apply Qle_bool_false; exact H). rewrite E. destruct (Qltb x (m_qty m)).
  - cbn [fst]. rewrite mass_in_cons, mass_in_nil. lra.
  - destruct (take_qty (x - m_qty m) l) as [a b]. cbn [fst]. rewrite mass_in_cons. reflexivity.
Qed.
Lemma qltb_eq a a' b b' : a == a' -> b == b' -> Qltb a b = Qltb a' b'.
Proof. intros A B. destruct (Qltb a' b') eqn:E; [apply Qltb_true in E; apply Qltb_true; lra|apply Qltb_false in E; apply Qltb_false; lra]. Qed.
Lemma qleb_eq a a' b b' : a == a' -> b == b' -> Qle_bool a b = Qle_bool a' b'.
Proof. intros A B. destruct (Qle_bool a' b') eqn:E; [apply Qle_bool_iff in E; apply Qle_bool_iff; lra|apply Qle_bool_false in E; apply Qle_bool_false; lra]. Qed.
Lemma qeqb_eq a a' b b' : a == a' -> b == b' -> Qeq_bool a b = Qeq_bool a' b'.
Proof. intros A B. destruct (Qeq_bool a' b') eqn:E; [apply Qeq_bool_iff in E; apply Qeq_bool_iff; lra|apply Qeq_bool_false in E; apply Qeq_bool_false; lra]. Qed.
Lemma among_eq l : forall x y n, x == y -> among x n l == among y n l.
Proof.
  induction l as [|m l IH]; intros x y n E; [reflexivity|]. destruct (Qlt_le_dec 0 x) as [P|P]; [|rewrite !among_neg by lra; reflexivity].
  rewrite !among_cons by lra. rewrite (qltb_eq x y (m_qty m) (m_qty m)) by (auto; reflexivity). destruct (Qltb y (m_qty m)); [apply mass_eq, E|]. rewrite (IH (x - m_qty m) (y - m_qty m)); lra.
Qed.
Lemma among_all l : mats_ok l -> forall x n, qty_of l <= x -> among x n l == mass_in n l.
Proof.
  induction 1 as [|m l O H IH]; intros x n L; [reflexivity|]. rewrite qty_of_cons in L. pose proof (mats_qty_nonneg l H). destruct O as (N & O2). assert (O : mat_ok m) by (split; auto).
  rewrite mass_in_cons. destruct (Qlt_le_dec 0 x) as [P|P].
  - rewrite among_cons by exact P. destruct (Qltb x (m_qty m)) eqn:E; [apply Qltb_true in E; lra|]. rewrite IH by lra. reflexivity.
  - rewrite among_neg by exact P. rewrite (mass_nothing m n O) by lra. rewrite <- (IH 0 n) by lra. rewrite among_neg; lra.
Qed.
Lemma among_split l : mats_ok l -> forall x y n, 0 <= x -> 0 <= y -> among (x + y) n l == among x n l + among y n (snd (take_qty x l)).
Proof.
  induction 1 as [|m l O H IH]; intros x y n Hx Hy; [cbn; unfold among; cbn; lra|].
  destruct (Qlt_le_dec 0 x) as [P|P].
  2:{ rewrite (among_neg x) by exact P. rewrite take_qty_zero by exact P. cbn [snd]. rewrite (among_eq _ (x + y) y) by lra. lra. }
  destruct (Qlt_le_dec 0 y) as [Py|Py].
  2:{ rewrite (among_neg y) by exact Py. rewrite (among_eq _ (x + y) x) by lra. lra. }
  rewrite !among_cons by lra. cbn [take_qty]. assert (E : Qle_bool x 0 = false) by (apply Qle_bool_false; exact P). rewrite E. destruct O as (N & C & D).
  destruct (Qltb x (m_qty m)) eqn:L.
  - apply Qltb_true in L. cbn [snd]. rewrite among_cons by exact Py. cbn [m_qty m_id m_comp]. destruct (Qltb y (m_qty m - x)) eqn:L2.
    + apply Qltb_true in L2. assert (X : Qltb (x + y) (m_qty m) = true) by (apply Qltb_true; lra). rewrite X. symmetry. rewrite <- (mass_split (m_id m) (m_id m) (m_id m) x y (x + y) (m_comp m) n); [reflexivity|exact C|reflexivity].
    + apply Qltb_false in L2. assert (X : Qltb (x + y) (m_qty m) = false) by (apply Qltb_false; lra). rewrite X. rewrite (among_eq l (x + y - m_qty m) (y - (m_qty m - x))) by lra.
      assert (S := mass_split (m_id m) (m_id m) (m_id m) x (m_qty m - x) (m_qty m) (m_comp m) n C ltac:(lra)). destruct m as [i q c]; cbn [m_id m_qty m_comp] in *. lra.
  - apply Qltb_false in L. assert (X : Qltb (x + y) (m_qty m) = false) by (apply Qltb_false; lra). rewrite X. destruct (take_qty (x - m_qty m) l) as [a b] eqn:T. cbn [snd].
    pose proof (IH (x - m_qty m) y n ltac:(lra) Hy) as I. rewrite T in I. cbn [snd] in I. rewrite (among_eq l (x + y - m_qty m) (x - m_qty m + y)) by lra. lra.
Qed.
Lemma among_app l k : mats_ok l -> forall x n, among x n (l ++ k) == if Qle_bool x (qty_of l) then among x n l else mass_in n l + among (x - qty_of l) n k.
Proof.
  induction 1 as [|m l O H IH]; intros x n.
  - cbn [app]. destruct (Qle_bool x (qty_of [])) eqn:E; [apply Qle_bool_iff in E; rewrite qty_of_nil in E; rewrite !among_neg by exact E; reflexivity|].
    rewrite mass_in_nil. rewrite (among_eq k (x - qty_of []) x) by (rewrite qty_of_nil; lra). lra.
  - cbn [app]. pose proof (mats_qty_nonneg l H) as Nl. pose proof (proj1 O) as Nm. destruct (Qlt_le_dec 0 x) as [P|P].
    2:{ assert (E : Qle_bool x (qty_of (m :: l)) = true) by (apply Qle_bool_iff; rewrite qty_of_cons; lra). rewrite E, !among_neg by exact P. reflexivity. }
    rewrite (among_cons x n m (l ++ k) P). pose proof (among_cons x n m l P) as B. destruct (Qltb x (m_qty m)) eqn:L.
    + apply Qltb_true in L. assert (E : Qle_bool x (qty_of (m :: l)) = true) by (apply Qle_bool_iff; rewrite qty_of_cons; lra). rewrite E. symmetry. exact B.
    + rewrite IH. assert (E : Qle_bool x (qty_of (m :: l)) = Qle_bool (x - m_qty m) (qty_of l)).
      { destruct (Qle_bool (x - m_qty m) (qty_of l)) eqn:Z; [apply Qle_bool_iff in Z; apply Qle_bool_iff; rewrite qty_of_cons; lra|apply Qle_bool_false in Z; apply Qle_bool_false; rewrite qty_of_cons; lra]. }
      rewrite E. destruct (Qle_bool (x - m_qty m) (qty_of l)); [symmetry; exact B|]. rewrite mass_in_cons. rewrite (among_eq k (x - m_qty m - qty_of l) (x - qty_of (m :: l))) by (rewrite qty_of_cons; lra). lra.
Qed.

(** ** Same layers *)
Lemma layers_refl l : same_layers l l. Proof. split; [reflexivity|]. intros. reflexivity. Qed.
Lemma layers_content l l' : mats_ok l -> mats_ok l' -> same_layers l l' -> forall n, mass_in n l == mass_in n l'.
Proof. intros O O' [Q A] n. rewrite <- (among_all l O (qty_of l) n) by lra. rewrite <- (among_all l' O' (qty_of l) n) by lra. apply A. Qed.
Lemma layers_app l l' k k' : mats_ok l -> mats_ok l' -> same_layers l l' -> same_layers k k' -> same_layers (l ++ k) (l' ++ k').
Proof.
  intros O O' S K. destruct S as [Q A] eqn:ES. destruct K as [QK AK]. split; [rewrite !qty_app; lra|]. intros x n. rewrite !among_app by auto.
  rewrite (qleb_eq x x (qty_of l) (qty_of l')) by (auto; reflexivity). destruct (Qle_bool x (qty_of l')); [apply A|]. rewrite (layers_content l l' O O' (conj Q A) n).
  rewrite AK, (among_eq k' (x - qty_of l) (x - qty_of l')) by lra. reflexivity.
Qed.
Lemma layers_one m m' : mat_ok m -> mat_ok m' -> alike m m' -> same_layers [m] [m'].
Proof.
  intros O O' [Q A]. split; [unfold qty_of; cbn; lra|]. intros x n. destruct (Qlt_le_dec 0 x) as [P|P]; [|rewrite !among_neg by exact P; reflexivity].
  rewrite !among_cons by exact P. rewrite (qltb_eq x x (m_qty m) (m_qty m')) by (auto; reflexivity). destruct (Qltb x (m_qty m')) eqn:L.
  - apply Qltb_true in L. destruct O as (_ & C & D), O' as (_ & C' & D'). destruct D as [D|D]; [|lra]. destruct D' as [D'|D']; [|lra]. specialize (A n). unfold mass_of in *. cbn [m_qty m_comp] in *.
    rewrite (cget_cnorm n (m_qty m)), (cget_cnorm n (m_qty m')) in A by auto. rewrite !cget_cnorm by auto.
    assert (E : cget n (m_comp m) / csum (m_comp m) == cget n (m_comp m') / csum (m_comp m')) by (rewrite Q in A; apply (proj1 (Qmult_inj_l _ _ (m_qty m') ltac:(lra))), A). rewrite E. reflexivity.
  - rewrite A. unfold among. cbn. reflexivity.
Qed.
Lemma layers_take l l' q q' : solid l -> solid l' -> same_layers l l' -> q == q' -> 0 < q -> q <= qty_of l ->
  let (a, r) := take_qty q l in let (a', r') := take_qty q' l' in
  qty_of a == q /\ qty_of a' == q' /\ (forall n, mass_in n a == mass_in n a') /\ same_layers r r' /\ solid r /\ solid r' /\ a <> [] /\ a' <> [] /\ mats_ok a /\ mats_ok a'.
Proof.
  intros S S' [Q A] E P L. destruct (take_qty q l) as [a r] eqn:T. destruct (take_qty q' l') as [a' r'] eqn:T'.
  pose proof (solid_ok l S) as O. pose proof (solid_ok l' S') as O'.
  destruct (take_qty_facts l q a r O ltac:(lra) L T) as (F1 & F2 & F3 & F4 & F5). destruct (take_qty_facts l' q' a' r' O' ltac:(lra) ltac:(lra) T') as (G1 & G2 & G3 & G4 & G5).
  assert (M : forall n, mass_in n a == mass_in n a').
  { intro n. pose proof (A q n) as B. rewrite (among_eq l' q q' n E) in B. unfold among in B. rewrite T, T' in B. exact B. }
  assert (R : forall k q0 a0 r0, solid k -> take_qty q0 k = (a0, r0) -> solid r0).
  { clear. induction k as [|m k IH]; intros q0 a0 r0 S T; cbn [take_qty] in T; [injection T as _ <-; exact S|]. inversion S as [|? ? [O P] S']; subst.
    destruct (Qle_bool q0 0) eqn:Z; [injection T as _ <-; exact S|]. apply Qle_bool_false in Z. destruct (Qltb q0 (m_qty m)) eqn:L.
    - injection T as _ <-. apply Qltb_true in L. constructor; [|exact S']. split; [|cbn; lra]. destruct m as [i c q]. cbn [m_qty m_id m_comp] in *. eapply split_ok; [exact O| |]; lra.
    - destruct (take_qty (q0 - m_qty m) k) as [a1 r1] eqn:T1. injection T as _ <-. eapply IH; eauto. }
  split; [exact F1|]. split; [exact G1|]. split; [exact M|]. split; [|split; [exact (R l q a r S T)|split; [exact (R l' q' a' r' S' T')|]]].
  - split; [lra|]. intros x n. destruct (Qlt_le_dec 0 x) as [Px|Px]; [|rewrite !among_neg by exact Px; reflexivity].
    pose proof (among_split l O q x n ltac:(lra) ltac:(lra)) as B. pose proof (among_split l' O' q' x n ltac:(lra) ltac:(lra)) as B'. rewrite T in B. rewrite T' in B'. cbn [snd] in B, B'.
    pose proof (A (q + x) n) as C. rewrite (among_eq l' (q + x) (q' + x) n) in C by lra. pose proof (A q n) as D. rewrite (among_eq l' q q' n E) in D. lra.
  - assert (l <> []) by (intros ->; rewrite qty_of_nil in L; lra). assert (l' <> []) by (intros ->; rewrite qty_of_nil in Q; lra).
    split; [exact (take_qty_nonempty q l a r P H T)|]. split; [apply (take_qty_nonempty q' l' a' r'); [lra|exact H0|exact T']|]. auto.
Qed.
(** Popping a given amount: the same material, and what is left has the same layers. *)
Lemma layers_pop l l' q q' m r : solid l -> solid l' -> same_layers l l' -> q == q' -> items_pop_qty l q = Ok (m, r) ->
  exists m' r', items_pop_qty l' q' = Ok (m', r') /\ alike m m' /\ mat_ok m /\ mat_ok m' /\ 0 < m_qty m /\ same_layers r r' /\ solid r /\ solid r'.
Proof.
  intros S S' L E H. assert (P : 0 < q).
  { unfold items_pop_qty in H. destruct (Qltb (qty_of l) q); [discriminate|]. destruct (Qlt_le_dec 0 q); auto. rewrite take_qty_zero in H by auto. discriminate. }
  destruct (pop_qty_facts l q m r (solid_ok l S) ltac:(lra) H) as (F1 & F2 & F3 & F4 & F5 & _).
  pose proof (layers_take l l' q q' S S' L E P F3) as T. unfold items_pop_qty in *. destruct (Qltb (qty_of l) q); [discriminate|].
  assert (X : Qltb (qty_of l') q' = false) by (apply Qltb_false; destruct L as [L _]; lra). rewrite X.
  destruct (take_qty q l) as [a r0], (take_qty q' l') as [a' r']. destruct T as (T1 & T2 & T3 & T4 & T5 & T6 & T7 & T8 & T9 & T10).
  apply bind_ok in H as (m1 & Sq & H). injection H as -> ->. destruct (squash_nonempty a' T8) as (m' & Sq'). rewrite Sq'. cbn [bind]. exists m', r'.
  destruct (squash_facts _ _ Sq) as (Q1 & Q2). destruct (squash_facts _ _ Sq') as (Q1' & Q2'). destruct (Q2 T9) as (O1 & M1). destruct (Q2' T10) as (O1' & M1').
  split; [reflexivity|]. split; [split; [lra|intro n; rewrite M1, M1'; apply T3]|]. split; [exact O1|]. split; [exact O1'|]. split; [lra|]. auto.
Qed.
Lemma layers_pop_tol l l' q q' tol m r : solid l -> solid l' -> same_layers l l' -> q == q' -> items_pop_tol l q tol = Ok (m, r) ->
  exists m' r', items_pop_tol l' q' tol = Ok (m', r') /\ alike m m' /\ mat_ok m /\ mat_ok m' /\ 0 < m_qty m /\ same_layers r r' /\ solid r /\ solid r'.
Proof.
  intros S S' L E H. unfold items_pop_tol in *. destruct L as [Q A]. rewrite (qltb_eq (qty_of l' + tol) (qty_of l + tol) q' q) by lra. destruct (Qltb (qty_of l + tol) q); [discriminate|].
  rewrite (qleb_eq (qty_of l') (qty_of l) q' q) by lra. destruct (Qle_bool (qty_of l) q).
  - apply bind_ok in H as (m1 & Sq & H). injection H as -> <-. pose proof (solid_ok l S) as O. pose proof (solid_ok l' S') as O'.
    assert (N : l' <> []). { intros ->. rewrite qty_of_nil in Q. apply (solid_nil l S) in Q. subst. discriminate. }
    destruct (squash_nonempty l' N) as (m' & Sq'). rewrite Sq'. cbn [bind]. exists m', []. destruct (squash_facts _ _ Sq) as (Q1 & Q2). destruct (squash_facts _ _ Sq') as (Q1' & Q2').
    destruct (Q2 O) as (O1 & M1). destruct (Q2' O') as (O1' & M1'). split; [reflexivity|]. split; [split; [lra|intro n; rewrite M1, M1'; apply layers_content; auto; split; auto]|].
    split; [exact O1|]. split; [exact O1'|]. split; [|split; [apply layers_refl|split; constructor]].
    destruct l as [|x l]; [discriminate|]. inversion S as [|? ? [Ox Px] Sx]; subst. rewrite Q1, qty_of_cons. pose proof (mats_qty_nonneg l (solid_ok l Sx)). lra.
  - apply (layers_pop l l' q q' m r S S' (conj Q A) E H).
Qed.
(** ** A parcel in two halves *)
Lemma layers_split i j k a b c : 0 < a -> 0 < b -> mat_ok (Mat i (a + b) c) -> same_layers [Mat i (a + b) c] [Mat j a c; Mat k b c].
Proof.
  intros A B O. pose proof O as (_ & C & _). cbn [m_comp] in C. split; [rewrite !qty_of_cons, !qty_of_nil; cbn [m_qty]; lra|]. intros x n.
  destruct (Qlt_le_dec 0 x) as [P|P]; [|rewrite !among_neg by exact P; reflexivity].
  rewrite !among_cons by exact P. cbn [m_qty m_id m_comp]. destruct (Qltb x a) eqn:L.
  - apply Qltb_true in L. assert (X : Qltb x (a + b) = true) by (apply Qltb_true; lra). rewrite X. apply mass_eq. reflexivity.
  - apply Qltb_false in L. assert (Z : forall y, among y n [] == 0) by (intro; reflexivity). destruct (Qlt_le_dec 0 (x - a)) as [P1|P1].
    + rewrite (among_cons (x - a)) by exact P1. cbn [m_qty m_id m_comp]. destruct (Qltb (x - a) b) eqn:L1.
      * apply Qltb_true in L1. assert (X : Qltb x (a + b) = true) by (apply Qltb_true; lra). rewrite X. symmetry. apply mass_split; [exact C|lra].
      * apply Qltb_false in L1. assert (X : Qltb x (a + b) = false) by (apply Qltb_false; lra). rewrite X, !Z. rewrite <- (mass_split j k i a b (a + b) c n C) by reflexivity. ring.
    + assert (X : Qltb x (a + b) = true) by (apply Qltb_true; lra). rewrite X, (among_neg (x - a)) by exact P1. rewrite (mass_eq i j x a c n) by lra. ring.
Qed.
