(** Proofs of the independence of the order of trades (C123). *)
From Coq Require Import Lia Lqa Permutation.
From Verif Require Import Outcome KernelMaterial KernelResBuf KernelBuf KernelFacts KernelMass KernelBufFacts OrderSpec.
Local Open Scope Q_scope.

(** ** Stocks *)
Lemma same_stock_refl l : same_stock l l.
Proof. induction l; constructor; auto. repeat split; reflexivity. Qed.
Lemma same_stock_sym l l' : same_stock l l' -> same_stock l' l.
Proof. induction 1 as [|x y l l' (A & B & C) _ IH]; constructor; auto. repeat split; auto. symmetry; auto. Qed.
Lemma same_stock_trans a b c : same_stock a b -> same_stock b c -> same_stock a c.
Proof.
  intro H. revert c. induction H as [|x y l l' (A & B & C) _ IH]; intros c K; inversion K as [|? z ? l'' (A' & B' & C') K']; subst; constructor; [|apply IH; auto].
  repeat split; [congruence|rewrite B; exact B'|congruence].
Qed.
Lemma same_stock_qty a b : same_stock a b -> qty_of a == qty_of b.
Proof. induction 1 as [|x y l l' (A & B & C) _ IH]; [reflexivity|]. rewrite !qty_of_cons. rewrite B, IH. reflexivity. Qed.
Lemma mass_same x y n : m_qty x == m_qty y -> m_comp x = m_comp y -> mass_of x n == mass_of y n.
Proof.
  intros B C. unfold mass_of. rewrite C. unfold cnorm. destruct (Qeq_bool _ _); [reflexivity|]. rewrite !cget_scale, B. reflexivity.
Qed.
Lemma same_stock_content a b : same_stock a b -> same_content a b.
Proof.
  intro H. split; [apply same_stock_qty, H|]. intro n. induction H as [|x y l l' (A & B & C) _ IH]; [reflexivity|]. rewrite !mass_in_cons, IH. rewrite (mass_same x y n B C). reflexivity.
Qed.
(** Taking equal amounts from the same stock leaves the same stock. *)
Lemma left_over_same q q' l l' : q == q' -> same_stock l l' -> same_stock (left_over q l) (left_over q' l').
Proof.
  intros E H. revert q q' E. unfold left_over. induction H as [|x y l l' (A & B & C) F IH]; intros q q' E; [constructor|]. cbn [take_qty].
  replace (Qle_bool q' 0) with (Qle_bool q 0) by (apply eq_true_iff_eq; rewrite !Qle_bool_iff; rewrite E; reflexivity).
  destruct (Qle_bool q 0); [constructor; [repeat split; auto|exact F]|].
  replace (Qltb q' (m_qty y)) with (Qltb q (m_qty x)) by (unfold Qltb; f_equal; apply eq_true_iff_eq; rewrite !Qle_bool_iff, E, B; reflexivity).
  destruct (Qltb q (m_qty x)); [constructor; [repeat split; auto; cbn; rewrite E, B; reflexivity|exact F]|].
  specialize (IH (q - m_qty x) (q' - m_qty y)). destruct (take_qty (q - m_qty x) l), (take_qty (q' - m_qty y) l'). cbn [snd] in *. apply IH. rewrite E, B. reflexivity.
Qed.
(** Taking one amount and then another is taking their sum. *)
Lemma left_over_twice l : Forall (fun m => 0 <= m_qty m) l -> forall a b, 0 <= a -> 0 < b -> same_stock (left_over b (left_over a l)) (left_over (a + b) l).
Proof.
  unfold left_over. induction 1 as [|x l P F IH]; intros a b Ha Hb; [constructor|]. cbn [take_qty]. destruct (Qle_bool (a + b) 0) eqn:E; [apply Qle_bool_iff in E; lra|].
  destruct (Qle_bool a 0) eqn:Ea.
  - apply Qle_bool_iff in Ea. cbn [snd]. assert (E0 : b == a + b) by lra.
    pose proof (left_over_same b (a + b) (x :: l) (x :: l) E0 (same_stock_refl _)) as G. unfold left_over in G. cbn [take_qty] in G. rewrite E in G. exact G.
  - destruct (Qltb a (m_qty x)) eqn:L.
    + apply Qltb_true in L. cbn [snd take_qty m_qty m_id m_comp]. destruct (Qle_bool b 0) eqn:Eb; [apply Qle_bool_iff in Eb; lra|].
      destruct (Qltb b (m_qty x - a)) eqn:L2.
      * apply Qltb_true in L2. assert (X : Qltb (a + b) (m_qty x) = true) by (apply Qltb_true; lra). rewrite X. cbn [snd]. constructor; [repeat split; cbn; lra|apply same_stock_refl].
      * apply Qltb_false in L2. assert (X : Qltb (a + b) (m_qty x) = false) by (apply Qltb_false; lra). rewrite X.
        pose proof (left_over_same (b - (m_qty x - a)) (a + b - m_qty x) l l ltac:(lra) (same_stock_refl _)) as G. unfold left_over in G.
        destruct (take_qty (b - (m_qty x - a)) l), (take_qty (a + b - m_qty x) l). exact G.
    + apply Qltb_false in L. assert (X : Qltb (a + b) (m_qty x) = false) by (apply Qltb_false; lra). rewrite X.
      specialize (IH (a - m_qty x) b ltac:(lra) Hb).
      pose proof (left_over_same (a - m_qty x + b) (a + b - m_qty x) l l ltac:(lra) (same_stock_refl _)) as G. unfold left_over in G.
      destruct (take_qty (a - m_qty x) l) as [u v]. cbn [snd] in *. destruct (take_qty (a - m_qty x + b) l), (take_qty (a + b - m_qty x) l). cbn [snd] in *. eapply same_stock_trans; eauto.
Qed.
Lemma left_over_nonneg l : Forall (fun m => 0 <= m_qty m) l -> forall q, Forall (fun m => 0 <= m_qty m) (left_over q l).
Proof.
  unfold left_over. induction 1 as [|x l P F IH]; intro q; [constructor|]. cbn [take_qty]. destruct (Qle_bool q 0); [constructor; auto|]. destruct (Qltb q (m_qty x)) eqn:L.
  - apply Qltb_true in L. constructor; [cbn; lra|exact F].
  - specialize (IH (q - m_qty x)). destruct (take_qty (q - m_qty x) l). exact IH.
Qed.
Lemma left_over_all l q : Forall (fun m => 0 <= m_qty m) l -> qty_of l <= q -> 0 < q -> Forall (fun m => m_qty m == 0) (left_over q l).
Proof.
  intro H. revert q. unfold left_over. induction H as [|x l P F IH]; intros q L Pq; [constructor|]. rewrite qty_of_cons in L. cbn [take_qty].
  pose proof (qsum_nonneg (map m_qty l)) as N. assert (N' : 0 <= qty_of l) by (apply N, Forall_map, F). destruct (Qle_bool q 0) eqn:E; [apply Qle_bool_iff in E; lra|].
  destruct (Qltb q (m_qty x)) eqn:E2; [apply Qltb_true in E2; lra|]. destruct (Qlt_le_dec 0 (q - m_qty x)) as [G|G].
  - specialize (IH (q - m_qty x) ltac:(lra) G). destruct (take_qty (q - m_qty x) l). exact IH.
  - rewrite take_qty_zero by exact G. cbn [snd]. assert (Z : qty_of l == 0) by lra. clear - F Z. induction F as [|y l Py F IH]; constructor; rewrite qty_of_cons in Z; pose proof (qsum_nonneg (map m_qty l)) as N; assert (N' : 0 <= qty_of l) by (apply N, Forall_map, F); [lra|apply IH; lra].
Qed.
Lemma qsum_perm a b : Permutation a b -> qsum a == qsum b.
Proof.
  assert (C : forall x l, qsum (x :: l) = x + qsum l) by reflexivity.
  induction 1; [reflexivity|rewrite !C, IHPermutation; reflexivity|rewrite !C; ring|rewrite IHPermutation1; assumption].
Qed.
Lemma qty_perm a b : Permutation a b -> qty_of a == qty_of b.
Proof. intro P. apply qsum_perm, Permutation_map, P. Qed.
Lemma mass_perm n a b : Permutation a b -> mass_in n a == mass_in n b.
Proof. intro P. apply qsum_perm, Permutation_map, P. Qed.
Lemma perm_content a b : Permutation a b -> same_content a b.
Proof. intro P. split; [apply qty_perm, P|intro n; apply mass_perm, P]. Qed.

(** ** Sales *)
Lemma pop_left ms q m r : items_pop_qty ms q = Ok (m, r) -> r = left_over q ms.
Proof. unfold items_pop_qty, left_over. destruct (Qltb _ q); [discriminate|]. destruct (take_qty q ms) as [a b]. intro H. apply bind_ok in H as (x & _ & H). injection H as _ <-. reflexivity. Qed.
Lemma ok_nonneg l : mats_ok l -> Forall (fun m => 0 <= m_qty m) l.
Proof. intro H. eapply Forall_impl; [|exact H]. intros m [P _]. exact P. Qed.
(** [cur] is what is left of [l] after [tot] was taken. *)
Definition rest_after (tot : Q) (l cur : list mat) : Prop :=
  0 <= tot /\ tot <= qty_of l /\ mats_ok cur /\ qty_of cur == qty_of l - tot /\ (same_stock cur (left_over tot l) \/ cur = []).
Lemma rest_start l : mats_ok l -> rest_after 0 l l.
Proof.
  intro O. pose proof (mats_qty_nonneg _ O). split; [lra|]. split; [lra|]. split; [exact O|]. split; [lra|]. left. unfold left_over. rewrite take_qty_zero by lra. apply same_stock_refl.
Qed.
Lemma rest_pop tot l cur q m r : mats_ok l -> rest_after tot l cur -> 0 < q -> items_pop_qty cur q = Ok (m, r) -> m_qty m == q /\ rest_after (tot + q) l r.
Proof.
  intros O (A & B & C & D & E) Pq H. pose proof (pop_left _ _ _ _ H) as R. destruct (pop_qty_facts cur q m r C ltac:(lra) H) as (F1 & F2 & F3 & F4 & F5 & F6 & F7).
  split; [exact F1|]. split; [lra|]. split; [lra|]. split; [exact F5|]. split; [rewrite F2, D; ring|]. left. subst r. destruct E as [E| ->]; [|exfalso; rewrite qty_of_nil in F3; lra].
  eapply same_stock_trans; [apply (left_over_same q q _ _ (Qeq_refl q) E)|]. apply left_over_twice; [apply ok_nonneg, O|exact A|exact Pq].
Qed.
Lemma rest_pop_tol tot l cur q tol m r : mats_ok l -> rest_after tot l cur -> 0 < q -> q <= qty_of cur -> items_pop_tol cur q tol = Ok (m, r) -> m_qty m == q /\ rest_after (tot + q) l r.
Proof.
  intros O Rs Pq L H. unfold items_pop_tol in H. destruct (Qltb _ q); [discriminate|]. destruct (Qle_bool (qty_of cur) q) eqn:E; [|apply (rest_pop tot l cur q m r O Rs Pq H)].
  apply Qle_bool_iff in E. apply bind_ok in H as (x & Sq & H). injection H as <- <-. apply squash_facts in Sq as (Q1 & _). destruct Rs as (A & B & C & D & _).
  split; [lra|]. split; [lra|]. split; [lra|]. split; [constructor|]. split; [rewrite qty_of_nil; lra|]. right. reflexivity.
Qed.
Lemma zero_parcels l : mats_ok l -> Forall (fun m => m_qty m == 0) l -> same_content l [].
Proof.
  intros O Z. split.
  - induction Z as [|x l Zx Z IH]; [reflexivity|]. inversion O; subst. rewrite qty_of_cons, IH by auto. rewrite Zx. reflexivity.
  - intro n. induction Z as [|x l Zx Z IH]; [reflexivity|]. inversion O as [|? ? Ox Ol]; subst. rewrite mass_in_cons, IH by auto. rewrite mass_in_nil.
    pose proof (ok_csum x Ox) as S1. assert (CN : comp_ok (cnorm (m_qty x) (m_comp x))) by (apply ok_cnorm, Ox). unfold mass_of.
    pose proof (cget_le_csum n _ CN) as U. pose proof (cget_nonneg n _ CN) as V. lra.
Qed.
Lemma mats_left l : mats_ok l -> forall q, 0 <= q -> q <= qty_of l -> mats_ok (left_over q l).
Proof. intros O q Pq L. unfold left_over. destruct (take_qty q l) as [a r] eqn:T. destruct (take_qty_facts l q a r O Pq L T) as (_ & _ & _ & X & _). exact X. Qed.
Lemma rest_content tot tot' l cur cur' : mats_ok l -> tot == tot' -> rest_after tot l cur -> rest_after tot' l cur' -> same_content cur cur'.
Proof.
  intros O E R R'. assert (G : forall t c, rest_after t l c -> same_content c (left_over t l)).
  { clear - O. intros t c (A & B & C & D & [S1| ->]); [apply same_stock_content, S1|]. rewrite qty_of_nil in D. destruct (Qlt_le_dec 0 t) as [P|P].
    - assert (Z : same_content (left_over t l) []) by (apply zero_parcels; [apply mats_left; auto; lra|apply left_over_all; [apply ok_nonneg, O|lra|exact P]]).
      destruct Z as [Z1 Z2]. split; [symmetry; exact Z1|intro n; symmetry; apply Z2].
    - unfold left_over. rewrite take_qty_zero by exact P. assert (Z : same_content l []).
      { apply zero_parcels; [exact O|]. assert (Q0 : qty_of l == 0) by lra. clear - O Q0. induction O as [|x l Ox O IH]; constructor; rewrite qty_of_cons in Q0; pose proof (mats_qty_nonneg _ O); destruct Ox as [Px _]; [lra|apply IH; lra]. }
      destruct Z as [Z1 Z2]. split; [symmetry; exact Z1|intro n; symmetry; apply Z2]. }
  destruct (G _ _ R) as [G1 G2], (G _ _ R') as [H1 H2]. destruct (same_stock_content _ _ (left_over_same tot tot' l l E (same_stock_refl _))) as [K1 K2].
  split; [rewrite G1, H1; exact K1|intro n; rewrite G2, H2; apply K2].
Qed.
Lemma rest_eq t t' l cur : t == t' -> rest_after t l cur -> rest_after t' l cur.
Proof.
  intros T (A & B & C & D & E). split; [lra|]. split; [lra|]. split; [exact C|]. split; [lra|]. destruct E as [E|E]; [left|auto]. eapply same_stock_trans; [exact E|]. apply left_over_same; [exact T|apply same_stock_refl].
Qed.
