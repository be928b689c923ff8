(** Facts about the kernel model used by the facility proofs. *)
From Coq Require Import Lia Lqa Permutation.
From Verif Require Import Outcome KernelMaterial KernelResBuf.
Local Open Scope Q_scope.

(** ** Booleans on rationals *)
Lemma Qltb_true a b : Qltb a b = true <-> a < b.
Proof.
  unfold Qltb. rewrite negb_true_iff. split; intro H.
  - apply Qnot_le_lt. intro L. apply Qle_bool_iff in L. congruence.
  - destruct (Qle_bool b a) eqn:E; auto. apply Qle_bool_iff in E. lra.
Qed.
Lemma Qltb_false a b : Qltb a b = false <-> b <= a.
Proof.
  unfold Qltb. rewrite negb_false_iff. apply Qle_bool_iff.
Qed.
Lemma Qle_bool_false a b : Qle_bool a b = false <-> b < a.
Proof.
  rewrite <- Qltb_true. unfold Qltb. destruct (Qle_bool a b); simpl; split; congruence.
Qed.

(** ** Outcomes *)
Lemma bind_ok {A B} (o : outcome A) (f : A -> outcome B) b :
  bind o f = Ok b -> exists a, o = Ok a /\ f a = Ok b.
Proof. destruct o; simpl; try discriminate. eauto. Qed.

Lemma loop_app {A S} (f : S -> A -> outcome S) l1 l2 s :
  loop f (l1 ++ l2) s = bind (loop f l1 s) (loop f l2).
Proof.
  revert s; induction l1 as [|x l1 IH]; intro s; simpl; auto.
  destruct (f s x); simpl; auto.
Qed.

Lemma loop_inv {A S} (f : S -> A -> outcome S) (P : S -> Prop) l s :
  P s -> (forall s x, In x l -> P s -> exists s', f s x = Ok s' /\ P s') ->
  exists s', loop f l s = Ok s' /\ P s'.
Proof.
  revert s; induction l as [|x l IH]; intros s Hs Hf; simpl; eauto.
  destruct (Hf s x) as (s' & E & Hs'); simpl; auto.
  rewrite E; simpl. apply IH; auto. intros; apply Hf; simpl; auto.
Qed.

Lemma loop_pres {A S} (f : S -> A -> outcome S) (P : S -> Prop) l s s' :
  P s -> (forall s x s', In x l -> P s -> f s x = Ok s' -> P s') ->
  loop f l s = Ok s' -> P s'.
Proof.
  revert s; induction l as [|x l IH]; intros s Hs Hf H; simpl in *.
  - congruence.
  - apply bind_ok in H. destruct H as (s1 & E & H).
    apply (IH s1); [eapply Hf; eauto; simpl; auto | intros; eapply Hf; eauto; simpl; auto | exact H].
Qed.

Lemma loop_ext {A S} (f g : S -> A -> outcome S) l s :
  (forall s x, In x l -> f s x = g s x) -> loop f l s = loop g l s.
Proof.
  revert s; induction l as [|x l IH]; intros s H; simpl; auto.
  rewrite H by (simpl; auto). destruct (g s x); simpl; auto.
  apply IH. intros; apply H; simpl; auto.
Qed.

Lemma vec_at_ok {A} (v : list A) i : (i < List.length v)%nat -> exists a, vec_at v i = Ok a /\ nth_error v i = Some a.
Proof.
  intro H. unfold vec_at. destruct (nth_error v i) eqn:E; eauto.
  apply nth_error_None in E. lia.
Qed.

Lemma vec_at_nth {A} (v : list A) i a : vec_at v i = Ok a <-> nth_error v i = Some a.
Proof. unfold vec_at. destruct (nth_error v i); split; congruence. Qed.

Lemma vec_set_ok {A} (v : list A) i a : (i < List.length v)%nat ->
  exists v', vec_set v i a = Ok v' /\ List.length v' = List.length v /\
    nth_error v' i = Some a /\ (forall j, j <> i -> nth_error v' j = nth_error v j) /\
    (forall P : A -> Prop, Forall P v -> P a -> Forall P v').
Proof.
  revert i; induction v as [|x v IH]; intros i H; simpl in *; [lia|].
  destruct i as [|i].
  - eexists; split; [reflexivity|]. repeat split; auto.
    + intros [|j] Hj; simpl; congruence.
    + intros P HP HA. inversion HP; constructor; auto.
  - destruct (IH i) as (v' & E & L & N & O & F); [lia|].
    rewrite E. eexists; split; [reflexivity|]. simpl. repeat split; auto.
    + intros [|j] Hj; simpl; auto.
    + intros P HP HA. inversion HP; constructor; auto.
Qed.

Lemma vec_set_oob {A} (v : list A) i a : (List.length v <= i)%nat -> vec_set v i a = UB OutOfBounds.
Proof.
  revert i; induction v as [|x v IH]; intros i H; simpl in *; auto.
  destruct i; [lia|]. rewrite IH by lia. reflexivity.
Qed.

(** ** Sums *)
Lemma qsum_app l1 l2 : qsum (l1 ++ l2) == qsum l1 + qsum l2.
Proof. induction l1; simpl; [lra|]. rewrite IHl1. lra. Qed.
Lemma qsum_nonneg l : Forall (fun x => 0 <= x) l -> 0 <= qsum l.
Proof. induction 1; simpl; lra. Qed.
Lemma qsum_perm l1 l2 : Permutation l1 l2 -> qsum l1 == qsum l2.
Proof. induction 1; simpl; lra. Qed.
Lemma qty_of_app a b : qty_of (a ++ b) == qty_of a + qty_of b.
Proof. unfold qty_of. rewrite map_app. apply qsum_app. Qed.
Lemma qty_of_perm a b : Permutation a b -> qty_of a == qty_of b.
Proof. intro. apply qsum_perm. apply Permutation_map. auto. Qed.
Lemma qty_of_cons m b : qty_of (m :: b) == m_qty m + qty_of b.
Proof. reflexivity. Qed.
Lemma mass_in_app n a b : mass_in n (a ++ b) == mass_in n a + mass_in n b.
Proof. unfold mass_in. rewrite map_app. apply qsum_app. Qed.
Lemma qty_of_nonneg l : Forall (fun m => 0 <= m_qty m) l -> 0 <= qty_of l.
Proof. induction 1; simpl; unfold qty_of in *; simpl in *; lra. Qed.
Lemma mass_in_perm n a b : Permutation a b -> mass_in n a == mass_in n b.
Proof. intro. apply qsum_perm. apply Permutation_map. auto. Qed.

(** ** Lists *)
Lemma zlen_nonneg {A} (l : list A) : (0 <= zlen l)%Z.
Proof. unfold zlen; lia. Qed.
Lemma zlen_app {A} (a b : list A) : zlen (a ++ b) = (zlen a + zlen b)%Z.
Proof. unfold zlen. rewrite app_length. lia. Qed.
Lemma zlen_cons {A} x (b : list A) : zlen (x :: b) = (1 + zlen b)%Z.
Proof. unfold zlen. simpl List.length. lia. Qed.
Lemma zlen_nil {A} : zlen (@nil A) = 0%Z.
Proof. reflexivity. Qed.
Lemma zlen_0 {A} (l : list A) : zlen l = 0%Z -> l = [].
Proof. destruct l; auto. unfold zlen; simpl; lia. Qed.
Lemma zlen_firstn {A} n (l : list A) : (0 <= n <= zlen l)%Z -> zlen (firstn (Z.to_nat n) l) = n.
Proof. unfold zlen. intro. rewrite firstn_length. lia. Qed.
Lemma zlen_skipn {A} n (l : list A) : (0 <= n <= zlen l)%Z -> zlen (skipn (Z.to_nat n) l) = (zlen l - n)%Z.
Proof. unfold zlen. intro. rewrite skipn_length. lia. Qed.
Lemma zlen_map {A B} (f : A -> B) l : zlen (map f l) = zlen l.
Proof. unfold zlen. rewrite map_length. auto. Qed.

(** ** Uniform buffers: every parcel weighs [a], capacity [N] parcels. *)
Definition ubuf (N : Z) (a : Q) (b : resbuf) : Prop :=
  rb_cap b == inject_Z N * a /\ Forall (fun m => m_qty m == a) (rb_items b) /\ (rb_count b <= N)%Z.

Lemma uniform_qty a l : Forall (fun m => m_qty m == a) l -> qty_of l == inject_Z (zlen l) * a.
Proof.
  induction 1; unfold qty_of in *; cbn [map qsum fold_right].
  - change (inject_Z (zlen (@nil mat))) with 0. ring.
  - rewrite zlen_cons, inject_Z_plus, IHForall, H. change (inject_Z 1) with 1. ring.
Qed.

Lemma ubuf_space N a b : 0 < a -> ubuf N a b -> rb_space b == inject_Z (N - rb_count b) * a.
Proof.
  intros Ha (C & F & L). unfold rb_space, rb_qty.
  rewrite C, (uniform_qty _ _ F). fold (rb_count b).
  unfold Z.sub. rewrite inject_Z_plus, inject_Z_opp.
  rewrite Zle_Qle in L.
  rewrite Q.max_r; [ring|]. nra.
Qed.

Lemma ubuf_pushv eps N a b ms : 0 <= eps -> 0 < a -> ubuf N a b ->
  Forall (fun m => m_qty m == a) ms -> (rb_count b + zlen ms <= N)%Z ->
  rb_pushv eps b ms = Ok {| rb_cap := rb_cap b; rb_items := rb_items b ++ ms |} /\
  ubuf N a {| rb_cap := rb_cap b; rb_items := rb_items b ++ ms |}.
Proof.
  intros He Ha U F L. split.
  - unfold rb_pushv. replace (Qltb _ _) with false; auto. symmetry. apply Qltb_false.
    rewrite (ubuf_space N a) by auto. rewrite (uniform_qty a) by auto.
    assert (zlen ms <= N - rb_count b)%Z as L' by lia. rewrite Zle_Qle in L'. nra.
  - destruct U as (C & F' & L'). repeat split; simpl; auto.
    + apply Forall_app; auto.
    + unfold rb_count; simpl. rewrite zlen_app. exact L.
Qed.

Lemma ubuf_push eps N a b m : 0 <= eps -> 0 < a -> ubuf N a b ->
  m_qty m == a -> (rb_count b < N)%Z ->
  rb_push eps b m = Ok {| rb_cap := rb_cap b; rb_items := rb_items b ++ [m] |} /\
  ubuf N a {| rb_cap := rb_cap b; rb_items := rb_items b ++ [m] |}.
Proof.
  intros He Ha U F L.
  destruct (ubuf_pushv eps N a b [m]) as [H1 H2]; auto.
  - unfold zlen; simpl. lia.
  - split; auto. unfold rb_push, rb_pushv in *.
    replace (Qltb _ _) with false; auto. symmetry. apply Qltb_false.
    assert (1 <= N - rb_count b)%Z as L' by lia. rewrite Zle_Qle in L'.
    rewrite (ubuf_space N a) by auto. rewrite F. change (inject_Z 1) with 1 in L'. nra.
Qed.

Lemma popn_ok b n : (0 <= n <= rb_count b)%Z ->
  rb_popn b n = Ok (firstn (Z.to_nat n) (rb_items b),
           {| rb_cap := rb_cap b; rb_items := skipn (Z.to_nat n) (rb_items b) |}).
Proof.
  intro H. unfold rb_popn.
  replace (n <? 0)%Z with false by (symmetry; apply Z.ltb_ge; lia).
  replace (rb_count b <? n)%Z with false by (symmetry; apply Z.ltb_ge; lia). reflexivity.
Qed.

Lemma popn_all b : rb_popn b (rb_count b) = Ok (rb_items b, {| rb_cap := rb_cap b; rb_items := [] |}).
Proof.
  rewrite popn_ok by (unfold rb_count; pose proof (zlen_nonneg (rb_items b)); lia).
  unfold rb_count, zlen. rewrite Nat2Z.id, firstn_all, skipn_all. reflexivity.
Qed.

Lemma Forall_firstn {A} (P : A -> Prop) n l : Forall P l -> Forall P (firstn n l).
Proof. intro H. rewrite <- (firstn_skipn n l) in H. apply Forall_app in H. tauto. Qed.
Lemma Forall_skipn {A} (P : A -> Prop) n l : Forall P l -> Forall P (skipn n l).
Proof. intro H. rewrite <- (firstn_skipn n l) in H. apply Forall_app in H. tauto. Qed.

Lemma ubuf_skipn N a b n : ubuf N a b ->
  ubuf N a {| rb_cap := rb_cap b; rb_items := skipn n (rb_items b) |}.
Proof.
  intros (C & F & L). repeat split; simpl; auto.
  - apply Forall_skipn; auto.
  - unfold rb_count, zlen in *; simpl in *. rewrite skipn_length. lia.
Qed.

Lemma skipn_skipn {A} a b (l : list A) : skipn a (skipn b l) = skipn (b + a) l.
Proof.
  revert l; induction b as [|b IH]; intro l; simpl; auto.
  destruct l; auto. destruct a; reflexivity.
Qed.

Lemma Forall2_len {A B} (R : A -> B -> Prop) l1 l2 : Forall2 R l1 l2 -> List.length l1 = List.length l2.
Proof. induction 1; simpl; congruence. Qed.

Lemma firstn_In {A} (x : A) n l : In x (firstn n l) -> In x l.
Proof. intro H. rewrite <- (firstn_skipn n l). apply in_app_iff. auto. Qed.
Lemma skipn_In {A} (x : A) n l : In x (skipn n l) -> In x l.
Proof. intro H. rewrite <- (firstn_skipn n l). apply in_app_iff. auto. Qed.
