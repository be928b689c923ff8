(** Mass accounting facts about the kernel model: splitting, joining and
    extracting material conserves every nuclide. *)
From Coq Require Import Lia Lqa Permutation.
From Verif Require Import Outcome KernelMaterial KernelResBuf KernelFacts.
Local Open Scope Q_scope.

(** ** Compositions *)
Definition comp_ok (c : comp) : Prop := Forall (fun e => 0 <= snd e) c.

Lemma cget_app n a b : cget n (a ++ b) == cget n a + cget n b.
Proof.
  induction a as [|[k v] a IH]; simpl; [lra|]. rewrite IH. destruct (Z.eqb k n); lra.
Qed.
Lemma csum_app a b : csum (a ++ b) == csum a + csum b.
Proof. unfold csum. rewrite map_app. apply qsum_app. Qed.
Lemma csum_cons e a : csum (e :: a) == snd e + csum a.
Proof. reflexivity. Qed.
Lemma cget_scale n k c : cget n (cscale k c) == k * cget n c.
Proof.
  induction c as [|[j v] c IH]; simpl; [ring|]. rewrite IH. destruct (Z.eqb j n); ring.
Qed.
Lemma csum_scale k c : csum (cscale k c) == k * csum c.
Proof.
  induction c as [|[j v] c IH]; [unfold csum; simpl; ring|].
  change (cscale k ((j, v) :: c)) with ((j, k * v) :: cscale k c).
  rewrite !csum_cons, IH. simpl. ring.
Qed.
Lemma csum_nonneg c : comp_ok c -> 0 <= csum c.
Proof. intro H. apply qsum_nonneg. apply Forall_map. exact H. Qed.
Lemma cget_nonneg n c : comp_ok c -> 0 <= cget n c.
Proof.
  induction 1 as [|[k v] c Hv _ IH]; simpl in *; [lra|]. destruct (Z.eqb k n); lra.
Qed.
Lemma cget_le_csum n c : comp_ok c -> cget n c <= csum c.
Proof.
  induction 1 as [|[k v] c Hv _ IH]; [unfold csum; simpl; lra|].
  rewrite csum_cons. simpl in *. destruct (Z.eqb k n); lra.
Qed.
Lemma csum_zero_cget n c : comp_ok c -> csum c == 0 -> cget n c == 0.
Proof. intros H Z. pose proof (cget_le_csum n c H). pose proof (cget_nonneg n c H). lra. Qed.
Lemma cget_notin n c : ~ In n (map fst c) -> cget n c == 0.
Proof.
  induction c as [|[k v] c IH]; simpl; intro H; [lra|].
  destruct (Z.eqb_spec k n); [exfalso; auto|]. rewrite IH by tauto. ring.
Qed.

(** Summing the entries of a map over any duplicate-free list of its keys. *)
Lemma sum_indicator (k : Z) (v : Q) L : NoDup L ->
  qsum (map (fun n => if Z.eqb k n then v else 0) L) == if in_dec Z.eq_dec k L then v else 0.
Proof.
  induction 1 as [|x L Hx HL IH]; [reflexivity|].
  cbn [map qsum fold_right]. fold (qsum (map (fun n => if Z.eqb k n then v else 0) L)).
  rewrite IH. destruct (Z.eqb_spec k x) as [->|E].
  - destruct (in_dec Z.eq_dec x L); [contradiction|].
    destruct (in_dec Z.eq_dec x (x :: L)) as [_|F]; [ring|exfalso; apply F; left; auto].
  - destruct (in_dec Z.eq_dec k L); destruct (in_dec Z.eq_dec k (x :: L)) as [I|I]; try ring.
    + exfalso; apply I; right; auto.
    + destruct I as [I|I]; [congruence|contradiction].
Qed.
Lemma qsum_map_plus {A} (f g : A -> Q) L :
  qsum (map (fun x => f x + g x) L) == qsum (map f L) + qsum (map g L).
Proof.
  induction L as [|x L IH]; simpl; [lra|]. rewrite IH. lra.
Qed.
Lemma qsum_map_ext {A} (f g : A -> Q) L :
  (forall x, In x L -> f x == g x) -> qsum (map f L) == qsum (map g L).
Proof.
  induction L as [|x L IH]; simpl; intro H; [lra|].
  rewrite IH by auto. rewrite (H x) by auto. lra.
Qed.
Lemma qsum_map_scale {A} k (f : A -> Q) L : qsum (map (fun x => k * f x) L) == k * qsum (map f L).
Proof. induction L as [|x L IH]; simpl; [lra|]. rewrite IH. lra. Qed.
Lemma sum_over_keys c L : NoDup L -> (forall n, In n (map fst c) -> In n L) ->
  qsum (map (fun n => cget n c) L) == csum c.
Proof.
  intros ND. induction c as [|[k v] c IH]; intro H.
  - simpl. unfold csum; simpl. induction L as [|x L IHL]; simpl; [lra|].
    inversion ND; subst. rewrite IHL; auto. lra. simpl; tauto.
  - rewrite csum_cons. simpl fst in *. simpl snd.
    rewrite <- IH by (intros; apply H; simpl; auto).
    change (map (fun n => cget n ((k, v) :: c)) L)
      with (map (fun n => (if Z.eqb k n then v else 0) + cget n c) L).
    rewrite qsum_map_plus, sum_indicator by auto.
    destruct (in_dec Z.eq_dec k L) as [_|N]; [lra|]. exfalso. apply N, H. simpl; auto.
Qed.
Lemma ckeys_nodup c : NoDup (ckeys c).
Proof. apply NoDup_nodup. Qed.
Lemma ckeys_in c n : In n (ckeys c) <-> In n (map fst c).
Proof. apply nodup_In. Qed.
Lemma cget_canon_list n c L : NoDup L ->
  cget n (map (fun k => (k, cget k c)) L) == if in_dec Z.eq_dec n L then cget n c else 0.
Proof.
  induction 1 as [|x L Hx HL IH]; [reflexivity|]. cbn [map cget].
  rewrite IH. destruct (Z.eqb_spec x n) as [->|E].
  - destruct (in_dec Z.eq_dec n L); [contradiction|].
    destruct (in_dec Z.eq_dec n (n :: L)) as [_|F]; [ring|exfalso; apply F; left; auto].
  - destruct (in_dec Z.eq_dec n L); destruct (in_dec Z.eq_dec n (x :: L)) as [I|I]; try ring.
    + exfalso; apply I; right; auto.
    + destruct I as [I|I]; [congruence|contradiction].
Qed.
Lemma cget_ccanon n c : cget n (ccanon c) == cget n c.
Proof.
  unfold ccanon. rewrite cget_canon_list by apply ckeys_nodup.
  destruct (in_dec Z.eq_dec n (ckeys c)) as [_|N]; [lra|].
  rewrite cget_notin; [lra|]. intro I. apply N, ckeys_in, I.
Qed.
Lemma csum_ccanon c : csum (ccanon c) == csum c.
Proof.
  unfold csum at 1. unfold ccanon. rewrite map_map. simpl.
  apply sum_over_keys; [apply ckeys_nodup|]. intros n H. apply ckeys_in, H.
Qed.
Lemma ccanon_ok c : comp_ok c -> comp_ok (ccanon c).
Proof.
  intro H. unfold ccanon, comp_ok. apply Forall_map, Forall_forall. intros n _. simpl.
  apply cget_nonneg, H.
Qed.
Lemma cget_cadd n a b : cget n (cadd a b) == cget n a + cget n b.
Proof. unfold cadd. rewrite cget_ccanon. apply cget_app. Qed.
Lemma csum_cadd a b : csum (cadd a b) == csum a + csum b.
Proof. unfold cadd. rewrite csum_ccanon. apply csum_app. Qed.
Lemma cadd_ok a b : comp_ok a -> comp_ok b -> comp_ok (cadd a b).
Proof. intros. apply ccanon_ok. apply Forall_app; auto. Qed.
Lemma cget_csub n a b : cget n (csub a b) == cget n a - cget n b.
Proof. unfold csub. rewrite cget_ccanon, cget_app, cget_scale. ring. Qed.
Lemma csum_csub a b : csum (csub a b) == csum a - csum b.
Proof. unfold csub. rewrite csum_ccanon, csum_app, csum_scale. ring. Qed.
Lemma cscale_ok k c : 0 <= k -> comp_ok c -> comp_ok (cscale k c).
Proof.
  intros Hk H. unfold comp_ok, cscale. apply Forall_map. eapply Forall_impl; [|exact H].
  intros [n v]; simpl; intro. apply Qmult_le_0_compat; auto.
Qed.

(** ** Normalisation *)
Lemma Qeq_bool_false a b : Qeq_bool a b = false <-> ~ a == b.
Proof.
  split; intro H.
  - intro E. apply Qeq_bool_iff in E. congruence.
  - destruct (Qeq_bool a b) eqn:E; auto. apply Qeq_bool_iff in E. contradiction.
Qed.
Lemma cnorm_pos q c : 0 < csum c -> cnorm q c = cscale (q / csum c) c.
Proof.
  intro H. unfold cnorm. destruct (Qeq_bool (csum c) 0) eqn:E; auto.
  apply Qeq_bool_iff in E. lra.
Qed.
Lemma cnorm_zero q c : csum c == 0 -> cnorm q c = c.
Proof. intro H. unfold cnorm. apply Qeq_bool_iff in H. rewrite H. reflexivity. Qed.
Lemma csum_cnorm q c : 0 < csum c -> csum (cnorm q c) == q.
Proof. intro H. rewrite cnorm_pos, csum_scale by auto. field. lra. Qed.
Lemma cget_cnorm n q c : 0 < csum c -> cget n (cnorm q c) == q * (cget n c / csum c).
Proof. intro H. rewrite cnorm_pos, cget_scale by auto. field. lra. Qed.
Lemma cnorm_ok q c : 0 <= q -> comp_ok c -> comp_ok (cnorm q c).
Proof.
  intros Hq H. pose proof (csum_nonneg c H) as N.
  destruct (Qlt_le_dec 0 (csum c)) as [P|P].
  - rewrite cnorm_pos by auto. apply cscale_ok; auto.
    apply Qle_shift_div_l; auto. lra.
  - rewrite cnorm_zero by lra. auto.
Qed.

(** ** Materials *)
Lemma ok_csum m : mat_ok m -> csum (cnorm (m_qty m) (m_comp m)) == m_qty m.
Proof.
  intros (Hq & Hc & [H|H]).
  - apply csum_cnorm; auto.
  - pose proof (csum_nonneg _ Hc). destruct (Qlt_le_dec 0 (csum (m_comp m))) as [P|P].
    + apply csum_cnorm; auto.
    + rewrite cnorm_zero by lra. lra.
Qed.
Lemma ok_cnorm m : mat_ok m -> comp_ok (cnorm (m_qty m) (m_comp m)).
Proof. intros (Hq & Hc & _). apply cnorm_ok; auto. Qed.
Lemma mass_nonneg m n : mat_ok m -> 0 <= mass_of m n.
Proof. intro H. apply cget_nonneg, ok_cnorm, H. Qed.
Lemma mass_le_qty m n : mat_ok m -> mass_of m n <= m_qty m.
Proof.
  intro H. rewrite <- (ok_csum m H). apply cget_le_csum, ok_cnorm, H.
Qed.
Lemma mass_frac m n : mat_ok m -> 0 < csum (m_comp m) ->
  mass_of m n == m_qty m * (cget n (m_comp m) / csum (m_comp m)).
Proof. intros _ H. apply cget_cnorm, H. Qed.
Lemma mass_zero_comp i q c n : comp_ok c -> csum c == 0 -> mass_of (Mat i q c) n == 0.
Proof.
  intros H Z. unfold mass_of; simpl. rewrite cnorm_zero by auto. apply csum_zero_cget; auto.
Qed.

(** Splitting a parcel splits every nuclide. *)
Lemma mass_split i j k q1 q2 q c n : comp_ok c -> q == q1 + q2 ->
  mass_of (Mat i q1 c) n + mass_of (Mat j q2 c) n == mass_of (Mat k q c) n.
Proof.
  intros H E. pose proof (csum_nonneg c H).
  destruct (Qlt_le_dec 0 (csum c)) as [P|P].
  - unfold mass_of; simpl. rewrite !cget_cnorm by auto. rewrite E. ring.
  - rewrite !mass_zero_comp by (auto; lra). ring.
Qed.
Lemma split_ok i q q1 c : mat_ok (Mat i q c) -> 0 <= q1 -> q1 <= q -> mat_ok (Mat i q1 c).
Proof.
  intros (Hq & Hc & D) H1 H2; simpl in *. split; [auto|split; [auto|]]. simpl.
  destruct D as [D|D]; [left; auto|right; lra].
Qed.

(** Joining two parcels adds every nuclide. *)
Lemma absorb_ok a b : mat_ok a -> mat_ok b -> mat_ok (absorb a b).
Proof.
  intros A B. destruct A as (Aq & A'). destruct B as (Bq & B').
  assert (A : mat_ok a) by (split; auto). assert (B : mat_ok b) by (split; auto).
  unfold absorb. split; [simpl; lra|]. split; simpl.
  - apply cadd_ok; apply ok_cnorm; auto.
  - rewrite csum_cadd, !ok_csum by auto.
    destruct (Qlt_le_dec 0 (m_qty a + m_qty b)); [left; auto|right; lra].
Qed.
Lemma mass_absorb a b n : mat_ok a -> mat_ok b ->
  mass_of (absorb a b) n == mass_of a n + mass_of b n.
Proof.
  intros A B. pose proof (absorb_ok _ _ A B) as AB.
  unfold mass_of at 1. unfold absorb; simpl.
  set (c := cadd _ _). assert (Ec : csum c == m_qty a + m_qty b).
  { unfold c. rewrite csum_cadd, !ok_csum by auto. reflexivity. }
  assert (Oc : comp_ok c) by (apply cadd_ok; apply ok_cnorm; auto).
  assert (G : cget n c == mass_of a n + mass_of b n).
  { unfold c. rewrite cget_cadd. reflexivity. }
  rewrite <- G. pose proof (csum_nonneg _ Oc).
  destruct (Qlt_le_dec 0 (csum c)) as [P|P].
  - rewrite cget_cnorm by auto. rewrite <- Ec. field. lra.
  - rewrite cnorm_zero by lra. reflexivity.
Qed.
Lemma qty_absorb a b : m_qty (absorb a b) == m_qty a + m_qty b.
Proof. reflexivity. Qed.

(** ** Squash, and popping by quantity *)
Definition mats_ok (ms : list mat) : Prop := Forall mat_ok ms.

Lemma fold_absorb_qty ms m : m_qty (fold_left absorb ms m) == m_qty m + qty_of ms.
Proof.
  revert m; induction ms as [|x ms IH]; intro m.
  - unfold qty_of; simpl; lra.
  - cbn [fold_left]. rewrite IH, qty_absorb, qty_of_cons. lra.
Qed.
Lemma fold_absorb_ok ms m : mat_ok m -> mats_ok ms -> mat_ok (fold_left absorb ms m).
Proof.
  intros Hm H; revert m Hm; induction H as [|x ms Hx _ IH]; intros m Hm; simpl; auto.
  apply IH, absorb_ok; auto.
Qed.
Lemma fold_absorb_mass n ms m : mat_ok m -> mats_ok ms ->
  mass_of (fold_left absorb ms m) n == mass_of m n + mass_in n ms.
Proof.
  intros Hm H; revert m Hm; induction H as [|x ms Hx _ IH]; intros m Hm.
  - unfold mass_in; simpl; lra.
  - cbn [fold_left]. rewrite IH by (apply absorb_ok; auto).
    rewrite mass_absorb by auto. unfold mass_in; simpl. lra.
Qed.
Lemma squash_facts ms m : squash ms = Ok m ->
  m_qty m == qty_of ms /\
  (mats_ok ms -> mat_ok m /\ forall n, mass_of m n == mass_in n ms).
Proof.
  destruct ms as [|x ms]; simpl; [discriminate|]. intro H. injection H as <-.
  split; [apply fold_absorb_qty|]. intro O. inversion O; subst. split.
  - apply fold_absorb_ok; auto.
  - intro n. apply fold_absorb_mass; auto.
Qed.
Lemma squash_nonempty ms : ms <> [] -> exists m, squash ms = Ok m.
Proof. destruct ms; simpl; [congruence|eauto]. Qed.

Lemma take_qty_facts ms : forall q a r, mats_ok ms -> 0 <= q -> q <= qty_of ms ->
  take_qty q ms = (a, r) ->
  qty_of a == q /\ qty_of r == qty_of ms - q /\ mats_ok a /\ mats_ok r /\
  (forall n, mass_in n a + mass_in n r == mass_in n ms).
Proof.
  induction ms as [|m ms IH]; intros q a r O Hq Hle T; simpl in T.
  - injection T as <- <-. unfold qty_of in *; simpl in *.
    split; [lra|]. split; [lra|]. split; [constructor|]. split; [constructor|]. intro; unfold mass_in; simpl; lra.
  - rewrite qty_of_cons in Hle. inversion O as [|? ? Om Oms]; subst.
    pose proof (qty_of_nonneg ms) as NN. assert (0 <= qty_of ms) as Nms.
    { apply NN. eapply Forall_impl; [|exact Oms]. intros x Hx; apply Hx. } clear NN.
    destruct (Qle_bool q 0) eqn:E.
    + apply Qle_bool_iff in E. injection T as <- <-. rewrite qty_of_cons.
      split; [unfold qty_of; simpl; lra|]. split; [lra|]. split; [constructor|]. split; [auto|].
      intro n; unfold mass_in; simpl; lra.
    + apply Qle_bool_false in E. destruct (Qltb q (m_qty m)) eqn:L.
      * apply Qltb_true in L. injection T as <- <-. rewrite qty_of_cons.
        destruct m as [i qm c]; simpl in *.
        split; [unfold qty_of; simpl; lra|].
        split; [rewrite qty_of_cons; unfold qty_of; simpl; lra|].
        split; [constructor; [apply split_ok with qm; auto; lra|constructor]|].
        split; [constructor; [apply split_ok with qm; auto; lra|auto]|].
        intro n. unfold mass_in; cbn [map qsum fold_right].
        rewrite <- (mass_split i i i q (qm - q) qm c n); [lra|apply Om|lra].
      * apply Qltb_false in L. destruct (take_qty (q - m_qty m) ms) as [a' r'] eqn:T'.
        injection T as <- <-.
        destruct (IH (q - m_qty m) a' r' Oms) as (A1 & A2 & A3 & A4 & A5); auto; try lra.
        rewrite !qty_of_cons. split; [lra|]. split; [lra|].
        split; [constructor; auto|]. split; [auto|].
        intro n. unfold mass_in in *; cbn [map qsum fold_right]. rewrite <- A5. unfold qsum. lra.
Qed.
Lemma take_qty_nonempty q ms a r : 0 < q -> ms <> [] -> take_qty q ms = (a, r) -> a <> [].
Proof.
  destruct ms as [|m ms]; [congruence|]. simpl. intros Hq _ T.
  destruct (Qle_bool q 0) eqn:E; [apply Qle_bool_iff in E; lra|].
  destruct (Qltb q (m_qty m)); [|destruct (take_qty _ ms)]; injection T as <- _; discriminate.
Qed.
Lemma take_qty_zero q ms : q <= 0 -> take_qty q ms = ([], ms).
Proof.
  intro H. destruct ms; simpl; auto. apply Qle_bool_iff in H. rewrite H. reflexivity.
Qed.
Lemma mats_qty_nonneg ms : mats_ok ms -> 0 <= qty_of ms.
Proof. intro H. apply qty_of_nonneg. eapply Forall_impl; [|exact H]. intros x Hx; apply Hx. Qed.
Lemma mass_in_nonneg n ms : mats_ok ms -> 0 <= mass_in n ms.
Proof. intro H. apply qsum_nonneg, Forall_map. eapply Forall_impl; [|exact H].
  intros m Hm. apply mass_nonneg; auto. Qed.
Lemma mass_in_cons n m ms : mass_in n (m :: ms) == mass_of m n + mass_in n ms.
Proof. reflexivity. Qed.
Lemma mass_in_nil n : mass_in n [] == 0.
Proof. reflexivity. Qed.
Lemma qty_of_nil : qty_of [] == 0.
Proof. reflexivity. Qed.

(** What a successful Pop(q) does. *)
Lemma pop_qty_facts ms q m r : mats_ok ms -> 0 <= q -> items_pop_qty ms q = Ok (m, r) ->
  m_qty m == q /\ qty_of r == qty_of ms - q /\ q <= qty_of ms /\ mat_ok m /\ mats_ok r /\
  (forall n, mass_of m n + mass_in n r == mass_in n ms) /\ 0 < q.
Proof.
  intros O Hq H. unfold items_pop_qty in H.
  destruct (Qltb (qty_of ms) q) eqn:L; [discriminate|]. apply Qltb_false in L.
  destruct (take_qty q ms) as [a r0] eqn:T. apply bind_ok in H as (m' & Sq & E).
  injection E as <- <-.
  destruct (take_qty_facts _ _ _ _ O Hq L T) as (A1 & A2 & A3 & A4 & A5).
  apply squash_facts in Sq as Sf. destruct Sf as (Q1 & Q2). destruct (Q2 A3) as (Q3 & Q4).
  split; [lra|]. split; [lra|]. split; [lra|]. split; [auto|]. split; [auto|]. split.
  - intro n. rewrite Q4. apply A5.
  - destruct (Qlt_le_dec 0 q); auto. exfalso.
    rewrite take_qty_zero in T by auto. injection T as <- <-. discriminate.
Qed.
(** When Pop(q) succeeds. *)
Lemma pop_qty_ok ms q : 0 < q -> q <= qty_of ms -> exists m r, items_pop_qty ms q = Ok (m, r).
Proof.
  intros Hq L. unfold items_pop_qty.
  destruct (Qltb (qty_of ms) q) eqn:E; [apply Qltb_true in E; lra|].
  destruct (take_qty q ms) as [a r] eqn:T.
  destruct (squash_nonempty a) as [m Hm].
  { eapply take_qty_nonempty; eauto. intros ->. unfold qty_of in L; simpl in L. lra. }
  rewrite Hm. simpl. eauto.
Qed.
Lemma pop_tol_facts ms q tol m r : mats_ok ms -> 0 <= q -> items_pop_tol ms q tol = Ok (m, r) ->
  m_qty m == Qmin q (qty_of ms) /\ qty_of r == qty_of ms - m_qty m /\ q <= qty_of ms + tol /\
  mat_ok m /\ mats_ok r /\
  (forall n, mass_of m n + mass_in n r == mass_in n ms).
Proof.
  intros O Hq H. unfold items_pop_tol in H.
  destruct (Qltb (qty_of ms + tol) q) eqn:L; [discriminate|]. apply Qltb_false in L.
  destruct (Qle_bool (qty_of ms) q) eqn:E.
  - apply Qle_bool_iff in E. apply bind_ok in H as (m' & Sq & E'). injection E' as <- <-.
    apply squash_facts in Sq as (Q1 & Q2). destruct (Q2 O) as (Q3 & Q4).
    rewrite Q.min_r by auto. rewrite qty_of_nil. split; [lra|]. split; [lra|].
    split; [auto|]. split; [auto|]. split; [constructor|].
    intro n. rewrite Q4, mass_in_nil. lra.
  - apply Qle_bool_false in E. apply pop_qty_facts in H as (A1 & A2 & A3 & A4 & A5 & A6 & _); auto.
    rewrite Q.min_l by lra. repeat split; auto; try apply A4; lra.
Qed.

(** ** Executable checks of sanity, used by the worked examples *)
Definition mat_okb (m : mat) : bool :=
  Qle_bool 0 (m_qty m) && forallb (fun e => Qle_bool 0 (snd e)) (m_comp m) &&
  (Qltb 0 (csum (m_comp m)) || Qeq_bool (m_qty m) 0).
Lemma mat_okb_sound m : mat_okb m = true -> mat_ok m.
Proof.
  unfold mat_okb. intro H. apply andb_prop in H as [H H3]. apply andb_prop in H as [H1 H2].
  split; [apply Qle_bool_iff; auto|]. split.
  - apply Forall_forall. intros e He. rewrite forallb_forall in H2. apply Qle_bool_iff. auto.
  - apply orb_prop in H3 as [H3|H3]; [left; apply Qltb_true; auto|right; apply Qeq_bool_iff; auto].
Qed.
Lemma mats_okb_sound ms : forallb mat_okb ms = true -> mats_ok ms.
Proof.
  intro H. apply Forall_forall. intros m Hm. rewrite forallb_forall in H. apply mat_okb_sound; auto.
Qed.
