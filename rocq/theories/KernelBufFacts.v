(** Facts about buffers with optional capacity, maps of buffers, quantities
    under Pop, and Material::ExtractComp. *)
From Coq Require Import Lia Lqa.
From Verif Require Import Outcome KernelMaterial KernelResBuf KernelBuf KernelFacts KernelMass.
Local Open Scope Q_scope.

Lemma mass_in_app n a b : mass_in n (a ++ b) == mass_in n a + mass_in n b.
Proof. unfold mass_in. rewrite map_app. apply qsum_app. Qed.
Lemma mats_ok_app a b : mats_ok (a ++ b) <-> mats_ok a /\ mats_ok b.
Proof. apply Forall_app. Qed.

(** ** Quantities only (no assumption on compositions) *)
Definition qtys_ok (ms : list mat) : Prop := Forall (fun m => 0 <= m_qty m) ms.
Lemma qtys_ok_nonneg ms : qtys_ok ms -> 0 <= qty_of ms.
Proof. intro H. apply qty_of_nonneg. exact H. Qed.
Lemma mats_qtys ms : mats_ok ms -> qtys_ok ms.
Proof. intro H. eapply Forall_impl; [|exact H]. intros m Hm; apply Hm. Qed.
Lemma take_qty_q ms : forall q a r, qtys_ok ms -> 0 <= q -> q <= qty_of ms ->
  take_qty q ms = (a, r) ->
  qty_of a == q /\ qty_of r == qty_of ms - q /\ qtys_ok a /\ qtys_ok r.
Proof.
  induction ms as [|m ms IH]; intros q a r O Hq Hle T; simpl in T.
  - injection T as <- <-. rewrite qty_of_nil in *.
    split; [lra|]. split; [lra|]. split; constructor.
  - rewrite qty_of_cons in Hle. inversion O as [|? ? Om Oms]; subst.
    pose proof (qtys_ok_nonneg ms Oms) as Nms.
    destruct (Qle_bool q 0) eqn:E.
    + apply Qle_bool_iff in E. injection T as <- <-. rewrite qty_of_cons, qty_of_nil.
      split; [lra|]. split; [lra|]. split; [constructor|auto].
    + apply Qle_bool_false in E. destruct (Qltb q (m_qty m)) eqn:L.
      * apply Qltb_true in L. injection T as <- <-. rewrite !qty_of_cons, qty_of_nil. simpl.
        split; [lra|]. split; [lra|]. split; constructor; simpl; auto; lra.
      * apply Qltb_false in L. destruct (take_qty (q - m_qty m) ms) as [a' r'] eqn:T'.
        injection T as <- <-.
        destruct (IH (q - m_qty m) a' r' Oms) as (A1 & A2 & A3 & A4); auto; try lra.
        rewrite !qty_of_cons. split; [lra|]. split; [lra|]. split; [constructor; auto|auto].
Qed.
Lemma pop_qty_q ms q m r : qtys_ok ms -> 0 <= q -> items_pop_qty ms q = Ok (m, r) ->
  m_qty m == q /\ qty_of r == qty_of ms - q /\ q <= qty_of ms /\ qtys_ok r.
Proof.
  intros O Hq H. unfold items_pop_qty in H.
  destruct (Qltb (qty_of ms) q) eqn:L; [discriminate|]. apply Qltb_false in L.
  destruct (take_qty q ms) as [a r0] eqn:T. apply bind_ok in H as (m' & Sq & E).
  injection E as <- <-.
  destruct (take_qty_q _ _ _ _ O Hq L T) as (A1 & A2 & A3 & A4).
  apply squash_facts in Sq as (Q1 & _). repeat split; auto; lra.
Qed.
Lemma pop_tol_q ms q tol m r : qtys_ok ms -> 0 <= q -> items_pop_tol ms q tol = Ok (m, r) ->
  m_qty m == Qmin q (qty_of ms) /\ qty_of r == qty_of ms - m_qty m /\ qtys_ok r.
Proof.
  intros O Hq H. unfold items_pop_tol in H.
  destruct (Qltb (qty_of ms + tol) q) eqn:L; [discriminate|].
  destruct (Qle_bool (qty_of ms) q) eqn:E.
  - apply Qle_bool_iff in E. apply bind_ok in H as (m' & Sq & E'). injection E' as <- <-.
    apply squash_facts in Sq as (Q1 & _). rewrite Q.min_r by auto. rewrite qty_of_nil.
    split; [lra|]. split; [lra|constructor].
  - apply Qle_bool_false in E. apply pop_qty_q in H as (A1 & A2 & A3 & A4); auto.
    rewrite Q.min_l by lra. repeat split; auto; lra.
Qed.
(** Pop with tolerance of a positive amount that is there succeeds. *)
Lemma pop_tol_ok ms q tol : 0 < q -> 0 <= tol -> q <= qty_of ms ->
  exists m r, items_pop_tol ms q tol = Ok (m, r).
Proof.
  intros Hq Ht L. unfold items_pop_tol.
  destruct (Qltb (qty_of ms + tol) q) eqn:E; [apply Qltb_true in E; lra|].
  destruct (Qle_bool (qty_of ms) q) eqn:E2; [|apply pop_qty_ok; auto].
  destruct (squash_nonempty ms) as [m Hm].
  { intros ->. rewrite qty_of_nil in L. lra. }
  rewrite Hm. simpl. eauto.
Qed.

(** ** Buffers *)
Lemma b_push_facts eps b m b' : b_push eps b m = Ok b' ->
  b_cap b' = b_cap b /\ b_items b' = b_items b ++ [m] /\
  match b_cap b with None => True | Some c => m_qty m <= Qmax 0 (c - b_qty b) + eps end.
Proof.
  unfold b_push, b_fits, b_space. destruct (b_cap b) as [c|]; simpl.
  - destruct (Qle_bool _ eps) eqn:E; [|discriminate]. intro H; injection H as <-. simpl.
    apply Qle_bool_iff in E. split; [auto|]. split; [auto|]. lra.
  - intro H; injection H as <-. auto.
Qed.
Lemma b_push_ok eps b m :
  match b_cap b with None => True | Some c => m_qty m <= Qmax 0 (c - b_qty b) + eps end ->
  b_push eps b m = Ok {| b_cap := b_cap b; b_items := b_items b ++ [m] |}.
Proof.
  unfold b_push, b_fits, b_space. destruct (b_cap b) as [c|]; simpl; auto.
  intro H. destruct (Qle_bool _ eps) eqn:E; auto. apply Qle_bool_false in E. lra.
Qed.

(** ** Maps of buffers *)
Definition bm_qty (bm : bmap) : Q := qsum (map (fun e => b_qty (snd e)) bm).
Definition bm_mass (n : Z) (bm : bmap) : Q := qsum (map (fun e => mass_in n (b_items (snd e))) bm).
Lemma bm_find_set_same k b bm : bm_find k (bm_set k b bm) = Some b.
Proof.
  induction bm as [|[k' b'] bm IH]; simpl.
  - rewrite String.eqb_refl. auto.
  - destruct (String.eqb k' k) eqn:E; simpl; rewrite E; auto.
Qed.
Lemma bm_find_set_other k k2 b bm : k2 <> k -> bm_find k2 (bm_set k b bm) = bm_find k2 bm.
Proof.
  intro D. induction bm as [|[k' b'] bm IH]; simpl.
  - destruct (String.eqb_spec k k2); [congruence|auto].
  - destruct (String.eqb_spec k' k) as [->|E]; simpl.
    + destruct (String.eqb_spec k k2); [congruence|auto].
    + destruct (String.eqb k' k2); auto.
Qed.
Lemma bm_get_set_same k b bm : bm_get k (bm_set k b bm) = b.
Proof. unfold bm_get. rewrite bm_find_set_same. auto. Qed.
Lemma bm_get_set_other k k2 b bm : k2 <> k -> bm_get k2 (bm_set k b bm) = bm_get k2 bm.
Proof. intro D. unfold bm_get. rewrite bm_find_set_other by auto. auto. Qed.
Lemma bm_qty_cons e bm : bm_qty (e :: bm) == b_qty (snd e) + bm_qty bm.
Proof. unfold bm_qty. simpl. reflexivity. Qed.
Lemma bm_mass_cons n e bm : bm_mass n (e :: bm) == mass_in n (b_items (snd e)) + bm_mass n bm.
Proof. unfold bm_mass. simpl. reflexivity. Qed.
Lemma bm_get_cons k k' b' bm : bm_get k ((k', b') :: bm) = if String.eqb k' k then b' else bm_get k bm.
Proof. unfold bm_get. simpl. destruct (String.eqb k' k); auto. Qed.
Lemma bm_qty_set k b bm : bm_qty (bm_set k b bm) == bm_qty bm - b_qty (bm_get k bm) + b_qty b.
Proof.
  induction bm as [|[k' b'] bm IH].
  - simpl. rewrite bm_qty_cons. simpl. unfold bm_qty, bm_get, b_qty, qty_of. simpl. lra.
  - rewrite bm_get_cons. simpl. destruct (String.eqb k' k) eqn:E; rewrite !bm_qty_cons; simpl; lra.
Qed.
Lemma bm_mass_set n k b bm :
  bm_mass n (bm_set k b bm) == bm_mass n bm - mass_in n (b_items (bm_get k bm)) + mass_in n (b_items b).
Proof.
  induction bm as [|[k' b'] bm IH].
  - simpl. rewrite bm_mass_cons. simpl. unfold bm_mass, bm_get, mass_in. simpl. lra.
  - rewrite bm_get_cons. simpl. destruct (String.eqb k' k) eqn:E; rewrite !bm_mass_cons; simpl; lra.
Qed.
Definition bm_all (P : list mat -> Prop) (bm : bmap) : Prop := Forall (fun e => P (b_items (snd e))) bm.
Lemma bm_all_get (P : list mat -> Prop) k bm : P [] -> bm_all P bm -> P (b_items (bm_get k bm)).
Proof.
  intros P0 H. unfold bm_get. induction H as [|[k' b'] bm Hb _ IH]; simpl; auto.
  destruct (String.eqb k' k); simpl; auto.
Qed.
Lemma bm_all_set (P : list mat -> Prop) k b bm : P (b_items b) -> bm_all P bm -> bm_all P (bm_set k b bm).
Proof.
  intros Pb H. induction H as [|[k' b'] bm Hb Hr IH]; simpl.
  - constructor; [auto|constructor].
  - destruct (String.eqb k' k); constructor; auto.
Qed.
Lemma bm_keys_set k b bm : forall k2, In k2 (map fst (bm_set k b bm)) <-> k2 = k \/ In k2 (map fst bm).
Proof.
  induction bm as [|[k' b'] bm IH]; intro k2; simpl.
  - intuition.
  - destruct (String.eqb_spec k' k) as [->|E]; simpl; [intuition|]. rewrite IH. intuition.
Qed.
Lemma bm_nodup_set k b bm : NoDup (map fst bm) -> NoDup (map fst (bm_set k b bm)).
Proof.
  induction bm as [|[k' b'] bm IH]; simpl; intro H.
  - constructor; [auto|constructor].
  - inversion H as [|? ? N D]; subst. destruct (String.eqb_spec k' k) as [->|E]; simpl; constructor; auto.
    intro I. apply bm_keys_set in I as [I|I]; [congruence|contradiction].
Qed.
Lemma bm_find_in k bm b : bm_find k bm = Some b -> In (k, b) bm.
Proof.
  induction bm as [|[k' b'] bm IH]; simpl; [discriminate|].
  destruct (String.eqb_spec k' k) as [->|E]; intro H; [injection H as ->; auto|auto].
Qed.
Lemma bm_find_iff k bm b : NoDup (map fst bm) -> (bm_find k bm = Some b <-> In (k, b) bm).
Proof.
  intro D. split; [apply bm_find_in|]. induction bm as [|[k' b'] bm IH]; simpl; [tauto|].
  inversion D as [|? ? N D']; subst. intros [E|I].
  - injection E as -> ->. rewrite String.eqb_refl. auto.
  - destruct (String.eqb_spec k' k) as [->|E]; auto. exfalso. apply N. simpl.
    apply in_map_iff. exists (k, b). auto.
Qed.
Lemma bm_find_none k bm : bm_find k bm = None <-> ~ In k (map fst bm).
Proof.
  induction bm as [|[k' b'] bm IH]; simpl; [tauto|].
  destruct (String.eqb_spec k' k) as [->|E]; [split; [discriminate|intro H; exfalso; auto]|].
  rewrite IH. intuition.
Qed.

(** ** Threshold *)
Lemma cthreshold_keys thr c : map fst (cthreshold thr c) = map fst c.
Proof. unfold cthreshold. rewrite map_map. reflexivity. Qed.
Lemma cthreshold_sum thr c : 0 <= thr ->
  Qabs (csum (cthreshold thr c) - csum c) <= thr * inject_Z (zlen c).
Proof.
  intro Ht. induction c as [|[k v] c IH].
  - unfold csum; simpl. unfold zlen; simpl. unfold Qabs; simpl. rewrite Qmult_0_r. discriminate.
  - assert (L : inject_Z (zlen ((k, v) :: c)) == inject_Z (zlen c) + 1).
    { unfold zlen. cbn [List.length]. rewrite Nat2Z.inj_succ, <- Z.add_1_r, inject_Z_plus. reflexivity. }
    rewrite L. change (cthreshold thr ((k, v) :: c)) with
      ((k, if Qltb (Qabs v) thr then 0 else v) :: cthreshold thr c).
    rewrite !csum_cons. cbn [snd].
    destruct (Qltb (Qabs v) thr) eqn:E.
    + apply Qltb_true in E. rewrite Qabs_Qlt_condition in E. rewrite Qabs_Qle_condition in *.
      destruct IH, E. split; lra.
    + rewrite Qabs_Qle_condition in *. destruct IH. split; lra.
Qed.
Lemma cthreshold_get thr c n : NoDup (map fst c) ->
  cget n (cthreshold thr c) == cget n c \/ (cget n (cthreshold thr c) == 0 /\ Qabs (cget n c) <= thr).
Proof.
  induction c as [|[k v] c IH]; intro D; [left; reflexivity|].
  inversion D as [|? ? N D']; subst. cbn [fst] in N.
  change (cthreshold thr ((k, v) :: c)) with
      ((k, if Qltb (Qabs v) thr then 0 else v) :: cthreshold thr c). cbn [cget].
  destruct (Z.eqb_spec k n) as [->|E].
  - rewrite (cget_notin n c N). rewrite (cget_notin n (cthreshold thr c)) by (rewrite cthreshold_keys; auto).
    destruct (Qltb (Qabs v) thr) eqn:L; [right|left; reflexivity].
    apply Qltb_true in L. split; [lra|].
    assert (Z : v + 0 == v) by lra. rewrite Z. lra.
  - destruct (IH D') as [A|(A & B)]; [left; lra|right].
    split; [lra|]. assert (Z : 0 + cget n c == cget n c) by lra. rewrite Z. auto.
Qed.
Lemma cthreshold_exact thr c n : NoDup (map fst c) -> (cget n c == 0 \/ thr <= Qabs (cget n c)) ->
  cget n (cthreshold thr c) == cget n c.
Proof.
  induction c as [|[k v] c IH]; intros D H; [reflexivity|].
  inversion D as [|? ? N D']; subst. cbn [fst] in N.
  change (cthreshold thr ((k, v) :: c)) with
      ((k, if Qltb (Qabs v) thr then 0 else v) :: cthreshold thr c). cbn [cget] in *.
  destruct (Z.eqb_spec k n) as [->|E].
  - rewrite (cget_notin n c N) in *. rewrite (cget_notin n (cthreshold thr c)) by (rewrite cthreshold_keys; auto).
    destruct (Qltb (Qabs v) thr) eqn:L; [|lra]. apply Qltb_true in L.
    destruct H as [H|H]; [lra|]. assert (Z : v + 0 == v) by lra. rewrite Z in H. lra.
  - rewrite IH; [lra|auto|]. destruct H as [H|H]; [left; lra|right].
    assert (Z : 0 + cget n c == cget n c) by lra. rewrite Z in H. auto.
Qed.
Lemma all_nonneg_iff c : all_nonneg c = true <-> comp_ok c.
Proof.
  unfold all_nonneg, comp_ok. rewrite forallb_forall, Forall_forall.
  split; intros H e He; specialize (H e He); [apply Qle_bool_iff|apply Qle_bool_iff]; auto.
Qed.
Lemma ccanon_nodup c : NoDup (map fst (ccanon c)).
Proof. unfold ccanon. rewrite map_map. simpl. rewrite map_id. apply ckeys_nodup. Qed.
Lemma ccanon_keys c : map fst (ccanon c) = ckeys c.
Proof. unfold ccanon. rewrite map_map. simpl. apply map_id. Qed.
Lemma csub_nodup a b : NoDup (map fst (csub a b)).
Proof. apply ccanon_nodup. Qed.

(** ** Extracting a composition *)
Lemma cscale_keys k c : map fst (cscale k c) = map fst c.
Proof. unfold cscale. rewrite map_map. reflexivity. Qed.
Lemma cnorm_keys q c : map fst (cnorm q c) = map fst c.
Proof. unfold cnorm. destruct (Qeq_bool _ 0); auto. apply cscale_keys. Qed.
Lemma nodup_incl_length (a b : list Z) : NoDup a -> incl a b -> (List.length a <= List.length b)%nat.
Proof. apply NoDup_incl_length. Qed.

(** A material whose composition is sane; it may be empty ("hollow"). *)
Definition mat_qok (m : mat) : Prop := 0 <= m_qty m /\ comp_ok (m_comp m).
Lemma mat_ok_qok m : mat_ok m -> mat_qok m.
Proof. intros (A & B & _). split; auto. Qed.

Lemma comp_ok_cget_zero c n : comp_ok c -> csum c <= 0 -> cget n c == 0.
Proof. intros H L. apply csum_zero_cget; auto. pose proof (csum_nonneg c H). lra. Qed.

Lemma extract_comp_facts thr q c m a b : extract_comp thr q c m = Ok (a, b) ->
  m_qty a = q /\ m_comp a = c /\ m_qty b = m_qty m - q /\ q <= m_qty m /\ comp_ok (m_comp b) /\
  m_comp b = cthreshold thr (csub (cnorm (m_qty m) (m_comp m)) (cnorm q c)).
Proof.
  unfold extract_comp. destruct (Qltb (m_qty m) q) eqn:E; [discriminate|].
  destruct (all_nonneg _) eqn:A; [|discriminate]. intro H. injection H as <- <-. simpl.
  apply Qltb_false in E. apply all_nonneg_iff in A. repeat split; auto.
Qed.
Lemma extract_comp_keys thr q c m a b : incl (map fst c) (map fst (m_comp m)) ->
  extract_comp thr q c m = Ok (a, b) ->
  NoDup (map fst (m_comp b)) /\ (forall n, In n (map fst (m_comp b)) <-> In n (map fst (m_comp m))) /\
  (List.length (nuclides b) = List.length (nuclides m))%nat.
Proof.
  intros I H. apply extract_comp_facts in H as (_ & _ & _ & _ & _ & E).
  assert (K : forall n, In n (map fst (m_comp b)) <-> In n (map fst (m_comp m))).
  { intro n. rewrite E, cthreshold_keys. unfold csub. rewrite ccanon_keys.
    rewrite ckeys_in, map_app, cscale_keys, !cnorm_keys. rewrite in_app_iff.
    split; [intros [X|X]; auto|auto]. }
  split; [rewrite E, cthreshold_keys; apply csub_nodup|]. split; [exact K|].
  apply Nat.le_antisymm; apply NoDup_incl_length; try apply ckeys_nodup;
    intros n X; apply ckeys_in, K, ckeys_in, X.
Qed.
Lemma csub_len a b : incl (map fst b) (map fst a) ->
  (List.length (csub a b) <= List.length (ckeys a))%nat.
Proof.
  intro I. rewrite <- (map_length fst (csub a b)). unfold csub. rewrite ccanon_keys.
  apply NoDup_incl_length; [apply ckeys_nodup|]. intros n X. apply ckeys_in in X.
  rewrite map_app, cscale_keys, in_app_iff in X. apply ckeys_in. destruct X; auto.
Qed.
Lemma ckeys_same a b : map fst a = map fst b -> ckeys a = ckeys b.
Proof. unfold ckeys. intros ->. auto. Qed.

(** Extraction loses or gains at most [thr] per nuclide of the material. *)
Lemma extract_comp_bound thr q c m a b n :
  0 <= thr -> 0 <= q -> mat_qok m -> (0 < csum (m_comp m) -> True) ->
  comp_ok c -> 0 < csum c -> incl (map fst c) (map fst (m_comp m)) ->
  extract_comp thr q c m = Ok (a, b) ->
  mat_qok b /\
  Qabs (mass_of a n + mass_of b n - mass_of m n) <= thr * inject_Z (zlen (nuclides m)).
Proof.
  intros Ht Hq (Mq & Mc) _ Oc Pc I H. pose proof (extract_comp_facts _ _ _ _ _ _ H) as (A1 & A2 & A3 & A4 & A5 & A6).
  assert (Qb : mat_qok b) by (split; [rewrite A3; lra|auto]). split; [exact Qb|].
  set (v := cnorm (m_qty m) (m_comp m)) in *. set (o := cnorm q c) in *. set (w := csub v o) in *.
  assert (Ma : mass_of a n == cget n o).
  { unfold mass_of. rewrite A1, A2. reflexivity. }
  assert (Mm : mass_of m n == cget n v) by reflexivity.
  assert (W : cget n w == cget n v - cget n o) by apply cget_csub.
  assert (SW : csum w == csum v - csum o) by apply csum_csub.
  assert (SO : csum o == q) by (apply csum_cnorm; auto).
  assert (Iv : incl (map fst o) (map fst v)).
  { unfold o, v. rewrite !cnorm_keys. exact I. }
  assert (Lw : inject_Z (zlen w) <= inject_Z (zlen (nuclides m))).
  { rewrite <- Zle_Qle. unfold zlen. apply inj_le. unfold w. etransitivity; [apply csub_len, Iv|].
    unfold v, nuclides. rewrite (ckeys_same (cnorm (m_qty m) (m_comp m)) (m_comp m)) by apply cnorm_keys. auto. }
  assert (B1 : thr * inject_Z (zlen w) <= thr * inject_Z (zlen (nuclides m))).
  { rewrite !(Qmult_comm thr). apply Qmult_le_compat_r; auto. }
  assert (ND : NoDup (map fst w)) by apply csub_nodup.
  pose proof (cthreshold_sum thr w Ht) as TS. rewrite <- A6 in TS.
  pose proof (cthreshold_get thr w n ND) as TG. rewrite <- A6 in TG.
  (* one nuclide of w costs at most the whole bound *)
  assert (One : ~ cget n w == 0 -> thr <= thr * inject_Z (zlen w)).
  { intro NZ. destruct w as [|e w'] eqn:Ew; [exfalso; apply NZ; reflexivity|].
    assert (1 <= inject_Z (zlen (e :: w'))).
    { change 1 with (inject_Z 1). rewrite <- Zle_Qle. unfold zlen. simpl List.length. lia. }
    rewrite <- (Qmult_1_r thr) at 1. rewrite !(Qmult_comm thr). apply Qmult_le_compat_r; auto. }
  assert (Nb : 0 <= thr * inject_Z (zlen w)).
  { apply Qmult_le_0_compat; auto. change 0 with (inject_Z 0). rewrite <- Zle_Qle. unfold zlen. lia. }
  assert (Drop : Qabs (cget n (m_comp b) - cget n w) <= thr * inject_Z (zlen w)).
  { destruct TG as [TG|(TG & TA)].
    - assert (Z : cget n (m_comp b) - cget n w == 0) by lra. rewrite Z. exact Nb.
    - destruct (Qeq_dec (cget n w) 0) as [Z|NZ].
      + assert (Z' : cget n (m_comp b) - cget n w == 0) by lra. rewrite Z'. exact Nb.
      + specialize (One NZ). rewrite Qabs_Qle_condition in TA |- *. lra. }
  destruct (Qlt_le_dec 0 (csum (m_comp b))) as [Pb|Nb'].
  - (* something is left: the material was not hollow *)
    assert (Pv : 0 < csum (m_comp m)).
    { destruct (Qlt_le_dec 0 (csum (m_comp m))) as [P|P]; auto. exfalso.
      assert (Zv : forall k, cget k v == 0).
      { intro k. unfold v. assert (csum (m_comp m) == 0) by (pose proof (csum_nonneg _ Mc); lra).
        rewrite cnorm_zero by auto. apply csum_zero_cget; auto. }
      assert (Z : csum (m_comp b) == 0).
      { rewrite <- (sum_over_keys (m_comp b) (ckeys (m_comp b))); [|apply ckeys_nodup|intros k X; apply ckeys_in, X].
        transitivity (qsum (map (fun _ => 0) (ckeys (m_comp b)))).
        - apply qsum_map_ext. intros k _.
          pose proof (cthreshold_get thr w k ND) as TGk. rewrite <- A6 in TGk.
          assert (Wk : cget k w == cget k v - cget k o) by apply cget_csub.
          rewrite Zv in Wk. pose proof (cget_nonneg k o (cnorm_ok q c Hq Oc)) as No.
          pose proof (cget_nonneg k _ A5). destruct TGk as [T|(T & _)]; lra.
        - induction (ckeys (m_comp b)) as [|k l IHl]; simpl; [lra|]. rewrite IHl. lra. }
      lra. }
    assert (SV : csum v == m_qty m) by (apply csum_cnorm; auto).
    assert (Mb : mass_of b n == (m_qty m - q) * (cget n (m_comp b) / csum (m_comp b))).
    { unfold mass_of. rewrite A3. apply cget_cnorm; auto. }
    set (x' := cget n (m_comp b)) in *. set (s' := csum (m_comp b)) in *.
    assert (Nx : 0 <= x') by (apply cget_nonneg; auto).
    assert (Xs : x' <= s') by (apply cget_le_csum; auto).
    assert (Rr : 0 <= x' / s' <= 1).
    { split; [apply Qle_shift_div_l; lra|apply Qle_shift_div_r; lra]. }
    set (ratio := x' / s') in *.
    assert (Xr : x' == ratio * s') by (unfold ratio; field; lra).
    (* R * ratio - x' = (csum w - s') * ratio *)
    assert (K : mass_of b n - x' == - (s' - csum w) * ratio).
    { rewrite Mb, SW, SV, SO. unfold ratio at 1. fold ratio. rewrite Xr at 1. ring. }
    destruct TG as [TG|(TG & TA)].
    + assert (Z : mass_of a n + mass_of b n - mass_of m n == - (s' - csum w) * ratio).
      { rewrite <- K, Ma, Mm. lra. }
      rewrite Z. eapply Qle_trans; [|exact B1].
      rewrite Qabs_Qle_condition in TS |- *. destruct TS as [T1 T2]. destruct Rr as [R1 R2].
      set (B := thr * inject_Z (zlen w)) in *. set (d := s' - csum w) in *.
      split; nra.
    + assert (Zr : ratio == 0) by (unfold ratio; rewrite TG; field; lra).
      assert (Zb : mass_of b n == 0) by (rewrite Zr in K; lra).
      assert (Z : mass_of a n + mass_of b n - mass_of m n == x' - cget n w).
      { rewrite Zb, Ma, Mm, W. lra. }
      rewrite Z. eapply Qle_trans; [exact Drop|exact B1].
  - assert (Zb : mass_of b n == cget n (m_comp b)).
    { unfold mass_of. rewrite cnorm_zero; [lra|]. pose proof (csum_nonneg _ A5). lra. }
    assert (Z : mass_of a n + mass_of b n - mass_of m n == cget n (m_comp b) - cget n w).
    { rewrite Zb, Ma, Mm, W. lra. }
    rewrite Z. eapply Qle_trans; [exact Drop|exact B1].
Qed.

(** When no remainder is a trace below the threshold, extraction is exact and
    leaves a sane material. *)
Lemma extract_comp_exact thr q c m :
  0 <= thr -> 0 <= q -> q <= m_qty m -> mat_ok m -> comp_ok c -> 0 < csum c ->
  (forall n, 0 <= mass_of m n - cget n (cnorm q c) /\
     (mass_of m n - cget n (cnorm q c) == 0 \/ thr <= mass_of m n - cget n (cnorm q c))) ->
  exists b, extract_comp thr q c m = Ok (Mat (m_id m) q c, b) /\ mat_ok b /\
    m_qty b = m_qty m - q /\ forall n, mass_of b n == mass_of m n - cget n (cnorm q c).
Proof.
  intros Ht Hq Hle Om Oc Pc Hn. unfold extract_comp.
  destruct (Qltb (m_qty m) q) eqn:E; [apply Qltb_true in E; lra|].
  set (v := cnorm (m_qty m) (m_comp m)). set (o := cnorm q c). set (w := csub v o).
  assert (ND : NoDup (map fst w)) by apply csub_nodup.
  assert (W : forall n, cget n w == mass_of m n - cget n o) by (intro n; apply cget_csub).
  assert (Tw : forall n, cget n (cthreshold thr w) == cget n w).
  { intro n. apply cthreshold_exact; auto. destruct (Hn n) as (P & [Z|L]); [left; rewrite W; exact Z|right].
    rewrite W. rewrite Qabs_pos; auto. }
  assert (Ow : comp_ok (cthreshold thr w)).
  { unfold comp_ok. rewrite Forall_forall. intros [k x] Hx. simpl.
    assert (G : cget k (cthreshold thr w) == x).
    { assert (ND' : NoDup (map fst (cthreshold thr w))) by (rewrite cthreshold_keys; auto).
      clear - Hx ND'. induction (cthreshold thr w) as [|[j y] l IH]; [destruct Hx|].
      inversion ND' as [|? ? N D]; subst. destruct Hx as [Eq|Hx].
      - injection Eq as -> ->. cbn [cget]. rewrite Z.eqb_refl. rewrite cget_notin by exact N. lra.
      - cbn [cget]. destruct (Z.eqb_spec j k) as [->|D'].
        + exfalso. apply N. apply in_map_iff. exists (k, x). auto.
        + rewrite IH; auto. lra. }
    rewrite <- G, Tw, W. apply Hn. }
  apply all_nonneg_iff in Ow as An. rewrite An. apply all_nonneg_iff in An.
  eexists. split; [reflexivity|].
  assert (SW : csum (cthreshold thr w) == m_qty m - q).
  { transitivity (csum w).
    - rewrite <- (sum_over_keys (cthreshold thr w) (ckeys w)); [|apply ckeys_nodup|].
      + rewrite <- (sum_over_keys w (ckeys w)); [|apply ckeys_nodup|intros n X; apply ckeys_in, X].
        apply qsum_map_ext. intros n _. apply Tw.
      + intros n X. rewrite cthreshold_keys in X. apply ckeys_in, X.
    - unfold w. rewrite csum_csub. unfold v, o. rewrite (ok_csum m Om), csum_cnorm by auto. reflexivity. }
  assert (Omb : mat_ok (Mat (m_id m) (m_qty m - q) (cthreshold thr w))).
  { split; simpl; [lra|]. split; [exact An|]. rewrite SW.
    destruct (Qlt_le_dec 0 (m_qty m - q)); [left; auto|right; lra]. }
  split; [exact Omb|]. split; [reflexivity|]. intro n. unfold mass_of at 1. simpl.
  destruct (Qlt_le_dec 0 (csum (cthreshold thr w))) as [P|P].
  - rewrite cget_cnorm by auto. rewrite Tw, SW, W. unfold mass_of, v, o. field. rewrite SW in P. lra.
  - rewrite cnorm_zero by (pose proof (csum_nonneg _ An); lra). rewrite Tw, W. reflexivity.
Qed.

(** std::max_element *)
Lemma max_index_from_bound l : forall best bi i, (bi < i)%nat -> (max_index_from best bi i l < i + List.length l)%nat.
Proof.
  induction l as [|x l IH]; intros best bi i H; simpl; [lia|].
  destruct (Qltb best x); [specialize (IH x i (S i) ltac:(lia))|specialize (IH best bi (S i) ltac:(lia))]; lia.
Qed.
Lemma max_index_bound l : l <> [] -> (max_index l < List.length l)%nat.
Proof. destruct l as [|x l]; [congruence|]. intros _. simpl. pose proof (max_index_from_bound l x 0 1 ltac:(lia)). lia. Qed.
