(** Proofs about the Storage model. *)
From Coq Require Import Lia Lqa Permutation Sorting.Sorted.
From Verif Require Import Outcome KernelMaterial KernelResBuf KernelFacts KernelMass StorageModel StorageSpec.
Local Open Scope Q_scope.

(** ** The regrouping relation *)
Lemma regroup_trans a b c : regroup a b -> regroup b c -> regroup a c.
Proof.
  intros H K; induction K; auto.
  - eapply rg_split; eauto.
  - eapply rg_join; eauto.
Qed.
Lemma regroup_app_l x a b : regroup a b -> regroup (x ++ a) (x ++ b).
Proof.
  induction 1 as [|l1 m p q l2 _ IH Hs|l1 p q m l2 _ IH Hj].
  - apply rg_refl.
  - rewrite app_assoc in *. eapply rg_split; eauto.
  - rewrite app_assoc in *. eapply rg_join; eauto.
Qed.
Lemma regroup_app_r x a b : regroup a b -> regroup (a ++ x) (b ++ x).
Proof.
  induction 1 as [|l1 m p q l2 _ IH Hs|l1 p q m l2 _ IH Hj].
  - apply rg_refl.
  - rewrite <- app_assoc in *. cbn [app] in *. eapply rg_split; eauto.
  - rewrite <- app_assoc in *. cbn [app] in *. eapply rg_join; eauto.
Qed.
Lemma regroup_app a b c d : regroup a b -> regroup c d -> regroup (a ++ c) (b ++ d).
Proof.
  intros H K. eapply regroup_trans; [apply regroup_app_r, H|apply regroup_app_l, K].
Qed.
Lemma regroup_facts a b : regroup a b -> mats_ok a ->
  mats_ok b /\ qty_of b == qty_of a /\ forall n, mass_in n b == mass_in n a.
Proof.
  intros H O; induction H as [|l1 m p q l2 _ IH Hs|l1 p q m l2 _ IH Hj].
  - split; [auto|]. split; [lra|]. intro; lra.
  - destruct IH as (I1 & I2 & I3). destruct Hs as (C1 & C2 & Q1 & P1 & P2).
    apply Forall_app in I1 as (J1 & J2). inversion J2 as [|? ? Jm J3]; subst.
    destruct m as [im qm cm], p as [ip qp cp], q as [iq qq cq]; simpl in *; subst cp cq.
    split; [|split].
    + apply Forall_app; split; auto. destruct Jm as (K1 & K2 & K3); simpl in *.
      constructor; [|constructor; auto]; (split; [simpl; auto|split; [simpl; auto|]]); simpl;
        (destruct K3 as [K3|K3]; [left; auto|right; lra]).
    + rewrite <- I2. rewrite !qty_of_app, !qty_of_cons. simpl. lra.
    + intro n. rewrite <- I3. rewrite !mass_in_app, !mass_in_cons.
      rewrite <- (mass_split ip iq im qp qq qm cm n); [lra|apply Jm|lra].
  - destruct IH as (I1 & I2 & I3). destruct Hj as (M & Q1 & M1).
    apply Forall_app in I1 as (J1 & J2). inversion J2 as [|? ? Jp J3]; subst.
    inversion J3 as [|? ? Jq J4]; subst.
    split; [|split].
    + apply Forall_app; split; auto.
    + rewrite <- I2. rewrite !qty_of_app, !qty_of_cons. lra.
    + intro n. rewrite <- I3, !mass_in_app, !mass_in_cons, M1. lra.
Qed.

Lemma take_qty_regroup ms : forall q a r, mats_ok ms -> take_qty q ms = (a, r) -> regroup ms (a ++ r).
Proof.
  induction ms as [|m ms IH]; intros q a r O T; simpl in T.
  - injection T as <- <-. apply rg_refl.
  - inversion O as [|? ? Om Oms]; subst. destruct (Qle_bool q 0) eqn:E.
    + injection T as <- <-. apply rg_refl.
    + apply Qle_bool_false in E. destruct (Qltb q (m_qty m)) eqn:L.
      * apply Qltb_true in L. injection T as <- <-. cbn [app].
        apply (rg_split _ [] m). { apply rg_refl. }
        unfold split_of; simpl. repeat split; try lra.
      * destruct (take_qty (q - m_qty m) ms) as [a' r'] eqn:T'. injection T as <- <-.
        cbn [app]. apply (regroup_app_l [m]). eapply IH; eauto.
Qed.
Lemma fold_absorb_regroup ms : forall m, mat_ok m -> mats_ok ms ->
  regroup (m :: ms) [fold_left absorb ms m].
Proof.
  induction ms as [|x ms IH]; intros m Hm O.
  - apply rg_refl.
  - inversion O as [|? ? Ox Oms]; subst. cbn [fold_left].
    eapply regroup_trans; [|apply IH; [apply absorb_ok; auto|auto]].
    apply (rg_join _ [] m x); [apply rg_refl|].
    split; [apply absorb_ok; auto|]. split; [apply qty_absorb|]. intro n. apply mass_absorb; auto.
Qed.
Lemma squash_regroup ms m : mats_ok ms -> squash ms = Ok m -> regroup ms [m].
Proof.
  destruct ms as [|x ms]; simpl; [discriminate|]. intros O H. injection H as <-.
  inversion O; subst. apply fold_absorb_regroup; auto.
Qed.
Lemma pop_qty_regroup ms q m r : mats_ok ms -> items_pop_qty ms q = Ok (m, r) -> regroup ms (m :: r).
Proof.
  intros O H. unfold items_pop_qty in H. destruct (Qltb (qty_of ms) q); [discriminate|].
  destruct (take_qty q ms) as [a r0] eqn:T. apply bind_ok in H as (m' & Sq & E). injection E as <- <-.
  destruct (Qlt_le_dec 0 q) as [P|P].
  - pose proof (take_qty_regroup _ _ _ _ O T) as R.
    assert (mats_ok a) as Oa.
    { destruct (regroup_facts _ _ R O) as (K & _). apply Forall_app in K. tauto. }
    eapply regroup_trans; [exact R|]. change (m' :: r0) with ([m'] ++ r0).
    apply regroup_app_r, squash_regroup; auto.
  - rewrite take_qty_zero in T by auto. injection T as <- <-. discriminate.
Qed.
Lemma pop_tol_regroup ms q tol m r : mats_ok ms -> items_pop_tol ms q tol = Ok (m, r) -> regroup ms (m :: r).
Proof.
  intros O H. unfold items_pop_tol in H. destruct (Qltb (qty_of ms + tol) q); [discriminate|].
  destruct (Qle_bool (qty_of ms) q).
  - apply bind_ok in H as (m' & Sq & E). injection E as <- <-. apply squash_regroup; auto.
  - eapply pop_qty_regroup; eauto.
Qed.
Lemma regroup_ok a b : regroup a b -> mats_ok a -> mats_ok b.
Proof. intros H O. apply (regroup_facts _ _ H O). Qed.

(** ** Arrival queues *)
Lemma begin_loop_eq t inv : forall proc times,
  begin_loop t inv proc times = (proc ++ inv, times ++ map (fun _ => t) inv).
Proof.
  induction inv as [|m inv IH]; intros; simpl.
  - rewrite !app_nil_r. reflexivity.
  - rewrite IH, <- !app_assoc. reflexivity.
Qed.
Definition duep (r t : Z) (arr : list (Z * mat)) := filter (fun p => Z.leb (fst p + r) t) arr.
Definition heldp (r t : Z) (arr : list (Z * mat)) := filter (fun p => Z.ltb t (fst p + r)) arr.
Definition tsorted (arr : list (Z * mat)) := StronglySorted Z.le (map fst arr).

Lemma ready_loop_eq time r t arr k : (time = t - r)%Z -> tsorted arr ->
  ready_loop time (map fst arr) k = (map fst (heldp r t arr), (k + zlen (duep r t arr))%Z).
Proof.
  intros -> Hs. revert k. induction arr as [|[x m] arr IH]; intro k; simpl.
  - rewrite Z.add_0_r. reflexivity.
  - inversion Hs as [|? ? Hs' Hle]; subst.
    destruct (Z.leb_spec x (t - r)); destruct (Z.leb_spec (x + r) t); destruct (Z.ltb_spec t (x + r)); try lia.
    + rewrite IH by auto. rewrite zlen_cons. f_equal. lia.
    + assert (D : forall p, In p arr -> (t < fst p + r)%Z).
      { intros p Hp. simpl in Hle. rewrite Forall_forall in Hle.
        specialize (Hle (fst p) (in_map fst _ _ Hp)). simpl in Hle. lia. }
      assert (E1 : duep r t arr = []).
      { unfold duep. clear -D. induction arr as [|p arr IH]; simpl; auto.
        destruct (Z.leb_spec (fst p + r) t); [specialize (D p (or_introl eq_refl)); lia|].
        apply IH. intros; apply D; right; auto. }
      assert (E2 : heldp r t arr = arr).
      { unfold heldp. clear -D. induction arr as [|p arr IH]; simpl; auto.
        destruct (Z.ltb_spec t (fst p + r)); [|specialize (D p (or_introl eq_refl)); lia].
        f_equal. apply IH. intros; apply D; right; auto. }
      fold (duep r t arr). fold (heldp r t arr). rewrite E1, E2, zlen_nil. simpl. rewrite Z.add_0_r. reflexivity.
Qed.
Lemma sorted_split r t arr : tsorted arr -> arr = duep r t arr ++ heldp r t arr.
Proof.
  induction arr as [|[x m] arr IH]; intro Hs; simpl; auto.
  inversion Hs as [|? ? Hs' Hle]; subst. simpl in Hle.
  destruct (Z.leb_spec (x + r) t); destruct (Z.ltb_spec t (x + r)); try lia.
  - cbn [app]. f_equal. apply IH; auto.
  - assert (E1 : duep r t arr = []).
    { unfold duep. rewrite Forall_forall in Hle. clear -Hle H. induction arr as [|p arr IH]; simpl; auto.
      destruct (Z.leb_spec (fst p + r) t) as [L|L].
      - specialize (Hle (fst p) (or_introl eq_refl)). lia.
      - apply IH. intros y Hy. apply Hle. right; auto. }
    fold (duep r t arr) (heldp r t arr). rewrite E1. cbn [app]. f_equal.
    rewrite (IH Hs') at 1. rewrite E1. reflexivity.
Qed.
Lemma filter_filter_held r t t' arr : (t <= t')%Z -> heldp r t' (heldp r t arr) = heldp r t' arr.
Proof.
  intro L. unfold heldp. induction arr as [|p arr IH]; simpl; auto.
  destruct (Z.ltb_spec t (fst p + r)); simpl; destruct (Z.ltb_spec t' (fst p + r)); try lia; rewrite IH; auto.
Qed.
Lemma duep_mono r t t' arr : (t <= t')%Z -> tsorted arr ->
  duep r t' arr = duep r t arr ++ duep r t' (heldp r t arr).
Proof.
  intros L Hs. rewrite (sorted_split r t arr Hs) at 1. unfold duep at 1. rewrite filter_app. f_equal.
  clear Hs. unfold duep. induction arr as [|p arr IH]; simpl; auto.
  destruct (Z.leb_spec (fst p + r) t); simpl; auto.
  destruct (Z.leb_spec (fst p + r) t'); try lia. f_equal; auto.
Qed.
Lemma duep_app r t a b : duep r t (a ++ b) = duep r t a ++ duep r t b.
Proof. apply filter_app. Qed.
Lemma heldp_app r t a b : heldp r t (a ++ b) = heldp r t a ++ heldp r t b.
Proof. apply filter_app. Qed.
Lemma tsorted_app a b : tsorted a -> tsorted b ->
  (forall x y, In x (map fst a) -> In y (map fst b) -> (x <= y)%Z) -> tsorted (a ++ b).
Proof.
  intros A B H. unfold tsorted. rewrite map_app. induction a as [|p a IH]; simpl; auto.
  inversion A as [|? ? A1 A2]; subst. constructor.
  - apply IH; auto. intros; apply H; simpl; auto.
  - apply Forall_app; split; auto. apply Forall_forall. intros y Hy. apply H; simpl; auto.
Qed.
Lemma tsorted_const t ms : tsorted (map (fun m => (t, m)) ms).
Proof.
  unfold tsorted. rewrite map_map. simpl. induction ms; simpl; constructor; auto.
  apply Forall_forall. intros x Hx. apply in_map_iff in Hx as (? & <- & _). lia.
Qed.
Lemma tsorted_filter f arr : tsorted arr -> tsorted (filter f arr).
Proof.
  induction arr as [|p arr IH]; intro H; simpl; auto. inversion H as [|? ? H1 H2]; subst.
  destruct (f p); auto. unfold tsorted; simpl. constructor; [apply IH; auto|].
  rewrite Forall_forall in *. intros x Hx. apply in_map_iff in Hx as (q & <- & Hq).
  apply filter_In in Hq as [Hq _]. apply H2. apply in_map; auto.
Qed.

(** ** Selling *)
Lemma sell_all_regroup eps sales : forall stocks sold stocks' sold',
  mats_ok stocks -> sell_all eps sales stocks sold = Ok (stocks', sold') ->
  exists new, sold' = sold ++ new /\ regroup stocks (new ++ stocks').
Proof.
  induction sales as [|q sales IH]; intros stocks sold stocks' sold' O H; simpl in H.
  - injection H as <- <-. exists []. rewrite app_nil_r. split; auto. apply rg_refl.
  - apply bind_ok in H as ((m, st1) & P & H).
    pose proof (pop_tol_regroup _ _ _ _ _ O P) as R.
    assert (mats_ok st1) as O1. { apply regroup_ok in R; auto. inversion R; auto. }
    apply IH in H as (new & -> & R'); auto. exists (m :: new).
    rewrite <- app_assoc. split; auto.
    eapply regroup_trans; [exact R|]. cbn [app]. apply (regroup_app_l [m]). exact R'.
Qed.
Lemma fold_add rs : forall s, fold_left st_add_mat rs s =
  {| ss_inventory := ss_inventory s ++ rs; ss_processing := ss_processing s;
     ss_entry_times := ss_entry_times s; ss_ready := ss_ready s; ss_stocks := ss_stocks s |}.
Proof.
  induction rs as [|m rs IH]; intro s; simpl.
  - rewrite app_nil_r. destruct s; reflexivity.
  - rewrite IH. simpl. rewrite <- app_assoc. reflexivity.
Qed.

(** ** ProcessMat_ *)
Lemma discrete_loop_prefix ready : forall cap_pop maxp moved a r acc,
  cap_pop == acc + match ready with [] => 0 | m :: _ => m_qty m end ->
  Forall (fun m => 0 <= m_qty m) ready ->
  discrete_loop cap_pop maxp ready moved = (a, r) ->
  exists k, (k <= List.length ready)%nat /\ a = moved ++ firstn k ready /\ r = skipn k ready /\
    (k = 0%nat \/ acc + qty_of (firstn k ready) <= maxp) /\
    (forall k', (k < k')%nat -> (k' <= List.length ready)%nat -> maxp < acc + qty_of (firstn k' ready)).
Proof.
  induction ready as [|m ready IH]; intros cap_pop maxp moved a r acc E N H; simpl in H.
  - injection H as <- <-. exists 0%nat. simpl. rewrite app_nil_r.
    repeat split; auto. intros; lia.
  - inversion N as [|? ? Nm Nr]; subst.
    destruct (Qle_bool cap_pop maxp) eqn:L.
    + apply Qle_bool_iff in L.
      assert (E' : cap_pop + match ready with [] => 0 | m' :: _ => m_qty m' end ==
        (acc + m_qty m) + match ready with [] => 0 | m' :: _ => m_qty m' end) by lra.
      destruct (IH _ _ _ _ _ (acc + m_qty m) E' Nr H)
        as (k & K1 & K2 & K3 & K4 & K5).
      exists (S k). simpl List.length. split; [lia|]. split; [rewrite K2, <- app_assoc; reflexivity|].
      split; [exact K3|]. split.
      * right. simpl firstn. rewrite qty_of_cons. destruct K4 as [->|K4].
        -- rewrite E in L. change (firstn 0 ready) with (@nil mat). rewrite qty_of_nil. lra.
        -- lra.
      * intros [|k'] A B; [lia|]. simpl firstn. rewrite qty_of_cons.
        specialize (K5 k' ltac:(lia) ltac:(lia)). lra.
    + apply Qle_bool_false in L. injection H as <- <-. exists 0%nat. simpl firstn. simpl skipn.
      rewrite app_nil_r. split; [lia|]. split; [auto|]. split; [auto|]. split; [auto|].
      intros [|k'] A B; [lia|]. simpl firstn. rewrite qty_of_cons.
      assert (0 <= qty_of (firstn k' ready)) by (apply qty_of_nonneg, Forall_firstn; auto).
      rewrite E in L. lra.
Qed.

Lemma mats_nonneg ms : mats_ok ms -> Forall (fun m => 0 <= m_qty m) ms.
Proof. intro H. eapply Forall_impl; [|exact H]. intros m Hm; apply Hm. Qed.

(** What ProcessMat_ does, whatever the handling. *)
Lemma process_mat_facts eps cfg cap s s' moved :
  mats_ok (ss_ready s) -> process_mat eps cfg cap s = Ok (s', moved) ->
  ss_inventory s' = ss_inventory s /\ ss_processing s' = ss_processing s /\
  ss_entry_times s' = ss_entry_times s /\ ss_stocks s' = ss_stocks s ++ moved /\
  regroup (ss_ready s) (moved ++ ss_ready s') /\
  (0 <= cap -> qty_of moved <= cap) /\
  (sc_discrete cfg = false -> 0 <= cap -> qty_of moved == Qmin cap (qty_of (ss_ready s))) /\
  (sc_discrete cfg = true -> 0 <= cap -> exists k, (k <= List.length (ss_ready s))%nat /\
     moved = firstn k (ss_ready s) /\ ss_ready s' = skipn k (ss_ready s) /\
     forall k', (k < k')%nat -> (k' <= List.length (ss_ready s))%nat ->
       cap < qty_of (firstn k' (ss_ready s))) /\
  (sc_discrete cfg = true -> exists k, moved = firstn k (ss_ready s) /\ ss_ready s' = skipn k (ss_ready s)).
Proof.
  intros O H. unfold process_mat in H.
  destruct (ss_ready s) as [|m0 rd] eqn:Er.
  - injection H as <- <-. rewrite Er. rewrite app_nil_r.
    assert (Z : qty_of [] == 0) by apply qty_of_nil.
    split; [auto|]. split; [auto|]. split; [auto|]. split; [auto|]. split; [apply rg_refl|].
    split; [intros; rewrite Z; auto|]. split.
    { intros _ Hc. rewrite Q.min_r; lra. }
    split.
    { intros _ Hc. exists 0%nat. simpl. repeat split; auto. intros; lia. }
    intros _. exists 0%nat. auto.
  - rewrite <- Er in *. cbv zeta in H.
    apply bind_ok in H as ((mv, rest) & P & H). injection H as <- <-. simpl.
    split; [auto|]. split; [auto|]. split; [auto|]. split; [auto|].
    pose proof (mats_qty_nonneg _ O) as NQ.
    set (rq := qty_of (ss_ready s)) in *.
    destruct (sc_discrete cfg) eqn:Ed.
    + (* discrete *)
      assert (K : exists k, (k <= List.length (ss_ready s))%nat /\
        mv = firstn k (ss_ready s) /\ rest = skipn k (ss_ready s) /\
        (0 <= cap -> qty_of mv <= cap) /\
        (0 <= cap -> forall k', (k < k')%nat -> (k' <= List.length (ss_ready s))%nat ->
          cap < qty_of (firstn k' (ss_ready s)))).
      { destruct (Qeq_bool (Qmin cap rq) rq) eqn:E.
        - injection P as <- <-. apply Qeq_bool_iff in E.
          exists (List.length (ss_ready s)). rewrite firstn_all, skipn_all.
          split; [lia|]. split; [auto|]. split; [auto|]. split; [|intros; lia].
          intro. fold rq. pose proof (Q.le_min_l cap rq). lra.
        - apply Qeq_bool_false in E.
          assert (M : Qmin cap rq == cap).
          { destruct (Q.min_dec cap rq) as [M|M]; [exact M|]. exfalso. apply E. exact M. }
          injection P as P.
          destruct (discrete_loop_prefix (ss_ready s) (m_qty m0) (Qmin cap rq) [] mv rest 0)
            as (k & K1 & K2 & K3 & K4 & K5); auto.
          { rewrite Er. lra. } { apply mats_nonneg; auto. }
          exists k. split; [auto|]. split; [auto|]. split; [auto|]. split.
          + intro. destruct K4 as [->|K4].
            * simpl in K2. rewrite K2. rewrite qty_of_nil. auto.
            * rewrite K2. cbn [app]. lra.
          + intros Hc k' A B. specialize (K5 k' A B). lra. }
      destruct K as (k & K1 & K2 & K3 & K4 & K5). split.
      { rewrite K2, K3, firstn_skipn. apply rg_refl. }
      split; [exact K4|]. split; [discriminate|]. split.
      { intros _ Hc. exists k. repeat split; auto. }
      intros _. exists k. auto.
    + (* continuous *)
      apply bind_ok in P as ((m, rst) & P & E). injection E as <- <-.
      pose proof (pop_tol_regroup _ _ _ _ _ O P) as R. split; [exact R|].
      assert (QQ : 0 <= cap -> qty_of [m] == Qmin cap rq).
      { intro Hc. apply pop_tol_facts in P as (A1 & _); auto.
        - rewrite qty_of_cons, qty_of_nil, A1. fold rq.
          rewrite (Q.min_l (Qmin cap rq) rq); [lra|]. apply Q.le_min_r.
        - apply Q.min_glb; auto. }
      split; [|split; [auto|split; [discriminate|discriminate]]].
      intro Hc. rewrite QQ by auto. apply Q.le_min_l.
Qed.

(** ** Tock *)
Definition st_mid (r t : Z) (pend : list (Z * mat)) (s : st_state) : st_state :=
  let arr := pend ++ map (fun m => (t, m)) (ss_inventory s) in
  {| ss_inventory := []; ss_processing := map snd (heldp r t arr);
     ss_entry_times := map fst (heldp r t arr);
     ss_ready := ss_ready s ++ map snd (duep r t arr); ss_stocks := ss_stocks s |}.

(** [pend]: the parcels in processing with their entry times. *)
Definition pending (t : Z) (pend : list (Z * mat)) (s : st_state) : Prop :=
  ss_processing s = map snd pend /\ ss_entry_times s = map fst pend /\ tsorted pend /\
  Forall (fun p => 0 <= fst p <= t)%Z pend.

Lemma duep_none r t arr : (t < r)%Z -> Forall (fun p => (0 <= fst p)%Z) arr ->
  duep r t arr = [] /\ heldp r t arr = arr.
Proof.
  intros L H. unfold duep, heldp. induction H as [|p arr Hp _ [I1 I2]]; simpl; auto.
  destruct (Z.leb_spec (fst p + r) t); [lia|]. destruct (Z.ltb_spec t (fst p + r)); [|lia].
  rewrite I1, I2. auto.
Qed.

Lemma map_fst_pair {A} (t : Z) (l : list A) : map fst (map (fun m => (t, m)) l) = map (fun _ => t) l.
Proof. rewrite map_map. reflexivity. Qed.
Lemma map_snd_pair {A} (t : Z) (l : list A) : map snd (map (fun m => (t, m)) l) = l.
Proof. rewrite map_map. simpl. apply map_id. Qed.

Lemma tock_begin t pend s : (0 <= t)%Z -> pending t pend s ->
  let arr := pend ++ map (fun m => (t, m)) (ss_inventory s) in
  begin_processing t s = {| ss_inventory := []; ss_processing := map snd arr;
    ss_entry_times := map fst arr; ss_ready := ss_ready s; ss_stocks := ss_stocks s |} /\
  tsorted arr /\ Forall (fun p => 0 <= fst p <= t)%Z arr.
Proof.
  intros Ht (P1 & P2 & P3 & P4) arr. split; [|split].
  - unfold begin_processing. rewrite begin_loop_eq, P1, P2. unfold arr.
    rewrite !map_app, map_fst_pair, map_snd_pair. reflexivity.
  - apply tsorted_app; auto. apply tsorted_const. intros x y Hx Hy.
    apply in_map_iff in Hx as (p & <- & Hp). rewrite map_fst_pair in Hy.
    apply in_map_iff in Hy as (? & <- & _). rewrite Forall_forall in P4. apply P4 in Hp. lia.
  - apply Forall_app; split; auto. apply Forall_forall. intros p Hp.
    apply in_map_iff in Hp as (? & <- & _). simpl. lia.
Qed.

Lemma tock_ready cfg t pend s : (0 <= t)%Z -> pending t pend s ->
  (if (Z.leb 0 (ready_time cfg t) ||
       (Z.eqb (sc_residence cfg) 0 && negb (Z.eqb (zlen (ss_inventory (begin_processing t s))) 0)))%bool
   then ready_matl (ready_time cfg t) (begin_processing t s) else Ok (begin_processing t s))
  = Ok (st_mid (sc_residence cfg) t pend s).
Proof.
  intros Ht P. destruct (tock_begin t pend s Ht P) as (E & Hs & Hb). rewrite E. simpl ss_inventory.
  set (arr := pend ++ _) in *. unfold st_mid. fold arr.
  change (zlen (@nil mat)) with 0%Z. simpl negb. rewrite andb_false_r, orb_false_r.
  destruct (Z.leb_spec 0 (ready_time cfg t)) as [L|L].
  - unfold ready_matl. simpl ss_entry_times. unfold ready_time.
    rewrite (ready_loop_eq _ (sc_residence cfg) t arr 0 eq_refl Hs). simpl ss_processing.
    rewrite Z.add_0_l.
    assert (El : map snd arr = map snd (duep (sc_residence cfg) t arr) ++ map snd (heldp (sc_residence cfg) t arr)).
    { rewrite <- map_app, <- sorted_split; auto. }
    rewrite El. rewrite zlen_app, !zlen_map.
    pose proof (zlen_nonneg (heldp (sc_residence cfg) t arr)).
    destruct (Z.ltb_spec (zlen (duep (sc_residence cfg) t arr) + zlen (heldp (sc_residence cfg) t arr))
                         (zlen (duep (sc_residence cfg) t arr))); [lia|].
    assert (N : Z.to_nat (zlen (duep (sc_residence cfg) t arr)) =
                List.length (map snd (duep (sc_residence cfg) t arr))).
    { unfold zlen. rewrite Nat2Z.id, map_length. reflexivity. }
    rewrite N, skipn_app, firstn_app, skipn_all, firstn_all, Nat.sub_diag. simpl. rewrite app_nil_r.
    reflexivity.
  - unfold ready_time in L. destruct (duep_none (sc_residence cfg) t arr ltac:(lia)) as (E1 & E2).
    { eapply Forall_impl; [|exact Hb]. simpl; intros; lia. }
    rewrite E1, E2. simpl. rewrite app_nil_r. reflexivity.
Qed.

Lemma tock_eq eps cfg t pend s : (0 <= t)%Z -> pending t pend s ->
  st_tock eps cfg t s =
  bind (process_mat eps cfg (sc_throughput cfg) (st_mid (sc_residence cfg) t pend s)) (fun '(s3, moved) =>
  bind (vec_at (sc_in_commods cfg) (max_index (sc_in_prefs cfg))) (fun dname =>
  bind (vec_at (sc_out_commods cfg) 0) (fun sname =>
  Ok (s3, {| to_released := moved;
             to_demand := (("demand" ++ dname)%string, st_capacity cfg s3);
             to_supply := (("supply" ++ sname)%string, qty_of (ss_stocks s3)) |})))).
Proof.
  intros Ht P. unfold st_tock. cbv zeta. rewrite (tock_ready cfg t pend s Ht P). reflexivity.
Qed.

Lemma mid_pending r t pend s : (0 <= t)%Z -> pending t pend s ->
  pending t (heldp r t (pend ++ map (fun m => (t, m)) (ss_inventory s))) (st_mid r t pend s).
Proof.
  intros Ht P. destruct (tock_begin t pend s Ht P) as (_ & Hs & Hb).
  split; [reflexivity|]. split; [reflexivity|]. split; [apply tsorted_filter; auto|].
  apply Forall_forall. intros p Hp. apply filter_In in Hp as [Hp _].
  rewrite Forall_forall in Hb. apply Hb, Hp.
Qed.

(** The complete description of one step, given what is pending. *)
Definition released (o : st_out) : list mat := to_released (so_tock o).

Lemma step_facts eps cfg pend s e s' o :
  let t := se_time e in let r := sc_residence cfg in
  let arr := pend ++ map (fun m => (t, m)) (se_receipts e) in
  let q := ss_ready s ++ map snd (duep r t arr) in
  (0 <= t)%Z -> pending t pend s -> ss_inventory s = [] ->
  mats_ok (ss_stocks s) -> mats_ok (ss_ready s) -> mats_ok (map snd arr) ->
  st_step eps cfg s e = Ok (s', o) ->
  ss_inventory s' = [] /\ pending t (heldp r t arr) s' /\
  exists stocks1, regroup (ss_stocks s) (so_sold o ++ stocks1) /\
    ss_stocks s' = stocks1 ++ released o /\
    regroup q (released o ++ ss_ready s') /\
    (0 <= sc_throughput cfg -> qty_of (released o) <= sc_throughput cfg) /\
    (sc_discrete cfg = false -> 0 <= sc_throughput cfg ->
       qty_of (released o) == Qmin (sc_throughput cfg) (qty_of q)) /\
    (sc_discrete cfg = true -> 0 <= sc_throughput cfg -> exists k, (k <= List.length q)%nat /\
       released o = firstn k q /\ ss_ready s' = skipn k q /\
       forall k', (k < k')%nat -> (k' <= List.length q)%nat -> sc_throughput cfg < qty_of (firstn k' q)) /\
    (sc_discrete cfg = true -> exists k, released o = firstn k q /\ ss_ready s' = skipn k q) /\
    snd (to_demand (so_tock o)) = st_capacity cfg s' /\
    snd (to_supply (so_tock o)) = qty_of (ss_stocks s').
Proof.
  intros t r arr q Ht P Hi O1 O2 O3 H. unfold st_step in H.
  apply bind_ok in H as ((s1, sold) & T & H). apply bind_ok in H as ((s2, o') & K & H).
  injection H as <- <-. unfold st_trade in T. apply bind_ok in T as ((st1, sold1) & SA & T).
  injection T as <- <-. rewrite fold_add in K. simpl in K.
  apply sell_all_regroup in SA as (new & -> & R); auto. cbn [app] in *.
  set (s1 := Build_st_state _ _ _ _ _) in K.
  assert (P1 : pending t pend s1) by exact P.
  fold t in K. rewrite (tock_eq eps cfg t pend s1 Ht P1) in K.
  apply bind_ok in K as ((s3, moved) & PM & K).
  apply bind_ok in K as (dn & D & K). apply bind_ok in K as (sn & Sn & K). injection K as <- <-.
  assert (Earr : pend ++ map (fun m => (t, m)) (ss_inventory s1) = arr).
  { unfold s1; simpl. rewrite Hi. reflexivity. }
  apply process_mat_facts in PM as (A1 & A2 & A3 & A4 & A5 & A6 & A7 & A8 & A9).
  2:{ unfold st_mid; cbn [ss_ready]. rewrite Earr. apply Forall_app; split; [exact O2|].
      unfold duep. clear -O3. induction arr as [|p arr IH]; simpl; [constructor|].
      simpl in O3. inversion O3; subst. destruct (Z.leb _ _); simpl; [constructor|]; auto. }
  pose proof (mid_pending r t pend s1 Ht P1) as MP. rewrite Earr in MP.
  unfold st_mid in *. rewrite Earr in *. cbn [ss_inventory ss_processing ss_entry_times ss_ready ss_stocks] in *.
  unfold released; simpl.
  split; [exact A1|]. split.
  { destruct MP as (M1 & M2 & M3 & M4). split; [rewrite A2; auto|]. split; [rewrite A3; auto|]. split; auto. }
  exists st1. split; [exact R|]. split; [exact A4|].
  split; [exact A5|]. split; [exact A6|]. split; [exact A7|]. split; [exact A8|]. split; [exact A9|].
  split; reflexivity.
Qed.

(** ** Histories *)
Definition st_inv (cfg : st_cfg) (t : Z) (arr : list (Z * mat)) (sold rel : list mat) (s : st_state) : Prop :=
  ss_inventory s = [] /\ tsorted arr /\ Forall (fun p => 0 <= fst p <= t)%Z arr /\ mats_ok (map snd arr) /\
  pending t (heldp (sc_residence cfg) t arr) s /\
  regroup (map snd (duep (sc_residence cfg) t arr)) (rel ++ ss_ready s) /\
  regroup rel (sold ++ ss_stocks s) /\
  (sc_discrete cfg = true -> map snd (duep (sc_residence cfg) t arr) = rel ++ ss_ready s).

Lemma mats_ok_filter f arr : mats_ok (map snd arr) -> mats_ok (map (@snd Z mat) (filter f arr)).
Proof.
  induction arr as [|p arr IH]; simpl; intro H; [constructor|]. inversion H; subst.
  destruct (f p); simpl; [constructor; [assumption|apply IH; assumption]|apply IH; assumption].
Qed.

Lemma pending_weaken t t' pend s : (t <= t')%Z -> pending t pend s -> pending t' pend s.
Proof.
  intros L (A & B & C & D). split; [auto|]. split; [auto|]. split; [auto|].
  eapply Forall_impl; [|exact D]. simpl; intros; lia.
Qed.

Lemma step_inv eps cfg t arr sold rel s e s' o :
  st_inv cfg t arr sold rel s -> (t < se_time e)%Z -> (0 <= se_time e)%Z -> mats_ok (se_receipts e) ->
  st_step eps cfg s e = Ok (s', o) ->
  st_inv cfg (se_time e) (arr ++ map (fun m => (se_time e, m)) (se_receipts e))
         (sold ++ so_sold o) (rel ++ released o) s'.
Proof.
  intros (I1 & I2 & I3 & I4 & I5 & I6 & I7 & I8) Ht H0 Or H.
  set (t' := se_time e) in *. set (r := sc_residence cfg) in *.
  assert (O6 : mats_ok (rel ++ ss_ready s)). { eapply regroup_ok; [exact I6|]. apply mats_ok_filter, I4. }
  apply Forall_app in O6 as (Orel & Ordy).
  assert (O7 : mats_ok (sold ++ ss_stocks s)) by (eapply regroup_ok; [exact I7|]; auto).
  apply Forall_app in O7 as (Osold & Ostk).
  assert (Oh : mats_ok (map snd (heldp r t arr))) by (apply mats_ok_filter; auto).
  pose proof (step_facts eps cfg (heldp r t arr) s e s' o) as F. cbv zeta in F. fold t' r in F.
  assert (Hw : (t <= t')%Z) by lia.
  specialize (F H0 (pending_weaken t t' _ _ Hw I5) I1 Ostk Ordy).
  rewrite map_app, map_snd_pair in F. specialize (F (proj2 (Forall_app _ _ _) (conj Oh Or)) H).
  destruct F as (F1 & F2 & st1 & F3 & F4 & F5 & _ & _ & _ & F9 & _).
  set (new := map (fun m => (t', m)) (se_receipts e)) in *.
  assert (Es : tsorted (arr ++ new)).
  { apply tsorted_app; auto. apply tsorted_const. intros x y Hx Hy.
    apply in_map_iff in Hx as (p & <- & Hp). unfold new in Hy. rewrite map_fst_pair in Hy.
    apply in_map_iff in Hy as (? & <- & _). rewrite Forall_forall in I3. apply I3 in Hp. lia. }
  assert (Eh : heldp r t' (heldp r t arr ++ new) = heldp r t' (arr ++ new)).
  { rewrite !heldp_app, filter_filter_held by lia. reflexivity. }
  assert (Ed : duep r t' (arr ++ new) = duep r t arr ++ duep r t' (heldp r t arr ++ new)).
  { rewrite !duep_app, (duep_mono r t t' arr) by (auto; lia). rewrite app_assoc. reflexivity. }
  split; [auto|]. split; [auto|]. split.
  { apply Forall_app; split.
    - eapply Forall_impl; [|exact I3]. simpl; intros; lia.
    - apply Forall_forall. intros p Hp. apply in_map_iff in Hp as (? & <- & _). simpl. lia. }
  split. { rewrite map_app. unfold new. rewrite map_snd_pair. apply Forall_app; auto. }
  fold r. split. { rewrite <- Eh. exact F2. }
  split; [|split].
  - rewrite Ed, map_app, <- app_assoc.
    eapply regroup_trans; [apply regroup_app_r; exact I6|]. rewrite <- app_assoc.
    apply regroup_app_l. exact F5.
  - rewrite F4. eapply regroup_trans; [apply regroup_app_r; exact I7|].
    rewrite <- !app_assoc. apply regroup_app_l.
    rewrite app_assoc. apply regroup_app_r. exact F3.
  - intro D. rewrite Ed, map_app, (I8 D). destruct (F9 D) as (k & K1 & K2).
    rewrite <- !app_assoc. f_equal. rewrite K1, K2, firstn_skipn. reflexivity.
Qed.

Lemma last_any (l : list Z) : forall d d' z, last (z :: l) d = last (z :: l) d'.
Proof.
  induction l as [|y l IHl]; intros d d' z; [reflexivity|].
  change (last (y :: l) d = last (y :: l) d'). apply IHl.
Qed.

Lemma run_inv eps cfg es : forall t arr sold rel s s' os,
  st_inv cfg t arr sold rel s ->
  StronglySorted Z.lt (map se_time es) -> Forall (fun e => t < se_time e)%Z es ->
  Forall (fun e => (0 <= se_time e)%Z) es -> mats_ok (map snd (arrivals es)) ->
  st_run eps cfg s es = Ok (s', os) ->
  st_inv cfg (last (map se_time es) t) (arr ++ arrivals es) (sold ++ all_sold os) (rel ++ all_released os) s'.
Proof.
  induction es as [|e es IH]; intros t arr sold rel s s' os I Hs Ht H0 Or H; simpl in H.
  - injection H as <- <-. simpl. rewrite !app_nil_r. exact I.
  - apply bind_ok in H as ((s1, o) & S1 & H). apply bind_ok in H as ((s2, os') & R & H).
    injection H as <- <-. inversion Hs as [|? ? Hs1 Hs2]; subst. inversion Ht as [|? ? Ht1 Ht2]; subst.
    inversion H0 as [|? ? H01 H02]; subst. cbn [arrivals flat_map] in Or.
    rewrite map_app, map_snd_pair in Or. apply Forall_app in Or as (Or1 & Or2).
    pose proof (step_inv _ _ _ _ _ _ _ _ _ _ I Ht1 H01 Or1 S1) as I1.
    apply (IH _ _ _ _ _ s2 os') in I1; auto.
    + cbn [arrivals flat_map all_sold all_released]. rewrite !app_assoc.
      replace (last (map se_time (e :: es)) t) with (last (map se_time es) (se_time e)); [exact I1|].
      simpl. destruct (map se_time es) eqn:E; auto. clear.
      apply last_any.
    + rewrite Forall_forall in *. intros x Hx. apply Hs2, in_map, Hx.
Qed.

Lemma inv_start cfg : st_inv cfg (-1) [] [] [] st_empty.
Proof.
  split; [reflexivity|]. split; [constructor|]. split; [constructor|]. split; [constructor|].
  split; [split; [reflexivity|split; [reflexivity|split; constructor]]|].
  split; [apply rg_refl|]. split; [apply rg_refl|]. intros _. reflexivity.
Qed.

Lemma history_inv eps cfg es s os : st_history es -> st_run eps cfg st_empty es = Ok (s, os) ->
  st_inv cfg (last (map se_time es) (-1)%Z) (arrivals es) (all_sold os) (all_released os) s.
Proof.
  intros (H1 & H2 & H3) R.
  apply (run_inv eps cfg es (-1)%Z [] [] [] st_empty s os (inv_start cfg)); auto.
  eapply Forall_impl; [|exact H2]. simpl; intros; lia.
Qed.
