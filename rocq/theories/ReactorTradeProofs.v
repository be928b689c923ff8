(** Reactor: requests, bids, trades, deliveries, Tock; whole time steps and histories. *)
From Coq Require Import Lia Lqa Permutation.
From Verif Require Import Outcome KernelMaterial KernelResBuf KernelFacts ReactorModel ReactorSpec ReactorProofs.
Local Open Scope Z_scope.

(** ** std::map<string, MatVec> *)
Definition keys (m : smap) : list string := map fst m.
Definition entries (m : smap) : list mat := List.concat (map snd m).

Lemma existsb_key k (m : smap) : existsb (fun e => String.eqb (fst e) k) m = true <-> In k (keys m).
Proof.
  unfold keys. rewrite existsb_exists, in_map_iff. split.
  - intros (e & H & E). apply String.eqb_eq in E. eauto.
  - intros (e & E & H). exists e. split; auto. apply String.eqb_eq; auto.
Qed.

Lemma keys_append k x m : keys (smap_append k x m) = keys m.
Proof. unfold keys. induction m as [|[k' v] m IH]; simpl; auto. destruct (String.eqb k' k); simpl; congruence. Qed.
Lemma keys_insert k x m : Permutation (k :: keys m) (keys (smap_insert k x m)).
Proof.
  unfold keys. induction m as [|[k' v] m IH]; simpl; auto. destruct (String.ltb k k'); simpl; auto.
  rewrite perm_swap. constructor. auto.
Qed.
Lemma keys_push_nodup k x m : NoDup (keys m) -> NoDup (keys (smap_push k x m)).
Proof.
  unfold smap_push. intro H. destruct (existsb _ m) eqn:E.
  - rewrite keys_append; auto.
  - eapply Permutation_NoDup; [apply keys_insert|]. constructor; auto.
    intro I. apply existsb_key in I. congruence.
Qed.
Lemma get_notin k m : ~ In k (keys m) -> smap_get k m = [].
Proof.
  induction m as [|[k' v] m IH]; simpl; auto. intro H.
  destruct (String.eqb k' k) eqn:E; [apply String.eqb_eq in E; tauto|]. apply IH. tauto.
Qed.
Lemma get_append k k' x m : In k' (keys m) ->
  smap_get k (smap_append k' x m) = if String.eqb k' k then smap_get k m ++ [x] else smap_get k m.
Proof.
  induction m as [|[c v] m IH]; simpl; [tauto|]. intro H.
  destruct (String.eqb c k') eqn:E1; simpl.
  - apply String.eqb_eq in E1. subst c. destruct (String.eqb k' k); auto.
  - apply String.eqb_neq in E1. rewrite IH by tauto.
    destruct (String.eqb c k) eqn:E2; auto. apply String.eqb_eq in E2. subst c.
    destruct (String.eqb k' k) eqn:E3; auto. apply String.eqb_eq in E3. congruence.
Qed.
Lemma get_insert k k' x m : ~ In k' (keys m) ->
  smap_get k (smap_insert k' x m) = if String.eqb k' k then [x] else smap_get k m.
Proof.
  induction m as [|[c v] m IH]; simpl; auto. intro H.
  destruct (String.ltb k' c); simpl; auto. rewrite IH by tauto.
  destruct (String.eqb c k) eqn:E2; auto. apply String.eqb_eq in E2. subst c.
  destruct (String.eqb k' k) eqn:E3; auto. apply String.eqb_eq in E3. subst. tauto.
Qed.
Lemma get_push k k' x m :
  smap_get k (smap_push k' x m) = if String.eqb k' k then smap_get k m ++ [x] else smap_get k m.
Proof.
  unfold smap_push. destruct (existsb _ m) eqn:E.
  - apply get_append. apply existsb_key; auto.
  - assert (~ In k' (keys m)) by (intro I; apply existsb_key in I; congruence).
    rewrite get_insert by auto. destruct (String.eqb k' k) eqn:E2; auto.
    apply String.eqb_eq in E2. subst. rewrite get_notin; auto.
Qed.
Lemma entries_append k x m : In k (keys m) -> Permutation (x :: entries m) (entries (smap_append k x m)).
Proof.
  unfold entries. induction m as [|[c v] m IH]; simpl; [tauto|]. intro H.
  destruct (String.eqb c k) eqn:E; simpl.
  - rewrite <- app_assoc. simpl. apply Permutation_middle.
  - apply String.eqb_neq in E. rewrite <- IH by tauto. apply Permutation_middle.
Qed.
Lemma entries_insert k x m : Permutation (x :: entries m) (entries (smap_insert k x m)).
Proof.
  unfold entries. induction m as [|[c v] m IH]; simpl; auto.
  destruct (String.ltb k c); simpl; auto. rewrite <- IH. apply Permutation_middle.
Qed.
Lemma entries_push k x m : Permutation (x :: entries m) (entries (smap_push k x m)).
Proof.
  unfold smap_push. destruct (existsb _ m) eqn:E; [apply entries_append; apply existsb_key; auto|apply entries_insert].
Qed.

Definition classified (cl : mat -> string) (m : smap) : Prop :=
  Forall (fun e => Forall (fun x => cl x = fst e) (snd e)) m.
Lemma classified_push cl x m : classified cl m -> classified cl (smap_push (cl x) x m).
Proof.
  unfold classified, smap_push. intro H. destruct (existsb _ m).
  - induction m as [|[c v] m IH]; simpl; auto. inversion H; subst.
    destruct (String.eqb c (cl x)) eqn:E; constructor; auto.
    simpl in *. apply Forall_app. split; auto. constructor; auto. apply String.eqb_eq in E; auto.
  - induction m as [|[c v] m IH]; simpl.
    + constructor; auto. simpl. auto.
    + inversion H; subst. destruct (String.ltb (cl x) c); constructor; auto. simpl. auto.
Qed.

(** Elements of [ms] that leave on commodity [c]. *)
Definition on (cl : mat -> string) (c : string) (ms : list mat) : list mat :=
  filter (fun m => String.eqb (cl m) c) ms.

Lemma group_facts cl ms : forall mp, NoDup (keys mp) -> classified cl mp ->
  let g := group_by cl ms mp in
  NoDup (keys g) /\ classified cl g /\ Permutation (entries mp ++ ms) (entries g) /\
  (forall c, smap_get c g = smap_get c mp ++ on cl c ms).
Proof.
  induction ms as [|m ms IH]; intros mp ND CL; cbn zeta.
  - simpl. repeat split; auto; intros; rewrite app_nil_r; auto.
  - change (group_by cl (m :: ms) mp) with (group_by cl ms (smap_push (cl m) m mp)).
    destruct (IH (smap_push (cl m) m mp)) as (A & B & C & D).
    + apply keys_push_nodup; auto.
    + apply classified_push; auto.
    + repeat split; auto.
      * rewrite <- C. rewrite <- entries_push. simpl. symmetry. apply Permutation_middle.
      * intro c. rewrite D, get_push. unfold on. simpl. destruct (String.eqb (cl m) c); auto.
        rewrite <- app_assoc. reflexivity.
Qed.

Lemma on_nil cl c v : Forall (fun x => cl x <> c) v -> on cl c v = [].
Proof.
  unfold on. induction 1; simpl; auto. destruct (String.eqb (cl x) c) eqn:E; auto.
  apply String.eqb_eq in E. congruence.
Qed.
Lemma on_all cl c v : Forall (fun x => cl x = c) v -> on cl c v = v.
Proof.
  unfold on. induction 1; simpl; auto. rewrite H, String.eqb_refl. congruence.
Qed.
Lemma on_app cl c a b : on cl c (a ++ b) = on cl c a ++ on cl c b.
Proof. unfold on. apply filter_app. Qed.

Lemma on_entries cl c m : NoDup (keys m) -> classified cl m -> on cl c (entries m) = smap_get c m.
Proof.
  unfold entries, classified. induction m as [|[k v] m IH]; intros ND CL; simpl; auto.
  inversion ND; subst. inversion CL; subst. simpl in *. rewrite on_app, IH by auto.
  destruct (String.eqb k c) eqn:E.
  - apply String.eqb_eq in E. subst. rewrite on_all by auto. rewrite get_notin by auto. apply app_nil_r.
  - apply String.eqb_neq in E. rewrite on_nil; auto. eapply Forall_impl; [|exact H3]. simpl. congruence.
Qed.

Lemma keys_set k v m : keys (smap_set k v m) = keys m.
Proof. unfold keys. induction m as [|[c w] m IH]; simpl; auto. destruct (String.eqb c k); simpl; congruence. Qed.
Lemma keys_map f m : keys (smap_map f m) = keys m.
Proof. unfold keys, smap_map. rewrite map_map. reflexivity. Qed.
Lemma get_map f m k : f [] = [] -> smap_get k (smap_map f m) = f (smap_get k m).
Proof.
  intro Hf. unfold smap_map. induction m as [|[c w] m IH]; simpl; auto. destruct (String.eqb c k); auto.
Qed.
Lemma set_map f m k v : smap_set k (f v) (smap_map f m) = smap_map f (smap_set k v m).
Proof.
  unfold smap_map. induction m as [|[c w] m IH]; simpl; auto. destruct (String.eqb c k); simpl; congruence.
Qed.
Lemma get_set k k' v m : In k' (keys m) -> smap_get k (smap_set k' v m) = if String.eqb k' k then v else smap_get k m.
Proof.
  induction m as [|[c w] m IH]; simpl; [tauto|]. intro H.
  destruct (String.eqb c k') eqn:E1; simpl.
  - apply String.eqb_eq in E1. subst c. destruct (String.eqb k' k); auto.
  - apply String.eqb_neq in E1. rewrite IH by tauto.
    destruct (String.eqb c k) eqn:E2; auto. apply String.eqb_eq in E2. subst c.
    destruct (String.eqb k' k) eqn:E3; auto. apply String.eqb_eq in E3. congruence.
Qed.
Lemma get_nonempty_key k m x r : smap_get k m = x :: r -> In k (keys m).
Proof.
  induction m as [|[c w] m IH]; simpl; [discriminate|]. destruct (String.eqb c k) eqn:E; auto.
  apply String.eqb_eq in E; auto.
Qed.
Lemma entries_set k m x r : NoDup (keys m) -> smap_get k m = x :: r ->
  Permutation (entries m) (x :: entries (smap_set k r m)).
Proof.
  unfold entries. induction m as [|[c w] m IH]; simpl; [discriminate|]. intros ND H. inversion ND; subst.
  destruct (String.eqb c k) eqn:E; simpl.
  - subst w. reflexivity.
  - rewrite IH by auto. rewrite <- Permutation_middle. reflexivity.
Qed.
Lemma classified_set cl k x r m : classified cl m -> smap_get k m = x :: r -> classified cl (smap_set k r m).
Proof.
  unfold classified. induction m as [|[c w] m IH]; simpl; [discriminate|]. intros CL H. inversion CL; subst.
  destruct (String.eqb c k) eqn:E; constructor; auto.
  subst. simpl in *. inversion H2; auto.
Qed.

(** ** std::map<int,int> *)
Lemma idx_get_erase k k' m : k' <> k -> idx_get k (idx_erase k' m) = idx_get k m.
Proof.
  intro H. unfold idx_erase. induction m as [|[a i] m IH]; simpl; auto.
  destruct (a =? k') eqn:E; simpl.
  - apply Z.eqb_eq in E. subst. rewrite IH. replace (k' =? k) with false; auto. symmetry. apply Z.eqb_neq; auto.
  - rewrite IH. auto.
Qed.
Lemma idx_get_set_same k i m : idx_get k (idx_set k i m) = i.
Proof. unfold idx_set. simpl. rewrite Z.eqb_refl. auto. Qed.
Lemma idx_get_set_other k k' i m : k' <> k -> idx_get k (idx_set k' i m) = idx_get k m.
Proof. intro H. unfold idx_set. simpl. replace (k' =? k) with false by (symmetry; apply Z.eqb_neq; auto). apply idx_get_erase; auto. Qed.

(** Responses on commodity [c], in order. *)
Definition resp_on (c : string) (resp : list (string * mat)) : list mat :=
  map snd (filter (fun r => String.eqb (fst r) c) resp).

Lemma resp_on_app c a b : resp_on c (a ++ b) = resp_on c a ++ resp_on c b.
Proof. unfold resp_on. rewrite filter_app, map_app. auto. Qed.
Lemma resp_on_len c resp : zlen (resp_on c resp) = count_commod c (map fst resp).
Proof.
  unfold resp_on, count_commod. rewrite zlen_map. induction resp as [|r resp IH]; simpl; auto.
  rewrite (String.eqb_sym c (fst r)). destruct (String.eqb (fst r) c); auto.
  rewrite !zlen_cons, IH. auto.
Qed.
Lemma count_commod_app c a b : count_commod c (a ++ b) = count_commod c a + count_commod c b.
Proof. unfold count_commod. rewrite filter_app, zlen_app. auto. Qed.
Lemma count_commod_nonneg c l : 0 <= count_commod c l.
Proof. apply zlen_nonneg. Qed.

Lemma count_commod_cons c l : count_commod c (c :: l) = 1 + count_commod c l.
Proof. unfold count_commod. simpl. rewrite String.eqb_refl, zlen_cons. auto. Qed.

(** Serving trades from the grouped spent fuel. *)
Lemma serve_loop (fm0 : smap) s0 : NoDup (keys fm0) ->
  forall todo done fm resp ix,
  (forall c, In c todo -> count_commod c (done ++ todo) <= zlen (smap_get c fm0)) ->
  keys fm = keys fm0 ->
  map fst resp = done ->
  (forall c, smap_get c fm0 = resp_on c resp ++ smap_get c fm) ->
  Permutation (entries fm0) (map snd resp ++ entries fm) ->
  (forall cl, classified cl fm0 -> classified cl fm) ->
  (forall k, ~ In k (map (fun r => m_id (snd r)) resp) -> idx_get k ix = idx_get k (idx s0)) ->
  exists fm' resp' ix',
    loop serve_trade todo (smap_map (@rev mat) fm, upd_idx s0 ix, resp) =
      Ok (smap_map (@rev mat) fm', upd_idx s0 ix', resp') /\
    keys fm' = keys fm0 /\ map fst resp' = done ++ todo /\
    (forall c, smap_get c fm0 = resp_on c resp' ++ smap_get c fm') /\
    Permutation (entries fm0) (map snd resp' ++ entries fm') /\
    (forall cl, classified cl fm0 -> classified cl fm') /\
    (forall k, ~ In k (map (fun r => m_id (snd r)) resp') -> idx_get k ix' = idx_get k (idx s0)).
Proof.
  intro ND. induction todo as [|c todo IH]; intros done fm resp ix HC HK HF HG HP HL HI.
  - exists fm, resp, ix. rewrite app_nil_r. simpl. repeat split; auto.
  - cbn [loop]. unfold serve_trade at 1. rewrite get_map by reflexivity. rewrite rev_involutive.
    destruct (smap_get c fm) as [|m r] eqn:E.
    + exfalso. specialize (HC c (or_introl eq_refl)). rewrite HG, E, app_nil_r, resp_on_len, HF in HC.
      rewrite count_commod_app, count_commod_cons in HC. pose proof (count_commod_nonneg c todo). lia.
    + cbn [bind]. rewrite set_map.
      destruct (IH (done ++ [c]) (smap_set c r fm) (resp ++ [(c, m)]) (idx_erase (m_id m) ix))
        as (fm' & resp' & ix' & E1 & E2 & E3 & E4 & E5 & E6 & E7).
      * intros c' Hc'. rewrite <- app_assoc. apply HC. simpl; auto.
      * rewrite keys_set; auto.
      * rewrite map_app, HF. reflexivity.
      * intro c'. rewrite HG, resp_on_app, get_set by (eapply get_nonempty_key; eauto).
        rewrite <- app_assoc. f_equal. unfold resp_on. simpl. destruct (String.eqb c c') eqn:E'; auto.
        apply String.eqb_eq in E'. subst. rewrite E. reflexivity.
      * rewrite HP, map_app, <- app_assoc. apply Permutation_app_head. simpl.
        apply entries_set; auto. rewrite HK; auto.
      * intros cl CL. eapply classified_set; eauto.
      * intros k Hk. rewrite map_app, in_app_iff in Hk. simpl in Hk. rewrite idx_get_erase by tauto. apply HI. tauto.
      * rewrite <- app_assoc in E3. simpl in E3.
        exists fm', resp', ix'. repeat split; auto.
Qed.

Section Proofs.
Variable eps : Q.
Variable recipe : string -> option comp.
Variable cfg : rx_cfg.
Hypothesis eps_nonneg : (0 <= eps)%Q.
Hypothesis Hcfg : config_consistent cfg.
Hypothesis Hknown : recipes_known recipe cfg.
Notation inv := (reactor_ok recipe cfg).
Notation Ha := (Ha cfg Hcfg).

Lemma push_spent_ok fm : forall s,
  ubuf (n_spent cfg) (assem cfg) (spent s) ->
  Forall (fun m => (m_qty m == assem cfg)%Q) (entries fm) ->
  rb_count (spent s) + zlen (entries fm) <= n_spent cfg ->
  push_spent eps (smap_map (@rev mat) fm) s =
    Ok (upd_spent s {| rb_cap := rb_cap (spent s); rb_items := rb_items (spent s) ++ entries fm |}).
Proof.
  unfold push_spent, entries. induction fm as [|[c v] fm IH]; intros s U F L; simpl.
  - rewrite app_nil_r, upd_spent_same. auto.
  - rewrite rev_involutive. simpl in F, L. apply Forall_app in F as [F1 F2]. rewrite zlen_app in L.
    pose proof (zlen_nonneg (List.concat (map snd fm))).
    destruct (ubuf_pushv eps _ _ _ v eps_nonneg Ha U F1) as [P U']; [lia|].
    rewrite P. cbn [bind]. rewrite IH; auto.
    + simpl. rewrite <- app_assoc. reflexivity.
    + simpl. unfold rb_count in *. simpl. rewrite zlen_app. lia.
Qed.

Lemma get_trades_spec s picks : inv s ->
  (forall c, In c picks -> count_commod c picks <= zlen (on (ocommod cfg s) c (rb_items (spent s)))) ->
  exists resp items' ix,
    get_trades eps cfg picks s =
      Ok (upd_idx (upd_spent s {| rb_cap := rb_cap (spent s); rb_items := items' |}) ix, resp) /\
    map fst resp = picks /\
    Permutation (rb_items (spent s)) (map snd resp ++ items') /\
    (forall c, on (ocommod cfg s) c (rb_items (spent s)) = resp_on c resp ++ on (ocommod cfg s) c items') /\
    (forall k, ~ In k (map (fun r => m_id (snd r)) resp) -> idx_get k ix = idx_get k (idx s)).
Proof.
  intros I HC. unfold get_trades, pop_spent. rewrite popn_all. cbn [bind].
  set (s1 := upd_spent s {| rb_cap := rb_cap (spent s); rb_items := [] |}).
  pose proof (inv_spent_idx _ _ _ I) as HI.
  rewrite (group_loop cfg Hcfg s1) by exact HI. cbn [bind].
  change (ocommod cfg s1) with (ocommod cfg s).
  destruct (group_facts (ocommod cfg s) (rb_items (spent s)) []) as (A & B & C & D); [constructor|constructor|].
  simpl in C, D. set (fm0 := group_by (ocommod cfg s) (rb_items (spent s)) []) in *.
  destruct (serve_loop fm0 s1 A picks [] fm0 [] (idx s1)) as (fm' & resp & ix & E1 & E2 & E3 & E4 & E5 & E6 & E7); auto.
  { intros c Hc. rewrite D. auto. }
  change (upd_idx s1 (idx s1)) with s1 in E1. rewrite E1. cbn [bind].
  destruct (inv_ubufs _ _ _ I) as (_ & _ & U). pose proof U as (U1 & U2 & U3).
  assert (Permutation (rb_items (spent s)) (map snd resp ++ entries fm')) as P by (rewrite <- E5; auto).
  rewrite push_spent_ok.
  - cbn [bind]. exists resp, (entries fm'), ix. split; [reflexivity|]. simpl in E3. repeat split; auto.
    intro c. rewrite on_entries; [rewrite <- D; apply E4| rewrite E2; auto | auto].
  - repeat split; simpl; auto. pose proof (cc_spent _ Hcfg). unfold rb_count, zlen; simpl; lia.
  - rewrite Forall_forall in *. intros m Hm. apply U2. eapply Permutation_in; [apply Permutation_sym; exact P|].
    apply in_or_app; auto.
  - unfold rb_count in *. simpl. apply Permutation_length in P. rewrite app_length in P.
    unfold zlen in *. simpl. lia.
Qed.

(** ** Requests *)
Lemma loop_collect {A B} (f : A -> outcome B) (l : list A) : forall acc,
  (forall x, In x l -> exists b, f x = Ok b) ->
  exists bs, loop (fun acc x => let* b := f x in Ok (acc ++ [b])) l acc = Ok (acc ++ bs) /\
             Forall2 (fun x b => f x = Ok b) l bs.
Proof.
  induction l as [|x l IH]; intros acc H; simpl.
  - exists []. rewrite app_nil_r. auto.
  - destruct (H x) as (b & E); simpl; auto. rewrite E. simpl.
    destruct (IH (acc ++ [b])) as (bs & E2 & F). { intros; apply H; simpl; auto. }
    exists (b :: bs). rewrite E2, <- app_assoc. split; auto.
Qed.

(** Request [j] of a portfolio. *)
Definition request_at (s : rx_state) (j : nat) : outcome request :=
  let* c := vec_at (incommods cfg) j in
  let* p := vec_at (prefs s) j in
  let* rn := vec_at (inrecipes s) j in
  let* r := get_recipe recipe rn in
  Ok {| r_commod := c; r_pref := p; r_comp := r; r_qty := assem cfg |}.

Lemma request_at_ok s j : inv s -> (j < List.length (incommods cfg))%nat ->
  exists r rn, request_at s j = Ok r /\ nth_error (incommods cfg) j = Some (r_commod r) /\
    nth_error (prefs s) j = Some (r_pref r) /\ nth_error (inrecipes s) j = Some rn /\
    recipe rn = Some (r_comp r) /\ r_qty r = assem cfg.
Proof.
  intros I H. unfold request_at. destruct (ok_tables _ _ _ I) as (T1 & T2 & T3).
  destruct (vec_at_ok (incommods cfg) j) as (c & -> & N1); auto. cbn [bind].
  destruct (vec_at_ok (prefs s) j) as (p & -> & N2); [lia|]. cbn [bind].
  destruct (vec_at_ok (inrecipes s) j) as (rn & -> & N3); [lia|]. cbn [bind].
  pose proof (ok_recipes _ _ _ I) as R. apply Forall_app in R as [R _]. rewrite Forall_forall in R.
  specialize (R rn (nth_error_In _ _ N3)). unfold get_recipe. destruct (recipe rn) eqn:E; [|congruence].
  cbn [bind]. eexists _, rn. split; [reflexivity|]. simpl. auto.
Qed.

Lemma portfolio_spec s : inv s ->
  exists p, portfolio recipe cfg s = Ok p /\ List.length p = List.length (incommods cfg) /\
    (forall j r, nth_error p j = Some r ->
       exists rn, nth_error (incommods cfg) j = Some (r_commod r) /\ nth_error (prefs s) j = Some (r_pref r) /\
         nth_error (inrecipes s) j = Some rn /\ recipe rn = Some (r_comp r) /\ r_qty r = assem cfg).
Proof.
  intro I. unfold portfolio.
  destruct (loop_collect (request_at s) (seq 0 (List.length (incommods cfg))) []) as (bs & E & F).
  { intros j Hj. apply in_seq in Hj. destruct (request_at_ok s j I) as (r & rn & E & _); [lia|]. eauto. }
  exists bs. split.
  - change ([] ++ bs) with bs in E. rewrite <- E. apply loop_ext. intros acc j Hj. unfold request_at.
    destruct (vec_at (incommods cfg) j); simpl; auto. destruct (vec_at (prefs s) j); simpl; auto.
    destruct (vec_at (inrecipes s) j); simpl; auto. destruct (get_recipe recipe a1); simpl; auto.
  - pose proof (Forall2_len _ _ _ F) as L. rewrite seq_length in L. split; auto.
    intros j r Hj. assert (j < List.length bs)%nat as Hl by (apply nth_error_Some; congruence).
    assert (forall (l : list nat) bs0, Forall2 (fun x b => request_at s x = Ok b) l bs0 ->
             forall j r, nth_error bs0 j = Some r -> exists x, nth_error l j = Some x /\ request_at s x = Ok r) as G.
    { clear. induction 1; intros [|j] r E; simpl in *; try discriminate; eauto. inversion E; subst; eauto. }
    destruct (G _ _ F j r Hj) as (x & Hx & Er).
    assert (x = j) as ->.
    { apply nth_error_nth with (d := O) in Hx. rewrite seq_nth in Hx by lia. lia. }
    destruct (request_at_ok s j I) as (r' & rn & E' & H); [lia|]. rewrite Er in E'. inversion E'; subst. eauto.
Qed.

Lemma max_index_from_lt l : forall best bi i, (bi < i)%nat -> (max_index_from best bi i l < i + List.length l)%nat.
Proof.
  induction l as [|x l IH]; intros best bi i H; simpl; [lia|].
  destruct (Qltb best x).
  - specialize (IH x i (S i)). lia.
  - specialize (IH best bi (S i)). lia.
Qed.
Lemma max_index_lt l : l <> [] -> (max_index l < List.length l)%nat.
Proof. destruct l as [|x l]; [congruence|]. intro. simpl. pose proof (max_index_from_lt l x 0 1). lia. Qed.

(** Number of assemblies ordered. *)
Definition order_size (t : Z) (s : rx_state) : Z :=
  let space := n_core cfg - rb_count (core s) + n_fresh cfg - rb_count (fresh s) in
  if retired cfg t then 0
  else if exit_t cfg =? -1 then space
  else Z.max 0 (Z.min space
         (- ((- (exit_t cfg - t + 1 - (cycle_t cfg + refuel_t cfg - cyc s))) / (cycle_t cfg + refuel_t cfg))
            * n_batch cfg - n_fresh cfg + n_core cfg - rb_count (core s))).

Lemma n_need_ok t s : exit_t cfg <> -1 -> n_need cfg t s =
  Ok (Z.max 0 ((- ((- (exit_t cfg - t + 1 - (cycle_t cfg + refuel_t cfg - cyc s))) / (cycle_t cfg + refuel_t cfg)))
            * n_batch cfg - n_fresh cfg + n_core cfg - rb_count (core s))).
Proof.
  intro H. unfold n_need. destruct (cc_period _ Hcfg); [tauto|].
  destruct (cycle_t cfg + refuel_t cfg =? 0) eqn:E; [apply Z.eqb_eq in E; lia|]. reflexivity.
Qed.

Lemma req_loop s (l : list nat) : inv s -> forall acc evs,
  exists p mc, portfolio recipe cfg s = Ok p /\
    nth_error (incommods cfg) (max_index (prefs s)) = Some mc /\
    loop (fun st (_ : nat) =>
            let* p := portfolio recipe cfg s in
            let* mc := vec_at (incommods cfg) (max_index (prefs s)) in
            Ok (fst st ++ [p], snd st ++ [EvDemand mc (assem cfg)])) l (acc, evs)
    = Ok (acc ++ map (fun _ => p) l, evs ++ map (fun _ => EvDemand mc (assem cfg)) l).
Proof.
  intros I. destruct (portfolio_spec s I) as (p & E & _).
  destruct (ok_tables _ _ _ I) as (T1 & T2 & T3).
  assert (prefs s <> []) as Hp.
  { pose proof (cc_fuels _ Hcfg). destruct (prefs s), (incommods cfg); simpl in *; congruence. }
  destruct (vec_at_ok (incommods cfg) (max_index (prefs s))) as (mc & V & N).
  { rewrite <- T3. apply max_index_lt; auto. }
  induction l as [|x l IH]; intros acc evs; exists p, mc; (split; [auto|]); (split; [auto|]); simpl.
  - rewrite !app_nil_r. auto.
  - match goal with |- context [loop ?g l] => set (f := g) in * end.
    assert (f (acc, evs) x = Ok (acc ++ [p], evs ++ [EvDemand mc (assem cfg)])) as Ef
        by (unfold f; rewrite E; cbn [bind]; rewrite V; reflexivity).
    change (bind (f (acc, evs) x) (loop f l) = Ok (acc ++ p :: map (fun _ => p) l,
              evs ++ EvDemand mc (assem cfg) :: map (fun _ => EvDemand mc (assem cfg)) l)).
    rewrite Ef. cbn [bind].
    destruct (IH (acc ++ [p]) (evs ++ [EvDemand mc (assem cfg)])) as (p' & mc' & E' & N' & L).
    rewrite L. assert (p' = p) as -> by congruence. assert (mc' = mc) as -> by congruence.
    rewrite <- !app_assoc. reflexivity.
Qed.

Lemma get_requests_spec t s : inv s ->
  exists p mc, portfolio recipe cfg s = Ok p /\
    nth_error (incommods cfg) (max_index (prefs s)) = Some mc /\
    get_requests recipe cfg t s =
      Ok (repeat p (Z.to_nat (order_size t s)),
          repeat (EvDemand mc (assem cfg)) (Z.to_nat (order_size t s))) /\ 0 <= order_size t s.
Proof.
  intro I. unfold get_requests.
  destruct (ok_limits _ _ _ I) as (L1 & L2 & L3).
  assert (0 <= n_core cfg - rb_count (core s) + n_fresh cfg - rb_count (fresh s)) as Hs by (unfold rb_count; lia).
  set (order0 := n_core cfg - rb_count (core s) + n_fresh cfg - rb_count (fresh s)) in *.
  assert (exists o, (if exit_t cfg =? -1 then Ok order0 else let* need := n_need cfg t s in Ok (Z.min order0 need)) = Ok o
            /\ 0 <= o /\ order_size t s = if retired cfg t then 0 else o) as (o & -> & Ho & ES).
  { unfold order_size. fold order0. destruct (exit_t cfg =? -1) eqn:E.
    - exists order0. auto.
    - apply Z.eqb_neq in E. rewrite n_need_ok by auto. cbn [bind]. eexists. split; [reflexivity|].
      split; [lia|]. destruct (retired cfg t); auto. lia. }
  cbn [bind].
  destruct (req_loop s (seq 0 (Z.to_nat o)) I [] []) as (p & mc & E & N & L).
  exists p, mc. split; auto. split; auto. rewrite ES.
  destruct (o =? 0) eqn:E0.
  { apply Z.eqb_eq in E0. subst o. destruct (retired cfg t); split; simpl; auto; lia. }
  destruct (retired cfg t).
  { split; simpl; auto; lia. }
  split; auto. rewrite L. simpl.
  assert (forall {A} (x : A) n k, map (fun _ => x) (seq k n) = repeat x n) as R.
  { clear. intros A x n. induction n; intro k; simpl; auto. f_equal; auto. }
  rewrite !R. reflexivity.
Qed.

(** ** Bids *)
Lemma bids_for_spec s c reqs : inv s ->
  exists b, bids_for eps cfg s c reqs = Ok b /\
    match b with
    | Some p => bp_commod p = c /\ (bp_cap p == qty_of (on (ocommod cfg s) c (rb_items (spent s))))%Q /\
                Forall (fun jm => In (snd jm) (on (ocommod cfg s) c (rb_items (spent s)))) (bp_bids p) /\
                reqs <> []
    | None => reqs = [] \/ on (ocommod cfg s) c (rb_items (spent s)) = []
    end.
Proof.
  intro I. unfold bids_for. destruct reqs as [|q reqs]; [eexists; split; [reflexivity|simpl; auto]|].
  destruct (inv_ubufs _ _ _ I) as (_ & _ & U).
  rewrite (peek_spent_spec eps cfg eps_nonneg Hcfg s U (inv_spent_idx _ _ _ I)). cbn [bind].
  destruct (group_facts (ocommod cfg s) (rb_items (spent s)) []) as (_ & _ & _ & D); [constructor|constructor|].
  simpl in D. rewrite D.
  destruct (on (ocommod cfg s) c (rb_items (spent s))) as [|m ms] eqn:E; [eexists; split; [reflexivity|simpl; auto]|].
  eexists; split; [reflexivity|]. cbn [bp_commod bp_cap bp_bids]. repeat split; try discriminate.
  rewrite Forall_concat, Forall_map. apply Forall_forall. intros [j t] _. cbn [fst snd].
  assert (forall l tot, Forall (fun jm => In (snd jm) l) (offer_until t tot j l)) as G.
  { clear. induction l as [|x l IH]; intro tot; simpl; constructor; simpl; auto.
    destruct (Qle_bool t _); auto. eapply Forall_impl; [|apply IH]. simpl; auto. }
  apply G.
Qed.

Lemma get_bids_spec s reqs : inv s ->
  exists bs, get_bids eps cfg s reqs = Ok bs /\
    Forall (fun p => In (bp_commod p) (outcommods cfg) /\
              (bp_cap p == qty_of (on (ocommod cfg s) (bp_commod p) (rb_items (spent s))))%Q /\
              Forall (fun jm => In (snd jm) (on (ocommod cfg s) (bp_commod p) (rb_items (spent s)))) (bp_bids p)) bs.
Proof.
  intro I. unfold get_bids.
  destruct (loop_inv (fun acc c => let* b := bids_for eps cfg s c (reqs c) in
                     Ok (match b with Some p => acc ++ [p] | None => acc end))
     (fun bs => Forall (fun p => In (bp_commod p) (outcommods cfg) /\
              (bp_cap p == qty_of (on (ocommod cfg s) (bp_commod p) (rb_items (spent s))))%Q /\
              Forall (fun jm => In (snd jm) (on (ocommod cfg s) (bp_commod p) (rb_items (spent s)))) (bp_bids p)) bs)
     (nodup string_dec (outcommods cfg)) []) as (bs & E & H); auto.
  - intros acc c Hc HF. apply nodup_In in Hc.
    destruct (bids_for_spec s c (reqs c) I) as (b & -> & Hb). cbn [bind]. eexists; split; [reflexivity|].
    destruct b as [p|]; auto. apply Forall_app. split; auto. constructor; auto.
    destruct Hb as (E1 & E2 & E3 & _). rewrite E1. repeat split; auto.
  - eauto.
Qed.

(** ** Deliveries *)
Lemma find_commod_in c : In c (incommods cfg) ->
  exists i, find_commod c (incommods cfg) 0 = Some i /\ (i < List.length (incommods cfg))%nat /\
            nth_error (incommods cfg) i = Some c.
Proof.
  intro H. pose proof (find_commod_spec c (incommods cfg) 0) as F.
  destruct (find_commod c (incommods cfg) 0) as [i|]; [|tauto].
  destruct F as (F1 & F2 & _). rewrite Nat.sub_0_r in F2. exists i. repeat split; auto; lia.
Qed.

Definition delivered_state (s : rx_state) (ds : list (string * mat)) (ix : list (Z * nat)) : rx_state :=
  let k := Z.to_nat (Z.min (zlen ds) (n_core cfg - rb_count (core s))) in
  upd_idx (upd_fresh (upd_core s
     {| rb_cap := rb_cap (core s); rb_items := rb_items (core s) ++ firstn k (map snd ds) |})
     {| rb_cap := rb_cap (fresh s); rb_items := rb_items (fresh s) ++ skipn k (map snd ds) |}) ix.

Lemma delivered_nil s : delivered_state s [] (idx s) = s.
Proof.
  unfold delivered_state. simpl. rewrite firstn_nil, skipn_nil, !app_nil_r.
  destruct s as [[fc fi] [cc ci] ? ? ? ? ? ? ? ?]. reflexivity.
Qed.

Lemma accept_loop ds : forall s,
  ubuf (n_fresh cfg) (assem cfg) (fresh s) -> ubuf (n_core cfg) (assem cfg) (core s) ->
  zlen ds <= n_core cfg - rb_count (core s) + (n_fresh cfg - rb_count (fresh s)) ->
  Forall (fun d => In (fst d) (incommods cfg) /\ (m_qty (snd d) == assem cfg)%Q) ds ->
  NoDup (map (fun d => m_id (snd d)) ds) ->
  exists ix, loop (accept_one eps cfg) ds s = Ok (delivered_state s ds ix) /\
    (forall k, ~ In k (map (fun d => m_id (snd d)) ds) -> idx_get k ix = idx_get k (idx s)) /\
    (forall d, In d ds -> exists i, idx_get (m_id (snd d)) ix = i /\
         (i < List.length (incommods cfg))%nat /\ nth_error (incommods cfg) i = Some (fst d) /\
         find_commod (fst d) (incommods cfg) 0 = Some i).
Proof.
  induction ds as [|[c m] ds IH]; intros s UF UC L F ND.
  - exists (idx s). simpl. rewrite delivered_nil. repeat split; auto. intros ? [].
  - inversion F as [|? ? [Hc Hq] F']; subst. simpl in Hc, Hq.
    simpl in ND. inversion ND as [|? ? Hn ND']; subst. rewrite zlen_cons in L.
    pose proof (zlen_nonneg ds) as Hz.
    destruct (find_commod_in c Hc) as (i & Ei & Hi & Ni).
    cbn [loop]. unfold accept_one at 1, index_res. cbn [fst snd]. rewrite Ei. cbn [bind].
    set (s1 := upd_idx s (idx_set (m_id m) i (idx s))).
    change (core s1) with (core s). change (fresh s1) with (fresh s).
    destruct (rb_count (core s) <? n_core cfg) eqn:E.
    + apply Z.ltb_lt in E.
      destruct (ubuf_push eps _ _ _ m eps_nonneg Ha UC Hq E) as [P UC']. rewrite P. cbn [bind].
      match goal with |- context[loop _ ds ?x] => set (s2 := x) end.
      destruct (IH s2) as (ix & E2 & G1 & G2); auto.
      { simpl. unfold rb_count in *. simpl. rewrite zlen_app. change (zlen [m]) with 1. lia. }
      exists ix. split; [|split].
      * rewrite E2. f_equal. unfold delivered_state.
        rewrite zlen_cons.
        assert (rb_count (core s2) = rb_count (core s) + 1) as -> by
            (unfold s2, rb_count; simpl; rewrite zlen_app; reflexivity).
        replace (Z.to_nat (Z.min (1 + zlen ds) (n_core cfg - rb_count (core s))))
          with (S (Z.to_nat (Z.min (zlen ds) (n_core cfg - (rb_count (core s) + 1))))) by lia.
        unfold s2. simpl. rewrite <- app_assoc. reflexivity.
      * intros k Hk. simpl in Hk. rewrite G1 by tauto. unfold s2; simpl. apply idx_get_set_other. tauto.
      * intros d [<-|Hd]; [|auto]. simpl. exists i. rewrite G1 by auto.
        split; [apply idx_get_set_same|auto].
    + apply Z.ltb_ge in E. assert (rb_count (core s) = n_core cfg) as EC by (destruct UC as (_ & _ & ?); lia).
      assert (rb_count (fresh s) < n_fresh cfg) as EF by lia.
      destruct (ubuf_push eps _ _ _ m eps_nonneg Ha UF Hq EF) as [P UF']. rewrite P. cbn [bind].
      match goal with |- context[loop _ ds ?x] => set (s2 := x) end.
      destruct (IH s2) as (ix & E2 & G1 & G2); auto.
      { simpl. unfold rb_count in *. simpl. rewrite zlen_app. change (zlen [m]) with 1. lia. }
      exists ix. split; [|split].
      * rewrite E2. f_equal. unfold delivered_state.
        rewrite zlen_cons. change (rb_count (core s2)) with (rb_count (core s)). rewrite EC, Z.sub_diag.
        rewrite !Z.min_r by lia. simpl. rewrite <- app_assoc. reflexivity.
      * intros k Hk. simpl in Hk. rewrite G1 by tauto. unfold s2; simpl. apply idx_get_set_other. tauto.
      * intros d [<-|Hd]; [|auto]. simpl. exists i. rewrite G1 by auto.
        split; [apply idx_get_set_same|auto].
Qed.

(** ** Tock *)
Definition powered (s : rx_state) : bool :=
  ((0 <=? cyc s) && (cyc s <? cycle_t cfg) && (rb_count (core s) =? n_core cfg))%bool.

Lemma record_side_ok s b : exists ev, record_side cfg s b = Ok ev.
Proof.
  unfold record_side. destruct (hybrid s); eauto.
  destruct (loop_inv (fun acc i =>
            let* v := (if b then vec_at (side_qty cfg) i else Ok 0%Q) in
            let* p := vec_at (side_products cfg) i in
            Ok (acc ++ [EvSide p v])) (fun _ => True) (seq 0 (List.length (side_products cfg))) []) as (s' & E & _); auto.
  - intros acc i Hi _. apply in_seq in Hi.
    destruct (vec_at_ok (side_products cfg) i) as (p & -> & _); [lia|].
    destruct (vec_at_ok (side_qty cfg) i) as (q & -> & _); [rewrite (cc_side _ Hcfg); lia|].
    destruct b; simpl; eauto.
  - eauto.
Qed.

Lemma tock_ok t s : exists s' ev c d, tock cfg t s = Ok (s', ev) /\ s' = upd_cyc s c d.
Proof.
  unfold tock. destruct (retired cfg t).
  { exists s, [], (cyc s), (disch s). destruct s; auto. }
  match goal with |- context [record_side cfg ?s1 ?b] => destruct (record_side_ok s1 b) as (ev & ->) end.
  cbn [bind].
  destruct ((cycle_t cfg + refuel_t cfg <=? cyc s) && (rb_count (core s) =? n_core cfg) && disch s)%bool.
  - destruct ((0 <? cyc (upd_cyc s 0 false)) || (rb_count (core s) =? n_core cfg))%bool; eexists _, _, _, _; split; try reflexivity.
  - destruct ((0 <? cyc s) || (rb_count (core s) =? n_core cfg))%bool; [eexists _, _, _, _; split; reflexivity|].
    exists s. eexists _, (cyc s), (disch s). split; [reflexivity|]. destruct s; reflexivity.
Qed.
End Proofs.
