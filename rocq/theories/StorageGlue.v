(** Storage: history-level lemmas in the form of the properties. *)
From Coq Require Import Lia Lqa Permutation Sorting.Sorted.
From Verif Require Import Outcome KernelMaterial KernelResBuf KernelFacts KernelMass
  StorageModel StorageSpec StorageProofs.
Local Open Scope Q_scope.

Lemma residence_exact eps cfg es s os : st_history es ->
  st_run eps cfg st_empty es = Ok (s, os) ->
  let t := last (map se_time es) (-1)%Z in
  ss_inventory s = [] /\
  ss_processing s = held (sc_residence cfg) t (arrivals es) /\
  regroup (due (sc_residence cfg) t (arrivals es)) (all_released os ++ ss_ready s) /\
  regroup (all_released os) (all_sold os ++ ss_stocks s).
Proof.
  intros H R t. destruct (history_inv _ _ _ _ _ H R) as (I1 & I2 & I3 & I4 & (I5 & _) & I6 & I7 & _).
  split; [auto|]. split; [exact I5|]. split; [exact I6|exact I7].
Qed.

Lemma regroup_arrivals eps cfg es s os : st_history es ->
  st_run eps cfg st_empty es = Ok (s, os) ->
  regroup (map snd (arrivals es))
    (all_sold os ++ ss_stocks s ++ ss_ready s ++ ss_processing s ++ ss_inventory s).
Proof.
  intros H R. destruct (history_inv _ _ _ _ _ H R) as (I1 & I2 & I3 & I4 & (I5 & _) & I6 & I7 & _).
  rewrite I1, app_nil_r, I5.
  rewrite (sorted_split (sc_residence cfg) (last (map se_time es) (-1)%Z) _ I2) at 1.
  rewrite map_app, !app_assoc. apply regroup_app_r.
  eapply regroup_trans; [exact I6|]. apply regroup_app_r. exact I7.
Qed.

Lemma conserved eps cfg es s os : st_history es ->
  st_run eps cfg st_empty es = Ok (s, os) ->
  qty_of (all_sold os) + qty_of (ss_stocks s) + qty_of (ss_ready s) + qty_of (ss_processing s)
    + qty_of (ss_inventory s) == qty_of (map snd (arrivals es)) /\
  forall n, mass_in n (all_sold os) + mass_in n (ss_stocks s) + mass_in n (ss_ready s)
    + mass_in n (ss_processing s) + mass_in n (ss_inventory s) == mass_in n (map snd (arrivals es)).
Proof.
  intros H R. pose proof (regroup_arrivals _ _ _ _ _ H R) as G.
  destruct (regroup_facts _ _ G) as (_ & Q1 & M1). { apply H. }
  rewrite !qty_of_app in Q1. split; [rewrite <- Q1; ring|].
  intro n. rewrite <- M1, !mass_in_app. ring.
Qed.

(** A history extended by one step. *)
Lemma run_app eps cfg a : forall s b,
  st_run eps cfg s (a ++ b) =
  bind (st_run eps cfg s a) (fun '(s1, o1) =>
  bind (st_run eps cfg s1 b) (fun '(s2, o2) => Ok (s2, o1 ++ o2))).
Proof.
  induction a as [|e a IH]; intros s b; simpl.
  - destruct (st_run eps cfg s b) as [[s2 o2]| | |]; reflexivity.
  - destruct (st_step eps cfg s e) as [[s1 o1]| | |]; simpl; auto.
    rewrite IH. destruct (st_run eps cfg s1 a) as [[s2 o2]| | |]; simpl; auto.
    destruct (st_run eps cfg s2 b) as [[s3 o3]| | |]; simpl; auto.
Qed.

Lemma history_prefix a b : st_history (a ++ b) -> st_history a.
Proof.
  intros (H1 & H2 & H3). rewrite map_app in H1. split; [|split].
  - clear -H1. induction (map se_time a) as [|x l IH]; constructor; inversion H1; subst; auto.
    apply Forall_app in H3. tauto.
  - apply Forall_app in H2. tauto.
  - unfold arrivals in H3. rewrite flat_map_app, map_app in H3. apply Forall_app in H3. tauto.
Qed.

Lemma sorted_app_lt (a : list Z) x : StronglySorted Z.lt (a ++ [x]) -> Forall (fun y => (y < x)%Z) a.
Proof.
  induction a as [|y a IH]; intro H; constructor; inversion H; subst; auto.
  apply Forall_app in H3 as (_ & H3). inversion H3; auto.
Qed.
Lemma last_lt (a : list Z) x d : (d < x)%Z -> Forall (fun y => (y < x)%Z) a -> (last a d < x)%Z.
Proof.
  intros D H. induction H as [|y a Hy Ha IH]; auto. simpl. destruct a; auto.
Qed.

(** The queue seen by a step that follows a history. *)
Lemma after_history eps cfg es e s os s' o : st_history (es ++ [e]) ->
  st_run eps cfg st_empty es = Ok (s, os) -> st_step eps cfg s e = Ok (s', o) ->
  exists q stocks1,
    mats_ok q /\ regroup q (released o ++ ss_ready s') /\
    (exists d, q = ss_ready s ++ d) /\
    regroup (ss_stocks s) (so_sold o ++ stocks1) /\ ss_stocks s' = stocks1 ++ released o /\
    (0 <= sc_throughput cfg -> qty_of (released o) <= sc_throughput cfg) /\
    (sc_discrete cfg = false -> 0 <= sc_throughput cfg ->
       qty_of (released o) == Qmin (sc_throughput cfg) (qty_of q)) /\
    (sc_discrete cfg = true -> 0 <= sc_throughput cfg -> exists k, (k <= List.length q)%nat /\
       released o = firstn k q /\ ss_ready s' = skipn k q /\
       forall k', (k < k')%nat -> (k' <= List.length q)%nat -> sc_throughput cfg < qty_of (firstn k' q)) /\
    snd (to_demand (so_tock o)) = st_capacity cfg s' /\
    snd (to_supply (so_tock o)) = qty_of (ss_stocks s').
Proof.
  intros H R K. pose proof (history_prefix _ _ H) as Hp.
  destruct (history_inv _ _ _ _ _ Hp R) as (I1 & I2 & I3 & I4 & I5 & I6 & I7 & _).
  destruct H as (H1 & H2 & H3). rewrite map_app in H1. apply sorted_app_lt in H1.
  apply Forall_app in H2 as (_ & H2). inversion H2 as [|? ? H0 _]; subst.
  unfold arrivals in H3. rewrite flat_map_app, map_app in H3. apply Forall_app in H3 as (_ & H3).
  cbn [flat_map] in H3. rewrite app_nil_r, map_snd_pair in H3.
  assert (Lt : (last (map se_time es) (-1) < se_time e)%Z) by (apply last_lt; auto; lia).
  assert (O6 : mats_ok (all_released os ++ ss_ready s)).
  { eapply regroup_ok; [exact I6|]. apply mats_ok_filter, I4. }
  apply Forall_app in O6 as (Orel & Ordy).
  assert (O7 : mats_ok (all_sold os ++ ss_stocks s)) by (eapply regroup_ok; [exact I7|]; auto).
  apply Forall_app in O7 as (Osold & Ostk).
  set (t := last _ _) in *.
  assert (Oh : mats_ok (map snd (heldp (sc_residence cfg) t (arrivals es)))) by (apply mats_ok_filter; auto).
  pose proof (step_facts eps cfg (heldp (sc_residence cfg) t (arrivals es)) s e s' o) as F. cbv zeta in F.
  assert (Hw : (t <= se_time e)%Z) by lia.
  specialize (F H0 (pending_weaken t (se_time e) _ _ Hw I5) I1 Ostk Ordy).
  assert (Oall : mats_ok (map snd (heldp (sc_residence cfg) t (arrivals es) ++
     map (fun m => (se_time e, m)) (se_receipts e)))).
  { rewrite map_app, map_snd_pair. apply Forall_app; split; auto. }
  specialize (F Oall K). destruct F as (F1 & F2 & st1 & F3 & F4 & F5 & F6 & F7 & F8 & F9 & F10 & F11).
  eexists. exists st1. split; [|split; [exact F5|split; [eexists; reflexivity|]]].
  - apply Forall_app; split; auto. apply mats_ok_filter; auto.
  - split; [exact F3|]. split; [exact F4|]. split; [exact F6|]. split; [exact F7|].
    split; [exact F8|]. split; [exact F10|exact F11].
Qed.

Lemma throughput_limit eps cfg es e s os s' o : 0 <= sc_throughput cfg -> st_history (es ++ [e]) ->
  st_run eps cfg st_empty es = Ok (s, os) -> st_step eps cfg s e = Ok (s', o) ->
  qty_of (released o) <= sc_throughput cfg /\
  (sc_discrete cfg = false ->
   qty_of (released o) == Qmin (sc_throughput cfg) (qty_of (released o ++ ss_ready s'))).
Proof.
  intros Hc H R K. destruct (after_history _ _ _ _ _ _ _ _ H R K)
    as (q & st1 & A1 & A2 & A3 & A4 & A5 & A6 & A7 & A8 & _).
  split; [auto|]. intro D. rewrite (A7 D Hc) at 1.
  destruct (regroup_facts _ _ A2 A1) as (_ & E & _). rewrite E. reflexivity.
Qed.

Lemma discrete_longest eps cfg es e s os s' o : 0 <= sc_throughput cfg -> sc_discrete cfg = true ->
  st_history (es ++ [e]) ->
  st_run eps cfg st_empty es = Ok (s, os) -> st_step eps cfg s e = Ok (s', o) ->
  let queue := released o ++ ss_ready s' in
  forall k, (List.length (released o) < k)%nat -> (k <= List.length queue)%nat ->
    sc_throughput cfg < qty_of (firstn k queue).
Proof.
  intros Hc D H R K queue k L1 L2. destruct (after_history _ _ _ _ _ _ _ _ H R K)
    as (q & st1 & A1 & A2 & A3 & A4 & A5 & A6 & A7 & A8 & _).
  destruct (A8 D Hc) as (k0 & K1 & K2 & K3 & K4).
  assert (E : queue = q). { unfold queue. rewrite K2, K3. apply firstn_skipn. }
  rewrite E in *. apply K4; auto. rewrite K2, firstn_length in L1. lia.
Qed.

Lemma discrete_exact eps cfg es s os : sc_discrete cfg = true -> st_history es ->
  st_run eps cfg st_empty es = Ok (s, os) ->
  all_released os ++ ss_ready s ++ ss_processing s ++ ss_inventory s = map snd (arrivals es).
Proof.
  intros D H R. destruct (history_inv _ _ _ _ _ H R) as (I1 & I2 & I3 & I4 & (I5 & _) & _ & _ & I8).
  rewrite I1, app_nil_r, I5, app_assoc, <- (I8 D), <- map_app, <- sorted_split; auto.
Qed.

(** ** Capacity *)
Lemma total_conserved eps cfg es s os : st_history es ->
  st_run eps cfg st_empty es = Ok (s, os) ->
  st_total s == qty_of (map snd (arrivals es)) - qty_of (all_sold os) /\ mats_ok (all_sold os).
Proof.
  intros H R. split.
  - destruct (conserved _ _ _ _ _ H R) as (Q1 & _). unfold st_total. rewrite <- Q1. ring.
  - pose proof (regroup_arrivals _ _ _ _ _ H R) as G. apply regroup_ok in G; [|apply H].
    apply Forall_app in G. tauto.
Qed.
Lemma total_app s : qty_of (ss_inventory s ++ ss_processing s ++ ss_ready s ++ ss_stocks s) == st_total s.
Proof. rewrite !qty_of_app. unfold st_total. ring. Qed.

Lemma capacity_run eps cfg es : forall done s os s' os',
  0 <= sc_max_inv cfg -> st_history (done ++ es) ->
  st_run eps cfg st_empty done = Ok (s, os) -> st_total s <= sc_max_inv cfg ->
  purchases_fit eps cfg s es -> st_run eps cfg s es = Ok (s', os') -> st_total s' <= sc_max_inv cfg.
Proof.
  induction es as [|e es IH]; intros done s os s' os' Hm H R T F K; simpl in K.
  - injection K as <- <-. auto.
  - apply bind_ok in K as ((s1, o) & S1 & K). apply bind_ok in K as ((s2, os2) & R2 & K).
    injection K as <- <-. simpl in F. rewrite S1 in F. destruct F as (F1 & F2).
    assert (H' : st_history ((done ++ [e]) ++ es)) by (rewrite <- app_assoc; exact H).
    assert (R' : st_run eps cfg st_empty (done ++ [e]) = Ok (s1, os ++ [o])).
    { rewrite run_app, R. simpl. rewrite S1. reflexivity. }
    eapply (IH (done ++ [e])); eauto.
    destruct (total_conserved _ _ _ _ _ (history_prefix _ _ H') R') as (E1 & O1).
    destruct (total_conserved _ _ _ _ _ (history_prefix _ _ H) R) as (E0 & O0).
    unfold arrivals in E1. rewrite flat_map_app, map_app, qty_of_app in E1. cbn [flat_map] in E1.
    rewrite app_nil_r, map_snd_pair in E1. fold (arrivals done) in E1.
    unfold all_sold in E1, O1. rewrite flat_map_app in E1, O1. rewrite qty_of_app in E1.
    fold (all_sold os) in E1, O1. cbn [flat_map] in E1, O1. rewrite app_nil_r in E1, O1.
    apply Forall_app in O1 as (_ & O1). apply mats_qty_nonneg in O1.
    rewrite total_app in F1.
    assert (qty_of (se_receipts e) <= sc_max_inv cfg - st_total s).
    { destruct (Q.max_dec 0 (sc_max_inv cfg - st_total s)) as [M|M]; rewrite M in F1; lra. }
    lra.
Qed.

Lemma capacity eps cfg es s os : 0 <= sc_max_inv cfg -> st_history es ->
  purchases_fit eps cfg st_empty es -> st_run eps cfg st_empty es = Ok (s, os) ->
  qty_of (ss_inventory s ++ ss_processing s ++ ss_ready s ++ ss_stocks s) <= sc_max_inv cfg.
Proof.
  intros Hm H F R. rewrite total_app.
  apply (capacity_run eps cfg es [] st_empty [] s os); auto.
Qed.

(** ** Progress *)
Definition small_parcels (cap : Q) (ms : list mat) : Prop := Forall (fun m => m_qty m <= cap) ms.

Lemma progress_discrete_step eps cfg es e s os s' o : 0 <= sc_throughput cfg -> sc_discrete cfg = true ->
  st_history (es ++ [e]) -> small_parcels (sc_throughput cfg) (ss_ready s) ->
  st_run eps cfg st_empty es = Ok (s, os) -> st_step eps cfg s e = Ok (s', o) ->
  (ss_ready s <> [] -> exists m rel', released o = m :: rel' /\ hd_error (ss_ready s) = Some m).
Proof.
  intros Hc D H Sm R K Hne. destruct (after_history _ _ _ _ _ _ _ _ H R K)
    as (q & st1 & A1 & A2 & (d & A3) & A4 & A5 & A6 & A7 & A8 & _).
  destruct (A8 D Hc) as (k & K1 & K2 & K3 & K4).
  destruct (ss_ready s) as [|m rd]; [congruence|]. inversion Sm as [|? ? Sm1 Sm2]; subst.
  cbn [app] in *. destruct k as [|k].
  - specialize (K4 1%nat ltac:(lia)). simpl in K4. specialize (K4 ltac:(lia)).
    unfold qty_of in K4; simpl in K4. lra.
  - simpl in K2. eauto.
Qed.

Lemma firstn_plus {A} (l : list A) : forall a b, firstn a l ++ firstn b (skipn a l) = firstn (a + b) l.
Proof.
  induction l as [|x l IHl]; intros a b; [rewrite !skipn_nil, !firstn_nil; reflexivity|].
  destruct a; simpl; auto. f_equal. apply IHl.
Qed.

(** With discrete handling and admissible parcels, the n-th step has released
    the first n parcels of the queue. *)
Lemma progress_discrete eps cfg es : forall done s os s' os',
  0 <= sc_throughput cfg -> sc_discrete cfg = true -> st_history (done ++ es) ->
  small_parcels (sc_throughput cfg) (map snd (arrivals (done ++ es))) ->
  st_run eps cfg st_empty done = Ok (s, os) -> st_run eps cfg s es = Ok (s', os') ->
  exists rest, all_released os' = firstn (List.length es) (ss_ready s) ++ rest.
Proof.
  induction es as [|e es IH]; intros done s os s' os' Hc D H Sm R K; simpl in K.
  - injection K as <- <-. exists []. reflexivity.
  - apply bind_ok in K as ((s1, o) & S1 & K). apply bind_ok in K as ((s2, os2) & R2 & K).
    injection K as <- <-.
    assert (H' : st_history ((done ++ [e]) ++ es)) by (rewrite <- app_assoc; exact H).
    assert (R' : st_run eps cfg st_empty (done ++ [e]) = Ok (s1, os ++ [o])).
    { rewrite run_app, R. simpl. rewrite S1. reflexivity. }
    assert (Sm' : small_parcels (sc_throughput cfg) (map snd (arrivals ((done ++ [e]) ++ es))))
      by (rewrite <- app_assoc; exact Sm).
    destruct (IH (done ++ [e]) s1 (os ++ [o]) s2 os2 Hc D H' Sm' R' R2) as (rest & Er).
    pose proof (history_prefix _ _ H') as He.
    assert (Sr : small_parcels (sc_throughput cfg) (ss_ready s)).
    { pose proof (discrete_exact _ _ _ _ _ D (history_prefix _ _ H) R) as DE.
      unfold arrivals in Sm. rewrite flat_map_app, map_app in Sm. apply Forall_app in Sm as (Sm & _).
      fold (arrivals done) in Sm. rewrite <- DE in Sm. apply Forall_app in Sm as (_ & Sm).
      apply Forall_app in Sm as (Sm & _). exact Sm. }
    destruct (after_history _ _ _ _ _ _ _ _ He R S1)
      as (q & st1 & A1 & A2 & (d & A3) & A4 & A5 & A6 & A7 & A8 & _).
    destruct (A8 D Hc) as (k & K1 & K2 & K3 & K4).
    cbn [all_released flat_map List.length]. fold (all_released os2). fold (released o).
    destruct (ss_ready s) as [|m rd] eqn:Erd.
    + rewrite firstn_nil. eexists. reflexivity.
    + destruct (progress_discrete_step _ _ _ _ _ _ _ _ Hc D He ltac:(rewrite Erd; exact Sr) R S1)
        as (m' & rel' & Q1 & Q2). { rewrite Erd; discriminate. }
      rewrite Erd in Q2. simpl in Q2. injection Q2 as <-.
      (* queue = m :: rd ++ d; released = firstn k queue with k >= 1 *)
      assert (Kp : (1 <= k)%nat). { destruct k; [rewrite Q1 in K2; discriminate|lia]. }
      rewrite Er, K2, K3, A3.
      set (n := List.length es).
      (* firstn k Q ++ firstn n (skipn k Q) = firstn (k+n) Q, and S n <= k + n *)
      rewrite app_assoc, firstn_plus.
      assert (Ef : exists r2, firstn (k + n) ((m :: rd) ++ d) = firstn (S n) (m :: rd) ++ r2).
      { clear -Kp. replace (k + n)%nat with (S n + (k - 1))%nat by lia. rewrite <- firstn_plus.
        rewrite firstn_app. rewrite <- app_assoc. eexists. reflexivity. }
      destruct Ef as (r2 & Ef). rewrite Ef, <- app_assoc. eexists. reflexivity.
Qed.

Lemma extend_run eps cfg done e es s os s1 o : st_history (done ++ e :: es) ->
  st_run eps cfg st_empty done = Ok (s, os) -> st_step eps cfg s e = Ok (s1, o) ->
  st_history ((done ++ [e]) ++ es) /\ st_history (done ++ [e]) /\
  st_run eps cfg st_empty (done ++ [e]) = Ok (s1, os ++ [o]).
Proof.
  intros H R S1.
  assert (H' : st_history ((done ++ [e]) ++ es)) by (rewrite <- app_assoc; exact H).
  split; [auto|]. split; [eapply history_prefix; eauto|].
  rewrite run_app, R. simpl. rewrite S1. reflexivity.
Qed.

Lemma progress_continuous eps cfg es : forall done s os s' os',
  0 <= sc_throughput cfg -> sc_discrete cfg = false -> st_history (done ++ es) ->
  st_run eps cfg st_empty done = Ok (s, os) -> st_run eps cfg s es = Ok (s', os') ->
  Qmin (inject_Z (zlen es) * sc_throughput cfg) (qty_of (ss_ready s)) <= qty_of (all_released os').
Proof.
  induction es as [|e es IH]; intros done s os s' os' Hc D H R K; simpl in K.
  - injection K as <- <-. change (inject_Z (zlen (@nil st_env))) with 0.
    eapply Qle_trans; [apply Q.le_min_l|]. unfold all_released; simpl. rewrite qty_of_nil. lra.
  - apply bind_ok in K as ((s1, o) & S1 & K). apply bind_ok in K as ((s2, os2) & R2 & K).
    injection K as <- <-.
    destruct (extend_run _ _ _ _ _ _ _ _ _ H R S1) as (H' & He & R').
    pose proof (IH (done ++ [e]) s1 (os ++ [o]) s2 os2 Hc D H' R' R2) as I.
    destruct (after_history _ _ _ _ _ _ _ _ He R S1)
      as (q & st1 & A1 & A2 & (d & A3) & A4 & A5 & A6 & A7 & A8 & _).
    cbn [all_released flat_map]. fold (all_released os2). fold (released o). rewrite qty_of_app.
    pose proof (A7 D Hc) as Rl. destruct (regroup_facts _ _ A2 A1) as (O2 & Eq & _).
    rewrite qty_of_app in Eq. apply Forall_app in O2 as (Or & Ordy).
    assert (Nd : qty_of (ss_ready s) <= qty_of q).
    { rewrite A3, qty_of_app. rewrite A3 in A1. apply Forall_app in A1 as (_ & A1).
      apply mats_qty_nonneg in A1. lra. }
    apply mats_qty_nonneg in Ordy. rewrite zlen_cons, inject_Z_plus. change (inject_Z 1) with 1.
    assert (Np : 0 <= inject_Z (zlen es) * sc_throughput cfg).
    { apply Qmult_le_0_compat; auto. pose proof (zlen_nonneg es). change 0 with (inject_Z 0).
      rewrite <- Zle_Qle. auto. }
    set (n := inject_Z (zlen es)) in *. set (th := sc_throughput cfg) in *.
    set (x := qty_of (all_released os2)) in *.
    destruct (Q.min_spec ((1 + n) * th) (qty_of (ss_ready s))) as [[M1 M2]|[M1 M2]]; rewrite M2;
    destruct (Q.min_spec (n * th) (qty_of (ss_ready s1))) as [[M3 M4]|[M3 M4]]; rewrite M4 in I;
    destruct (Q.min_spec th (qty_of q)) as [[M5 M6]|[M5 M6]]; rewrite M6 in Rl; try lra.
Qed.

(** A queue whose head exceeds the throughput is stuck forever. *)
Lemma stuck eps cfg es : forall done s os s' os' m rd,
  0 <= sc_throughput cfg -> sc_discrete cfg = true -> st_history (done ++ es) ->
  ss_ready s = m :: rd -> sc_throughput cfg < m_qty m ->
  st_run eps cfg st_empty done = Ok (s, os) -> st_run eps cfg s es = Ok (s', os') ->
  all_released os' = [] /\ exists rd', ss_ready s' = m :: rd'.
Proof.
  induction es as [|e es IH]; intros done s os s' os' m rd Hc D H Er Hm R K; simpl in K.
  - injection K as <- <-. split; [reflexivity|eauto].
  - apply bind_ok in K as ((s1, o) & S1 & K). apply bind_ok in K as ((s2, os2) & R2 & K).
    injection K as <- <-.
    destruct (extend_run _ _ _ _ _ _ _ _ _ H R S1) as (H' & He & R').
    destruct (after_history _ _ _ _ _ _ _ _ He R S1)
      as (q & st1 & A1 & A2 & (d & A3) & A4 & A5 & A6 & A7 & A8 & _).
    destruct (A8 D Hc) as (k & K1 & K2 & K3 & K4).
    assert (k = 0%nat) as ->.
    { destruct k as [|k]; auto. exfalso. specialize (A6 Hc). rewrite K2, A3, Er in A6. simpl in A6.
      rewrite qty_of_cons in A6.
      assert (0 <= qty_of (firstn k (rd ++ d))).
      { apply mats_qty_nonneg, Forall_firstn. rewrite A3, Er in A1. cbn [app] in A1.
        inversion A1; auto. }
      lra. }
    simpl in K2, K3. rewrite A3, Er in K3. cbn [app] in K3.
    cbn [all_released flat_map]. fold (all_released os2). fold (released o). rewrite K2.
    cbn [app]. exact (IH _ _ _ _ _ _ _ Hc D H' K3 Hm R' R2).
Qed.

(** ** Absence of failures *)
Lemma sell_all_ok eps sales : forall stocks sold, 0 <= eps -> mats_ok stocks ->
  Forall (fun q => 0 < q) sales -> qsum sales <= qty_of stocks ->
  exists stocks' sold', sell_all eps sales stocks sold = Ok (stocks', sold').
Proof.
  induction sales as [|q sales IH]; intros stocks sold He O P L; simpl; eauto.
  inversion P as [|? ? P1 P2]; subst. simpl in L.
  assert (0 <= qsum sales).
  { apply qsum_nonneg. eapply Forall_impl; [|exact P2]. simpl; intros; lra. }
  assert (exists m r, items_pop_tol stocks q eps = Ok (m, r)) as (m & r & E).
  { unfold items_pop_tol. destruct (Qltb (qty_of stocks + eps) q) eqn:E1.
    { apply Qltb_true in E1. lra. }
    destruct (Qle_bool (qty_of stocks) q) eqn:E2.
    - destruct (squash_nonempty stocks) as [m Hm].
      { intros ->. unfold qty_of in L; simpl in L. lra. }
      rewrite Hm. simpl. eauto.
    - apply pop_qty_ok; auto. lra. }
  rewrite E. simpl. pose proof (pop_tol_facts _ _ _ _ _ O (Qlt_le_weak _ _ P1) E)
    as (A1 & A2 & A3 & A4 & A5 & A6).
  apply IH; auto. rewrite A2, A1. rewrite Q.min_l by lra. lra.
Qed.

Lemma process_mat_ok eps cfg cap s : 0 <= eps -> mats_ok (ss_ready s) ->
  (sc_discrete cfg = true \/ 0 < cap) -> exists r, process_mat eps cfg cap s = Ok r.
Proof.
  intros He O D. unfold process_mat. destruct (ss_ready s) as [|m rd] eqn:Er; [eauto|].
  rewrite <- Er in *. cbv zeta. destruct (sc_discrete cfg) eqn:Ed.
  - destruct (Qeq_bool _ _); [simpl; eauto|].
    destruct (discrete_loop (m_qty m) (Qmin cap (qty_of (ss_ready s))) (ss_ready s) []) as [mv rest].
    simpl. eauto.
  - destruct D as [D|D]; [discriminate|].
    set (x := Qmin cap (qty_of (ss_ready s))).
    assert (X1 : x <= qty_of (ss_ready s)) by apply Q.le_min_r.
    assert (exists m r, items_pop_tol (ss_ready s) x eps = Ok (m, r)) as (m' & r & E).
    { unfold items_pop_tol. destruct (Qltb (qty_of (ss_ready s) + eps) x) eqn:E1.
      { apply Qltb_true in E1. lra. }
      destruct (Qle_bool (qty_of (ss_ready s)) x) eqn:E2.
      - destruct (squash_nonempty (ss_ready s)) as [m' Hm]. { rewrite Er; discriminate. }
        rewrite Hm. simpl. eauto.
      - apply Qle_bool_false in E2. assert (x == cap).
        { unfold x in *. destruct (Q.min_dec cap (qty_of (ss_ready s))) as [M|M]; [exact M|].
          rewrite M in E2. lra. }
        apply pop_qty_ok; auto. lra. }
    rewrite E. simpl. eauto.
Qed.

Lemma max_index_from_bound l : forall b bi i, (bi < i)%nat ->
  (max_index_from b bi i l < i + List.length l)%nat.
Proof.
  induction l as [|x l IH]; intros b bi i H; simpl; [lia|].
  destruct (Qltb b x); [specialize (IH x i (S i))|specialize (IH b bi (S i))]; lia.
Qed.
Lemma max_index_bound l : l <> [] -> (max_index l < List.length l)%nat.
Proof.
  destruct l as [|x l]; [congruence|]. intros _. simpl.
  pose proof (max_index_from_bound l x 0%nat 1%nat). lia.
Qed.
Lemma max_index_from_max l : forall b bi i pre, List.length pre = i ->
  nth_error pre bi = Some b -> (forall j y, nth_error pre j = Some y -> y <= b) ->
  (forall j y, (j < bi)%nat -> nth_error pre j = Some y -> y < b) ->
  exists v, nth_error (pre ++ l) (max_index_from b bi i l) = Some v /\
    (forall j y, nth_error (pre ++ l) j = Some y -> y <= v) /\
    (forall j y, (j < max_index_from b bi i l)%nat -> nth_error (pre ++ l) j = Some y -> y < v).
Proof.
  induction l as [|x l IH]; intros b bi i pre Hl Hb Hm Hf; simpl.
  - rewrite app_nil_r. eauto.
  - replace (pre ++ x :: l) with ((pre ++ [x]) ++ l) by (rewrite <- app_assoc; reflexivity).
    assert (Bi : (bi < List.length pre)%nat) by (apply nth_error_Some; congruence).
    destruct (Qltb b x) eqn:L.
    + apply Qltb_true in L. apply IH.
      * rewrite app_length. simpl. lia.
      * rewrite nth_error_app2 by lia. rewrite Hl, Nat.sub_diag. reflexivity.
      * intros j y Hj. destruct (Nat.lt_ge_cases j (List.length pre)).
        -- rewrite nth_error_app1 in Hj by auto. apply Hm in Hj. lra.
        -- rewrite nth_error_app2 in Hj by auto. destruct (j - List.length pre)%nat as [|[|?]]; simpl in Hj; try discriminate.
           injection Hj as <-. lra.
      * intros j y Hlt Hj. rewrite nth_error_app1 in Hj by lia. apply Hm in Hj. lra.
    + apply Qltb_false in L. apply IH.
      * rewrite app_length. simpl. lia.
      * rewrite nth_error_app1 by lia. auto.
      * intros j y Hj. destruct (Nat.lt_ge_cases j (List.length pre)).
        -- rewrite nth_error_app1 in Hj by auto. apply Hm in Hj. lra.
        -- rewrite nth_error_app2 in Hj by auto. destruct (j - List.length pre)%nat as [|[|?]]; simpl in Hj; try discriminate.
           injection Hj as <-. lra.
      * intros j y Hlt Hj. rewrite nth_error_app1 in Hj by lia. eapply Hf; eauto.
Qed.
(** std::max_element: the first position of a maximum. *)
Lemma max_index_max l : l <> [] -> exists v, nth_error l (max_index l) = Some v /\
  (forall j y, nth_error l j = Some y -> y <= v) /\
  (forall j y, (j < max_index l)%nat -> nth_error l j = Some y -> y < v).
Proof.
  destruct l as [|x l]; [congruence|]. intros _.
  apply (max_index_from_max l x 0%nat 1%nat [x]); auto.
  - intros [|[|j]] y Hj; simpl in Hj; try discriminate. injection Hj as <-. lra.
  - intros; lia.
Qed.

Lemma step_ok eps cfg es e s os : 0 <= eps -> st_cfg_ok cfg ->
  (sc_discrete cfg = true \/ 0 < sc_throughput cfg) -> st_history (es ++ [e]) ->
  st_run eps cfg st_empty es = Ok (s, os) ->
  Forall (fun q => 0 < q) (se_sales e) -> qsum (se_sales e) <= qty_of (ss_stocks s) ->
  exists s' o, st_step eps cfg s e = Ok (s', o).
Proof.
  intros He (C1 & C2 & C3) D H R P L. pose proof (history_prefix _ _ H) as Hp.
  destruct (history_inv _ _ _ _ _ Hp R) as (I1 & I2 & I3 & I4 & I5 & I6 & I7 & _).
  destruct H as (H1 & H2 & H3). rewrite map_app in H1. apply sorted_app_lt in H1.
  apply Forall_app in H2 as (_ & H2). inversion H2 as [|? ? H0 _]; subst.
  unfold arrivals in H3. rewrite flat_map_app, map_app in H3. apply Forall_app in H3 as (_ & H3).
  cbn [flat_map] in H3. rewrite app_nil_r, map_snd_pair in H3.
  assert (Lt : (last (map se_time es) (-1) < se_time e)%Z) by (apply last_lt; auto; lia).
  assert (O6 : mats_ok (all_released os ++ ss_ready s)).
  { eapply regroup_ok; [exact I6|]. apply mats_ok_filter, I4. }
  apply Forall_app in O6 as (Orel & Ordy).
  assert (O7 : mats_ok (all_sold os ++ ss_stocks s)) by (eapply regroup_ok; [exact I7|]; auto).
  apply Forall_app in O7 as (Osold & Ostk). set (t := last _ _) in *.
  assert (Hw : (t <= se_time e)%Z) by lia.
  pose proof (pending_weaken t (se_time e) _ _ Hw I5) as P5.
  unfold st_step, st_trade. destruct (sell_all_ok eps (se_sales e) (ss_stocks s) [] He Ostk P L)
    as (st1 & sold1 & E). rewrite E. simpl. rewrite fold_add. simpl.
  set (s1 := Build_st_state _ _ _ _ _).
  assert (P1 : pending (se_time e) (heldp (sc_residence cfg) t (arrivals es)) s1) by exact P5.
  rewrite (tock_eq eps cfg (se_time e) _ s1 H0 P1).
  destruct (process_mat_ok eps cfg (sc_throughput cfg)
     (st_mid (sc_residence cfg) (se_time e) (heldp (sc_residence cfg) t (arrivals es)) s1)) as ([s3 mv] & Em); auto.
  { unfold st_mid; simpl. apply Forall_app; split; auto. apply mats_ok_filter.
    rewrite map_app, map_snd_pair. apply Forall_app; split; [apply mats_ok_filter; auto|].
    rewrite I1. exact H3. }
  rewrite Em. simpl.
  destruct (vec_at_ok (sc_in_commods cfg) (max_index (sc_in_prefs cfg))) as (dn & Ed & _).
  { rewrite <- C1. apply max_index_bound. intro Z. rewrite Z in C1. destruct (sc_in_commods cfg); simpl in C1; congruence. }
  destruct (vec_at_ok (sc_out_commods cfg) 0) as (sn & Es & _). { rewrite C3. lia. }
  rewrite Ed. simpl. rewrite Es. simpl. eauto.
Qed.

(** ** The recorded time series *)
Lemma records eps cfg es e s os s' o : st_cfg_ok cfg -> st_history (es ++ [e]) ->
  st_run eps cfg st_empty es = Ok (s, os) -> st_step eps cfg s e = Ok (s', o) ->
  (exists i c p, nth_error (sc_in_commods cfg) i = Some c /\ nth_error (sc_in_prefs cfg) i = Some p /\
     (forall j p', nth_error (sc_in_prefs cfg) j = Some p' -> p' <= p) /\
     (forall j p', (j < i)%nat -> nth_error (sc_in_prefs cfg) j = Some p' -> p' < p) /\
     to_demand (so_tock o) = (("demand" ++ c)%string,
       Qmax 0 (sc_max_inv cfg - st_total s'))) /\
  (exists c, sc_out_commods cfg = [c] /\
     to_supply (so_tock o) = (("supply" ++ c)%string, qty_of (ss_stocks s'))).
Proof.
  intros (C1 & C2 & C3) H R K. unfold st_step in K.
  apply bind_ok in K as ((s1, sold) & T & K). apply bind_ok in K as ((s2, o') & TK & K).
  injection K as <- <-. unfold st_tock in TK. cbv zeta in TK.
  apply bind_ok in TK as (sm & _ & TK). apply bind_ok in TK as ((s3, mv) & _ & TK).
  apply bind_ok in TK as (dn & D & TK). apply bind_ok in TK as (sn & Sn & TK). injection TK as <- <-.
  simpl. apply vec_at_nth in D. apply vec_at_nth in Sn. split.
  - destruct (max_index_max (sc_in_prefs cfg)) as (v & V1 & V2 & V3).
    { intro Z. rewrite Z in C1. destruct (sc_in_commods cfg); simpl in C1; congruence. }
    exists (max_index (sc_in_prefs cfg)), dn, v. split; [auto|]. split; [auto|]. split; [auto|]. split; [auto|].
    reflexivity.
  - destruct (sc_out_commods cfg) as [|c [|? ?]]; try discriminate. simpl in Sn. injection Sn as <-.
    eauto.
Qed.

(** ** Start-up *)
Lemma all_ones (l : list string) prefs : List.length prefs = List.length l ->
  (forall x, In x prefs -> x = 1) -> map (fun _ => default_pref) l = prefs.
Proof.
  revert prefs; induction l as [|y l IH]; intros [|p prefs] L H; simpl in *; try discriminate; auto.
  rewrite (H p) by auto. unfold default_pref at 1. f_equal. apply IH; [lia|auto].
Qed.
Lemma enter_exact recipe package unit cfg p c prefs o :
  st_input_ok recipe package unit cfg p c prefs o <->
  exists en, st_enter recipe package unit cfg = Ok en /\ en_policy en = p /\ en_comp en = c /\
    en_prefs en = prefs /\ en_sells en = o /\ en_buys en = combine (sc_in_commods cfg) prefs /\
    en_throughput en = sc_throughput cfg /\ en_capacity en = sc_max_inv cfg /\
    List.length prefs = List.length (sc_in_commods cfg).
Proof.
  split.
  - intros (P & Rc & Pf & Pk & U & O). unfold st_enter.
    assert (E1 : (if (Qltb (sc_reorder_point cfg) 0 && Qle_bool (sc_cumulative_cap cfg) 0)%bool
     then Ok BuyActiveDormant
     else if Qltb 0 (sc_cumulative_cap cfg) then Ok (BuyCumulative (sc_cumulative_cap cfg))
     else if Qltb 0 (sc_reorder_quantity cfg) then
       if Qltb (sc_max_inv cfg) (sc_reorder_point cfg + sc_reorder_quantity cfg)
       then Throw ValueError
       else Ok (BuyRQ (sc_reorder_quantity cfg) (sc_reorder_point cfg))
     else Ok (BuySS (sc_max_inv cfg) (sc_reorder_point cfg))) = Ok p).
    { destruct (Qltb (sc_reorder_point cfg) 0) eqn:A; [apply Qltb_true in A|apply Qltb_false in A];
      (destruct (Qle_bool (sc_cumulative_cap cfg) 0) eqn:B; [apply Qle_bool_iff in B|apply Qle_bool_false in B]);
      (destruct (Qltb 0 (sc_cumulative_cap cfg)) eqn:C; [apply Qltb_true in C|apply Qltb_false in C]);
      (destruct (Qltb 0 (sc_reorder_quantity cfg)) eqn:D; [apply Qltb_true in D|apply Qltb_false in D]);
      (destruct (Qltb (sc_max_inv cfg) (sc_reorder_point cfg + sc_reorder_quantity cfg)) eqn:F;
        [apply Qltb_true in F|apply Qltb_false in F]);
      simpl; destruct P; try reflexivity; try lra. }
    rewrite E1. cbn [bind].
    assert (E2 : (if String.eqb (sc_in_recipe cfg) "" then Ok []
             else match recipe (sc_in_recipe cfg) with Some c => Ok c | None => Throw KeyError end) = Ok c).
    { destruct Rc as [[Rc ->]|[Rc R2]].
      - rewrite Rc. reflexivity.
      - destruct (String.eqb_spec (sc_in_recipe cfg) ""); [contradiction|]. rewrite R2. reflexivity. }
    rewrite E2. cbn [bind].
    assert (E3 : (if Nat.eqb (List.length (sc_in_prefs cfg)) 0
     then Ok (map (fun _ => default_pref) (sc_in_commods cfg))
     else if Nat.eqb (List.length (sc_in_prefs cfg)) (List.length (sc_in_commods cfg))
     then Ok (sc_in_prefs cfg) else Throw ValueError) = Ok prefs).
    { destruct Pf as [(F1 & F2 & F3)|(F1 & F2 & F3)].
      - rewrite F1. simpl. f_equal. apply all_ones; auto.
      - subst prefs. rewrite F3, Nat.eqb_refl. destruct (sc_in_prefs cfg); [congruence|].
        rewrite <- F3. reflexivity. }
    rewrite E3. cbn [bind]. cbv zeta. rewrite Pk, U, O. simpl. eexists. split; [reflexivity|]. simpl.
    repeat split; auto. destruct Pf as [(_ & F2 & _)|(_ & _ & F3)]; auto.
  - intros (en & E & <- & <- & <- & <- & _). unfold st_enter in E.
    apply bind_ok in E as (p & E1 & E). apply bind_ok in E as (c & E2 & E).
    apply bind_ok in E as (prefs & E3 & E). cbv zeta in E.
    destruct (package (sc_package cfg)) eqn:Pk; simpl in E; [|discriminate].
    destruct (unit (sc_transport_unit cfg)) eqn:U; simpl in E; [|discriminate].
    destruct (sc_out_commods cfg) as [|o [|? ?]] eqn:O; try discriminate. injection E as <-. simpl.
    split; [|split; [|split; [|auto]]].
    + destruct (Qltb (sc_reorder_point cfg) 0) eqn:A; [apply Qltb_true in A|apply Qltb_false in A];
      (destruct (Qle_bool (sc_cumulative_cap cfg) 0) eqn:B; [apply Qle_bool_iff in B|apply Qle_bool_false in B]);
      (destruct (Qltb 0 (sc_cumulative_cap cfg)) eqn:C; [apply Qltb_true in C|apply Qltb_false in C]);
      (destruct (Qltb 0 (sc_reorder_quantity cfg)) eqn:D; [apply Qltb_true in D|apply Qltb_false in D]);
      (destruct (Qltb (sc_max_inv cfg) (sc_reorder_point cfg + sc_reorder_quantity cfg)) eqn:F;
        [apply Qltb_true in F|apply Qltb_false in F]);
      simpl in E1; try discriminate; injection E1 as <-; try (constructor; auto; lra); try lra.
    + destruct (String.eqb_spec (sc_in_recipe cfg) "") as [K|K].
      * injection E2 as <-. auto.
      * destruct (recipe (sc_in_recipe cfg)) eqn:R; [|discriminate]. injection E2 as <-. auto.
    + destruct (sc_in_prefs cfg) as [|x l] eqn:L.
      * simpl in E3. injection E3 as <-. left. split; [auto|]. split; [apply map_length|].
        intros y Hy. apply in_map_iff in Hy as (? & <- & _). reflexivity.
      * right. simpl in E3. destruct (List.length (sc_in_commods cfg)) as [|k] eqn:N; [discriminate|].
        destruct (Nat.eqb_spec (List.length l) k); [|discriminate]. injection E3 as <-.
        split; [discriminate|]. split; [auto|]. simpl. lia.
Qed.
Lemma enter_never_ub recipe package unit cfg :
  (exists en, st_enter recipe package unit cfg = Ok en) \/
  (exists e, st_enter recipe package unit cfg = Throw e).
Proof.
  unfold st_enter.
  repeat match goal with
  | |- context [if ?b then _ else _] => destruct b; cbn [bind]; eauto
  | |- context [match recipe ?x with _ => _ end] => destruct (recipe x); cbn [bind]; eauto
  end.
  all: cbv zeta; destruct (package (sc_package cfg)); simpl; eauto; destruct (unit (sc_transport_unit cfg)); simpl; eauto;
    destruct (sc_out_commods cfg) as [|? [|? ?]]; eauto.
Qed.

(** ** Executable checks *)
Fixpoint increasingb (l : list Z) : bool :=
  match l with
  | [] => true
  | x :: l' => forallb (fun y => Z.ltb x y) l' && increasingb l'
  end.
Lemma increasingb_sound l : increasingb l = true -> StronglySorted Z.lt l.
Proof.
  induction l as [|x l IH]; simpl; intro H; constructor.
  - apply IH. apply andb_prop in H. tauto.
  - apply andb_prop in H as [H _]. rewrite forallb_forall in H. apply Forall_forall.
    intros y Hy. apply Z.ltb_lt; auto.
Qed.
Definition st_historyb (es : list st_env) : bool :=
  increasingb (map se_time es) && forallb (fun e => Z.leb 0 (se_time e)) es &&
  forallb mat_okb (map snd (arrivals es)).
Lemma st_historyb_sound es : st_historyb es = true -> st_history es.
Proof.
  unfold st_historyb. intro H. apply andb_prop in H as [H H3]. apply andb_prop in H as [H1 H2].
  split; [apply increasingb_sound; auto|]. split.
  - apply Forall_forall. intros e He. rewrite forallb_forall in H2. apply Z.leb_le; auto.
  - apply mats_okb_sound; auto.
Qed.
