(** Function-by-function lemmas and invariants for the Reactor model. *)
From Coq Require Import Lia Lqa Permutation.
From Verif Require Import Outcome KernelMaterial KernelResBuf KernelFacts ReactorModel ReactorSpec.
Local Open Scope Z_scope.

Section Proofs.
Variable eps : Q.
Variable recipe : string -> option comp.
Variable cfg : rx_cfg.
Hypothesis eps_nonneg : (0 <= eps)%Q.
Hypothesis Hcfg : config_consistent cfg.
Hypothesis Hknown : recipes_known recipe cfg.

Notation inv := (reactor_ok recipe cfg).

Lemma Ha : (0 < assem cfg)%Q. Proof. apply Hcfg. Qed.

(** The outcome of one fuel discharge recipe application. *)
Definition burn (s : rx_state) (m : mat) : mat :=
  match nth_error (outrecipes s) (idx_get (m_id m) (idx s)) with
  | Some r => match recipe r with Some c => transmute m c | None => m end
  | None => m
  end.

Lemma burn_id s m : m_id (burn s m) = m_id m.
Proof. unfold burn. destruct (nth_error _ _); auto. destruct (recipe s0); auto. Qed.
Lemma burn_qty s m : m_qty (burn s m) = m_qty m.
Proof. unfold burn. destruct (nth_error _ _); auto. destruct (recipe s0); auto. Qed.
Lemma burn_tag s m : tag (burn s m) = tag m.
Proof. unfold tag. rewrite burn_id, burn_qty. auto. Qed.

Lemma inv_ubufs s : inv s ->
  ubuf (n_fresh cfg) (assem cfg) (fresh s) /\ ubuf (n_core cfg) (assem cfg) (core s) /\
  ubuf (n_spent cfg) (assem cfg) (spent s).
Proof.
  intros [(L1 & L2 & L3) (C1 & C2 & C3) F _ _ _ _].
  unfold assemblies in F. apply Forall_app in F as [F1 F]. apply Forall_app in F as [F2 F3].
  repeat split; auto.
Qed.

Lemma inv_idx s m : inv s -> In m (assemblies s) ->
  (idx_get (m_id m) (idx s) < List.length (incommods cfg))%nat.
Proof. intros [] H. rewrite Forall_forall in *. auto. Qed.

Lemma outcommod_ok s m : (idx_get (m_id m) (idx s) < List.length (incommods cfg))%nat ->
  exists c, fuel_outcommod cfg s m = Ok c.
Proof.
  intro H. unfold fuel_outcommod.
  destruct (nth_error (outcommods cfg) _) eqn:E; eauto.
  apply nth_error_None in E. rewrite (cc_out _ Hcfg) in E. lia.
Qed.

Lemma outrecipe_ok s m : inv s -> In m (assemblies s) ->
  exists r c, fuel_outrecipe s m = Ok r /\ nth_error (outrecipes s) (idx_get (m_id m) (idx s)) = Some r /\
              recipe r = Some c /\ burn s m = transmute m c.
Proof.
  intros I H. pose proof (inv_idx _ _ I H) as L.
  unfold fuel_outrecipe, burn.
  destruct (nth_error (outrecipes s) _) eqn:E.
  - pose proof (ok_recipes _ _ _ I) as R. apply Forall_app in R as [_ R].
    rewrite Forall_forall in R. apply nth_error_In in E. apply R in E.
    destruct (recipe s0) eqn:E2; [|congruence]. eauto 10.
  - apply nth_error_None in E. destruct (ok_tables _ _ _ I) as (_ & T & _). lia.
Qed.

(** set_obj over a list with distinct ids *)
Lemma set_obj_notin m' l : ~ In (m_id m') (map m_id l) -> set_obj m' l = l.
Proof.
  induction l as [|x l IH]; simpl; intro H; auto.
  replace (m_id x =? m_id m') with false.
  - f_equal. apply IH. tauto.
  - symmetry. apply Z.eqb_neq. intro. apply H. auto.
Qed.

Lemma transmute_loop s old : forall pre rest,
  (forall m, In m old -> exists r c, fuel_outrecipe s m = Ok r /\ recipe r = Some c /\ burn s m = transmute m c) ->
  NoDup (map m_id (pre ++ old ++ rest)) ->
  loop (fun l m => let* r := fuel_outrecipe s m in let* c := get_recipe recipe r in
                   Ok (set_obj (transmute m c) l)) old (pre ++ old ++ rest)
  = Ok (pre ++ map (burn s) old ++ rest).
Proof.
  induction old as [|m old IH]; intros pre rest H ND; simpl; auto.
  destruct (H m) as (r & c & E1 & E2 & E3); simpl; auto.
  rewrite E1. unfold get_recipe at 1. simpl. rewrite E2. simpl. rewrite <- E3.
  assert (set_obj (burn s m) (pre ++ m :: old ++ rest) = pre ++ burn s m :: old ++ rest) as ->.
  { unfold set_obj. rewrite map_app. simpl.
    rewrite burn_id, Z.eqb_refl.
    rewrite map_app in ND. simpl in ND. apply NoDup_remove_2 in ND. rewrite in_app_iff in ND.
    rewrite <- (burn_id s m) in *.
    f_equal; [apply set_obj_notin; tauto|]. f_equal. apply set_obj_notin; tauto. }
  change (pre ++ burn s m :: old ++ rest) with (pre ++ [burn s m] ++ old ++ rest).
  rewrite app_assoc. rewrite IH.
  - rewrite <- app_assoc. reflexivity.
  - intros; apply H; simpl; auto.
  - rewrite <- app_assoc. simpl. rewrite map_app in *. simpl in *. rewrite burn_id. exact ND.
Qed.

Lemma NoDup_app_inv {A} (a b : list A) : NoDup (a ++ b) -> NoDup a /\ NoDup b /\ (forall x, In x a -> In x b -> False).
Proof.
  induction a as [|x a IH]; simpl; intro H; [repeat split; auto; constructor|].
  inversion H; subst. apply IH in H3 as (H3 & H4 & H5). rewrite in_app_iff in H2. repeat split; auto.
  - constructor; tauto.
  - intros y [->|Hy] Hb; eauto.
Qed.

Lemma inv_core_nodup s : inv s -> NoDup (map m_id (rb_items (core s))).
Proof.
  intros I. pose proof (ok_distinct _ _ _ I) as H. unfold assemblies in H.
  rewrite !map_app in H. apply NoDup_app_inv in H as (_ & H & _). apply NoDup_app_inv in H. tauto.
Qed.

(** Transmute: the first [k] parcels of the core change composition, in place. *)
Lemma transmute_core_spec s n : inv s -> 0 <= n ->
  let k := Z.min n (rb_count (core s)) in
  transmute_core eps recipe n s =
    Ok (upd_core s {| rb_cap := rb_cap (core s);
          rb_items := map (burn s) (firstn (Z.to_nat k) (rb_items (core s))) ++
                      skipn (Z.to_nat k) (rb_items (core s)) |}, [EvTransmute k]).
Proof.
  intros I Hn k. pose proof (zlen_nonneg (rb_items (core s))) as Hz.
  destruct (inv_ubufs s I) as (_ & U & _). pose proof U as (_ & UF & UL).
  assert (0 <= k <= rb_count (core s)) as Hk by (unfold k, rb_count in *; lia).
  unfold transmute_core. fold k. rewrite popn_ok by auto. cbn [bind].
  set (old := firstn (Z.to_nat k) (rb_items (core s))).
  set (rest := skipn (Z.to_nat k) (rb_items (core s))).
  assert (zlen old = k) as Lo by (apply zlen_firstn; exact Hk).
  assert (zlen rest = rb_count (core s) - k) as Lr by (apply zlen_skipn; exact Hk).
  assert (ubuf (n_core cfg) (assem cfg) {| rb_cap := rb_cap (core s); rb_items := rest |}) as U1
      by (apply ubuf_skipn; auto).
  destruct (ubuf_pushv eps _ _ _ old eps_nonneg Ha U1) as [P1 U2].
  { apply Forall_firstn; auto. }
  { unfold rb_count at 1. simpl. rewrite Lr, Lo. lia. }
  rewrite P1. cbn [bind rb_items rb_cap].
  assert (rb_count {| rb_cap := rb_cap (core s); rb_items := rest ++ old |} = rb_count (core s)) as C2.
  { unfold rb_count at 1. simpl. rewrite zlen_app, Lr, Lo. lia. }
  assert ((if zlen old <? rb_count {| rb_cap := rb_cap (core s); rb_items := rest ++ old |}
           then let* '(rest0, c') := rb_popn {| rb_cap := rb_cap (core s); rb_items := rest ++ old |}
                  (rb_count {| rb_cap := rb_cap (core s); rb_items := rest ++ old |} - zlen old) in
                rb_pushv eps c' rest0
           else Ok {| rb_cap := rb_cap (core s); rb_items := rest ++ old |})
          = Ok {| rb_cap := rb_cap (core s); rb_items := old ++ rest |}) as ->.
  { rewrite C2, Lo. destruct (k <? rb_count (core s)) eqn:E.
    - apply Z.ltb_lt in E.
      rewrite popn_ok by (rewrite C2; lia). cbn [bind rb_items rb_cap].
      assert (Z.to_nat (rb_count (core s) - k) = List.length rest) as -> by (unfold zlen in Lr; lia).
      rewrite firstn_app, skipn_app, firstn_all, skipn_all, Nat.sub_diag. simpl.
      rewrite app_nil_r.
      destruct (ubuf_pushv eps (n_core cfg) (assem cfg) {| rb_cap := rb_cap (core s); rb_items := old |} rest eps_nonneg Ha) as [P3 _].
      + repeat split; simpl; [apply U| apply Forall_firstn; auto |]. unfold rb_count; simpl. lia.
      + apply Forall_skipn; auto.
      + unfold rb_count at 1; simpl. lia.
      + exact P3.
    - apply Z.ltb_ge in E. assert (k = rb_count (core s)) by lia.
      assert (rest = []) as -> by (apply zlen_0; lia). rewrite app_nil_r. reflexivity. }
  cbn [bind rb_items rb_cap].
  change (old ++ rest) with ([] ++ old ++ rest).
  rewrite transmute_loop.
  - simpl. rewrite Lo. reflexivity.
  - intros m Hm. destruct (outrecipe_ok s m I) as (r & c & A & _ & B & C); eauto.
    unfold assemblies. rewrite !in_app_iff. right; left.
    unfold old in Hm. rewrite <- (firstn_skipn (Z.to_nat k)). apply in_or_app; auto.
  - simpl. unfold old, rest. rewrite firstn_skipn. apply inv_core_nodup; auto.
Qed.

(** ** Grouping by commodity *)
Definition group_by (cl : mat -> string) (ms : list mat) (mp : smap) : smap :=
  fold_left (fun mp m => smap_push (cl m) m mp) ms mp.

(** Commodity under which an assembly leaves (total version). *)
Definition ocommod (s : rx_state) (m : mat) : string :=
  match nth_error (outcommods cfg) (idx_get (m_id m) (idx s)) with Some c => c | None => EmptyString end.

Lemma ocommod_ok s m : (idx_get (m_id m) (idx s) < List.length (incommods cfg))%nat ->
  fuel_outcommod cfg s m = Ok (ocommod s m).
Proof.
  intro H. destruct (outcommod_ok s m H) as (c & E). unfold fuel_outcommod, ocommod in *.
  destruct (nth_error _ _); congruence.
Qed.

Lemma group_loop s ms : forall mp,
  Forall (fun m => (idx_get (m_id m) (idx s) < List.length (incommods cfg))%nat) ms ->
  loop (fun mp m => let* c := fuel_outcommod cfg s m in Ok (smap_push c m mp)) ms mp
  = Ok (group_by (ocommod s) ms mp).
Proof.
  induction ms as [|m ms IH]; intros mp H; simpl; auto.
  inversion H; subst. rewrite ocommod_ok by auto. simpl. apply IH; auto.
Qed.

Lemma upd_spent_same s : upd_spent s {| rb_cap := rb_cap (spent s); rb_items := rb_items (spent s) |} = s.
Proof. destruct s as [f c [sc si] ? ? ? ? ? ? ?]. reflexivity. Qed.

Lemma inv_spent_idx s : inv s ->
  Forall (fun m => (idx_get (m_id m) (idx s) < List.length (incommods cfg))%nat) (rb_items (spent s)).
Proof.
  intros I. pose proof (ok_index _ _ _ I) as H. unfold assemblies in H.
  apply Forall_app in H as [_ H]. apply Forall_app in H. tauto.
Qed.

Lemma repush_all N b : ubuf N (assem cfg) b ->
  rb_pushv eps {| rb_cap := rb_cap b; rb_items := [] |} (rb_items b) =
  Ok {| rb_cap := rb_cap b; rb_items := rb_items b |}.
Proof.
  intros (C & F & L). unfold rb_count in L.
  destruct (ubuf_pushv eps N (assem cfg) {| rb_cap := rb_cap b; rb_items := [] |} (rb_items b) eps_nonneg Ha) as [P _]; auto.
  repeat split; simpl; auto. unfold rb_count; simpl. pose proof (zlen_nonneg (rb_items b)). rewrite zlen_nil. lia.
Qed.

Lemma peek_spent_spec s :
  ubuf (n_spent cfg) (assem cfg) (spent s) ->
  Forall (fun m => (idx_get (m_id m) (idx s) < List.length (incommods cfg))%nat) (rb_items (spent s)) ->
  peek_spent eps cfg s = Ok (group_by (ocommod s) (rb_items (spent s)) [], s).
Proof.
  intros U F. unfold peek_spent. rewrite popn_all. cbn [bind].
  rewrite (repush_all _ _ U). cbn [bind]. rewrite upd_spent_same.
  rewrite group_loop by auto. reflexivity.
Qed.

(** Events of a successful discharge besides the discharge itself. *)
Definition supply_events (s : rx_state) : list event :=
  map (fun c => EvSupply c (qty_of (smap_get c (group_by (ocommod s) (rb_items (spent s)) [])))) (outcommods cfg).

Lemma supply_loop s (l : list string) : forall acc,
  ubuf (n_spent cfg) (assem cfg) (spent s) ->
  Forall (fun m => (idx_get (m_id m) (idx s) < List.length (incommods cfg))%nat) (rb_items (spent s)) ->
  loop (fun st c =>
        let* '(mp, s') := peek_spent eps cfg (fst st) in
        Ok (s', snd st ++ [EvSupply c (qty_of (smap_get c mp))])) l (s, acc)
  = Ok (s, acc ++ map (fun c => EvSupply c (qty_of (smap_get c (group_by (ocommod s) (rb_items (spent s)) [])))) l).
Proof.
  induction l as [|c l IH]; intros acc U F; simpl.
  - rewrite app_nil_r. auto.
  - rewrite peek_spent_spec by auto. cbn [bind fst snd]. rewrite IH by auto.
    rewrite <- app_assoc. reflexivity.
Qed.

Definition discharged_state (s : rx_state) (k : Z) : rx_state :=
  upd_spent (upd_core s {| rb_cap := rb_cap (core s); rb_items := skipn (Z.to_nat k) (rb_items (core s)) |})
            {| rb_cap := rb_cap (spent s); rb_items := rb_items (spent s) ++ firstn (Z.to_nat k) (rb_items (core s)) |}.

Lemma discharge_spec s : inv s ->
  let k := Z.min (n_batch cfg) (rb_count (core s)) in
  discharge eps cfg s =
    if n_spent cfg - rb_count (spent s) <? k then Ok (s, [EvDischargeFailed], false)
    else Ok (discharged_state s k, EvDischarge k :: supply_events (discharged_state s k), true).
Proof.
  intros I k. unfold discharge. fold k.
  destruct (n_spent cfg - rb_count (spent s) <? k) eqn:E; auto. apply Z.ltb_ge in E.
  destruct (inv_ubufs s I) as (_ & U & V). pose proof U as (_ & UF & UL).
  pose proof (cc_batch _ Hcfg). pose proof (zlen_nonneg (rb_items (core s))).
  assert (0 <= k <= rb_count (core s)) as Hk by (unfold k, rb_count in *; lia).
  rewrite popn_ok by auto. cbn [bind].
  destruct (ubuf_pushv eps _ _ _ (firstn (Z.to_nat k) (rb_items (core s))) eps_nonneg Ha V) as [P1 U2].
  { apply Forall_firstn; auto. }
  { rewrite zlen_firstn by exact Hk. lia. }
  rewrite P1. cbn [bind].
  change (upd_spent (upd_core s _) _) with (discharged_state s k).
  rewrite supply_loop.
  - reflexivity.
  - exact U2.
  - simpl. apply Forall_app. split; [apply inv_spent_idx; auto|].
    apply Forall_firstn. pose proof (ok_index _ _ _ I) as H1. unfold assemblies in H1.
    apply Forall_app in H1 as [_ H1]. apply Forall_app in H1. tauto.
Qed.

(** ** Invariant preservation when assemblies are only moved around *)
Lemma inv_move s s' :
  inv s ->
  ubuf (n_fresh cfg) (assem cfg) (fresh s') -> ubuf (n_core cfg) (assem cfg) (core s') ->
  ubuf (n_spent cfg) (assem cfg) (spent s') ->
  Permutation (map tag (assemblies s)) (map tag (assemblies s')) ->
  List.length (inrecipes s') = List.length (incommods cfg) ->
  List.length (outrecipes s') = List.length (incommods cfg) ->
  List.length (prefs s') = List.length (incommods cfg) ->
  Forall (fun r => recipe r <> None) (inrecipes s' ++ outrecipes s') ->
  idx s' = idx s -> inv s'.
Proof.
  intros I (C1 & F1 & L1) (C2 & F2 & L2) (C3 & F3 & L3) P T1 T2 T3 R E.
  assert (Permutation (map m_id (assemblies s)) (map m_id (assemblies s'))) as P'.
  { apply (Permutation_map fst) in P. rewrite !map_map in P. exact P. }
  constructor; auto.
  - repeat split; auto.
  - unfold assemblies. rewrite !Forall_app. auto.
  - eapply Permutation_NoDup; [exact P'|]. apply I.
  - rewrite E. pose proof (ok_index _ _ _ I) as H. rewrite Forall_forall in *.
    intros m Hm. assert (In (m_id m) (map m_id (assemblies s'))) as Hi by (apply in_map; auto).
    eapply Permutation_in in Hi; [|apply Permutation_sym; exact P'].
    apply in_map_iff in Hi as (m' & Em & Hm'). rewrite <- Em. auto.
Qed.

Lemma map_tag_burn s l : map tag (map (burn s) l) = map tag l.
Proof. rewrite map_map. apply map_ext. intro. apply burn_tag. Qed.

Lemma ubuf_transmuted s k : ubuf (n_core cfg) (assem cfg) (core s) ->
  ubuf (n_core cfg) (assem cfg) {| rb_cap := rb_cap (core s);
          rb_items := map (burn s) (firstn k (rb_items (core s))) ++ skipn k (rb_items (core s)) |}.
Proof.
  intros (C & F & L). repeat split; simpl; auto.
  - rewrite Forall_app. split; [|apply Forall_skipn; auto].
    rewrite Forall_map. rewrite Forall_forall. intros m Hm. rewrite burn_qty.
    rewrite Forall_forall in F. apply F. rewrite <- (firstn_skipn k). apply in_or_app; auto.
  - unfold rb_count in *; simpl. unfold zlen in *. rewrite app_length, map_length, <- app_length, firstn_skipn. auto.
Qed.

Lemma inv_transmute s k : inv s ->
  let s' := upd_core s {| rb_cap := rb_cap (core s);
          rb_items := map (burn s) (firstn k (rb_items (core s))) ++ skipn k (rb_items (core s)) |} in
  inv s' /\ Permutation (map tag (assemblies s)) (map tag (assemblies s')).
Proof.
  intros I s'.
  assert (Permutation (map tag (assemblies s)) (map tag (assemblies s'))) as P.
  { unfold assemblies, s'; simpl. rewrite !map_app, map_tag_burn.
    rewrite <- (map_app tag (firstn k _)), firstn_skipn. reflexivity. }
  split; auto. destruct (inv_ubufs s I) as (A & B & C).
  destruct (ok_tables _ _ _ I) as (T1 & T2 & T3).
  eapply inv_move; eauto; simpl; auto.
  - apply ubuf_transmuted; auto.
  - apply I.
Qed.

Lemma inv_discharged s k : inv s -> 0 <= k <= rb_count (core s) -> rb_count (spent s) + k <= n_spent cfg ->
  inv (discharged_state s k) /\ Permutation (map tag (assemblies s)) (map tag (assemblies (discharged_state s k))).
Proof.
  intros I Hk Hs.
  assert (Permutation (map tag (assemblies s)) (map tag (assemblies (discharged_state s k)))) as P.
  { apply Permutation_map. unfold assemblies, discharged_state; simpl. apply Permutation_app_head.
    rewrite <- (firstn_skipn (Z.to_nat k) (rb_items (core s))) at 1.
    rewrite (Permutation_app_comm (firstn _ _) (skipn _ _)), <- app_assoc.
    apply Permutation_app_head. apply Permutation_app_comm. }
  split; auto. destruct (inv_ubufs s I) as (A & B & C).
  destruct (ok_tables _ _ _ I) as (T1 & T2 & T3).
  eapply inv_move; eauto; simpl; auto.
  - apply ubuf_skipn; auto.
  - destruct C as (C1 & C2 & C3). repeat split; simpl; auto.
    + apply Forall_app. split; auto. apply Forall_firstn. apply B.
    + unfold rb_count in *; simpl. rewrite zlen_app, zlen_firstn; auto.
  - apply I.
Qed.

Definition loaded_state (s : rx_state) (n : Z) : rx_state :=
  upd_fresh (upd_core s {| rb_cap := rb_cap (core s);
                           rb_items := rb_items (core s) ++ firstn (Z.to_nat n) (rb_items (fresh s)) |})
            {| rb_cap := rb_cap (fresh s); rb_items := skipn (Z.to_nat n) (rb_items (fresh s)) |}.

Lemma loaded_state_0 s : loaded_state s 0 = s.
Proof.
  unfold loaded_state. simpl. destruct s as [[fc fi] [cc ci] ? ? ? ? ? ? ? ?]. simpl. rewrite app_nil_r. reflexivity.
Qed.

Lemma load_spec s : inv s ->
  let n := Z.min (n_core cfg - rb_count (core s)) (rb_count (fresh s)) in
  load eps cfg s = Ok (loaded_state s n, if n =? 0 then [] else [EvLoad n]) /\
  0 <= n <= rb_count (fresh s) /\ rb_count (core s) + n <= n_core cfg.
Proof.
  intros I n. destruct (inv_ubufs s I) as (A & B & C).
  pose proof A as (_ & A2 & A3). pose proof B as (_ & B2 & B3).
  pose proof (zlen_nonneg (rb_items (fresh s))).
  assert (0 <= n <= rb_count (fresh s) /\ rb_count (core s) + n <= n_core cfg) as Hn
      by (unfold n, rb_count in *; lia).
  split; auto. unfold load. fold n. destruct (n =? 0) eqn:E.
  - apply Z.eqb_eq in E. rewrite E, loaded_state_0. reflexivity.
  - rewrite popn_ok by tauto. cbn [bind].
    destruct (ubuf_pushv eps _ _ _ (firstn (Z.to_nat n) (rb_items (fresh s))) eps_nonneg Ha B) as [P1 U2].
    { apply Forall_firstn; auto. }
    { rewrite zlen_firstn by tauto. lia. }
    rewrite P1. reflexivity.
Qed.

Lemma inv_loaded s n : inv s -> 0 <= n <= rb_count (fresh s) -> rb_count (core s) + n <= n_core cfg ->
  inv (loaded_state s n) /\ Permutation (map tag (assemblies s)) (map tag (assemblies (loaded_state s n))).
Proof.
  intros I Hk Hs.
  assert (Permutation (map tag (assemblies s)) (map tag (assemblies (loaded_state s n)))) as P.
  { apply Permutation_map. unfold assemblies, loaded_state; simpl.
    rewrite <- (firstn_skipn (Z.to_nat n) (rb_items (fresh s))) at 1.
    rewrite (Permutation_app_comm (firstn _ _) (skipn _ _)), <- !app_assoc.
    apply Permutation_app_head. apply Permutation_app_swap_app. }
  split; auto. destruct (inv_ubufs s I) as (A & B & C).
  destruct (ok_tables _ _ _ I) as (T1 & T2 & T3).
  eapply inv_move; eauto; simpl; auto.
  - apply ubuf_skipn; auto.
  - destruct B as (C1 & C2 & C3). repeat split; simpl; auto.
    + apply Forall_app. split; auto. apply Forall_firstn. apply A.
    + unfold rb_count in *; simpl. rewrite zlen_app, zlen_firstn; auto.
  - apply I.
Qed.

(** ** Scheduled changes *)
Lemma find_commod_spec c l : forall i,
  match find_commod c l i with
  | Some j => (i <= j < i + List.length l)%nat /\ nth_error l (j - i) = Some c /\
              (forall k, (k < j - i)%nat -> nth_error l k <> Some c)
  | None => ~ In c l
  end.
Proof.
  induction l as [|x l IH]; intro i; simpl; auto.
  destruct (String.eqb x c) eqn:E.
  - apply String.eqb_eq in E. subst. rewrite Nat.sub_diag. simpl. repeat split; auto; try lia; intros; lia.
  - apply String.eqb_neq in E. specialize (IH (S i)). destruct (find_commod c l (S i)).
    + destruct IH as (H1 & H2 & H3). repeat split; try lia.
      * replace (n - i)%nat with (S (n - S i)) by lia. exact H2.
      * intros [|k] Hk; simpl; [congruence|]. apply H3. lia.
    + intros [->|H]; auto.
Qed.

(** States that differ only in the fuel tables. *)
Definition same_but_tables (s s' : rx_state) : Prop :=
  fresh s' = fresh s /\ core s' = core s /\ spent s' = spent s /\ cyc s' = cyc s /\ disch s' = disch s /\
  idx s' = idx s /\ hybrid s' = hybrid s.

Lemma sbt_trans a b c : same_but_tables a b -> same_but_tables b c -> same_but_tables a c.
Proof. unfold same_but_tables. intuition congruence. Qed.

Lemma sbt_inv s s' : inv s -> same_but_tables s s' ->
  List.length (inrecipes s') = List.length (incommods cfg) ->
  List.length (outrecipes s') = List.length (incommods cfg) ->
  List.length (prefs s') = List.length (incommods cfg) ->
  Forall (fun r => recipe r <> None) (inrecipes s' ++ outrecipes s') -> inv s'.
Proof.
  intros I (E1 & E2 & E3 & E4 & E5 & E6 & E7) ? ? ? ?. destruct (inv_ubufs s I) as (A & B & C).
  eapply inv_move; eauto; try congruence.
  unfold assemblies. rewrite E1, E2, E3. reflexivity.
Qed.

Lemma pref_change_ok t s i : inv s -> (i < List.length (pc_times cfg))%nat ->
  exists s', pref_change cfg t s i = Ok s' /\ inv s' /\ same_but_tables s s'.
Proof.
  intros I Hi. unfold pref_change.
  destruct (vec_at_ok (pc_times cfg) i Hi) as (ct & -> & _). cbn [bind].
  destruct (negb (t =? ct)).
  { exists s. repeat split; auto; apply I. }
  destruct (vec_at_ok (pc_commods cfg) i) as (c & -> & _); [rewrite (cc_pc1 _ Hcfg); auto|]. cbn [bind].
  pose proof (find_commod_spec c (incommods cfg) 0) as F.
  destruct (find_commod c (incommods cfg) 0) as [j|].
  2: { exists s. repeat split; auto; apply I. }
  destruct (vec_at_ok (pc_vals cfg) i) as (v & -> & _); [rewrite (cc_pc2 _ Hcfg); auto|]. cbn [bind].
  destruct (ok_tables _ _ _ I) as (T1 & T2 & T3).
  destruct (vec_set_ok (prefs s) j v) as (p & -> & L & _ & _ & _); [lia|]. cbn [bind].
  eexists; split; [reflexivity|].
  assert (same_but_tables s (upd_prefs s p)) as S by (repeat split).
  split; auto. eapply sbt_inv; eauto; simpl; try congruence. apply I.
Qed.

Lemma recipe_change_ok t s i : inv s -> (i < List.length (rc_times cfg))%nat ->
  exists s', recipe_change cfg t s i = Ok s' /\ inv s' /\ same_but_tables s s'.
Proof.
  intros I Hi. unfold recipe_change.
  destruct (vec_at_ok (rc_times cfg) i Hi) as (ct & -> & _). cbn [bind].
  destruct (negb (t =? ct)).
  { exists s. repeat split; auto; apply I. }
  destruct (vec_at_ok (rc_commods cfg) i) as (c & -> & _); [rewrite (cc_rc1 _ Hcfg); auto|]. cbn [bind].
  pose proof (find_commod_spec c (incommods cfg) 0) as F.
  destruct (find_commod c (incommods cfg) 0) as [j|].
  2: { exists s. repeat split; auto; apply I. }
  destruct (ok_tables _ _ _ I) as (T1 & T2 & T3).
  pose proof Hknown as K. unfold recipes_known in K. apply Forall_app in K as [K1 K2].
  pose proof (ok_recipes _ _ _ I) as R. apply Forall_app in R as [R1 R2].
  destruct (vec_at_ok (rc_in cfg) i) as (v & -> & N1); [rewrite (cc_rc2 _ Hcfg); auto|]. cbn [bind].
  destruct (vec_set_ok (inrecipes s) j v) as (p & -> & L & _ & _ & FI); [lia|]. cbn [bind].
  destruct (vec_at_ok (rc_out cfg) i) as (v' & -> & N2); [rewrite (cc_rc3 _ Hcfg); auto|]. cbn [bind].
  destruct (vec_set_ok (outrecipes s) j v') as (p' & -> & L' & _ & _ & FO); [lia|]. cbn [bind].
  eexists; split; [reflexivity|].
  assert (same_but_tables s (upd_recipes s p p')) as S by (repeat split).
  split; auto. eapply sbt_inv; eauto; simpl; try congruence.
  apply Forall_app. split.
  - apply FI; auto. rewrite Forall_forall in K1. apply K1. eapply nth_error_In; eauto.
  - apply FO; auto. rewrite Forall_forall in K2. apply K2. eapply nth_error_In; eauto.
Qed.

Lemma apply_changes_ok t s : inv s ->
  exists s', apply_changes cfg t s = Ok s' /\ inv s' /\ same_but_tables s s'.
Proof.
  intro I. unfold apply_changes.
  destruct (loop_inv (pref_change cfg t) (fun s' => inv s' /\ same_but_tables s s')
              (seq 0 (List.length (pc_times cfg))) s) as (s1 & E1 & I1 & S1).
  - split; auto. repeat split.
  - intros s0 i Hi (I0 & S0). apply in_seq in Hi.
    destruct (pref_change_ok t s0 i I0) as (s' & E & I' & S'); [lia|].
    exists s'. split; auto. split; auto. eapply sbt_trans; eauto.
  - rewrite E1. cbn [bind].
    destruct (loop_inv (recipe_change cfg t) (fun s' => inv s' /\ same_but_tables s s')
                (seq 0 (List.length (rc_times cfg))) s1) as (s2 & E2 & I2 & S2); auto.
    + intros s0 i Hi (I0 & S0). apply in_seq in Hi.
      destruct (recipe_change_ok t s0 i I0) as (s' & E & I' & S'); [lia|].
      exists s'. split; auto. split; auto. eapply sbt_trans; eauto.
    + eauto.
Qed.

(** ** Retirement loops *)
Definition moves (s s' : rx_state) : Prop :=
  Permutation (map tag (assemblies s)) (map tag (assemblies s')).
Lemma moves_refl s : moves s s. Proof. unfold moves. reflexivity. Qed.
Lemma moves_trans a b c : moves a b -> moves b c -> moves a c.
Proof. unfold moves. intros. etransitivity; eauto. Qed.

(** The tables, cycle counter and index are untouched. *)
Definition same_rest (s s' : rx_state) : Prop :=
  inrecipes s' = inrecipes s /\ outrecipes s' = outrecipes s /\ prefs s' = prefs s /\
  cyc s' = cyc s /\ disch s' = disch s /\ idx s' = idx s /\ hybrid s' = hybrid s.
Lemma same_rest_refl s : same_rest s s. Proof. repeat split. Qed.
Lemma same_rest_trans a b c : same_rest a b -> same_rest b c -> same_rest a c.
Proof. unfold same_rest. intuition congruence. Qed.

Lemma drain_core_ok fuel : forall s, inv s -> (List.length (rb_items (core s)) < fuel)%nat ->
  exists s' ev, drain_core eps cfg fuel s = Ok (s', ev) /\ inv s' /\ moves s s' /\ same_rest s s' /\
    fresh s' = fresh s /\
    (exists n, 0 <= n <= rb_count (core s) /\
       rb_items (core s') = skipn (Z.to_nat n) (rb_items (core s)) /\
       rb_items (spent s') = rb_items (spent s) ++ firstn (Z.to_nat n) (rb_items (core s)) /\
       ((exists q, n = q * n_batch cfg) \/ n = rb_count (core s))) /\
    (rb_count (core s') = 0 \/ n_spent cfg - rb_count (spent s') < Z.min (n_batch cfg) (rb_count (core s'))).
Proof.
  induction fuel as [|fuel IH]; intros s I Hf; [lia|].
  simpl. pose proof (zlen_nonneg (rb_items (core s))) as Hz.
  destruct (0 <? rb_count (core s)) eqn:E.
  - apply Z.ltb_lt in E. rewrite discharge_spec by auto. cbn zeta.
    set (k := Z.min (n_batch cfg) (rb_count (core s))).
    pose proof (cc_batch _ Hcfg) as Hb.
    assert (1 <= k <= rb_count (core s)) as Hk by (unfold k; lia).
    destruct (n_spent cfg - rb_count (spent s) <? k) eqn:E2.
    + apply Z.ltb_lt in E2. cbn [bind]. exists s, [EvDischargeFailed].
      repeat split; auto; try apply I; try apply moves_refl.
      exists 0. simpl. rewrite app_nil_r. repeat split; try lia; auto. left; exists 0; lia.
    + apply Z.ltb_ge in E2. cbn [bind].
      destruct (inv_discharged s k I) as [I1 M1]; [lia|lia|].
      destruct (IH (discharged_state s k) I1) as (s' & ev & E3 & I' & M' & R' & F' & (n & Hn & HC & HS & HQ) & T').
      { simpl. rewrite skipn_length. unfold rb_count, zlen in *. lia. }
      rewrite E3. cbn [bind]. eexists _, _. split; [reflexivity|].
      split; [exact I'|]. split; [eapply moves_trans; eauto|].
      split; [eapply same_rest_trans; [|exact R']; repeat split|].
      split; [exact F'|]. split; [|exact T'].
      exists (k + n). unfold rb_count in Hn, HQ. simpl in Hn, HC, HS, HQ.
      rewrite zlen_skipn in Hn, HQ by (unfold rb_count in *; lia).
      fold (rb_count (core s)) in Hn, HQ. split; [lia|].
      rewrite Z2Nat.inj_add by lia. split; [|split].
      * rewrite HC. apply skipn_skipn.
      * rewrite HS, <- app_assoc. f_equal.
        rewrite <- (firstn_skipn (Z.to_nat k) (rb_items (core s))) at 3.
        assert (List.length (firstn (Z.to_nat k) (rb_items (core s))) = Z.to_nat k) as L
            by (rewrite firstn_length; unfold rb_count, zlen in *; lia).
        rewrite <- L at 3. rewrite firstn_app_2. reflexivity.
      * destruct HQ as [(q & ->)|HQ]; [|right; lia].
        destruct (Z.le_gt_cases (n_batch cfg) (rb_count (core s))).
        -- left. exists (1 + q). unfold k. lia.
        -- right. unfold k in *. nia.
  - apply Z.ltb_ge in E. unfold rb_count in *.
    exists s, []. repeat split; auto; try apply I; try apply moves_refl.
    + exists 0. simpl. rewrite app_nil_r. repeat split; try lia; auto.
    + left. lia.
Qed.

Lemma inv_push_spent_fresh s m f : inv s -> rb_items (fresh s) = m :: f -> rb_count (spent s) < n_spent cfg ->
  let s' := upd_spent (upd_fresh s {| rb_cap := rb_cap (fresh s); rb_items := f |})
              {| rb_cap := rb_cap (spent s); rb_items := rb_items (spent s) ++ [m] |} in
  inv s' /\ moves s s'.
Proof.
  intros I Ef L s'. destruct (inv_ubufs s I) as (A & B & C).
  assert (moves s s') as M.
  { unfold moves. apply Permutation_map. unfold assemblies, s'; simpl. rewrite Ef.
    simpl. transitivity ((f ++ rb_items (core s) ++ rb_items (spent s)) ++ [m]);
      [apply Permutation_cons_append | rewrite <- !app_assoc; reflexivity]. }
  split; auto. destruct (ok_tables _ _ _ I) as (T1 & T2 & T3).
  pose proof A as (A1 & A2 & A3). rewrite Ef in A2.
  eapply inv_move; eauto; simpl; auto.
  - repeat split; simpl; auto.
    + inversion A2; auto.
    + unfold rb_count in *; simpl. rewrite Ef in A3. rewrite zlen_cons in A3. lia.
  - destruct C as (C1 & C2 & C3). repeat split; simpl; auto.
    + apply Forall_app. split; auto. constructor; auto. inversion A2; auto.
    + unfold rb_count in *; simpl. rewrite zlen_app. unfold zlen at 2; simpl. lia.
  - apply I.
Qed.

Lemma space_ge s : inv s -> (Qle_bool (assem cfg) (rb_space (spent s)) = true <-> rb_count (spent s) < n_spent cfg).
Proof.
  intro I. destruct (inv_ubufs s I) as (_ & _ & C). pose proof Ha as A.
  rewrite Qle_bool_iff, (ubuf_space _ _ _ A C). split; intro H.
  - destruct (Z_lt_le_dec (rb_count (spent s)) (n_spent cfg)) as [L|L]; auto.
    assert (n_spent cfg - rb_count (spent s) <= 0) as L' by lia. rewrite Zle_Qle in L'.
    change (inject_Z 0) with 0%Q in L'. nra.
  - assert (1 <= n_spent cfg - rb_count (spent s)) as L' by lia. rewrite Zle_Qle in L'.
    change (inject_Z 1) with 1%Q in L'. nra.
Qed.

Lemma drain_fresh_ok fuel : forall s, inv s -> (List.length (rb_items (fresh s)) < fuel)%nat ->
  exists s', drain_fresh eps cfg fuel s = Ok s' /\ inv s' /\ moves s s' /\ same_rest s s' /\ core s' = core s /\
    (rb_count (fresh s') = 0 \/ rb_count (spent s') = n_spent cfg) /\
    (exists n, 0 <= n <= rb_count (fresh s) /\
       rb_items (fresh s') = skipn (Z.to_nat n) (rb_items (fresh s)) /\
       rb_items (spent s') = rb_items (spent s) ++ firstn (Z.to_nat n) (rb_items (fresh s))).
Proof.
  induction fuel as [|fuel IH]; intros s I Hf; [lia|].
  cbn [drain_fresh]. pose proof (zlen_nonneg (rb_items (fresh s))) as Hz.
  destruct (inv_ubufs s I) as (A & B & C).
  destruct (0 <? rb_count (fresh s)) eqn:E; cbn [andb].
  - apply Z.ltb_lt in E.
    destruct (Qle_bool (assem cfg) (rb_space (spent s))) eqn:E2.
    + apply space_ge in E2; auto.
      destruct (rb_items (fresh s)) as [|m f] eqn:Ef; [unfold rb_count in E; rewrite Ef in E; unfold zlen in E; simpl in E; lia|].
      unfold rb_pop. rewrite Ef. cbn [bind].
      destruct (ubuf_push eps _ _ _ m eps_nonneg Ha C) as [P1 U2]; auto.
      { destruct A as (_ & A2 & _). rewrite Ef in A2. inversion A2; auto. }
      rewrite P1. cbn [bind].
      destruct (inv_push_spent_fresh s m f I Ef E2) as [I1 M1].
      simpl in I1, M1.
      change (upd_spent (upd_fresh s {| rb_cap := rb_cap (fresh s); rb_items := f |})
              {| rb_cap := rb_cap (spent s); rb_items := rb_items (spent s) ++ [m] |})
        with (upd_spent (upd_fresh s {| rb_cap := rb_cap (fresh s); rb_items := f |})
              {| rb_cap := rb_cap (spent s); rb_items := rb_items (spent s) ++ [m] |}) in *.
      destruct (IH _ I1) as (s' & E3 & I' & M' & R' & F' & D' & (n & Hn & HC & HS)); [simpl in *; lia|].
      exists s'. split; [exact E3|]. split; [exact I'|]. split; [eapply moves_trans; eauto|].
      split; [eapply same_rest_trans; [|exact R']; repeat split|]. split; [exact F'|]. split; [exact D'|].
      exists (1 + n). unfold rb_count in *. simpl in Hn, HC, HS. rewrite Ef, zlen_cons. split; [lia|].
      rewrite Z2Nat.inj_add by lia. simpl. split; auto. rewrite HS, <- app_assoc. reflexivity.
    + exists s. repeat split; auto; try apply I; try apply moves_refl.
      * right. destruct C as (_ & _ & C3).
        destruct (Z.eq_dec (rb_count (spent s)) (n_spent cfg)); auto. exfalso.
        assert (rb_count (spent s) < n_spent cfg) as L by lia. apply space_ge in L; auto. congruence.
      * exists 0. simpl. rewrite app_nil_r. unfold rb_count in *. repeat split; try lia; auto.
  - apply Z.ltb_ge in E. unfold rb_count in *.
    exists s. repeat split; auto; try apply I; try apply moves_refl.
    + left. lia.
    + exists 0. simpl. rewrite app_nil_r. repeat split; try lia; auto.
Qed.

Lemma half_up_nonneg n : 0 <= n -> 0 <= half_up n.
Proof. intro. unfold half_up. assert (- n / 2 <= 0) by (apply Z.div_le_upper_bound; lia). lia. Qed.

Lemma tick_retired_ok t s : inv s ->
  exists s' ev, tick_retired eps recipe cfg t s = Ok (s', ev) /\ inv s' /\ moves s s' /\ same_rest s s'.
Proof.
  intro I. unfold tick_retired.
  set (n := if decom_all cfg then n_core cfg else half_up (n_core cfg)).
  assert (0 <= n) as Hn by (unfold n; destruct (decom_all cfg); [apply Hcfg | apply half_up_nonneg, Hcfg]).
  assert (exists s1 e1, (if t =? exit_t cfg + 1 then transmute_core eps recipe n s else Ok (s, [])) = Ok (s1, e1)
           /\ inv s1 /\ moves s s1 /\ same_rest s s1) as (s1 & e1 & E1 & I1 & M1 & R1).
  { destruct (t =? exit_t cfg + 1).
    - rewrite transmute_core_spec by auto. eexists _, _. split; [reflexivity|].
      destruct (inv_transmute s (Z.to_nat (Z.min n (rb_count (core s)))) I). repeat split; auto; apply H.
    - exists s, []. repeat split; auto; try apply I; apply moves_refl. }
  rewrite E1. cbn [bind].
  destruct (drain_core_ok (S (List.length (rb_items (core s1)))) s1 I1) as (s2 & e2 & E2 & I2 & M2 & R2 & _); [lia|].
  rewrite E2. cbn [bind].
  destruct (drain_fresh_ok (S (List.length (rb_items (fresh s2)))) s2 I2) as (s3 & E3 & I3 & M3 & R3 & _); [lia|].
  rewrite E3. cbn [bind]. eexists _, _. split; [reflexivity|]. split; auto. split.
  - eapply moves_trans; [eapply moves_trans; eauto|]; auto.
  - eapply same_rest_trans; [eapply same_rest_trans; eauto|]; auto.
Qed.

(** inv does not depend on cycle_step / discharged *)
Lemma inv_cyc s c d : inv s -> inv (upd_cyc s c d).
Proof. intros []. constructor; auto. Qed.

Lemma tick_ok t s : inv s ->
  exists s' ev, tick eps recipe cfg t s = Ok (s', ev) /\ inv s' /\ moves s s' /\ idx s' = idx s /\ hybrid s' = hybrid s.
Proof.
  intro I. unfold tick. destruct (retired cfg t).
  { destruct (tick_retired_ok t s I) as (s' & ev & E & I' & M & R). exists s', ev. repeat split; auto; try apply I'; apply R. }
  pose proof (cc_batch _ Hcfg).
  assert (exists s1 e1, (if cyc s =? cycle_t cfg then
             let* '(s', e) := transmute_core eps recipe (n_batch cfg) s in Ok (s', e ++ [EvCycleEnd])
           else Ok (s, [])) = Ok (s1, e1) /\ inv s1 /\ moves s s1 /\ idx s1 = idx s /\ hybrid s1 = hybrid s) as (s1 & e1 & E1 & I1 & M1 & X1 & Y1).
  { destruct (cyc s =? cycle_t cfg).
    - rewrite transmute_core_spec by (auto; lia). cbn [bind]. eexists _, _. split; [reflexivity|].
      destruct (inv_transmute s (Z.to_nat (Z.min (n_batch cfg) (rb_count (core s)))) I). repeat split; auto; apply H0.
    - exists s, []. repeat split; auto; try apply I; apply moves_refl. }
  rewrite E1. cbn [bind].
  assert (exists s2 e2, (if ((cycle_t cfg <=? cyc s1) && negb (disch s1))%bool then
             let* '(s', e, ok) := discharge eps cfg s1 in Ok (upd_cyc s' (cyc s') ok, e)
           else Ok (s1, [])) = Ok (s2, e2) /\ inv s2 /\ moves s1 s2 /\ idx s2 = idx s1 /\ hybrid s2 = hybrid s1) as (s2 & e2 & E2 & I2 & M2 & X2 & Y2).
  { destruct ((cycle_t cfg <=? cyc s1) && negb (disch s1))%bool.
    - rewrite discharge_spec by auto. cbn zeta. set (k := Z.min (n_batch cfg) (rb_count (core s1))).
      destruct (n_spent cfg - rb_count (spent s1) <? k) eqn:E; cbn [bind]; eexists _, _; (split; [reflexivity|]).
      + split; [apply inv_cyc; auto|]. repeat split; auto; apply Permutation_refl.
      + apply Z.ltb_ge in E. pose proof (zlen_nonneg (rb_items (core s1))).
        destruct (inv_discharged s1 k I1); [unfold k, rb_count in *; lia|lia|].
        split; [apply inv_cyc; auto|]. repeat split; auto.
    - exists s1, []. repeat split; auto; try apply I1; apply moves_refl. }
  rewrite E2. cbn [bind].
  assert (exists s3 e3, (if cycle_t cfg <=? cyc s2 then load eps cfg s2 else Ok (s2, [])) = Ok (s3, e3)
      /\ inv s3 /\ moves s2 s3 /\ idx s3 = idx s2 /\ hybrid s3 = hybrid s2) as (s3 & e3 & E3 & I3 & M3 & X3 & Y3).
  { destruct (cycle_t cfg <=? cyc s2).
    - destruct (load_spec s2 I2) as (-> & Hn & Hc). eexists _, _. split; [reflexivity|].
      destruct (inv_loaded s2 _ I2 Hn Hc). repeat split; auto; apply H0.
    - exists s2, []. repeat split; auto; try apply I2; apply moves_refl. }
  rewrite E3. cbn [bind].
  destruct (apply_changes_ok t s3 I3) as (s4 & E4 & I4 & S4). rewrite E4. cbn [bind].
  eexists _, _. split; [reflexivity|]. split; auto. split.
  - eapply moves_trans; [exact M1|]. eapply moves_trans; [exact M2|]. eapply moves_trans; [exact M3|].
    unfold moves, assemblies. destruct S4 as (-> & -> & -> & _). reflexivity.
  - destruct S4 as (_ & _ & _ & _ & _ & S4 & S4'). split; congruence.
Qed.

End Proofs.
