(** Proofs for C121. *)
From Coq Require Import Lia Lqa.
From Verif Require Import Outcome KernelMaterial KernelResBuf KernelFacts KernelMass ConversionModel ConversionSpec ConversionProofs
  StorageModel StorageSpec StorageProofs StorageGlue BacklogSpec BacklogProofs MonotoneSpec.
Local Open Scope Q_scope.

Lemma full_le {A B} t t' (l : list A) (l' : list B) : t <= t' -> List.length l' = List.length l -> at_full t l <= at_full t' l'.
Proof.
  intros T L. unfold at_full, zlen. rewrite L. rewrite (Qmult_comm _ t), (Qmult_comm _ t'). apply Qmult_le_compat_r; [exact T|].
  change 0 with (inject_Z 0). rewrite <- Zle_Qle. lia.
Qed.
Lemma mats_qty l : mats_ok l -> 0 <= qty_of l.
Proof. intro H. apply qty_of_nonneg. eapply Forall_impl; [|exact H]. intros x Hx; apply Hx. Qed.

(** ** Conversion *)
Lemma conversion_monotone eps eps' cfg cfg' es es' s os s' os' : 0 <= vc_throughput cfg <= vc_throughput cfg' ->
  mats_ok (cv_received es) -> mats_ok (cv_received es') -> received_as_much es es' ->
  cv_run eps cfg cv_empty es = Ok (s, os) -> cv_run eps' cfg' cv_empty es' = Ok (s', os') -> converted s os <= converted s' os'.
Proof.
  intros [T0 T1] M M' [L D] R R'. destruct es' as [|e0 es0].
  - destruct es; [|discriminate L]. injection R as <- <-. injection R' as <- <-. apply Qle_refl.
  - destruct (conversion_upto eps' cfg' (e0 :: es0) ltac:(lra) s' os' M' R' ltac:(discriminate)) as [_ (before & x & after & E & V)].
    assert (N : es <> []) by (destruct es; discriminate). destruct (conversion_upto eps cfg es T0 s os M R N) as [U _].
    rewrite E in *. rewrite app_length in L. cbn [List.length] in L. specialize (D (List.length before)). rewrite firstn_app, firstn_all, Nat.sub_diag in D. cbn [firstn] in D. rewrite app_nil_r in D.
    pose proof (firstn_skipn (List.length before) es) as Sp. destruct (skipn (List.length before) es) as [|y rest] eqn:K.
    + apply (f_equal (@List.length _)) in K. rewrite skipn_length in K. cbn in K. lia.
    + symmetry in Sp. specialize (U _ _ _ Sp). assert (Lr : List.length after = List.length rest).
      { apply (f_equal (@List.length _)) in K. rewrite skipn_length in K. cbn in K. lia. }
      pose proof (full_le (vc_throughput cfg) (vc_throughput cfg') rest after T1 Lr). lra.
Qed.

(** ** Storage *)
Lemma same_times es es' : same_arrivals es es' -> map se_time es' = map se_time es /\ arrivals es' = arrivals es.
Proof.
  unfold arrivals. induction 1 as [|e e' es es' [H1 H2] F [I1 I2]]; [auto|]. cbn [map flat_map]. rewrite I1, I2, H1, H2. auto.
Qed.
Lemma same_app a b es' : same_arrivals (a ++ b) es' -> exists a' b', es' = a' ++ b' /\ same_arrivals a a' /\ same_arrivals b b'.
Proof. intro H. apply Forall2_app_inv_l in H as (a' & b' & A & B & E). exists a', b'. auto. Qed.
Lemma same_app_r es a' b' : same_arrivals es (a' ++ b') -> exists a b, es = a ++ b /\ same_arrivals a a' /\ same_arrivals b b'.
Proof. intro H. apply Forall2_app_inv_r in H as (a & b & A & B & E). exists a, b. auto. Qed.
Lemma same_length es es' : same_arrivals es es' -> List.length es' = List.length es.
Proof. unfold same_arrivals. induction 1; cbn; congruence. Qed.
Lemma due_le r r' t arr : (r' <= r)%Z -> mats_ok (map snd arr) -> qty_of (due r t arr) <= qty_of (due r' t arr).
Proof.
  intro Rr. unfold due. induction arr as [|[x m] arr IH]; intro M; [apply Qle_refl|]. inversion M as [|? ? M1 M2]; subst. specialize (IH M2). cbn [filter fst].
  assert (0 <= m_qty m) by apply M1.
  destruct (Z.leb_spec (x + r) t) as [A|A], (Z.leb_spec (x + r') t) as [B|B]; try lia; cbn [map snd]; rewrite ?qty_of_cons; cbn [snd] in *; lra.
Qed.
Lemma history_same es es' : same_arrivals es es' -> st_history es -> st_history es'.
Proof.
  intros S (H1 & H2 & H3). destruct (same_times _ _ S) as [T A]. split; [rewrite T; exact H1|]. split; [|rewrite A; exact H3].
  clear - S H2. induction S as [|e e' es es' [E1 E2] F IH]; [constructor|]. inversion H2; subst. constructor; [lia|auto].
Qed.
(** ** Discrete handling *)
Lemma firstn_pre {A} (l a b : list A) n : l = a ++ b -> List.length a = n -> firstn n l = a.
Proof. intros -> <-. rewrite firstn_app, Nat.sub_diag, firstn_all. cbn. apply app_nil_r. Qed.
Lemma held_le r r' t (arr : list (Z * mat)) : (r' <= r)%Z -> (List.length (held r' t arr) <= List.length (held r t arr))%nat.
Proof.
  intro Rr. unfold held. rewrite !map_length. induction arr as [|[x m] arr IH]; [cbn; lia|]. cbn [filter fst].
  destruct (Z.ltb_spec t (x + r)) as [A|A], (Z.ltb_spec t (x + r')) as [B|B]; cbn [List.length]; lia.
Qed.
(** A part of a list of parcels weighs no more than all of it. *)
Lemma slice_le (l : list mat) a b c d : mats_ok l -> (a <= c)%nat -> (c + d = a + b)%nat -> qty_of (firstn d (skipn c l)) <= qty_of (firstn b (skipn a l)).
Proof.
  intros M A E. assert (K : firstn b (skipn a l) = firstn (c - a) (skipn a l) ++ firstn d (skipn c l)).
  { replace b with ((c - a) + d)%nat by lia. rewrite <- (firstn_skipn (c - a) (skipn a l)) at 1.
    rewrite firstn_app. rewrite firstn_firstn. replace (Nat.min (c - a + d) (c - a)) with (c - a)%nat by lia. f_equal.
    rewrite skipn_skipn. replace (a + (c - a))%nat with c by lia. destruct (Nat.le_gt_cases (c - a) (List.length (skipn a l))) as [W|W].
    - rewrite firstn_length_le by exact W. replace (c - a + d - (c - a))%nat with d by lia. reflexivity.
    - rewrite skipn_length in W. assert (Z : skipn c l = []) by (apply skipn_all2; lia). rewrite Z, !firstn_nil. reflexivity. }
  rewrite K, qty_of_app. assert (0 <= qty_of (firstn (c - a) (skipn a l))); [|lra]. apply mats_qty. unfold mats_ok in *. apply Forall_forall. intros x I.
  rewrite Forall_forall in M. apply M. 
  assert (forall n (k : list mat) y, In y (firstn n k) -> In y k) as F. { intros n k y Y. rewrite <- (firstn_skipn n k). apply in_or_app. auto. }
  assert (forall n (k : list mat) y, In y (skipn n k) -> In y k) as G. { intros n k y Y. rewrite <- (firstn_skipn n k). apply in_or_app. auto. }
  eapply G, F, I.
Qed.
Lemma discrete_state eps cfg es s os : sc_discrete cfg = true -> st_history es -> st_run eps cfg st_empty es = Ok (s, os) ->
  let l := map snd (arrivals es) in
  all_released os = firstn (List.length (all_released os)) l /\ ss_ready s = firstn (List.length (ss_ready s)) (skipn (List.length (all_released os)) l) /\
  (List.length (all_released os) + List.length (ss_ready s) + List.length (held (sc_residence cfg) (last (map se_time es) (-1)%Z) (arrivals es)) = List.length l)%nat.
Proof.
  intros D H R l. pose proof (discrete_exact eps cfg es s os D H R) as X. destruct (residence_exact eps cfg es s os H R) as (I & P & _). fold l in X. rewrite I, app_nil_r, P in X.
  split; [symmetry; eapply firstn_pre; [symmetry; exact X|reflexivity]|]. split.
  - symmetry. eapply firstn_pre; [|reflexivity]. rewrite <- X. rewrite skipn_app, skipn_all, Nat.sub_diag. reflexivity.
  - rewrite <- X, !app_length. lia.
Qed.
Lemma arrivals_app es e : arrivals (es ++ [e]) = arrivals es ++ map (fun m => (se_time e, m)) (se_receipts e).
Proof. unfold arrivals. rewrite flat_map_app. cbn [flat_map]. rewrite app_nil_r. reflexivity. Qed.
Lemma released_snoc os o : all_released (os ++ [o]) = all_released os ++ to_released (so_tock o).
Proof. unfold all_released. rewrite flat_map_app. cbn [flat_map]. rewrite app_nil_r. reflexivity. Qed.
Lemma discrete_monotone_len eps eps' cfg cfg' : as_fast cfg cfg' -> sc_discrete cfg = true -> sc_discrete cfg' = true -> forall es es' s os s' os',
  st_history es -> same_arrivals es es' -> st_run eps cfg st_empty es = Ok (s, os) -> st_run eps' cfg' st_empty es' = Ok (s', os') ->
  (List.length (all_released os) <= List.length (all_released os'))%nat.
Proof.
  intros [[T0 T1] Rr] Dc Dc'. induction es as [|e es IH] using rev_ind; intros es' s1 os1 s1' os1' H S R R'.
  - injection R as <- <-. cbn. lia.
  - pose proof (history_same _ _ S H) as H'. destruct (same_times _ _ S) as [Tm Ar]. destruct (same_app _ _ _ S) as (es0' & b' & -> & S0 & Sb).
    inversion Sb as [|x e' l l' E F]; subst. inversion F; subst. clear F Sb.
    destruct (st_run_last _ _ _ _ _ _ _ R) as (s & os & o & R0 & St & ->). destruct (st_run_last _ _ _ _ _ _ _ R') as (s' & os' & o' & R0' & St' & ->).
    specialize (IH es0' s os s' os' (history_prefix _ _ H) S0 R0 R0').
    destruct (discrete_state _ _ _ _ _ Dc H R) as (X1 & X2 & X3). destruct (discrete_state _ _ _ _ _ Dc' H' R') as (Y1 & Y2 & Y3).
    rewrite Ar in Y1, Y2, Y3. rewrite Tm in Y3. set (l := map snd (arrivals (es ++ [e]))) in *.
    pose proof (held_le _ _ (last (map se_time (es ++ [e])) (-1)%Z) (arrivals (es ++ [e])) Rr) as HL.
    destruct (throughput_limit eps cfg es e s os s1 o T0 H R0 St) as [Lim _]. unfold released in Lim.
    pose proof (discrete_longest eps' cfg' es0' e' s' os' s1' o' ltac:(lra) Dc' H' R0' St') as Lg. unfold released in Lg. cbv zeta in Lg.
    rewrite !released_snoc, !app_length in *. set (n := List.length (all_released os)) in *. set (n' := List.length (all_released os')) in *.
    set (k := List.length (to_released (so_tock o))) in *. set (k' := List.length (to_released (so_tock o'))) in *.
    destruct (Nat.le_gt_cases (n + k) (n' + k')) as [W|W]; [exact W|exfalso].
    assert (Q1 : to_released (so_tock o) = firstn k (skipn n l)).
    { assert (Z : l = (all_released os ++ to_released (so_tock o)) ++ skipn (n + k) l) by (rewrite X1 at 1; rewrite firstn_skipn; reflexivity).
      rewrite Z, <- app_assoc. rewrite skipn_app. unfold n at 2. rewrite skipn_all2 by lia. unfold n. rewrite Nat.sub_diag. cbn [skipn app]. rewrite firstn_app. unfold k at 3. rewrite Nat.sub_diag. unfold k. rewrite firstn_all. cbn [firstn]. rewrite app_nil_r. reflexivity. }
    assert (Q2 : to_released (so_tock o') ++ ss_ready s1' = firstn (k' + List.length (ss_ready s1')) (skipn n' l)).
    { assert (Z : l = (all_released os' ++ to_released (so_tock o')) ++ skipn (n' + k') l) by (rewrite Y1 at 1; rewrite firstn_skipn; reflexivity).
      rewrite Z at 1. rewrite <- app_assoc. rewrite skipn_app. unfold n' at 1. rewrite skipn_all2 by lia. unfold n' at 1. rewrite Nat.sub_diag. cbn [skipn app].
      rewrite firstn_app. unfold k' at 1. rewrite firstn_all2 by (fold k'; lia). f_equal. fold k'. replace (k' + List.length (ss_ready s1') - k')%nat with (List.length (ss_ready s1')) by lia. exact Y2. }
    specialize (Lg (n + k - n')%nat). specialize (Lg ltac:(lia) ltac:(lia)). rewrite Q2 in Lg.
    rewrite firstn_firstn in Lg. replace (Nat.min (n + k - n') (k' + List.length (ss_ready s1')))%nat with (n + k - n')%nat in Lg by lia.
    rewrite Q1 in Lim. assert (M : mats_ok l) by apply H. pose proof (slice_le l n k n' (n + k - n') M IH ltac:(lia)) as SL. lra.
Qed.
Lemma discrete_monotone eps eps' cfg cfg' es es' s os s' os' : as_fast cfg cfg' -> sc_discrete cfg = true -> sc_discrete cfg' = true ->
  st_history es -> same_arrivals es es' -> st_run eps cfg st_empty es = Ok (s, os) -> st_run eps' cfg' st_empty es' = Ok (s', os') ->
  exists more, all_released os' = all_released os ++ more.
Proof.
  intros F Dc Dc' H S R R'. pose proof (discrete_monotone_len _ _ _ _ F Dc Dc' _ _ _ _ _ _ H S R R') as L.
  destruct (discrete_state _ _ _ _ _ Dc H R) as (X1 & _). destruct (discrete_state _ _ _ _ _ Dc' (history_same _ _ S H) R') as (Y1 & _).
  destruct (same_times _ _ S) as [_ A]. rewrite A in Y1. rewrite X1, Y1. set (l := map snd (arrivals es)) in *.
  exists (skipn (List.length (all_released os)) (firstn (List.length (all_released os')) l)).
  rewrite <- (firstn_skipn (List.length (all_released os)) (firstn (List.length (all_released os')) l)) at 1. f_equal.
  rewrite firstn_firstn. f_equal. lia.
Qed.

(** ** Discrete handling against continuous handling *)
Lemma released_bound eps cfg : 0 <= sc_throughput cfg -> forall es s os, st_history es -> st_run eps cfg st_empty es = Ok (s, os) ->
  forall before after, es = before ++ after -> qty_of (all_released os) <= matured (sc_residence cfg) before + at_full (sc_throughput cfg) after.
Proof.
  intro T. induction es as [|e es IH] using rev_ind; intros s1 os1 H R1 before after E.
  - symmetry in E. apply app_eq_nil in E as [-> ->]. injection R1 as <- <-. vm_compute. discriminate.
  - destruct (st_run_last _ _ _ _ _ _ _ R1) as (s & os & o & R & S1 & ->). destruct (split_end _ _ _ _ E) as [[-> ->]|(a' & -> & E3)].
    + rewrite full_nil. destruct (residence_exact eps cfg (es ++ [e]) s1 (os ++ [o]) H R1) as (_ & _ & G & _).
      assert (MD : mats_ok (due (sc_residence cfg) (last (map se_time (es ++ [e])) (-1)%Z) (arrivals (es ++ [e])))) by (apply mats_ok_filter, H).
      destruct (regroup_facts _ _ G MD) as (M & Q & _). rewrite qty_of_app in Q. unfold matured. rewrite <- Q.
      assert (0 <= qty_of (ss_ready s1)) by (apply mats_qty; eapply proj2, Forall_app, M). lra.
    + specialize (IH s os (history_shorter _ _ H) R _ _ E3). rewrite full_app. destruct (throughput_limit eps cfg es e s os s1 o T H R S1) as [L _]. unfold released in L.
      rewrite released_snoc, qty_of_app. lra.
Qed.
Lemma continuous_no_less eps eps' cfg cfg' es es' s os s' os' : as_fast cfg cfg' -> sc_discrete cfg' = false ->
  st_history es -> same_arrivals es es' -> st_run eps cfg st_empty es = Ok (s, os) -> st_run eps' cfg' st_empty es' = Ok (s', os') ->
  qty_of (all_released os) <= qty_of (all_released os').
Proof.
  intros [[T0 T1] Rr] Dc' H S R R'. pose proof (history_same _ _ S H) as H'.
  destruct (storage_upto eps' cfg' es' ltac:(lra) Dc' s' os' H' R') as [_ (before' & after' & E' & V)]. rewrite E' in S. destruct (same_app_r _ _ _ S) as (before & after & E & Sb & Sa).
  pose proof (released_bound eps cfg T0 es s os H R _ _ E) as U.
  pose proof (full_le (sc_throughput cfg) (sc_throughput cfg') after after' T1 (same_length _ _ Sa)) as F.
  assert (M : matured (sc_residence cfg) before <= matured (sc_residence cfg') before').
  { unfold matured. destruct (same_times _ _ Sb) as [-> ->]. apply due_le; [exact Rr|]. rewrite E in H. apply (history_prefix _ _ H). }
  lra.
Qed.
