(** The order of trades: Reactor and Source (C123). *)
From Coq Require Import Lia Lqa Permutation.
From Verif Require Import Outcome KernelMaterial KernelResBuf KernelBuf KernelFacts KernelMass KernelBufFacts OrderSpec OrderProofs.
From Verif Require ReactorModel ReactorSpec ReactorTradeProofs SourceModel EnrichmentModel EnrichmentSpec EnrichmentRun.
Local Open Scope Q_scope.

Section REACTOR.
Import ReactorModel ReactorSpec ReactorTradeProofs.
Lemma smap_get_other c c' v mp : c <> c' -> smap_get c' (smap_set c v mp) = smap_get c' mp.
Proof.
  intro N. induction mp as [|[k w] mp IH]; cbn; [destruct (String.eqb_spec c c'); [contradiction|reflexivity]|]. destruct (String.eqb_spec k c) as [->|M]; cbn.
  - destruct (String.eqb_spec c c'); [contradiction|reflexivity].
  - destruct (String.eqb k c'); [reflexivity|exact IH].
Qed.
Lemma smap_set_comm c c' v w mp : c <> c' -> smap_get c mp <> [] -> smap_get c' mp <> [] -> smap_set c v (smap_set c' w mp) = smap_set c' w (smap_set c v mp).
Proof.
  intro N. induction mp as [|[k x] mp IH]; cbn; [congruence|]. intros A B. destruct (String.eqb_spec k c') as [E1|E1], (String.eqb_spec k c) as [E2|E2]; cbn.
  - congruence.
  - destruct (String.eqb_spec k c); [contradiction|]. destruct (String.eqb_spec k c'); [|contradiction]. reflexivity.
  - destruct (String.eqb_spec k c'); [contradiction|]. destruct (String.eqb_spec k c); [|contradiction]. reflexivity.
  - destruct (String.eqb_spec k c); [contradiction|]. destruct (String.eqb_spec k c'); [contradiction|]. f_equal. apply IH; auto.
Qed.
Lemma erase_comm i j l : idx_erase i (idx_erase j l) = idx_erase j (idx_erase i l).
Proof. unfold idx_erase. induction l as [|e l IH]; cbn; [reflexivity|]. destruct (Z.eqb (fst e) j) eqn:A, (Z.eqb (fst e) i) eqn:B; cbn; rewrite ?A, ?B; cbn; congruence. Qed.
Definition served (a b : smap * rx_state * list (string * mat)) : Prop := fst a = fst b /\ Permutation (snd a) (snd b).
Lemma serve_one a b c r : served a b -> serve_trade a c = Ok r -> exists r', serve_trade b c = Ok r' /\ served r r'.
Proof.
  destruct a as [[mp s] resp], b as [[mp' s'] resp']. intros [E P] H. cbn [fst snd] in *. injection E as <- <-. unfold serve_trade in *. destruct (rev (smap_get c mp)); [discriminate|]. injection H as <-.
  eexists. split; [reflexivity|]. split; [reflexivity|]. cbn [snd]. apply Permutation_app_tail, P.
Qed.
Lemma serve_same trs : forall a b r, served a b -> loop serve_trade trs a = Ok r -> exists r', loop serve_trade trs b = Ok r' /\ served r r'.
Proof.
  induction trs as [|c trs IH]; intros a b r S1 H; [injection H as <-; exists b; auto|]. cbn [loop] in *. apply bind_ok in H as (a1 & A & H). destruct (serve_one _ _ _ _ S1 A) as (b1 & B & S2). rewrite B. cbn [bind]. eapply IH; eauto.
Qed.
Lemma serve_perm trs trs' : Permutation trs trs' -> forall a b r, served a b -> loop serve_trade trs a = Ok r -> exists r', loop serve_trade trs' b = Ok r' /\ served r r'.
Proof.
  induction 1 as [|c l l' P IH|c c' l|x y z P1 IH1 P2 IH2]; intros a b r S1 H.
  - injection H as <-. exists b. auto.
  - cbn [loop] in *. apply bind_ok in H as (a1 & A & H). destruct (serve_one _ _ _ _ S1 A) as (b1 & B & S2). rewrite B. cbn [bind]. eapply IH; eauto.
  - cbn [loop] in H. apply bind_ok in H as (a1 & A & H). apply bind_ok in H as (a2 & A' & H).
    assert (W : exists b2, loop serve_trade [c; c'] b = Ok b2 /\ served a2 b2).
    { destruct (string_dec c c') as [<-|N].
      - destruct (serve_one _ _ _ _ S1 A) as (b1 & B & S2). destruct (serve_one _ _ _ _ S2 A') as (b2 & B' & S3). exists b2. cbn [loop]. rewrite B. cbn [bind]. rewrite B'. auto.
      - destruct a as [[mp s] resp], b as [[mp' s'] resp']. destruct S1 as [E P]. cbn [fst snd] in E, P. injection E as <- <-. unfold serve_trade in A.
        destruct (rev (smap_get c' mp)) as [|m' r1'] eqn:G'; [discriminate|]. injection A as <-. unfold serve_trade in A'. rewrite smap_get_other in A' by auto.
        destruct (rev (smap_get c mp)) as [|m r1] eqn:G; [discriminate|]. injection A' as <-.
        cbn [loop]. unfold serve_trade at 1. rewrite G. cbn [bind]. unfold serve_trade at 1. rewrite smap_get_other by auto. rewrite G'. cbn [bind]. eexists. split; [reflexivity|]. split; cbn [fst snd].
        + f_equal; [apply smap_set_comm; auto; intro Z; [rewrite Z in G|rewrite Z in G']; discriminate|]. destruct s; unfold upd_idx; cbn. f_equal. apply erase_comm.
        + rewrite <- !app_assoc. cbn [app]. apply Permutation_app; [exact P|apply perm_swap]. }
    destruct W as (b2 & B & S2). cbn [loop] in B. apply bind_ok in B as (b1 & B & B2). apply bind_ok in B2 as (b2' & B2 & E). injection E as ->. cbn [loop]. rewrite B. cbn [bind]. rewrite B2. cbn [bind]. eapply serve_same; eauto.
  - destruct (IH1 _ _ _ S1 H) as (r1 & H1 & S2). destruct (IH2 b b r1) as (r2 & H2 & S3); auto; [split; auto|]. exists r2. split; [exact H2|]. destruct S2, S3. split; [congruence|etransitivity; eauto].
Qed.
Lemma reactor_sales eps cfg trs trs' s s1 ms : Permutation trs trs' -> get_trades eps cfg trs s = Ok (s1, ms) -> exists ms', get_trades eps cfg trs' s = Ok (s1, ms') /\ Permutation ms ms'.
Proof.
  intros P H. unfold get_trades in *. apply bind_ok in H as ([mp s2] & A & H). rewrite A. cbn [bind]. apply bind_ok in H as ([[mp2 s3] resp] & B & H). apply bind_ok in H as (s4 & C & H). injection H as <- <-.
  destruct (serve_perm _ _ P (mp, s2, []) (mp, s2, []) _ (conj eq_refl (Permutation_refl _)) B) as ([[mp3 s5] resp'] & B' & [E Q1]). cbn [fst snd] in E, Q1. injection E as <- <-. rewrite B'. cbn [bind]. rewrite C. cbn [bind]. eauto.
Qed.
Lemma firstn_perm_count {A} (l l' : list A) k : Permutation l l' -> List.length (firstn k l) = List.length (firstn k l') /\ List.length (skipn k l) = List.length (skipn k l').
Proof. intro P. rewrite !firstn_length, !skipn_length, (Permutation_length P). auto. Qed.
Lemma reactor_deliveries eps cfg ds ds' s : 0 <= eps -> config_consistent cfg -> rack (n_fresh cfg) (assem cfg) (fresh s) -> rack (n_core cfg) (assem cfg) (core s) ->
  (zlen ds <= n_core cfg - rb_count (core s) + (n_fresh cfg - rb_count (fresh s)))%Z ->
  Forall (fun d => In (fst d) (incommods cfg) /\ m_qty (snd d) == assem cfg) ds -> NoDup (map (fun d => m_id (snd d)) ds) -> Permutation ds ds' ->
  exists s1 s1' ev, accept_trades eps cfg ds s = Ok (s1, ev) /\ accept_trades eps cfg ds' s = Ok (s1', ev) /\
    rb_count (core s1) = rb_count (core s1') /\ rb_count (fresh s1) = rb_count (fresh s1') /\
    Permutation (rb_items (core s1) ++ rb_items (fresh s1)) (rb_items (core s1') ++ rb_items (fresh s1')) /\
    (forall k, idx_get k (idx s1) = idx_get k (idx s1')) /\ spent s1 = spent s1'.
Proof.
  intros He Hc UF UC L F ND P.
  assert (F' : Forall (fun d => In (fst d) (incommods cfg) /\ m_qty (snd d) == assem cfg) ds') by (eapply Permutation_Forall; eauto).
  assert (ND' : NoDup (map (fun d => m_id (snd d)) ds')) by (eapply Permutation_NoDup; [apply Permutation_map, P|exact ND]).
  assert (EL : zlen ds' = zlen ds) by (unfold zlen; rewrite (Permutation_length P); reflexivity). 
  destruct (accept_loop eps cfg He Hc ds s UF UC L F ND) as (ix & H & G1 & G2). destruct (accept_loop eps cfg He Hc ds' s UF UC ltac:(rewrite EL; exact L) F' ND') as (ix' & H' & G1' & G2').
  unfold accept_trades. rewrite H, H', EL. cbn [bind]. do 3 eexists. split; [reflexivity|]. split; [reflexivity|]. unfold delivered_state. rewrite EL. set (k := Z.to_nat _).
  pose proof (firstn_perm_count _ _ k (Permutation_map snd P)) as [A B]. cbn [core fresh idx spent upd_idx upd_fresh upd_core rb_items]. unfold rb_count. cbn [rb_items].
  split; [unfold zlen; rewrite !app_length, A; reflexivity|]. split; [unfold zlen; rewrite !app_length, B; reflexivity|]. split; [|split; [|reflexivity]].
  - assert (X : forall l : list mat, Permutation ((rb_items (core s) ++ firstn k l) ++ rb_items (fresh s) ++ skipn k l) (rb_items (core s) ++ rb_items (fresh s) ++ l)).
    { intro l. rewrite <- app_assoc. apply Permutation_app_head. rewrite (Permutation_app_comm (rb_items (fresh s)) (skipn k l)), app_assoc, firstn_skipn. apply Permutation_app_comm. }
    rewrite !X. do 2 apply Permutation_app_head. apply Permutation_map, P.
  - intro j. destruct (in_dec Z.eq_dec j (map (fun d => m_id (snd d)) ds)) as [I|N].
    + apply in_map_iff in I as (d & <- & I). destruct (G2 d I) as (i & -> & _ & _ & Fi). destruct (G2' d (Permutation_in _ P I)) as (i' & -> & _ & _ & Fi'). congruence.
    + rewrite G1 by exact N. rewrite G1'; [reflexivity|]. intro I. apply N. eapply Permutation_in; [apply Permutation_sym, Permutation_map, P|exact I].
Qed.
End REACTOR.

Section SOURCE.
Import SourceModel.
Lemma source_loop eps eg cfg fill l trs : mats_ok l -> 0 <= eg -> (forall i q, fill i q = [q]) -> Forall (fun t => 0 < fst t) trs -> forall i k tot b,
  (zlen trs <= k)%Z -> rest_after tot l (b_items b) -> qsum (map fst trs) <= qty_of (b_items b) ->
  exists b' rs, sr_trade_loop eps eg cfg fill i k trs b = Ok (b', rs) /\ b_cap b' = b_cap b /\ rest_after (tot + qsum (map fst trs)) l (b_items b') /\
    map fst rs = seq i (List.length trs) /\ Forall2 (fun t r => m_qty (snd r) == fst t) trs rs.
Proof.
  intros O He Hf F. induction F as [|[q tg] trs Pq F IH]; intros i k tot b K R L; cbn [sr_trade_loop fst map] in *.
  - exists b, []. split; [reflexivity|]. split; [reflexivity|]. split; [eapply rest_eq; [|exact R]; change (qsum []) with 0; ring|]. split; [reflexivity|constructor].
  - change (qsum (q :: map fst trs)) with (q + qsum (map fst trs)) in *. assert (N : 0 <= qsum (map fst trs)) by (apply KernelFacts.qsum_nonneg, Forall_map; eapply Forall_impl; [|exact F]; intros; cbn in *; lra).
    assert (Kz : (Z.ltb 0 k) = true) by (apply Z.ltb_lt; unfold zlen in *; cbn [List.length] in K; lia). rewrite Kz.
    destruct (pop_qty_ok (b_items b) q Pq ltac:(lra)) as (m & r & P). unfold b_pop_qty. rewrite P. cbn [bind]. destruct (rest_pop _ _ _ _ _ _ O R Pq P) as [Qm R1].
    rewrite Hf. cbn [split_packages]. unfold extract_qty. assert (E1 : Qltb (m_qty m) (m_qty m) = false) by (apply Qltb_false; lra). rewrite E1. cbn [bind m_qty].
    assert (E2 : Qltb eg (m_qty m - m_qty m) = false) by (apply Qltb_false; lra). rewrite E2. cbn [bind].
    destruct (IH (S i) (k - 1)%Z (tot + q) {| b_cap := b_cap b; b_items := r |}) as (b' & rs & H & Cb & R2 & I2 & F2).
    + unfold zlen in *. cbn [List.length] in K. lia.
    + exact R1.
    + cbn [b_items]. destruct R as (_ & _ & _ & D & _), R1 as (_ & _ & _ & D1 & _). lra.
    + rewrite H. cbn [bind]. do 2 eexists. split; [reflexivity|]. split; [exact Cb|]. split; [eapply rest_eq; [|exact R2]; ring|]. split; [cbn [map fst List.length seq]; f_equal; exact I2|].
      constructor; [|exact F2]. cbn [snd fst]. destruct (String.eqb (sc_recipe cfg) ""); cbn; exact Qm.
Qed.
Lemma source_sales eps eg cfg fill ship trs trs' s : 0 <= eg -> (forall i q, fill i q = [q]) -> (forall k, (k <= ship k)%Z) -> mats_ok (b_items (ss_inv s)) ->
  Forall (fun t => 0 < fst t) trs -> qsum (map fst trs) <= b_qty (ss_inv s) -> Permutation trs trs' ->
  exists s1 s1' rs rs', sr_get_trades eps eg cfg fill ship trs s = Ok (s1, rs) /\ sr_get_trades eps eg cfg fill ship trs' s = Ok (s1', rs') /\
    map fst rs = seq 0 (List.length trs) /\ map fst rs' = seq 0 (List.length trs') /\
    Forall2 (fun t r => m_qty (snd r) == fst t) trs rs /\ Forall2 (fun t r => m_qty (snd r) == fst t) trs' rs' /\
    same_content (b_items (ss_inv s1)) (b_items (ss_inv s1')).
Proof.
  intros He Hf Hs O F L P. unfold b_qty in L. assert (F' : Forall (fun t => 0 < fst t) trs') by (eapply Permutation_Forall; eauto). pose proof (qsum_perm _ _ (Permutation_map fst P)) as E.
  destruct (source_loop eps eg cfg fill _ trs O He Hf F 0%nat (ship (zlen trs)) 0 (ss_inv s) (Hs _) (rest_start _ O) L) as (b & rs & H & _ & R & I & X).
  destruct (source_loop eps eg cfg fill _ trs' O He Hf F' 0%nat (ship (zlen trs')) 0 (ss_inv s) (Hs _) (rest_start _ O) ltac:(lra)) as (b' & rs' & H' & _ & R' & I' & X').
  unfold sr_get_trades. rewrite H, H'. cbn [bind]. do 4 eexists. split; [reflexivity|]. split; [reflexivity|]. split; [exact I|]. split; [exact I'|]. split; [exact X|]. split; [exact X'|].
  cbn [ss_inv]. apply (rest_content (0 + qsum (map fst trs)) (0 + qsum (map fst trs')) (b_items (ss_inv s)) _ _ O ltac:(lra) R R').
Qed.
End SOURCE.
Section ENRICHMENT.
Import EnrichmentModel EnrichmentSpec EnrichmentRun.
Lemma enrichment_sales eps eg V aw recipe cfg es e e' s0 s os s1 s1' o o' : 0 <= eps -> recipes_ok recipe -> (forall x y, x == y -> V x == V y) ->
  en_sane (es ++ [e]) -> en_sane (es ++ [e']) -> en_lived eps eg V aw recipe cfg es s0 s os ->
  en_step eps eg V aw recipe cfg s e = Ok (s1, o) -> en_step eps eg V aw recipe cfg s e' = Ok (s1', o') ->
  ee_trades e <> [] -> Permutation (ee_trades e) (ee_trades e') ->
  exists a b a' b', eo_recorded o = (Some a, Some b) /\ eo_recorded o' = (Some a', Some b') /\ a == a' /\ b == b'.
Proof.
  intros He Hr HV Sn Sn' Lv H H' NT P.
  assert (NT' : ee_trades e' <> []) by (intro Z; rewrite Z in P; apply Permutation_sym, Permutation_nil in P; contradiction).
  destruct (recorded_final eps eg V aw recipe cfg He Hr HV es e s0 s os s1 o Sn Lv H NT) as (a & b & A & B & C).
  destruct (recorded_final eps eg V aw recipe cfg He Hr HV es e' s0 s os s1' o' Sn' Lv H' NT') as (a' & b' & A' & B' & C').
  exists a, b, a', b'. split; [exact A|]. split; [exact A'|].
  assert (PP : Permutation (products cfg (ee_trades e)) (products cfg (ee_trades e'))) by (unfold products; clear - P; induction P; cbn; repeat match goal with |- context [if ?c then _ else _] => destruct c end; auto; econstructor; eauto).
  split; [rewrite B, B'|rewrite C, C']; unfold swu_used, feed_used; apply qsum_perm, Permutation_map, PP.
Qed.
End ENRICHMENT.
