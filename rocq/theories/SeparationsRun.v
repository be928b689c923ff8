(** Exchange, start-up, restart and histories of the separations model. *)
From Coq Require Import Lia Lqa.
From Verif Require Import Outcome KernelMaterial KernelResBuf KernelBuf KernelFacts KernelMass
  KernelBufFacts SeparationsModel SeparationsSpec SeparationsProofs SeparationsGlue.
Local Open Scope Q_scope.

(** ** Trades *)
Lemma trade_inv eps cfg s resp c q s' resp' : trade_one eps cfg (s, resp) (c, q) = Ok (s', resp') ->
  exists m b b', resp' = resp ++ [m] /\ b_pop_tol b (Qmin (b_qty b) q) eps = Ok (m, b') /\
   ((c = pc_leftover_commod cfg /\ b = ps_left s /\
     s' = {| ps_feed := ps_feed s; ps_left := b'; ps_streams := ps_streams s |}) \/
    (c <> pc_leftover_commod cfg /\ bm_find c (ps_streams s) = Some b /\
     s' = {| ps_feed := ps_feed s; ps_left := ps_left s; ps_streams := bm_set c b' (ps_streams s) |})).
Proof.
  unfold trade_one. destruct (String.eqb_spec c (pc_leftover_commod cfg)) as [E|E].
  - intro H. cbv zeta in H. apply bind_ok in H as ([m b'] & P & H). injection H as <- <-.
    do 3 eexists. split; [reflexivity|]. split; [exact P|]. left. auto.
  - destruct (bm_find c (ps_streams s)) as [sb|] eqn:F; [|discriminate].
    intro H. cbv zeta in H. apply bind_ok in H as ([m b'] & P & H). injection H as <- <-.
    do 3 eexists. split; [reflexivity|]. split; [exact P|]. right. auto.
Qed.
Lemma find_get c bm b : bm_find c bm = Some b -> bm_get c bm = b.
Proof. unfold bm_get. intros ->. auto. Qed.

Lemma trade_total eps cfg s resp c q s' resp' : 0 <= q -> sane_qtys s ->
  trade_one eps cfg (s, resp) (c, q) = Ok (s', resp') ->
  exists m, resp' = resp ++ [m] /\ sane_qtys s' /\ ps_feed s' = ps_feed s /\ 0 <= m_qty m /\
   qty_of (parcels s') + m_qty m == qty_of (parcels s) /\
   (forall k, b_cap (stream_buf s' k) = b_cap (stream_buf s k) /\ b_qty (stream_buf s' k) <= b_qty (stream_buf s k)) /\
   (forall k, In k (map fst (ps_streams s')) <-> In k (map fst (ps_streams s))) /\
   b_cap (ps_left s') = b_cap (ps_left s).
Proof.
  intros Hq Sq H. apply trade_inv in H as (m & b & b' & -> & P & D). exists m. split; [auto|].
  apply parcels_all in Sq as (Sf & Sl & Ss).
  apply pop_tol_inv in P as (Pc & P).
  assert (Sb : qtys_ok (b_items b)).
  { destruct D as [(_ & -> & _)|(_ & F & _)]; auto. rewrite <- (find_get _ _ _ F).
    apply (bm_all_get qtys_ok); auto. constructor. }
  assert (Nq : 0 <= Qmin (b_qty b) q) by (apply Q.min_glb; auto; apply qtys_ok_nonneg; auto).
  apply pop_tol_q in P as (P1 & P2 & P3); auto.
  assert (Nm : 0 <= m_qty m) by (rewrite P1; apply Q.min_glb; auto; apply qtys_ok_nonneg; auto).
  assert (Qb : b_qty b' == b_qty b - m_qty m) by (unfold b_qty; exact P2).
  destruct D as [(_ & -> & ->)|(_ & F & ->)]; unfold sane_qtys, stream_buf; simpl.
  - split; [apply parcels_all; auto|]. split; [auto|]. split; [auto|].
    rewrite !parcels_qty. simpl. split; [lra|]. split; [intro k; split; [auto|lra]|]. split; [tauto|auto].
  - split; [apply parcels_all; simpl; split; [auto|]; split; [auto|]; apply bm_all_set; auto|].
    split; [auto|]. split; [auto|]. rewrite !parcels_qty. simpl. rewrite bm_qty_set, (find_get _ _ _ F).
    split; [lra|]. split.
    + intro k. destruct (string_dec k c) as [->|N].
      * rewrite bm_get_set_same, (find_get _ _ _ F). split; [auto|lra].
      * rewrite bm_get_set_other by auto. split; [auto|lra].
    + split; [|auto]. intro k. rewrite bm_keys_set. split; [intros [->|I]; auto|auto].
      apply bm_find_in in F. apply in_map_iff. exists (c, b). auto.
Qed.
Lemma trades_total eps cfg trades : forall s resp s' resp', Forall (fun t => 0 <= snd t) trades -> sane_qtys s ->
  loop (trade_one eps cfg) trades (s, resp) = Ok (s', resp') ->
  exists ms, resp' = resp ++ ms /\ sane_qtys s' /\ ps_feed s' = ps_feed s /\ qtys_ok ms /\
   qty_of (parcels s') + qty_of ms == qty_of (parcels s) /\
   (forall k, b_cap (stream_buf s' k) = b_cap (stream_buf s k) /\ b_qty (stream_buf s' k) <= b_qty (stream_buf s k)) /\
   b_cap (ps_left s') = b_cap (ps_left s).
Proof.
  induction trades as [|[c q] trades IH]; intros s resp s' resp' Hq Sq H; simpl in H.
  - injection H as <- <-. exists []. rewrite app_nil_r, qty_of_nil.
    split; [auto|]. split; [auto|]. split; [auto|]. split; [constructor|]. split; [lra|]. split; [|auto].
    intro k. split; [auto|lra].
  - inversion Hq as [|? ? Hq0 Hq']; subst. apply bind_ok in H as ([s1 r1] & H1 & H2).
    apply trade_total in H1 as (m & -> & A1 & A2 & A3 & A4 & A5 & _ & A6); auto.
    destruct (IH _ _ _ _ Hq' A1 H2) as (ms & -> & B1 & B2 & B3 & B4 & B5 & B6).
    exists (m :: ms). rewrite <- app_assoc. split; [auto|]. split; [auto|]. split; [congruence|].
    split; [constructor; auto|]. rewrite qty_of_cons. split; [lra|]. split; [|congruence].
    intro k. destruct (A5 k), (B5 k). split; [congruence|lra].
Qed.
(** Nuclides, when every parcel is sane. *)
Lemma trade_mass eps cfg s resp c q s' resp' : 0 <= q -> mats_ok (parcels s) ->
  trade_one eps cfg (s, resp) (c, q) = Ok (s', resp') ->
  exists m, resp' = resp ++ [m] /\ mat_ok m /\ mats_ok (parcels s') /\ ps_feed s' = ps_feed s /\
   (forall n, mass_in n (parcels s') + mass_of m n == mass_in n (parcels s)) /\
   (forall k n, mass_in n (stock cfg s' k) + (if String.eqb c k then mass_of m n else 0) == mass_in n (stock cfg s k)) /\
   (forall k, qty_of (stock cfg s' k) + (if String.eqb c k then m_qty m else 0) == qty_of (stock cfg s k)) /\
   m_qty m == Qmin (qty_of (stock cfg s c)) q /\
   (forall k, In k (map fst (ps_streams s')) <-> In k (map fst (ps_streams s))).
Proof.
  intros Hq Sq H. apply trade_inv in H as (m & b & b' & -> & P & D). exists m. split; [auto|].
  apply parcels_all in Sq as (Sf & Sl & Ss).
  apply pop_tol_inv in P as (Pc & P).
  assert (Sb : mats_ok (b_items b)).
  { destruct D as [(_ & -> & _)|(_ & F & _)]; auto. rewrite <- (find_get _ _ _ F).
    apply (bm_all_get mats_ok); auto. constructor. }
  assert (Nb : 0 <= b_qty b) by (apply mats_qty_nonneg; auto).
  assert (Nq : 0 <= Qmin (b_qty b) q) by (apply Q.min_glb; auto).
  apply pop_tol_facts in P as (P1 & P2 & _ & P4 & P5 & P6); auto.
  assert (P1' : m_qty m == Qmin (b_qty b) q).
  { rewrite P1. apply Q.min_l. apply Q.le_min_l. }
  split; [auto|]. unfold stock, stream_items, stream_buf.
  destruct D as [(-> & -> & ->)|(Nc & F & ->)]; simpl.
  - split; [apply parcels_all; auto|]. split; [auto|]. split.
    { intro n. rewrite !parcels_mass. simpl. specialize (P6 n). lra. }
    split.
    { intros k n. specialize (P6 n). rewrite (String.eqb_sym (pc_leftover_commod cfg) k). destruct (String.eqb k _); lra. }
    split.
    { intro k. rewrite (String.eqb_sym (pc_leftover_commod cfg) k). destruct (String.eqb k _); lra. }
    split; [rewrite String.eqb_refl; exact P1'|tauto].
  - pose proof (find_get _ _ _ F) as G.
    split; [apply parcels_all; simpl; split; [auto|]; split; [auto|]; apply bm_all_set; auto|].
    split; [auto|]. split.
    { intro n. rewrite !parcels_mass. simpl. rewrite bm_mass_set, G. specialize (P6 n). lra. }
    split.
    { intros k n. specialize (P6 n). destruct (String.eqb_spec k (pc_leftover_commod cfg)) as [->|Nk].
      - destruct (String.eqb_spec c (pc_leftover_commod cfg)); [contradiction|lra].
      - destruct (String.eqb_spec c k) as [->|Nck].
        + rewrite bm_get_set_same, G. lra.
        + rewrite bm_get_set_other by auto. lra. }
    split.
    { intros k. destruct (String.eqb_spec k (pc_leftover_commod cfg)) as [->|Nk].
      - destruct (String.eqb_spec c (pc_leftover_commod cfg)); [contradiction|lra].
      - destruct (String.eqb_spec c k) as [->|Nck].
        + rewrite bm_get_set_same, G. lra.
        + rewrite bm_get_set_other by auto. lra. }
    split.
    { destruct (String.eqb_spec c (pc_leftover_commod cfg)); [contradiction|]. rewrite G. exact P1'. }
    intro k. rewrite bm_keys_set. split; [intros [->|I]; auto|auto].
    apply bm_find_in in F. apply in_map_iff. exists (c, b). auto.
Qed.
Lemma sold_cons c c0 q trades : sold c ((c0, q) :: trades) == (if String.eqb c0 c then q else 0) + sold c trades.
Proof. unfold sold. simpl. destruct (String.eqb c0 c); simpl; lra. Qed.
Lemma sold_nonneg c trades : Forall (fun t => 0 < snd t) trades -> 0 <= sold c trades.
Proof.
  intro H. induction H as [|[c0 q] trades Hq _ IH]; [unfold sold; simpl; lra|].
  rewrite sold_cons. simpl in Hq. destruct (String.eqb c0 c); lra.
Qed.
Lemma trades_ok eps cfg trades : 0 <= eps -> forall s resp,
  Forall (fun t => 0 < snd t) trades -> mats_ok (parcels s) ->
  (forall t, In t trades -> fst t = pc_leftover_commod cfg \/ In (fst t) (map fst (ps_streams s))) ->
  (forall c, sold c trades <= qty_of (stock cfg s c)) ->
  exists s' ms, loop (trade_one eps cfg) trades (s, resp) = Ok (s', resp ++ ms) /\
    Forall2 (fun t m => m_qty m == snd t) trades ms /\ mats_ok ms /\
    ps_feed s' = ps_feed s /\
    (forall c, qty_of (stock cfg s' c) == qty_of (stock cfg s c) - sold c trades) /\
    (forall c n, mass_in n (stock cfg s' c) + mass_in n (shipped_on c trades ms) == mass_in n (stock cfg s c)).
Proof.
  intro He. induction trades as [|[c q] trades IH]; intros s resp Hq Om Hk Hs.
  - simpl. exists s, []. rewrite app_nil_r. split; [auto|]. split; [constructor|]. split; [constructor|]. split; [auto|].
    unfold sold, shipped_on. simpl. split; [intro c; lra|]. intros c n. rewrite mass_in_nil. lra.
  - inversion Hq as [|? ? Hq0 Hq']; subst. simpl in Hq0.
    pose proof (Hs c) as Hc. rewrite sold_cons, String.eqb_refl in Hc.
    pose proof (sold_nonneg c trades Hq') as Nc.
    assert (ST : exists s1 r1, trade_one eps cfg (s, resp) (c, q) = Ok (s1, r1)).
    { unfold trade_one. unfold stock in Hc. destruct (String.eqb_spec c (pc_leftover_commod cfg)) as [E|E].
      - cbv zeta. destruct (pop_tol_ok (b_items (ps_left s)) (Qmin (b_qty (ps_left s)) q) eps) as (m & r & P); auto.
        + apply Q.min_glb_lt; auto. unfold b_qty. lra.
        + apply Q.le_min_l.
        + unfold b_pop_tol. rewrite P. simpl. eauto.
      - destruct (Hk (c, q) (or_introl eq_refl)) as [K|K]; [contradiction|]. simpl in K.
        destruct (bm_find c (ps_streams s)) as [sb|] eqn:F; [|apply bm_find_none in F; contradiction].
        cbv zeta. unfold stream_items, stream_buf in Hc. rewrite (find_get _ _ _ F) in Hc.
        destruct (pop_tol_ok (b_items sb) (Qmin (b_qty sb) q) eps) as (m & r & P); auto.
        + apply Q.min_glb_lt; auto. unfold b_qty. lra.
        + apply Q.le_min_l.
        + unfold b_pop_tol. rewrite P. simpl. eauto. }
    destruct ST as (s1 & r1 & ST).
    assert (Hq0' : 0 <= q) by lra.
    pose proof (trade_mass _ _ _ _ _ _ _ _ Hq0' Om ST) as (m & -> & Omm & Om1 & Fd & _ & Ms & Qs & Qm & Ks).
    assert (Qm' : m_qty m == q) by (rewrite Qm; apply Q.min_r; lra).
    destruct (IH s1 (resp ++ [m]) Hq' Om1) as (s' & ms & L & A1 & A2 & A3 & A4 & A5).
    { intros t I. rewrite Ks. apply Hk. simpl; auto. }
    { intro k. specialize (Hs k). rewrite sold_cons in Hs. specialize (Qs k).
      destruct (String.eqb c k); lra. }
    exists s', (m :: ms). cbn [loop]. rewrite ST. cbn [bind]. rewrite L, <- app_assoc. split; [auto|].
    split; [constructor; auto|]. split; [constructor; auto|]. split; [congruence|]. split.
    + intro k. rewrite A4, sold_cons. specialize (Qs k). destruct (String.eqb c k); lra.
    + intros k n. specialize (A5 k n). specialize (Ms k n).
      unfold shipped_on in *. cbn [combine filter]. cbn [fst].
      destruct (String.eqb c k); cbn [map snd]; [rewrite mass_in_cons|]; lra.
Qed.

(** ** Receipts *)
Lemma accept_facts eps ms : forall f f', loop (b_push eps) ms f = Ok f' ->
  b_cap f' = b_cap f /\ b_items f' = b_items f ++ ms.
Proof.
  induction ms as [|m ms IH]; intros f f' H; simpl in H.
  - injection H as <-. rewrite app_nil_r. auto.
  - apply bind_ok in H as (f1 & H1 & H2). apply b_push_facts in H1 as (C & E & _).
    apply IH in H2 as (C2 & E2). rewrite C2, E2, E, <- app_assoc. auto.
Qed.

(** ** Histories: totals *)
Lemma step_total eps recipe cfg prefs s e s' o : 0 <= pc_throughput cfg -> env_sane e -> sane_qtys s ->
  sp_step eps recipe cfg prefs s e = Ok (s', o) ->
  sane_qtys s' /\ qty_of (parcels s') + qty_of (po_shipped o) == qty_of (parcels s) + qty_of (pe_receipts e).
Proof.
  intros Ht (Et & Er) Sq H. unfold sp_step in H.
  apply bind_ok in H as ([s1 lg] & T & H). apply bind_ok in H as ([dem rq] & _ & H).
  apply bind_ok in H as ([s2 sh] & Tr & H). apply bind_ok in H as (s3 & Ac & H). injection H as <- <-. simpl.
  apply tick_total in T as (T1 & T2 & _); auto.
  apply trades_total in Tr as (ms & Em & A1 & A2 & A3 & A4 & _); auto. simpl in Em. subst sh.
  unfold sp_accept in Ac. apply bind_ok in Ac as (f & Af & Ac). injection Ac as <-.
  apply accept_facts in Af as (_ & Af). apply parcels_all in A1 as (S1 & S2 & S3).
  split.
  - apply parcels_all. simpl. rewrite Af. split; [apply Forall_app; split; auto|auto].
    apply mats_qtys. exact Er.
  - rewrite parcels_qty in A4. rewrite parcels_qty. simpl.
    unfold b_qty at 1. rewrite Af, qty_of_app. unfold b_qty in A4 at 1. rewrite <- T1, <- A4. unfold b_qty. lra.
Qed.
Lemma run_total eps recipe cfg prefs es : forall s s' os, 0 <= pc_throughput cfg -> Forall env_sane es -> sane_qtys s ->
  sp_run eps recipe cfg prefs s es = Ok (s', os) ->
  sane_qtys s' /\ qty_of (parcels s') + qty_of (shipped os) == qty_of (parcels s) + qty_of (received es).
Proof.
  induction es as [|e es IH]; intros s s' os Ht He Sq H; simpl in H.
  - injection H as <- <-. simpl. split; [auto|]. unfold shipped, received. simpl. lra.
  - inversion He as [|? ? He0 He']; subst. apply bind_ok in H as ([s1 o] & H1 & H). apply bind_ok in H as ([s2 os'] & H2 & H).
    injection H as <- <-. apply step_total in H1 as (A1 & A2); auto.
    apply IH in H2 as (B1 & B2); auto. split; [auto|].
    unfold shipped, received in *. simpl. rewrite !qty_of_app. lra.
Qed.

(** ** Histories: nuclides, exact when the tolerance is zero *)
Lemma cthreshold_zero c : cthreshold 0 c = c.
Proof.
  unfold cthreshold. induction c as [|[k v] c IH]; simpl; auto. rewrite IH.
  destruct (Qltb (Qabs v) 0) eqn:E; auto. apply Qltb_true in E. pose proof (Qabs_nonneg v). lra.
Qed.
Lemma extract_loop_ok0 f l : forall mat0 bm seps series mat1 bm1 seps1 series1,
  loop (extract_one 0 f) l (mat0, bm, seps, series) = Ok (mat1, bm1, seps1, series1) ->
  0 <= f -> mat_ok mat0 -> bm_all mats_ok bm ->
  Forall (fun nm => comp_ok (m_comp (snd nm)) /\ m_qty (snd nm) = csum (m_comp (snd nm))) l ->
  mat_ok mat1 /\ bm_all mats_ok bm1.
Proof.
  induction l as [|[name x] l IH]; intros mat0 bm seps series mat1 bm1 seps1 series1 H Hf Om Ob Hl; simpl in H.
  - injection H as <- <- <- <-. auto.
  - apply bind_ok in H as (st & H1 & H2).
    apply extract_one_inv in H1 as (mat' & bm' & seps' & -> & D).
    inversion Hl as [|? ? (T1 & T2) Hl']; subst. simpl in T1, T2.
    assert (K : mat_ok mat' /\ bm_all mats_ok bm').
    { destruct D as [(_ & -> & -> & _)|(P & q & out & b & -> & X & B & -> & _)]; auto.
      set (q := if Qltb (m_qty mat0) (m_qty x) then m_qty mat0 else m_qty x) in *.
      pose proof Om as (Om1 & Om2 & Om3).
      assert (Nq : 0 <= q) by (unfold q; destruct (Qltb _ _); lra).
      assert (Nqf : 0 <= q * f) by (apply Qmult_le_0_compat; auto).
      apply extract_comp_facts in X as (X1 & X2 & X3 & X4 & X5 & X6). rewrite cthreshold_zero in X6.
      apply b_push_facts in B as (_ & B2 & _).
      assert (Pc : 0 < csum (m_comp x)) by (rewrite <- T2; auto).
      split.
      - split; [rewrite X3; lra|]. split; [auto|].
        assert (Sb : csum (m_comp mat') == m_qty mat').
        { rewrite X6, csum_csub, (ok_csum mat0 Om), csum_cnorm, X3 by auto. reflexivity. }
        destruct (Qlt_le_dec 0 (csum (m_comp mat'))); [auto|right]. pose proof (csum_nonneg _ X5). lra.
      - apply bm_all_set; auto. rewrite B2. apply Forall_app. split.
        + apply (bm_all_get mats_ok); auto. constructor.
        + constructor; [|constructor]. split; [rewrite X1; auto|]. rewrite X2. split; auto. }
    destruct K as (K1 & K2). eapply IH; [exact H2|auto|auto| |auto].
    apply bm_all_set; auto. apply (bm_all_get mats_ok); auto. constructor.
Qed.
Lemma staged_plain m strs (staged : list (string * mat)) :
  Forall2 (fun st nm => fst nm = st_name st /\ staged_ok m (st_effs st) (snd nm)) strs staged ->
  Forall (fun nm => comp_ok (m_comp (snd nm)) /\ m_qty (snd nm) = csum (m_comp (snd nm))) staged.
Proof. induction 1 as [|st nm strs staged (_ & (A & B & _)) _ IH]; constructor; auto. Qed.
Lemma tick_ok0 cfg s s' lg : 0 <= pc_throughput cfg -> mats_ok (parcels s) ->
  sp_tick 0 cfg s = Ok (s', lg) -> mats_ok (parcels s').
Proof.
  intros Ht Om H. apply tick_inv in H as [(_ & -> & _)|(_ & m & feed1 & staged & f & mat1 & mat2 & bm & seps & series & feed2 & left & R)]; auto.
  destruct R as [P St Ex Bk Lf -> _].
  apply parcels_all in Om as (Of & Ol & Os).
  apply pop_tol_inv in P as (Pc & P).
  assert (Nq : 0 <= Qmin (pc_throughput cfg) (b_qty (ps_feed s))).
  { apply Q.min_glb; auto. apply mats_qty_nonneg; auto. }
  apply pop_tol_facts in P as (P1 & P2 & _ & P4 & P5 & P6); auto.
  apply run_staged in St as (_ & F & C & _).
  destruct (extract_loop_ok0 _ _ _ _ _ _ _ _ _ _ Ex) as (O1 & O2); auto; [tauto|eapply staged_plain; eauto|].
  assert (B : mat_ok mat2 /\ mats_ok (b_items feed2)).
  { destruct Bk as [(_ & -> & ->)|(_ & back & X & Y)]; auto.
    apply extract_qty_inv in X as (L1 & -> & ->). apply b_push_facts in Y as (_ & Y2 & _).
    assert (Nb : 0 <= (1 - f) * m_qty m) by (apply Qmult_le_0_compat; [lra|apply P4]).
    assert (O1' : mat_ok (Mat (m_id mat1) (m_qty mat1) (m_comp mat1))) by (destruct mat1; exact O1).
    pose proof (split_ok _ _ _ _ O1' Nb L1) as S1.
    assert (S2 : mat_ok (Mat (m_id mat1) (m_qty mat1 - (1 - f) * m_qty m) (m_comp mat1))) by (apply (split_ok _ _ _ _ O1'); lra).
    split; auto. rewrite Y2. apply Forall_app. split; auto. }
  destruct B as (B1 & B2). apply parcels_all. simpl. split; [auto|]. split; [|auto].
  destruct Lf as [(_ & Y)|(_ & ->)]; auto. apply b_push_facts in Y as (_ & Y2 & _).
  rewrite Y2. apply Forall_app. split; auto.
Qed.
Lemma tick_exact0 cfg s s' lg n : 0 <= pc_throughput cfg -> mats_ok (b_items (ps_feed s)) ->
  sp_tick 0 cfg s = Ok (s', lg) -> mass_in n (parcels s') == mass_in n (parcels s).
Proof.
  intros Ht Of H. destruct (tick_drift 0 cfg s s' lg n (Qle_refl 0) Ht Of H) as (m & rest & _ & _ & B).
  rewrite !Qmult_0_l in B. rewrite Qabs_Qle_condition in B. destruct B. lra.
Qed.
Lemma trades_mass eps cfg trades : forall s resp s' resp', Forall (fun t => 0 <= snd t) trades -> mats_ok (parcels s) ->
  loop (trade_one eps cfg) trades (s, resp) = Ok (s', resp') ->
  exists ms, resp' = resp ++ ms /\ mats_ok ms /\ mats_ok (parcels s') /\ ps_feed s' = ps_feed s /\
   forall n, mass_in n (parcels s') + mass_in n ms == mass_in n (parcels s).
Proof.
  induction trades as [|[c q] trades IH]; intros s resp s' resp' Hq Om H; simpl in H.
  - injection H as <- <-. exists []. rewrite app_nil_r. split; [auto|]. split; [constructor|]. split; [auto|]. split; [auto|].
    intro n. rewrite mass_in_nil. lra.
  - inversion Hq as [|? ? Hq0 Hq']; subst. apply bind_ok in H as ([s1 r1] & H1 & H2).
    apply trade_mass in H1 as (m & -> & A1 & A2 & A3 & A4 & _); auto.
    destruct (IH _ _ _ _ Hq' A2 H2) as (ms & -> & B1 & B2 & B3 & B4).
    exists (m :: ms). rewrite <- app_assoc. split; [auto|]. split; [constructor; auto|]. split; [auto|]. split; [congruence|].
    intro n. rewrite mass_in_cons. specialize (A4 n). specialize (B4 n). lra.
Qed.
Lemma step_mass0 recipe cfg prefs s e s' o : 0 <= pc_throughput cfg -> env_sane e -> mats_ok (parcels s) ->
  sp_step 0 recipe cfg prefs s e = Ok (s', o) ->
  mats_ok (parcels s') /\ forall n,
  mass_in n (parcels s') + mass_in n (po_shipped o) == mass_in n (parcels s) + mass_in n (pe_receipts e).
Proof.
  intros Ht (Et & Er) Om H. unfold sp_step in H.
  apply bind_ok in H as ([s1 lg] & T & H). apply bind_ok in H as ([dem rq] & _ & H).
  apply bind_ok in H as ([s2 sh] & Tr & H). apply bind_ok in H as (s3 & Ac & H). injection H as <- <-. simpl.
  pose proof (tick_ok0 _ _ _ _ Ht Om T) as O1.
  pose proof (fun n => tick_exact0 _ _ _ _ n Ht (proj1 (proj1 (parcels_all mat_ok s) Om)) T) as M1.
  apply trades_mass in Tr as (ms & Em & A1 & A2 & A3 & A4); auto. simpl in Em. subst sh.
  unfold sp_accept in Ac. apply bind_ok in Ac as (f & Af & Ac). injection Ac as <-.
  apply accept_facts in Af as (_ & Af). apply parcels_all in A2 as (S1 & S2 & S3).
  split.
  - apply parcels_all. simpl. rewrite Af. split; [apply Forall_app; split; auto|auto].
  - intro n. specialize (A4 n). specialize (M1 n). rewrite parcels_mass in A4. rewrite parcels_mass. simpl.
    rewrite Af, mass_in_app. lra.
Qed.
Lemma run_mass0 recipe cfg prefs es : forall s s' os, 0 <= pc_throughput cfg -> Forall env_sane es -> mats_ok (parcels s) ->
  sp_run 0 recipe cfg prefs s es = Ok (s', os) ->
  mats_ok (parcels s') /\ forall n,
  mass_in n (parcels s') + mass_in n (shipped os) == mass_in n (parcels s) + mass_in n (received es).
Proof.
  induction es as [|e es IH]; intros s s' os Ht He Sq H; simpl in H.
  - injection H as <- <-. simpl. split; [auto|]. intro n. unfold shipped, received. simpl. lra.
  - inversion He as [|? ? He0 He']; subst. apply bind_ok in H as ([s1 o] & H1 & H). apply bind_ok in H as ([s2 os'] & H2 & H).
    injection H as <- <-. apply step_mass0 in H1 as (A1 & A2); auto.
    apply IH in H2 as (B1 & B2); auto. split; [auto|]. intro n. specialize (A2 n). specialize (B2 n).
    unfold shipped, received in *. simpl. rewrite !mass_in_app. lra.
Qed.

(** ** Stream sizes *)
Lemma extract_sizes eps f l : forall mat0 bm seps series mat1 bm1 seps1 series1,
  loop (extract_one eps f) l (mat0, bm, seps, series) = Ok (mat1, bm1, seps1, series1) ->
  0 <= f -> NoDup (map fst l) ->
  (forall name, b_cap (bm_get name bm1) = b_cap (bm_get name bm)) /\
  (forall name, ~ In name (map fst l) -> bm_get name bm1 = bm_get name bm) /\
  (forall name x, In (name, x) l ->
     b_qty (bm_get name bm1) <= b_qty (bm_get name bm) + (if Qltb 0 (m_qty x) then f * m_qty x else 0)).
Proof.
  induction l as [|[name x] l IH]; intros mat0 bm seps series mat1 bm1 seps1 series1 H Hf ND; simpl in H.
  - injection H as <- <- <- <-. simpl. repeat split; auto; contradiction.
  - apply bind_ok in H as (st & H1 & H2).
    apply extract_one_inv in H1 as (mat' & bm' & seps' & -> & D).
    inversion ND as [|? ? N ND']; subst. simpl in N.
    assert (K : (forall k, b_cap (bm_get k bm') = b_cap (bm_get k bm)) /\
       (forall k, k <> name -> bm_get k bm' = bm_get k bm) /\
       b_qty (bm_get name bm') <= b_qty (bm_get name bm) + (if Qltb 0 (m_qty x) then f * m_qty x else 0)).
    { destruct D as [(P & -> & -> & ->)|(P & q & out & b & Eq & X & Bp & -> & ->)].
      - split; [auto|]. split; [auto|]. destruct (Qltb 0 (m_qty x)) eqn:E; [apply Qltb_true in E|]; lra.
      - assert (E : Qltb 0 (m_qty x) = true).
        { destruct (Qltb 0 (m_qty x)) eqn:E; auto. apply Qltb_false in E. lra. }
        rewrite E. pose proof (push_qty _ _ _ _ Bp) as Y. apply b_push_facts in Bp as (B1 & B2 & _).
        apply extract_comp_facts in X as (X1 & _).
        split; [|split].
        + intro k. destruct (string_dec k name) as [->|Nk]; [rewrite bm_get_set_same; auto|rewrite bm_get_set_other; auto].
        + intros k Nk. apply bm_get_set_other; auto.
        + rewrite bm_get_set_same, Y, X1. pose proof (min_if (m_qty mat0) (m_qty x)) as (_ & M). rewrite <- Eq in M. nra. }
    destruct K as (K1 & K2 & K3).
    destruct (IH _ _ _ _ _ _ _ _ H2 Hf ND') as (R1 & R2 & R3).
    split; [|split].
    + intro k. rewrite R1, touch_get. auto.
    + intros k Nk. simpl in Nk. rewrite R2 by tauto. rewrite touch_get. apply K2. intro; subst; tauto.
    + intros k y [E|I].
      * injection E as <- <-. rewrite (R2 name N), touch_get. auto.
      * specialize (R3 k y I). rewrite touch_get in R3.
        assert (k <> name) by (intros ->; apply N; apply in_map_iff; exists (name, y); auto).
        rewrite K2 in R3 by auto. exact R3.
Qed.
Lemma tick_within eps cfg s s' lg : NoDup (map st_name (pc_streams cfg)) -> within cfg s ->
  sp_tick eps cfg s = Ok (s', lg) -> within cfg s'.
Proof.
  intros ND W H. apply tick_inv in H as [(_ & -> & _)|(_ & m & feed1 & staged & f & mat1 & mat2 & bm & seps & series & feed2 & left & R)]; auto.
  destruct R as [P St Ex Bk Lf -> _].
  apply run_staged in St as (Sn & F & C & D & _).
  destruct (extract_sizes _ _ _ _ _ _ _ _ _ _ _ Ex) as (X1 & X2 & X3); [tauto|rewrite Sn; auto|].
  intros st I Hc. destruct (W st I Hc) as (W1 & W2). unfold stream_buf. simpl. rewrite X1. split; [exact W1|].
  pose proof (forall2_both _ _ _ _ C D) as CD.
  destruct (forall2_in_l _ _ _ _ CD I) as ([k x] & I2 & (Ek & _) & L). simpl in Ek. subst k.
  specialize (X3 _ _ I2). unfold stream_buf in W1, W2. destruct (Qltb 0 (m_qty x)) eqn:E; [|lra].
  apply Qltb_true in E. unfold limits, b_space, stream_buf in L. rewrite W1 in L. specialize (L _ eq_refl E). simpl in L.
  rewrite Q.max_r in L by lra. lra.
Qed.
Lemma step_within eps recipe cfg prefs s e s' o : NoDup (map st_name (pc_streams cfg)) ->
  0 <= pc_throughput cfg -> env_sane e -> sane_qtys s -> within cfg s ->
  sp_step eps recipe cfg prefs s e = Ok (s', o) -> within cfg s' /\ within cfg (po_ticked o).
Proof.
  intros ND Ht (Et & Er) Sq W H. unfold sp_step in H.
  apply bind_ok in H as ([s1 lg] & T & H). apply bind_ok in H as ([dem rq] & _ & H).
  apply bind_ok in H as ([s2 sh] & Tr & H). apply bind_ok in H as (s3 & Ac & H). injection H as <- <-. simpl.
  pose proof (tick_within _ _ _ _ _ ND W T) as W1.
  apply tick_total in T as (_ & T2 & _); auto.
  apply trades_total in Tr as (ms & _ & _ & _ & _ & _ & B5 & _); auto.
  unfold sp_accept in Ac. apply bind_ok in Ac as (f & Af & Ac). injection Ac as <-.
  split; [|exact W1]. intros st I Hc. destruct (W1 st I Hc) as (U1 & U2). destruct (B5 (st_name st)) as (V1 & V2).
  unfold stream_buf in *. simpl. rewrite V1. split; [auto|lra].
Qed.
Lemma run_within eps recipe cfg prefs es : forall s s' os, NoDup (map st_name (pc_streams cfg)) ->
  0 <= pc_throughput cfg -> Forall env_sane es -> sane_qtys s -> within cfg s ->
  sp_run eps recipe cfg prefs s es = Ok (s', os) ->
  within cfg s' /\ Forall (fun o => within cfg (po_ticked o)) os.
Proof.
  induction es as [|e es IH]; intros s s' os ND Ht He Sq W H; simpl in H.
  - injection H as <- <-. auto.
  - inversion He as [|? ? He0 He']; subst. apply bind_ok in H as ([s1 o] & H1 & H). apply bind_ok in H as ([s2 os'] & H2 & H).
    injection H as <- <-. pose proof (step_within _ _ _ _ _ _ _ _ ND Ht He0 Sq W H1) as (A1 & A2).
    apply step_total in H1 as (B1 & _); auto.
    apply IH in H2 as (C1 & C2); auto.
Qed.

(** ** Start-up *)
Lemma enter_loop eps strs : forall bm bm', NoDup (map st_name strs) ->
  loop (fun bm st =>
      if Qle_bool 0 (st_cap st) then
        let* b := set_cap eps (bm_get (st_name st) bm) (st_cap st) in
        Ok (bm_set (st_name st) b bm)
      else Ok bm) strs bm = Ok bm' ->
  (forall k, b_items (bm_get k bm') = b_items (bm_get k bm)) /\
  (forall k, ~ In k (map st_name strs) -> bm_get k bm' = bm_get k bm) /\
  (forall st, In st strs -> 0 <= st_cap st -> b_cap (bm_get (st_name st) bm') = Some (st_cap st)) /\
  (forall st, In st strs -> st_cap st < 0 -> bm_get (st_name st) bm' = bm_get (st_name st) bm).
Proof.
  induction strs as [|st strs IH]; intros bm bm' ND H; simpl in H.
  - injection H as <-. simpl. repeat split; auto; contradiction.
  - inversion ND as [|? ? N ND']; subst. apply bind_ok in H as (bm1 & H1 & H2).
    destruct (IH _ _ ND' H2) as (A & B & C & D).
    assert (K : (forall k, b_items (bm_get k bm1) = b_items (bm_get k bm)) /\
      (forall k, k <> st_name st -> bm_get k bm1 = bm_get k bm) /\
      (0 <= st_cap st -> b_cap (bm_get (st_name st) bm1) = Some (st_cap st)) /\
      (st_cap st < 0 -> bm1 = bm)).
    { destruct (Qle_bool 0 (st_cap st)) eqn:E.
      - apply Qle_bool_iff in E. apply bind_ok in H1 as (b & Sb & H1). injection H1 as <-.
        unfold set_cap in Sb. destruct (Qltb _ _); [discriminate|]. injection Sb as <-.
        split; [|split; [|split]].
        + intro k. destruct (string_dec k (st_name st)) as [->|Nk]; [rewrite bm_get_set_same|rewrite bm_get_set_other]; auto.
        + intros k Nk. apply bm_get_set_other; auto.
        + intros _. rewrite bm_get_set_same. auto.
        + intro L; lra.
      - apply Qle_bool_false in E. injection H1 as <-. repeat split; auto. intro; lra. }
    destruct K as (K1 & K2 & K3 & K4).
    split; [intro k; rewrite A; auto|]. split.
    { intros k Nk. simpl in Nk. rewrite B by tauto. apply K2. intro; subst; tauto. }
    split.
    + intros st' [->|I] Hc; [rewrite (B _ N); auto|auto].
    + intros st' [->|I] Hc; [rewrite (B _ N), K4; auto|].
      rewrite D by auto. apply K2. intro E. apply N. rewrite <- E. apply in_map; auto.
Qed.
Lemma enter_facts eps cfg s s' prefs : NoDup (map st_name (pc_streams cfg)) ->
  sp_enter eps cfg s = Ok (s', prefs) ->
  ps_feed s' = ps_feed s /\ ps_left s' = ps_left s /\
  (forall k, stream_items s' k = stream_items s k) /\
  (forall st, In st (pc_streams cfg) -> 0 <= st_cap st -> b_cap (stream_buf s' (st_name st)) = Some (st_cap st)) /\
  (forall st, In st (pc_streams cfg) -> st_cap st < 0 -> stream_buf s' (st_name st) = stream_buf s (st_name st)) /\
  (forall k, ~ In k (map st_name (pc_streams cfg)) -> stream_buf s' k = stream_buf s k).
Proof.
  intros ND H. unfold sp_enter in H. apply bind_ok in H as (bm & L & H). cbv zeta in H.
  destruct (existsb _ _); [discriminate|]. injection H as <- _.
  destruct (enter_loop _ _ _ _ ND L) as (A & B & C & D).
  unfold stream_items, stream_buf. simpl. auto 10.
Qed.
Lemma enter_new_within eps cfg s0 prefs : NoDup (map st_name (pc_streams cfg)) ->
  sp_enter eps cfg (sp_new cfg) = Ok (s0, prefs) -> within cfg s0 /\ parcels s0 = [].
Proof.
  intros ND H. pose proof H as H0. apply enter_facts in H as (F & L & I & C & _); auto. split.
  - intros st Is Hc. split; [auto|]. unfold b_qty.
    change (b_items (stream_buf s0 (st_name st))) with (stream_items s0 (st_name st)).
    rewrite I. unfold stream_items, stream_buf. simpl. rewrite qty_of_nil. auto.
  - unfold parcels. rewrite F, L. simpl.
    unfold sp_enter in H0. apply bind_ok in H0 as (bm & Lp & H0). cbv zeta in H0.
    destruct (existsb _ _); [discriminate|]. injection H0 as <- _. simpl.
    assert (K : forall strs bm0 bm1, bm_all (fun l => l = []) bm0 ->
      loop (fun bm st =>
      if Qle_bool 0 (st_cap st) then
        let* b := set_cap eps (bm_get (st_name st) bm) (st_cap st) in
        Ok (bm_set (st_name st) b bm)
      else Ok bm) strs bm0 = Ok bm1 -> bm_all (fun l => l = []) bm1).
    { induction strs as [|st strs IH]; intros bm0 bm1 Hb Hl; simpl in Hl.
      - injection Hl as <-. auto.
      - apply bind_ok in Hl as (bm2 & H1 & H2). apply (IH bm2); auto.
        destruct (Qle_bool 0 (st_cap st)); [|injection H1 as <-; auto].
        apply bind_ok in H1 as (b & Sb & H1). injection H1 as <-.
        unfold set_cap in Sb. destruct (Qltb _ _); [discriminate|]. injection Sb as <-.
        apply bm_all_set; auto. simpl. apply (bm_all_get (fun l => l = [])); auto. }
    assert (Ab : bm_all (fun l => l = []) bm) by (apply (K _ [] _ ltac:(constructor) Lp)).
    clear -Ab. induction Ab as [|[k b] bm Hb _ IH]; simpl; auto. simpl in Hb. rewrite Hb. auto.
Qed.
(** Validation: sums per key are at most one. *)
Lemma acc_add_cget k v m n : cget n (acc_add k v m) == cget n m + (if Z.eqb k n then v else 0).
Proof.
  induction m as [|[k' v'] m IH]; cbn [acc_add].
  - cbn [cget]. destruct (Z.eqb k n); lra.
  - destruct (Z.eqb_spec k' k) as [->|E]; cbn [cget].
    + destruct (Z.eqb k n); lra.
    + rewrite IH. lra.
Qed.
Lemma acc_add_nodup k v m : NoDup (map fst m) -> NoDup (map fst (acc_add k v m)) /\
  (forall n, In n (map fst (acc_add k v m)) -> n = k \/ In n (map fst m)).
Proof.
  induction m as [|[k' v'] m IH]; simpl; intro ND.
  - split; [constructor; auto; constructor|intuition].
  - inversion ND as [|? ? N ND']; subst. destruct (Z.eqb_spec k' k) as [->|E]; simpl.
    + split; [constructor; auto|intuition].
    + destruct (IH ND') as (A & B). split; [|intros n [X|X]; [auto|apply B in X as [X|X]; auto]].
      constructor; auto. intro I. apply B in I as [->|I]; contradiction.
Qed.
Lemma acc_fold l : forall m, NoDup (map fst m) ->
  NoDup (map fst (fold_left (fun m e => acc_add (fst e) (snd e) m) l m)) /\
  forall n, cget n (fold_left (fun m e => acc_add (fst e) (snd e) m) l m) == cget n m + cget n l.
Proof.
  induction l as [|[k v] l IH]; intros m ND; simpl.
  - split; auto. intro n. lra.
  - destruct (acc_add_nodup k v m ND) as (N1 & _). destruct (IH _ N1) as (A & B).
    split; auto. intro n. rewrite B, acc_add_cget. lra.
Qed.
Lemma nodup_cget_in c k v : NoDup (map fst c) -> In (k, v) c -> cget k c == v.
Proof.
  induction c as [|[j y] l IH]; intros ND I; [destruct I|].
  inversion ND as [|? ? N D]; subst. destruct I as [Eq|I].
  - injection Eq as -> ->. cbn [cget]. rewrite Z.eqb_refl. rewrite cget_notin by exact N. lra.
  - cbn [cget]. destruct (Z.eqb_spec j k) as [->|D'].
    + exfalso. apply N. apply in_map_iff. exists (k, v). auto.
    + rewrite IH; auto. lra.
Qed.
Lemma enter_sums eps cfg s r n : sp_enter eps cfg s = Ok r ->
  cget n (flat_map st_effs (pc_streams cfg)) <= 1.
Proof.
  intro H. unfold sp_enter in H. apply bind_ok in H as (bm & _ & H). cbv zeta in H.
  destruct (existsb _ _) eqn:E; [discriminate|].
  destruct (acc_fold (flat_map st_effs (pc_streams cfg)) [] ltac:(constructor)) as (ND & G).
  specialize (G n). cbn [cget] in G.
  set (acc := fold_left (fun m e => acc_add (fst e) (snd e) m) (flat_map st_effs (pc_streams cfg)) []) in *.
  destruct (in_dec Z.eq_dec n (map fst acc)) as [I|I].
  - apply in_map_iff in I as ([k v] & Ek & I). simpl in Ek. subst k.
    pose proof (nodup_cget_in _ _ _ ND I) as Gv.
    destruct (Qlt_le_dec 1 v) as [L|L]; [|lra].
    exfalso. assert (X : existsb (fun e => Qltb 1 (snd e)) acc = true).
    { apply existsb_exists. exists (n, v). split; auto. simpl. destruct (Qltb 1 v) eqn:Q1; auto. apply Qltb_false in Q1. lra. }
    congruence.
  - rewrite (cget_notin n acc I) in G. lra.
Qed.
Lemma given_cget k effs : NoDup (map fst effs) ->
  match given k effs with Some e => cget k effs == e | None => ~ In k (map fst effs) /\ cget k effs == 0 end.
Proof.
  intro ND. destruct (given k effs) as [e|] eqn:G.
  - apply given_in in G. apply nodup_cget_in; auto.
  - assert (N : ~ In k (map fst effs)).
    { unfold given in G. destruct (find _ effs) eqn:F; [discriminate|]. intro I.
      apply in_map_iff in I as ([k' v] & E & I). simpl in E. subst k'.
      apply (find_none _ _ F) in I. simpl in I. rewrite Z.eqb_refl in I. discriminate. }
    split; auto. apply cget_notin; auto.
Qed.
Lemma cget_flat n (l : list sp_stream) :
  cget n (flat_map st_effs l) == qsum (map (fun st => cget n (st_effs st)) l).
Proof. induction l as [|st l IH]; simpl; [lra|]. rewrite cget_app, IH. reflexivity. Qed.
Lemma validation_unmixed eps cfg s r n : keys_unique cfg -> keys_unmixed cfg ->
  sp_enter eps cfg s = Ok r ->
  qsum (map (fun st => efficiency (st_effs st) n) (pc_streams cfg)) <= 1.
Proof.
  intros (_ & KU) KM H.
  destruct (existsb (fun st => if in_dec Z.eq_dec n (map fst (st_effs st)) then true else false) (pc_streams cfg)) eqn:X.
  - apply existsb_exists in X as (st1 & I1 & X). destruct (in_dec _ _ _) as [In1|]; [|discriminate]. clear X.
    pose proof (enter_sums eps cfg s r n H) as Sn. rewrite cget_flat in Sn.
    eapply Qle_trans; [|exact Sn]. apply Qle_lteq. right. apply qsum_map_ext. intros st I.
    pose proof (given_cget n (st_effs st) (KU st I)) as G. unfold efficiency.
    destruct (given n (st_effs st)); [rewrite G; reflexivity|]. destruct G as (G1 & G2). rewrite G2.
    pose proof (given_cget (element n) (st_effs st) (KU st I)) as G3.
    destruct (given (element n) (st_effs st)) as [e|] eqn:E; [|reflexivity]. exfalso.
    apply given_in in E. assert (Ie : In (element n) (map fst (st_effs st))).
    { apply in_map_iff. exists (element n, e). auto. }
    pose proof (KM st1 st n I1 I In1 Ie) as Q1. rewrite <- Q1 in Ie. contradiction.
  - pose proof (enter_sums eps cfg s r (element n) H) as Sn. rewrite cget_flat in Sn.
    eapply Qle_trans; [|exact Sn]. apply Qle_lteq. right. apply qsum_map_ext. intros st I.
    assert (Nn : ~ In n (map fst (st_effs st))).
    { intro In1. assert (Y : existsb (fun st => if in_dec Z.eq_dec n (map fst (st_effs st)) then true else false) (pc_streams cfg) = true).
      { apply existsb_exists. exists st. split; auto. destruct (in_dec _ _ _); auto. }
      congruence. }
    pose proof (given_cget n (st_effs st) (KU st I)) as G. unfold efficiency.
    destruct (given n (st_effs st)) as [e|] eqn:E.
    { exfalso. apply Nn. apply given_in in E. apply in_map_iff. exists (n, e). auto. }
    pose proof (given_cget (element n) (st_effs st) (KU st I)) as G3.
    destruct (given (element n) (st_effs st)); [rewrite G3; reflexivity|]. destruct G3 as (_ & G3). rewrite G3. reflexivity.
Qed.

(** ** Requests *)
Lemma req_items (cs : list string) (ps : list Q) : forall k acc, (k <= List.length cs)%nat ->
  (List.length cs <= List.length ps)%nat ->
  loop (fun acc i => let* commod := vec_at cs i in let* pref := vec_at ps i in Ok (acc ++ [(commod, pref)]))
       (seq k (List.length cs - k)) acc = Ok (acc ++ combine (skipn k cs) (skipn k ps)).
Proof.
  intros k acc Hk Hl. remember (List.length cs - k)%nat as d eqn:Ed. revert k acc Hk Ed.
  induction d as [|d IH]; intros k acc Hk Ed.
  - simpl. rewrite skipn_all2 by lia. simpl. rewrite app_nil_r. auto.
  - cbn [seq loop].
    destruct (vec_at_ok cs k) as (c & Ec & Nc); [lia|]. destruct (vec_at_ok ps k) as (p & Ep & Np); [lia|].
    rewrite Ec. cbn [bind]. rewrite Ep. cbn [bind]. rewrite IH by lia.
    assert (Sk : forall {A} (l : list A) a, nth_error l k = Some a -> skipn k l = a :: skipn (S k) l).
    { clear. intros A l. revert k. induction l as [|x l IH]; intros k a H; destruct k; simpl in *; try discriminate.
      - injection H as ->. auto.
      - apply IH in H. rewrite H. auto. }
    rewrite (Sk _ _ _ Nc), (Sk _ _ _ Np). simpl. rewrite <- app_assoc. auto.
Qed.
Lemma requests_ok eps recipe cfg prefs t s :
  pc_feed_commods cfg <> [] -> List.length prefs = List.length (pc_feed_commods cfg) ->
  (pc_feed_recipe cfg = ""%string \/ exists c, recipe (pc_feed_recipe cfg) = Some c) ->
  exists dname rq, sp_requests eps recipe cfg prefs t s =
     Ok ((("demand" ++ dname)%string, Qmax 0 (pc_feed_size cfg - b_qty (ps_feed s))), rq) /\
   In dname (pc_feed_commods cfg) /\
   ((0 <= pc_exit cfg)%Z /\ inject_Z (pc_exit cfg - t) * pc_throughput cfg <= b_qty (ps_feed s) \/
    Qmax 0 (pc_feed_size cfg - b_qty (ps_feed s)) < eps -> rq = None) /\
   (~ ((0 <= pc_exit cfg)%Z /\ inject_Z (pc_exit cfg - t) * pc_throughput cfg <= b_qty (ps_feed s)) /\
    eps <= Qmax 0 (pc_feed_size cfg - b_qty (ps_feed s)) ->
    exists r, rq = Some r /\ rq_qty r = Qmax 0 (pc_feed_size cfg - b_qty (ps_feed s)) /\
      rq_items r = combine (pc_feed_commods cfg) prefs /\
      rq_comp r = (if String.eqb (pc_feed_recipe cfg) "" then None else recipe (pc_feed_recipe cfg))).
Proof.
  intros Nc Lp Rc. unfold sp_requests. cbv zeta.
  set (space := Qmax 0 (pc_feed_size cfg - b_qty (ps_feed s))).
  assert (Lm : (max_index prefs < List.length (pc_feed_commods cfg))%nat).
  { rewrite <- Lp. apply max_index_bound. intros ->. destruct (pc_feed_commods cfg); [congruence|discriminate]. }
  destruct (vec_at_ok _ _ Lm) as (dname & Ed & Nd). rewrite Ed. cbn [bind].
  assert (Id : In dname (pc_feed_commods cfg)) by (eapply nth_error_In; eauto).
  exists dname.
  destruct (Z.leb_spec 0 (pc_exit cfg)) as [Le|Le]; cbn [andb].
  - destruct (Qle_bool (inject_Z (pc_exit cfg - t) * pc_throughput cfg) (b_qty (ps_feed s))) eqn:E.
    + apply Qle_bool_iff in E. eexists. split; [reflexivity|]. split; [auto|]. split; [auto|]. intros (X & _). exfalso; auto.
    + apply Qle_bool_false in E.
      destruct (Qltb space eps) eqn:E2.
      * apply Qltb_true in E2. eexists. split; [reflexivity|]. split; [auto|]. split; [auto|]. intros (_ & X). lra.
      * apply Qltb_false in E2.
        assert (Ec : exists c, (if String.eqb (pc_feed_recipe cfg) "" then Ok None
               else match recipe (pc_feed_recipe cfg) with Some c => Ok (Some c) | None => Throw KeyError end) = Ok c /\
               c = (if String.eqb (pc_feed_recipe cfg) "" then None else recipe (pc_feed_recipe cfg))).
        { destruct (String.eqb_spec (pc_feed_recipe cfg) ""); [eauto|]. destruct Rc as [Rc|(c & Rc)]; [contradiction|]. rewrite Rc. eauto. }
        destruct Ec as (c & Ec & Ec2). rewrite Ec. cbn [bind].
        pose proof (req_items (pc_feed_commods cfg) prefs 0 [] ltac:(lia) ltac:(lia)) as RI. rewrite Nat.sub_0_r in RI.
        rewrite RI. cbn [bind]. eexists. split; [reflexivity|]. split; [auto|]. split.
        { intros [(_ & X)|X]; [lra|lra]. }
        intros _. eexists. split; [reflexivity|]. simpl. auto.
  - destruct (Qltb space eps) eqn:E2.
    * apply Qltb_true in E2. eexists. split; [reflexivity|]. split; [auto|]. split; [auto|]. intros (_ & X). lra.
    * apply Qltb_false in E2.
      assert (Ec : exists c, (if String.eqb (pc_feed_recipe cfg) "" then Ok None
               else match recipe (pc_feed_recipe cfg) with Some c => Ok (Some c) | None => Throw KeyError end) = Ok c /\
               c = (if String.eqb (pc_feed_recipe cfg) "" then None else recipe (pc_feed_recipe cfg))).
      { destruct (String.eqb_spec (pc_feed_recipe cfg) ""); [eauto|]. destruct Rc as [Rc|(c & Rc)]; [contradiction|]. rewrite Rc. eauto. }
      destruct Ec as (c & Ec & Ec2). rewrite Ec. cbn [bind].
      pose proof (req_items (pc_feed_commods cfg) prefs 0 [] ltac:(lia) ltac:(lia)) as RI. rewrite Nat.sub_0_r in RI.
      rewrite RI. cbn [bind]. eexists. split; [reflexivity|]. split; [auto|]. split.
      { intros [(X & _)|X]; [lia|lra]. }
      intros _. eexists. split; [reflexivity|]. simpl. auto.
Qed.

(** ** Bids *)
Lemma offer_loop_spec eps target j items : forall tot,
  exists k, (k <= List.length items)%nat /\
    offer_loop eps target tot j items = map (fun m => (j, m)) (filter (fun m => Qltb eps (m_qty m)) (firstn k items)) /\
    (k = List.length items \/ target <= tot + qty_of (firstn k items)) /\
    (forall i, (0 < i < k)%nat -> tot + qty_of (firstn i items) < target).
Proof.
  induction items as [|m items IH]; intro tot.
  - exists 0%nat. simpl. repeat split; auto. intros; lia.
  - cbn [offer_loop]. destruct (Qle_bool target (tot + m_qty m)) eqn:E.
    + apply Qle_bool_iff in E. exists 1%nat. simpl. split; [lia|]. split.
      { rewrite app_nil_r. destruct (Qltb eps (m_qty m)); auto. }
      split; [right; rewrite qty_of_cons, qty_of_nil; lra|intros; lia].
    + apply Qle_bool_false in E. destruct (IH (tot + m_qty m)) as (k & A & B & C & D).
      exists (S k). simpl. split; [lia|]. split.
      { rewrite B. destruct (Qltb eps (m_qty m)); auto. }
      split.
      { destruct C as [->|C]; [auto|right]. rewrite qty_of_cons. lra. }
      intros [|i] Hi; [lia|]. simpl. rewrite qty_of_cons. destruct i as [|i].
      * simpl. rewrite qty_of_nil. lra.
      * assert (L : (0 < S i < k)%nat) by lia. specialize (D _ L). simpl in D. simpl. lra.
Qed.
Lemma filter_bids {A} (g : nat -> list A) (j : nat) (l : list nat) : NoDup l ->
  (In j l -> filter (fun b : nat * A => Nat.eqb (fst b) j) (flat_map (fun i => map (fun m => (i, m)) (g i)) l) =
             map (fun m => (j, m)) (g j)) /\
  (~ In j l -> filter (fun b : nat * A => Nat.eqb (fst b) j) (flat_map (fun i => map (fun m => (i, m)) (g i)) l) = []).
Proof.
  induction l as [|i l IH]; intro ND; [simpl; split; [contradiction|auto]|].
  inversion ND as [|? ? N ND']; subst. cbn [flat_map]. rewrite filter_app. destruct (IH ND') as (IH1 & IH2).
  assert (F : forall x, filter (fun b : nat * A => Nat.eqb (fst b) j) (map (fun m => (i, m)) x) =
                        if Nat.eqb i j then map (fun m => (i, m)) x else []).
  { induction x as [|y x IHx]; simpl; [destruct (Nat.eqb i j); auto|]. rewrite IHx. destruct (Nat.eqb i j); auto. }
  rewrite F. destruct (Nat.eqb_spec i j) as [->|Nij].
  - rewrite IH2 by auto. rewrite app_nil_r. split; [auto|]. intro X. exfalso. apply X. simpl; auto.
  - simpl. split; [intros [X|X]; [contradiction|auto]|intro X; apply IH2; tauto].
Qed.
Lemma flat_map_in_ext {A B} (f g : A -> list B) l : (forall x, In x l -> f x = g x) -> flat_map f l = flat_map g l.
Proof. induction l as [|x l IH]; simpl; intro H; auto. rewrite (H x), IH; auto. Qed.
Lemma combine_seq_flat {A B} (g : nat * A -> list B) (reqs : list A) (d : A) : forall k,
  flat_map g (combine (seq k (List.length reqs)) reqs) =
  flat_map (fun i => g (i, nth (i - k) reqs d)) (seq k (List.length reqs)).
Proof.
  induction reqs as [|r reqs IH]; intro k; simpl; auto. rewrite Nat.sub_diag. f_equal.
  rewrite IH. apply flat_map_in_ext. intros i Hi. apply in_seq in Hi.
  replace (i - k)%nat with (S (i - S k)) by lia. reflexivity.
Qed.
Lemma bid_on_spec eps commod b reqs p : In p (bid_on eps commod b reqs) ->
  bd_commod p = commod /\ bd_cap p = b_qty b /\ reqs <> [] /\ eps <= b_qty b /\
  (forall j m, In (j, m) (bd_bids p) -> (j < List.length reqs)%nat) /\
  (forall j target, nth_error reqs j = Some target ->
     offers_for eps target (b_items b) (map snd (filter (fun x => Nat.eqb (fst x) j) (bd_bids p)))).
Proof.
  intro H. assert (Nr : reqs <> []) by (intros ->; contradiction).
  unfold bid_on in H. destruct reqs as [|r0 reqs0] eqn:Er; [contradiction|].
  destruct (Qltb (b_qty b) eps) eqn:E; [contradiction|]. apply Qltb_false in E.
  destruct H as [<-|[]]. cbn [bd_commod bd_cap bd_bids]. rewrite <- Er in *. clear Er.
  split; [auto|]. split; [auto|]. split; [auto|]. split; [auto|].
  rewrite (combine_seq_flat (fun jq => offer_loop eps (snd jq) 0 (fst jq) (b_items b)) reqs 0 0). cbn [fst snd].
  split.
  - intros j m I. apply in_flat_map in I as (i & Hi & I). apply in_seq in Hi.
    destruct (offer_loop_spec eps (nth (i - 0) reqs 0) i (b_items b) 0) as (k & _ & Eq & _).
    rewrite Eq in I. apply in_map_iff in I as (x & Ex & _). injection Ex as <- _. lia.
  - intros j target Hj.
    assert (Lj : (j < List.length reqs)%nat) by (apply nth_error_Some; congruence).
    set (g := fun i => map snd (offer_loop eps (nth (i - 0) reqs 0) 0 i (b_items b))).
    assert (Eq : flat_map (fun i => offer_loop eps (nth (i - 0) reqs 0) 0 i (b_items b)) (seq 0 (List.length reqs)) =
                 flat_map (fun i => map (fun m => (i, m)) (g i)) (seq 0 (List.length reqs))).
    { apply flat_map_ext. intro i. unfold g.
      destruct (offer_loop_spec eps (nth (i - 0) reqs 0) i (b_items b) 0) as (k & _ & Q1 & _). rewrite Q1.
      rewrite !map_map. cbn [snd]. reflexivity. }
    rewrite Eq. rewrite (proj1 (filter_bids g j (seq 0 (List.length reqs)) (seq_NoDup _ _)) (proj2 (in_seq _ _ _) (conj (Nat.le_0_l _) Lj))).
    rewrite map_map. cbn [snd]. rewrite map_id. unfold g.
    rewrite Nat.sub_0_r. rewrite (nth_error_nth _ _ 0 Hj).
    destruct (offer_loop_spec eps target j (b_items b) 0) as (k & A & Q1 & C & D).
    exists k. rewrite Q1, map_map. cbn [snd]. rewrite map_id. split; [auto|]. split; [auto|]. split.
    + destruct C as [C|C]; [auto|right]. lra.
    + intros i Hi. specialize (D i Hi). lra.
Qed.
Lemma bid_on_exists eps commod b reqs : reqs <> [] -> eps <= b_qty b -> bid_on eps commod b reqs <> [].
Proof.
  intros Nr L. unfold bid_on. destruct reqs; [congruence|]. destruct (Qltb (b_qty b) eps) eqn:E; [|discriminate].
  apply Qltb_true in E. lra.
Qed.

(** ** Restart *)
Lemma init_loop eps inv : forall bm bm', NoDup (map fst inv) ->
  loop (fun bm e => let* b := b_pushv eps (bm_get (fst e) bm) (snd e) in Ok (bm_set (fst e) b bm)) inv bm = Ok bm' ->
  (forall k, ~ In k (map fst inv) -> bm_get k bm' = bm_get k bm) /\
  (forall k v, In (k, v) inv -> b_items (bm_get k bm') = b_items (bm_get k bm) ++ v).
Proof.
  induction inv as [|[k0 v0] inv IH]; intros bm bm' ND H; simpl in H.
  - injection H as <-. simpl. split; auto; contradiction.
  - inversion ND as [|? ? N ND']; subst. apply bind_ok in H as (bm1 & H1 & H2).
    apply bind_ok in H1 as (b & Hb & H1). injection H1 as <-. simpl in N.
    destruct (IH _ _ ND' H2) as (A & B). split.
    + intros k Nk. simpl in Nk. rewrite A by tauto. apply bm_get_set_other. intro; subst; tauto.
    + intros k v [E|I].
      * injection E as <- <-. rewrite (A _ N), bm_get_set_same.
        unfold b_pushv in Hb. destruct (b_fits _ _ _); [|discriminate]. injection Hb as <-. auto.
      * rewrite (B _ _ I). f_equal. f_equal. apply bm_get_set_other.
        intros ->. apply N. apply in_map_iff. exists (k0, v). auto.
Qed.
Lemma init_loop_ok eps inv : forall bm, NoDup (map fst inv) ->
  (forall k v, In (k, v) inv -> match b_space (bm_get k bm) with None => True | Some sp => qty_of v <= sp + eps end) ->
  exists bm', loop (fun bm e => let* b := b_pushv eps (bm_get (fst e) bm) (snd e) in Ok (bm_set (fst e) b bm)) inv bm = Ok bm'.
Proof.
  induction inv as [|[k0 v0] inv IH]; intros bm ND H; [simpl; eauto|].
  inversion ND as [|? ? N ND']; subst. cbn [loop fst snd]. simpl in N.
  assert (P : exists b, b_pushv eps (bm_get k0 bm) v0 = Ok b).
  { unfold b_pushv, b_fits. specialize (H k0 v0 (or_introl eq_refl)). destruct (b_space (bm_get k0 bm)) as [sp|]; [|eauto].
    destruct (Qle_bool (qty_of v0 - sp) eps) eqn:E; [eauto|]. apply Qle_bool_false in E. lra. }
  destruct P as (b & P). rewrite P. cbn [bind]. apply IH; auto.
  intros k v I. assert (k <> k0) by (intros ->; apply N; apply in_map_iff; exists (k0, v); auto).
  rewrite bm_get_set_other by auto. apply H. simpl; auto.
Qed.
Lemma pushv_ok eps b ms : match b_space b with None => True | Some sp => qty_of ms <= sp + eps end ->
  b_pushv eps b ms = Ok {| b_cap := b_cap b; b_items := b_items b ++ ms |}.
Proof.
  intro H. unfold b_pushv, b_fits. destruct (b_space b) as [sp|]; auto.
  destruct (Qle_bool (qty_of ms - sp) eps) eqn:E; auto. apply Qle_bool_false in E. lra.
Qed.
Lemma inv_set_new k v : forall inv, ~ In k (map fst inv) -> inv_set k v inv = inv ++ [(k, v)].
Proof.
  induction inv as [|[k' v'] inv IH]; intro H; [reflexivity|]. cbn [inv_set]. destruct (String.eqb_spec k' k) as [->|N]; [exfalso; apply H; left; reflexivity|].
  rewrite IH; [reflexivity|]. intro I. apply H. right. exact I.
Qed.
Lemma inv_set_all (l : bmap) : forall inv, NoDup (map fst l) -> (forall k, In k (map fst l) -> ~ In k (map fst inv)) ->
  fold_left (fun inv e => inv_set (fst e) (b_items (snd e)) inv) l inv = inv ++ map (fun e => (fst e, b_items (snd e))) l.
Proof.
  induction l as [|[k b] l IH]; intros inv N D; cbn [fold_left map fst snd]; [rewrite app_nil_r; reflexivity|]. inversion N as [|x y A B]; subst.
  rewrite (inv_set_new k (b_items b) inv) by (apply D; left; reflexivity). rewrite IH; [rewrite <- app_assoc; reflexivity|exact B|].
  intros k' I. rewrite map_app, in_app_iff. intros [X|[<-|[]]]; [exact (D k' (or_intror I) X)|exact (A I)].
Qed.
Lemma snapshot_plain s : NoDup (map fst (ps_streams s)) ->
  ~ In "leftover-inv-name"%string (map fst (ps_streams s)) -> ~ In "feed-inv-name"%string (map fst (ps_streams s)) ->
  sp_snapshot s = ("leftover-inv-name"%string, b_items (ps_left s)) :: ("feed-inv-name"%string, b_items (ps_feed s)) ::
    map (fun e => (fst e, b_items (snd e))) (ps_streams s).
Proof.
  intros N A B. unfold sp_snapshot. rewrite inv_set_all; [reflexivity|exact N|]. intros k I [<-|[<-|[]]]; auto.
Qed.
Lemma restart_partial eps cfg s s0 prefs : 0 <= eps ->
  NoDup (map st_name (pc_streams cfg)) -> NoDup (map fst (ps_streams s)) ->
  ~ In "leftover-inv-name"%string (map fst (ps_streams s)) -> ~ In "feed-inv-name"%string (map fst (ps_streams s)) ->
  ~ In "leftover-inv-name"%string (map st_name (pc_streams cfg)) -> ~ In "feed-inv-name"%string (map st_name (pc_streams cfg)) ->
  sp_enter eps cfg (sp_new cfg) = Ok (s0, prefs) ->
  b_qty (ps_feed s) <= pc_feed_size cfg + eps -> b_qty (ps_left s) <= pc_leftover_size cfg + eps ->
  (forall st, In st (pc_streams cfg) -> 0 <= st_cap st -> b_qty (stream_buf s (st_name st)) <= st_cap st + eps) ->
  exists s1, sp_init_inv eps (sp_snapshot s) s0 = Ok s1 /\
    b_items (ps_feed s1) = b_items (ps_feed s) /\ b_items (ps_left s1) = b_items (ps_left s) /\
    (forall k, k <> "leftover-inv-name"%string -> k <> "feed-inv-name"%string -> stream_items s1 k = stream_items s k) /\
    stream_items s1 "leftover-inv-name" = b_items (ps_left s) /\
    stream_items s1 "feed-inv-name" = b_items (ps_feed s).
Proof.
  intros He ND NDs Nl Nf Nl' Nf' En Hf Hl Hs.
  pose proof (enter_facts _ _ _ _ _ ND En) as (E1 & E2 & E3 & E4 & E5 & E6).
  assert (It : forall k, stream_items s0 k = []) by (intro k; rewrite E3; reflexivity).
  assert (Zero : forall c q, q <= c + eps -> q <= Qmax 0 (c - qty_of []) + eps).
  { intros c q H. rewrite qty_of_nil. pose proof (Q.le_max_r 0 (c - 0)). lra. }
  rewrite (snapshot_plain s NDs Nl Nf).
  set (inv := ("leftover-inv-name"%string, b_items (ps_left s)) :: ("feed-inv-name"%string, b_items (ps_feed s)) ::
     map (fun e => (fst e, b_items (snd e))) (ps_streams s)).
  assert (G1 : inv_get "leftover-inv-name" inv = b_items (ps_left s)) by reflexivity.
  assert (G2 : inv_get "feed-inv-name" inv = b_items (ps_feed s)) by reflexivity.
  unfold sp_init_inv. rewrite G1, G2.
  rewrite (pushv_ok eps (ps_left s0)).
  2:{ rewrite E2. unfold b_space, sp_new, b_qty. simpl. apply Zero. exact Hl. }
  cbn [bind].
  rewrite (pushv_ok eps (ps_feed s0)).
  2:{ rewrite E1. unfold b_space, sp_new, b_qty. simpl. apply Zero. exact Hf. }
  cbn [bind].
  assert (Ki : map fst inv = "leftover-inv-name"%string :: "feed-inv-name"%string :: map fst (ps_streams s)).
  { unfold inv. simpl. rewrite map_map. reflexivity. }
  assert (NDi : NoDup (map fst inv)).
  { rewrite Ki. constructor; [|constructor; auto]. simpl. intros [X|X]; [discriminate|contradiction]. }
  destruct (init_loop_ok eps inv (ps_streams s0) NDi) as (bm & L).
  { intros k v I. change (bm_get k (ps_streams s0)) with (stream_buf s0 k). unfold b_space.
    destruct (in_dec string_dec k (map st_name (pc_streams cfg))) as [Ik|Nk].
    - apply in_map_iff in Ik as (st & Ek & Ik).
      destruct (Qlt_le_dec (st_cap st) 0) as [C|C].
      + rewrite <- Ek, (E5 st Ik C). exact Logic.I.
      + rewrite <- Ek, (E4 st Ik C). unfold b_qty. change (b_items (stream_buf s0 (st_name st))) with (stream_items s0 (st_name st)).
        rewrite It. apply Zero. specialize (Hs st Ik C). unfold inv in I.
        destruct I as [I|[I|I]].
        * injection I as <- _. exfalso. apply Nl'. rewrite <- Ek. apply in_map; auto.
        * injection I as <- _. exfalso. apply Nf'. rewrite <- Ek. apply in_map; auto.
        * apply in_map_iff in I as ([k' b] & I1 & I2). simpl in I1. injection I1 as <- <-.
          apply (bm_find_iff k' _ b NDs) in I2. unfold stream_buf in Hs. rewrite Ek, (find_get _ _ _ I2) in Hs. exact Hs.
    - rewrite (E6 k Nk). exact Logic.I. }
  rewrite L. cbn [bind]. eexists. split; [reflexivity|].
  destruct (init_loop _ _ _ _ NDi L) as (A & B). unfold stream_items, stream_buf. cbn [ps_feed ps_left ps_streams b_items].
  split; [rewrite E1; reflexivity|]. split; [rewrite E2; reflexivity|].
  assert (It' : forall k, b_items (bm_get k (ps_streams s0)) = []) by exact It.
  split; [|split].
  - intros k N1 N2. destruct (bm_find k (ps_streams s)) as [b|] eqn:F.
    + rewrite (find_get _ _ _ F). rewrite (B k (b_items b)); [rewrite It'; auto|].
      unfold inv. simpl. right. right. apply in_map_iff. exists (k, b). split; auto. apply bm_find_in; auto.
    + assert (Nk : ~ In k (map fst inv)).
      { rewrite Ki. apply bm_find_none in F. simpl. intros [X|[X|X]]; [congruence|congruence|contradiction]. }
      rewrite (A k Nk), It'. unfold bm_get. rewrite F. reflexivity.
  - rewrite (B "leftover-inv-name"%string (b_items (ps_left s))); [rewrite It'; auto|]. unfold inv; simpl; auto.
  - rewrite (B "feed-inv-name"%string (b_items (ps_feed s))); [rewrite It'; auto|]. unfold inv; simpl; auto.
Qed.

(** ** Executable checks for the hypotheses *)
Definition no_tracesb (eps : Q) (cfg : sp_cfg) (m : mat) (f : Q) : bool :=
  forallb (fun k => forallb (fun n =>
      let r := mass_of m n * (1 - f * qsum (map (fun st => efficiency (st_effs st) n) (firstn k (pc_streams cfg)))) in
      Qeq_bool r 0 || Qle_bool eps r)%bool (nuclides m)) (seq 0 (S (List.length (pc_streams cfg)))).
Lemma no_traces_check eps cfg m f : no_tracesb eps cfg m f = true -> no_traces eps cfg m f.
Proof.
  intros H first rest n E. cbv zeta.
  destruct (in_dec Z.eq_dec n (nuclides m)) as [I|I].
  - unfold no_tracesb in H. rewrite forallb_forall in H. specialize (H (List.length first)).
    rewrite forallb_forall in H. cbv zeta in H.
    assert (Hs : In (List.length first) (seq 0 (S (List.length (pc_streams cfg))))).
    { apply in_seq. rewrite E, app_length. lia. }
    specialize (H Hs n I). rewrite E, firstn_app, firstn_all, Nat.sub_diag in H. simpl firstn in H.
    rewrite app_nil_r in H. apply orb_true_iff in H as [H|H]; [left; apply Qeq_bool_iff; auto|right; apply Qle_bool_iff; auto].
  - left. assert (Z : mass_of m n == 0).
    { unfold mass_of. apply cget_notin. rewrite cnorm_keys. intro K. apply I. apply ckeys_in. exact K. }
    rewrite Z. ring.
Qed.

(** ** Statements used by the property file *)
Lemma history_sizes eps recipe cfg es s0 prefs s' os : NoDup (map st_name (pc_streams cfg)) ->
  0 <= pc_throughput cfg -> Forall env_sane es ->
  sp_enter eps cfg (sp_new cfg) = Ok (s0, prefs) -> sp_run eps recipe cfg prefs s0 es = Ok (s', os) ->
  within cfg s' /\ Forall (fun o => within cfg (po_ticked o)) os.
Proof.
  intros ND Ht He En R. destruct (enter_new_within _ _ _ _ ND En) as (W & P).
  refine (run_within _ _ _ _ _ _ _ _ ND Ht He _ W R). unfold sane_qtys. rewrite P. constructor.
Qed.
Lemma history_total eps recipe cfg es s0 prefs s' os : NoDup (map st_name (pc_streams cfg)) ->
  0 <= pc_throughput cfg -> Forall env_sane es ->
  sp_enter eps cfg (sp_new cfg) = Ok (s0, prefs) -> sp_run eps recipe cfg prefs s0 es = Ok (s', os) ->
  qty_of (parcels s') + qty_of (shipped os) == qty_of (received es).
Proof.
  intros ND Ht He En R. destruct (enter_new_within _ _ _ _ ND En) as (W & P).
  assert (S0 : sane_qtys s0) by (unfold sane_qtys; rewrite P; constructor).
  destruct (run_total _ _ _ _ _ _ _ _ Ht He S0 R) as (_ & T).
  rewrite T, P, qty_of_nil. lra.
Qed.
Lemma history_mass0 recipe cfg es s0 prefs s' os : NoDup (map st_name (pc_streams cfg)) ->
  0 <= pc_throughput cfg -> Forall env_sane es ->
  sp_enter 0 cfg (sp_new cfg) = Ok (s0, prefs) -> sp_run 0 recipe cfg prefs s0 es = Ok (s', os) ->
  forall n, mass_in n (parcels s') + mass_in n (shipped os) == mass_in n (received es).
Proof.
  intros ND Ht He En R n. destruct (enter_new_within _ _ _ _ ND En) as (W & P).
  assert (S0 : mats_ok (parcels s0)) by (rewrite P; constructor).
  destruct (run_mass0 _ _ _ _ _ _ _ Ht He S0 R) as (_ & T).
  rewrite T, P, mass_in_nil. lra.
Qed.
Lemma nuclide_drift eps cfg s s' lg m feed1 : 0 <= eps -> 0 <= pc_throughput cfg ->
  mats_ok (b_items (ps_feed s)) -> sp_tick eps cfg s = Ok (s', lg) ->
  b_pop_tol (ps_feed s) (Qmin (pc_throughput cfg) (b_qty (ps_feed s))) eps = Ok (m, feed1) ->
  forall n, Qabs (mass_in n (parcels s') - mass_in n (parcels s)) <=
    eps * inject_Z (zlen (pc_streams cfg)) * inject_Z (zlen (nuclides m)).
Proof.
  intros He Ht Of H P n. destruct (tick_drift eps cfg s s' lg n He Ht Of H) as (m' & r & _ & D & B).
  destruct D as [(E & ->)|P']; [|rewrite P in P'; injection P' as <- <-; exact B].
  assert (Z : mass_in n (parcels s) - mass_in n (parcels s) == 0) by lra. rewrite Z.
  assert (N1 : 0 <= inject_Z (zlen (pc_streams cfg))) by (unfold zlen; change 0 with (inject_Z 0); rewrite <- Zle_Qle; lia).
  assert (N2 : 0 <= inject_Z (zlen (nuclides m))) by (unfold zlen; change 0 with (inject_Z 0); rewrite <- Zle_Qle; lia).
  change (Qabs 0) with 0. apply Qmult_le_0_compat; auto. apply Qmult_le_0_compat; auto.
Qed.
Lemma fully_separated eps cfg s s' lg m feed1 n st :
  0 <= eps -> 0 <= pc_throughput cfg -> NoDup (map st_name (pc_streams cfg)) -> efficiencies_sane cfg ->
  mats_ok (b_items (ps_feed s)) -> b_items (ps_feed s) <> [] ->
  b_pop_tol (ps_feed s) (Qmin (pc_throughput cfg) (b_qty (ps_feed s))) eps = Ok (m, feed1) ->
  (forall st sp, In st (pc_streams cfg) -> b_space (stream_buf s (st_name st)) = Some sp -> share (st_effs st) m <= sp) ->
  no_traces eps cfg m 1 -> sp_tick eps cfg s = Ok (s', lg) ->
  In st (pc_streams cfg) -> efficiency (st_effs st) n == 1 ->
  mass_in n (b_items (ps_left s')) == mass_in n (b_items (ps_left s)).
Proof.
  intros He Ht ND Es Of Ne P Room Nt H I E1.
  destruct (tick_split _ _ _ _ _ _ _ He Ht ND Es Of Ne P Room Nt H) as (_ & _ & G).
  assert (S1 : qsum (map (fun st => efficiency (st_effs st) n) (pc_streams cfg)) == 1).
  { pose proof (proj2 Es n) as L.
    assert (L2 : efficiency (st_effs st) n <= qsum (map (fun st => efficiency (st_effs st) n) (pc_streams cfg))).
    { destruct Es as (En & _). clear - En I. induction (pc_streams cfg) as [|x l IH]; [destruct I|].
      simpl. assert (N : 0 <= qsum (map (fun st => efficiency (st_effs st) n) l)).
      { apply qsum_nonneg. rewrite Forall_map, Forall_forall. intros y Iy. apply eff_nonneg.
        intros e Ie. apply (En y e); simpl; auto. }
      assert (Nx : 0 <= efficiency (st_effs x) n) by (apply eff_nonneg; intros e Ie; apply (En x e); simpl; auto).
      destruct I as [->|I]; [lra|]. assert (K : efficiency (st_effs st) n <= qsum (map (fun st => efficiency (st_effs st) n) l)).
      { apply IH; auto. intros y e Iy Ie. apply (En y e); simpl; auto. }
      lra. }
    lra. }
  destruct G as [(-> & _)|(x & -> & _ & M)]; [reflexivity|].
  rewrite mass_in_app, mass_in_cons, mass_in_nil, M, S1. ring.
Qed.
Lemma full_stream_pauses eps cfg s s' lg m feed1 st :
  0 <= eps -> 0 <= pc_throughput cfg -> NoDup (map st_name (pc_streams cfg)) -> efficiencies_sane cfg ->
  mats_ok (b_items (ps_feed s)) -> b_items (ps_feed s) <> [] ->
  b_pop_tol (ps_feed s) (Qmin (pc_throughput cfg) (b_qty (ps_feed s))) eps = Ok (m, feed1) ->
  In st (pc_streams cfg) -> b_space (stream_buf s (st_name st)) = Some 0 -> 0 < share (st_effs st) m ->
  sp_tick eps cfg s = Ok (s', lg) ->
  b_qty (ps_feed s') == b_qty (ps_feed s) /\ b_qty (ps_left s') == b_qty (ps_left s) /\
  forall name, b_qty (stream_buf s' name) == b_qty (stream_buf s name).
Proof.
  intros He Ht ND Es Of Ne P I Sp Sh H.
  destruct (tick_limited _ _ _ _ _ He Ht ND Es Of Ne H) as (m' & fd & f & P' & _ & _ & Pr & G & O & F & L).
  rewrite P in P'. injection P' as <- <-.
  assert (F0 : f == 0).
  { destruct Pr as ((F1 & _) & K & _). specialize (K st 0 I Sp). nra. }
  split; [rewrite F, F0; ring|]. split; [rewrite L, F0; ring|]. intro name.
  unfold b_qty. fold (stream_items s' name). fold (stream_items s name).
  destruct (in_dec string_dec name (map st_name (pc_streams cfg))) as [In1|N]; [|rewrite O; auto; reflexivity].
  apply in_map_iff in In1 as (st1 & <- & I1). destruct (G st1 I1) as [(-> & _)|(x & -> & Q & _)]; [reflexivity|].
  rewrite qty_of_app, qty_of_cons, qty_of_nil, Q, F0. ring.
Qed.
Lemma bids_spec eps cfg s reqs p : NoDup (map fst (ps_streams s)) -> In p (sp_bids eps cfg s reqs) ->
  exists b, (bd_commod p = pc_leftover_commod cfg /\ b = ps_left s \/
             In (bd_commod p) (map fst (ps_streams s)) /\ b = stream_buf s (bd_commod p)) /\
  bd_cap p = b_qty b /\ eps <= b_qty b /\
  (forall j m, In (j, m) (bd_bids p) -> (j < List.length (reqs (bd_commod p)))%nat) /\
  (forall j target, nth_error (reqs (bd_commod p)) j = Some target ->
     offers_for eps target (b_items b) (map snd (filter (fun x => Nat.eqb (fst x) j) (bd_bids p)))).
Proof.
  intros ND H. unfold sp_bids in H. apply in_app_or in H as [H|H].
  - apply in_flat_map in H as ([k b] & I & H). apply bid_on_spec in H as (-> & B & _ & C & D & E).
    exists b. split; [right|auto]. split; [apply in_map_iff; exists (k, b); auto|].
    unfold stream_buf. symmetry. apply find_get. apply bm_find_iff; auto.
  - apply bid_on_spec in H as (-> & B & _ & C & D & E). exists (ps_left s). split; [left; auto|auto].
Qed.
Lemma bids_exist eps cfg s reqs c : reqs c <> [] -> eps <= qty_of (stock cfg s c) ->
  c = pc_leftover_commod cfg \/ In c (map fst (ps_streams s)) -> NoDup (map fst (ps_streams s)) ->
  exists p, In p (sp_bids eps cfg s reqs) /\ bd_commod p = c.
Proof.
  intros Nr L D ND. unfold stock in L. destruct (String.eqb_spec c (pc_leftover_commod cfg)) as [->|N].
  - pose proof (bid_on_exists eps (pc_leftover_commod cfg) (ps_left s) (reqs (pc_leftover_commod cfg)) Nr L) as X.
    destruct (bid_on eps (pc_leftover_commod cfg) (ps_left s) (reqs (pc_leftover_commod cfg))) as [|p l] eqn:E; [congruence|].
    exists p. split; [unfold sp_bids; apply in_or_app; right; rewrite E; simpl; auto|].
    assert (Ip : In p (bid_on eps (pc_leftover_commod cfg) (ps_left s) (reqs (pc_leftover_commod cfg)))) by (rewrite E; simpl; auto).
    apply bid_on_spec in Ip. tauto.
  - destruct D as [D|D]; [contradiction|]. apply in_map_iff in D as ([k b] & Ek & D). simpl in Ek. subst k.
    unfold stream_items, stream_buf, bm_get in L. rewrite (proj2 (bm_find_iff _ _ _ ND) D) in L.
    pose proof (bid_on_exists eps c b (reqs c) Nr L) as X.
    destruct (bid_on eps c b (reqs c)) as [|p l] eqn:E; [congruence|].
    exists p. split; [unfold sp_bids; apply in_or_app; left; apply in_flat_map; exists (c, b); simpl; rewrite E; simpl; auto|].
    assert (Ip : In p (bid_on eps c b (reqs c))) by (rewrite E; simpl; auto).
    apply bid_on_spec in Ip. tauto.
Qed.
Lemma offers_found eps cfg s reqs : NoDup (map fst (ps_streams s)) ->
  (forall p, In p (sp_bids eps cfg s reqs) ->
   exists b, (bd_commod p = pc_leftover_commod cfg /\ b = ps_left s \/
             In (bd_commod p) (map fst (ps_streams s)) /\ b = stream_buf s (bd_commod p)) /\
   bd_cap p = b_qty b /\ eps <= b_qty b /\
   (forall j m, In (j, m) (bd_bids p) -> (j < List.length (reqs (bd_commod p)))%nat) /\
   (forall j target, nth_error (reqs (bd_commod p)) j = Some target ->
     offers_for eps target (b_items b) (map snd (filter (fun x => Nat.eqb (fst x) j) (bd_bids p))))) /\
  (forall c, reqs c <> [] -> eps <= qty_of (stock cfg s c) ->
   c = pc_leftover_commod cfg \/ In c (map fst (ps_streams s)) ->
   exists p, In p (sp_bids eps cfg s reqs) /\ bd_commod p = c).
Proof.
  intro ND. split; [intros p; apply bids_spec; auto|intros c A B C; apply (bids_exist eps cfg s reqs c); auto].
Qed.
Lemma enough_room eps cfg s : 0 <= eps -> 0 < pc_throughput cfg ->
  NoDup (map st_name (pc_streams cfg)) -> efficiencies_sane cfg -> mats_ok (b_items (ps_feed s)) ->
  b_items (ps_feed s) <> [] ->
  match b_cap (ps_feed s) with None => True | Some c => b_qty (ps_feed s) <= c + eps end ->
  (forall m feed1 f, b_pop_tol (ps_feed s) (Qmin (pc_throughput cfg) (b_qty (ps_feed s))) eps = Ok (m, feed1) ->
     processable cfg s m f -> no_traces eps cfg m f /\
     match b_space (ps_left s) with
     | None => True
     | Some sp => f * (m_qty m - qsum (map (fun st => share (st_effs st) m) (pc_streams cfg))) <= sp + eps
     end) ->
  exists s' lg, sp_tick eps cfg s = Ok (s', Some lg).
Proof.
  intros He Ht ND Es Om Ne Hc K. destruct (tick_pop eps cfg s He Ht Ne Om) as (m & feed1 & P).
  pose proof P as P0. apply pop_tol_inv in P as (_ & P).
  assert (Nq : 0 <= Qmin (pc_throughput cfg) (b_qty (ps_feed s))).
  { apply Q.min_glb; [lra|]. apply mats_qty_nonneg; auto. }
  apply pop_tol_facts in P as (_ & _ & _ & P4 & _); auto.
  destruct (stage_loop_ok s m (pc_streams cfg) ([], 1) (proj1 Es) (mat_ok_qok _ P4)) as ([staged g] & St).
  pose proof (run_processable _ _ _ _ _ (proj1 Es) (mat_ok_qok _ P4) St) as Pr.
  destruct (K m feed1 g P0 Pr) as (Nt & Rm).
  apply (tick_succeeds eps cfg s m feed1 g); auto. lra.
Qed.

(** ** Start-up preferences and the end of life *)
Lemma enter_prefs eps cfg s s0 prefs : sp_enter eps cfg s = Ok (s0, prefs) ->
  (pc_feed_prefs cfg = [] -> prefs = repeat 1 (List.length (pc_feed_commods cfg))) /\
  (pc_feed_prefs cfg <> [] -> prefs = pc_feed_prefs cfg).
Proof.
  intro H. unfold sp_enter in H. apply bind_ok in H as (bm & _ & H). cbv zeta in H.
  destruct (existsb _ _); [discriminate|]. injection H as _ H. subst prefs.
  split; intro E.
  - rewrite E. induction (pc_feed_commods cfg); cbn; [reflexivity|]. rewrite IHl. reflexivity.
  - destruct (pc_feed_prefs cfg); [contradiction|reflexivity].
Qed.
Lemma check_decom_spec s : sp_check_decom s = true <->
  b_items (ps_left s) = [] /\ forall name b, In (name, b) (ps_streams s) -> b_items b = [].
Proof.
  unfold sp_check_decom. destruct (b_items (ps_left s)) as [|m l].
  - rewrite forallb_forall. split.
    + intro H. split; [reflexivity|]. intros name b I. specialize (H _ I). cbn in H.
      destruct (b_items b); [reflexivity|discriminate].
    + intros [_ H] [name b] I. cbn. rewrite (H _ _ I). reflexivity.
  - split; [discriminate|]. intros [H _]. discriminate.
Qed.
