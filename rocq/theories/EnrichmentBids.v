(** Bids, preferences and the filling of awarded trades of the Enrichment facility. *)
From Coq Require Import Lia Lqa Permutation.
From Verif Require Import Outcome KernelMaterial KernelResBuf KernelBuf KernelFacts KernelMass KernelBufFacts
  EnrichmentModel EnrichmentSpec EnrichmentProofs EnrichmentRun.
Local Open Scope Q_scope.

(** ** Filling one product trade *)
Lemma nodup_get c k v : NoDup (map fst c) -> In (k, v) c -> cget k c == v.
Proof.
  induction c as [|[j y] l IH]; intros ND I; [destruct I|].
  inversion ND as [|? ? N D]; subst. destruct I as [Eq|I].
  - injection Eq as -> ->. cbn [cget]. rewrite Z.eqb_refl, cget_notin by exact N. lra.
  - cbn [cget]. destruct (Z.eqb_spec j k) as [->|D'].
    + exfalso. apply N. apply in_map_iff. exists (k, v). auto.
    + rewrite IH; auto. lra.
Qed.
Lemma extract_ok thr q c m : q <= m_qty m -> real_comp c ->
  (forall n, 0 <= mass_of m n - q * (cget n c / csum c)) -> exists a b, extract_comp thr q c m = Ok (a, b).
Proof.
  intros L (Oc & Pc) H. unfold extract_comp. destruct (Qltb (m_qty m) q) eqn:E; [apply Qltb_true in E; lra|].
  destruct (all_nonneg _) eqn:A; [eauto|]. exfalso.
  assert (X : comp_ok (cthreshold thr (csub (cnorm (m_qty m) (m_comp m)) (cnorm q c)))).
  { unfold comp_ok. rewrite Forall_forall. intros [k x] Hx. cbn [snd].
    assert (ND : NoDup (map fst (csub (cnorm (m_qty m) (m_comp m)) (cnorm q c)))) by apply csub_nodup.
    assert (G : cget k (cthreshold thr (csub (cnorm (m_qty m) (m_comp m)) (cnorm q c))) == x)
      by (apply nodup_get; [rewrite cthreshold_keys; exact ND|exact Hx]).
    rewrite <- G. destruct (cthreshold_get thr _ k ND) as [T|(T & _)]; rewrite T; [|lra].
    rewrite cget_csub, (cget_cnorm k q c Pc). apply H. }
  apply all_nonneg_iff in X. congruence.
Qed.
Lemma other_zero c n : n <> 922350000%Z -> n <> 922380000%Z -> uranium_only c -> cget n c == 0.
Proof.
  intros N5 N8 ((O & _) & U). pose proof (cget_nonneg n c O) as P.
  assert (T : forall c, comp_ok c -> cget 922350000 c + cget 922380000 c + cget n c <= csum c).
  { clear - N5 N8. intros c O. induction c as [|[k v] c IH]; [cbn; unfold csum; cbn; lra|].
    inversion O as [|? ? V O']; subst. cbn [cget snd] in *. rewrite csum_cons. cbn [snd]. specialize (IH O').
    destruct (Z.eqb_spec k 922350000), (Z.eqb_spec k 922380000), (Z.eqb_spec k n); subst; try congruence; lra. }
  specialize (T c O). lra.
Qed.
Lemma mul_div_pos a b c : 0 <= a -> 0 <= b -> 0 < c -> 0 <= a * b / c.
Proof. intros A B C. apply Qle_shift_div_l; [exact C|]. rewrite Qmult_0_l. apply Qmult_le_0_compat; assumption. Qed.
Lemma need_ge xf xp xt q : 0 <= q -> xt < xf -> xf <= xp -> q <= need xf xp xt q /\ 0 <= waste xf xp xt q.
Proof.
  intros Q0 F P. assert (W : 0 <= waste xf xp xt q) by (apply mul_div_pos; lra). split; [|exact W].
  rewrite need_balance by lra. lra.
Qed.
Lemma enrich_ok eps eg V cfg s offer q c a b :
  0 <= eps -> 0 < q -> mats_ok (b_items (es_inv s)) -> fits eps (es_inv s) -> b_cap (es_tails s) = None ->
  0 < b_qty (es_inv s) -> 0 < uranium (b_items (es_inv s)) ->
  es_swu s = Some c -> es_iswu s = Some a -> es_ifeed s = Some b ->
  0 < m_qty offer -> uranium_only (m_comp offer) ->
  let xf := assay_of (b_items (es_inv s)) in let xp := mass_assay (m_comp offer) in let xt := ec_tails_assay cfg in
  0 <= xt -> xt <= 1 -> xt < xf -> xf <= xp ->
  need xf xp xt q / purity (b_items (es_inv s)) <= b_qty (es_inv s) ->
  exists s' resp rc, en_enrich eps eg V cfg s offer q = Ok (s', resp, rc).
Proof.
  intros He Hq O F CT PS PU SC SA SB Ho UO xf xp xt T0 T1 XF XP LE.
  assert (NE : b_items (es_inv s) <> []) by (intro Z; unfold b_qty in PS; rewrite Z, qty_of_nil in PS; lra).
  destruct (blend_ok eps (es_inv s) He NE F) as (m & BL).
  destruct (blend_facts _ _ _ _ He O BL) as (_ & _ & M1 & M2 & M3).
  unfold en_enrich. assert (FA : feed_assay eps (es_inv s) = Ok (assay m, {| b_cap := b_cap (es_inv s); b_items := [m] |})).
  { unfold feed_assay. destruct (b_items (es_inv s)) eqn:E; [congruence|]. rewrite BL. reflexivity. }
  rewrite FA. cbn [bind].
  assert (F1 : fits eps {| b_cap := b_cap (es_inv s); b_items := [m] |}).
  { unfold fits in *. cbn [b_cap]. destruct (b_cap (es_inv s)); auto. unfold b_qty in *. cbn [b_items]. rewrite qty_of_cons, qty_of_nil. split; [apply F|lra]. }
  destruct (blend_ok eps {| b_cap := b_cap (es_inv s); b_items := [m] |} He ltac:(discriminate) F1) as (m' & BL2).
  destruct (blend_one _ _ _ _ _ He BL2) as (-> & _). rewrite BL2. cbn [bind b_cap].
  pose proof (assay_spec m _ O M3) as AS. fold xf in AS.
  assert (AO : assay offer == xp) by (destruct offer as [i x k]; apply assay_comp; [exact Ho|apply UO]).
  assert (UF : u_frac m == purity (b_items (es_inv s))).
  { rewrite u_frac_spec by (try exact M2; lra). unfold purity, uranium. rewrite !M3, M1. reflexivity. }
  assert (PP : 0 < purity (b_items (es_inv s))) by (unfold purity; apply Qlt_shift_div_l; unfold b_qty in *; lra).
  assert (P1 : purity (b_items (es_inv s)) <= 1).
  { unfold purity. apply Qle_shift_div_r; [exact PS|]. pose proof (uranium_le_qty _ O). lra. }
  unfold swu_required, feed_qty, tails_qty. cbn [as_feed as_product as_tails].
  destruct (Qeq_bool (assay m - ec_tails_assay cfg) 0) eqn:EQ; [apply Qeq_bool_iff in EQ; fold xt in EQ; lra|].
  destruct (Qeq_bool (u_frac m) 0) eqn:EU; [apply Qeq_bool_iff in EU; lra|]. cbv zeta.
  set (fq := q * ((assay offer - ec_tails_assay cfg) / (assay m - ec_tails_assay cfg)) / u_frac m).
  set (N := need xf xp xt q) in *. set (pu := purity (b_items (es_inv s))) in *.
  assert (FQ : fq == N / pu).
  { unfold fq, N, need. rewrite AS, AO, UF. fold xt. field. split; [lra|]. lra. }
  destruct (need_ge xf xp xt q ltac:(lra) XF XP) as (NG & WG). fold N in NG.
  assert (NP : N <= N / pu) by (apply Qle_shift_div_l; [exact PP|]; nra).
  change (exists s' resp rc, (let* '(r, b2) := draw eps eg {| b_cap := b_cap (es_inv s); b_items := [m] |} fq in
      let* '(resp, rest) := extract_comp eps q (m_comp offer) r in
      let* t := b_push eps (es_tails s) rest in
      let* cur := oplus (es_swu s) (- (q * V (assay offer) + q * ((assay offer - assay m) / (assay m - ec_tails_assay cfg)) * V (ec_tails_assay cfg) -
             q * ((assay offer - ec_tails_assay cfg) / (assay m - ec_tails_assay cfg)) * V (assay m))) in
      let* isw := oplus (es_iswu s) (q * V (assay offer) + q * ((assay offer - assay m) / (assay m - ec_tails_assay cfg)) * V (ec_tails_assay cfg) -
             q * ((assay offer - ec_tails_assay cfg) / (assay m - ec_tails_assay cfg)) * V (assay m)) in
      let* ife := oplus (es_ifeed s) fq in
      Ok ({| es_inv := b2; es_tails := t; es_swu := cur; es_iswu := isw; es_ifeed := ife |}, resp,
          {| er_feed := fq; er_swu := q * V (assay offer) + q * ((assay offer - assay m) / (assay m - ec_tails_assay cfg)) * V (ec_tails_assay cfg) -
             q * ((assay offer - ec_tails_assay cfg) / (assay m - ec_tails_assay cfg)) * V (assay m) |})) = Ok (s', resp, rc)).
  assert (FL : fq <= m_qty m) by lra.
  destruct (draw_ok eps eg (b_cap (es_inv s)) m fq He ltac:(lra) FL) as (r & b' & DR). rewrite DR. cbn [bind].
  assert (K : fq <= m_qty r /\ forall n, mass_of r n == m_qty r * (mass_in n (b_items (es_inv s)) / b_qty (es_inv s))).
  { destruct (draw_inv _ _ _ _ _ _ _ DR) as [(-> & _)|(-> & _)].
    - split; [exact FL|]. intro n. rewrite M3, M1. field. lra.
    - cbn [m_qty]. split; [lra|]. intro n. rewrite <- M3, <- M1. destruct m as [i x k]. unfold mass_of. cbn [m_qty m_comp m_id] in *.
      destruct M2 as (_ & OK & [PK|Z]); cbn [m_comp m_qty] in *; [|lra]. rewrite !cget_cnorm by exact PK. field. split; lra. }
  destruct K as (K1 & K2).
  assert (Y5 : mass_in 922350000 (b_items (es_inv s)) / b_qty (es_inv s) == pu * xf).
  { unfold pu, xf, purity, assay_of, b_qty. field. unfold b_qty in PS. split; lra. }
  assert (Y8 : mass_in 922380000 (b_items (es_inv s)) / b_qty (es_inv s) == pu * (1 - xf)).
  { assert (X1 : 1 - xf == mass_in 922380000 (b_items (es_inv s)) / uranium (b_items (es_inv s))).
    { unfold xf, assay_of. unfold uranium in *. field. lra. }
    rewrite X1. unfold pu, purity, b_qty. unfold b_qty in PS. field. split; lra. }
  assert (NB5 : N * xf - q * xp == waste xf xp xt q * xt) by (apply need_235; lra).
  assert (NB8 : N * (1 - xf) - q * (1 - xp) == waste xf xp xt q * (1 - xt)) by (apply need_238; lra).
  assert (EQN : N / pu * pu == N) by (field; lra).
  assert (XF1 : xf <= 1).
  { unfold xf, assay_of. apply Qle_shift_div_r; [exact PU|]. unfold uranium. pose proof (mass_in_nonneg 922380000 _ O). lra. }
  destruct (extract_ok eps q (m_comp offer) r) as (ra & rb & EX).
  - lra.
  - apply UO.
  - assert (RN : forall n, 0 <= mass_of r n).
    { intro n. rewrite K2. apply Qmult_le_0_compat; [lra|]. apply Qle_shift_div_l; [exact PS|]. rewrite Qmult_0_l. apply mass_in_nonneg, O. }
    destruct UO as (Rc & UO). pose proof (proj2 Rc) as PC.
    assert (P5 : cget 922350000 (m_comp offer) / csum (m_comp offer) == xp) by (unfold xp, mass_assay; rewrite UO; reflexivity).
    assert (P8 : cget 922380000 (m_comp offer) / csum (m_comp offer) == 1 - xp).
    { rewrite <- P5. rewrite <- UO in PC |- *. field. lra. }
    assert (KP : N <= m_qty r * pu).
    { rewrite <- EQN. apply Qmult_le_compat_r; lra. }
    assert (W5 : 0 <= waste xf xp xt q * xt) by (apply Qmult_le_0_compat; lra).
    assert (W8 : 0 <= waste xf xp xt q * (1 - xt)) by (apply Qmult_le_0_compat; lra).
    intro n. destruct (Z.eq_dec n 922350000) as [->|D5].
    + rewrite P5, K2, Y5. assert (Z : N * xf <= m_qty r * pu * xf) by (apply Qmult_le_compat_r; lra).
      rewrite Qmult_assoc. lra.
    + destruct (Z.eq_dec n 922380000) as [->|D8].
      * rewrite P8, K2, Y8. assert (Z : N * (1 - xf) <= m_qty r * pu * (1 - xf)) by (apply Qmult_le_compat_r; lra).
        rewrite Qmult_assoc. lra.
      * rewrite (other_zero _ n D5 D8 (conj Rc UO)). specialize (RN n). assert (Z : 0 / csum (m_comp offer) == 0) by (field; lra).
        rewrite Z. lra.
  - rewrite EX. cbn [bind]. rewrite b_push_ok by (rewrite CT; exact I). cbn [bind]. rewrite SC, SA, SB. cbn [oplus bind]. eauto.
Qed.

(** ** Filling a list of trades *)
Definition fillable (eg : Q) (cfg : en_cfg) (feed : list mat) (t : en_trade) : Prop :=
  0 < m_qty (et_offer t) /\ uranium_only (m_comp (et_offer t)) /\
  assay_of feed <= mass_assay (m_comp (et_offer t)) /\
  eg <= need (assay_of feed) (mass_assay (m_comp (et_offer t))) (ec_tails_assay cfg) (et_amt t) / purity feed.
Lemma qsum_nonneg l : Forall (fun x => 0 <= x) l -> 0 <= qsum l.
Proof. induction 1; unfold qsum in *; cbn [fold_right]; lra. Qed.
Lemma products_cons cfg t ts : products cfg (t :: ts) =
  if String.eqb (et_commod t) (ec_tails_commod cfg) then products cfg ts else t :: products cfg ts.
Proof. unfold products. cbn [filter]. destruct (String.eqb _ _); reflexivity. Qed.
Lemma tails_sold_cons cfg t ts : tails_sold cfg (t :: ts) =
  if String.eqb (et_commod t) (ec_tails_commod cfg) then et_amt t :: tails_sold cfg ts else tails_sold cfg ts.
Proof. unfold tails_sold. cbn [filter]. destruct (String.eqb _ _); reflexivity. Qed.
Lemma loop_filled eps eg V cfg feed : 0 <= eps -> 0 <= ec_tails_assay cfg -> ec_tails_assay cfg <= 1 ->
  0 < qty_of feed -> 0 < uranium feed -> mats_ok feed -> ec_tails_assay cfg < assay_of feed ->
  forall ts s c a b, mats_ok (b_items (es_inv s)) -> qtys_ok (b_items (es_tails s)) -> fits eps (es_inv s) ->
  b_cap (es_tails s) = None -> same_blend feed (b_items (es_inv s)) ->
  es_swu s = Some c -> es_iswu s = Some a -> es_ifeed s = Some b ->
  Forall (fun t => 0 < et_amt t) ts -> Forall (fillable eg cfg feed) (products cfg ts) ->
  (products cfg ts = [] \/ feed_used cfg feed ts <= b_qty (es_inv s)) ->
  qsum (tails_sold cfg ts) <= b_qty (es_tails s) ->
  exists s' ms rs, en_trade_loop eps eg V cfg s ts = Ok (s', ms, rs) /\ Forall2 (served cfg) ts ms.
Proof.
  intros He T0 T1 FQ FU FO XF. induction ts as [|t ts IH]; intros s c a b O OT F CT SB SC SA SF PA FL LE LT.
  { exists s, [], []. split; [reflexivity|constructor]. }
  inversion PA as [|? ? P1 P2]; subst. cbn [en_trade_loop]. unfold en_trade1. unfold feed_used in *.
  rewrite products_cons in *. rewrite tails_sold_cons in *.
  assert (TN : 0 <= qsum (tails_sold cfg ts)).
  { apply qsum_nonneg. unfold tails_sold. rewrite Forall_map. rewrite Forall_forall in *. intros x Hx. apply filter_In in Hx as (Hx & _).
    specialize (P2 x Hx). lra. }
  destruct (String.eqb (et_commod t) (ec_tails_commod cfg)) eqn:C.
  - change (qsum (et_amt t :: tails_sold cfg ts)) with (et_amt t + qsum (tails_sold cfg ts)) in LT.
    assert (MN : Qmin (et_amt t) (b_qty (es_tails s)) == et_amt t) by (apply Q.min_l; lra).
    unfold b_pop_tol. assert (MP : 0 < Qmin (et_amt t) (b_qty (es_tails s))) by lra.
    assert (ML : Qmin (et_amt t) (b_qty (es_tails s)) <= qty_of (b_items (es_tails s))) by (apply Q.le_min_r).
    destruct (pop_tol_ok _ _ _ MP He ML) as (m & r & PT). rewrite PT. cbn [bind].
    destruct (pop_tol_q _ _ _ _ _ OT (Qlt_le_weak _ _ MP) PT) as (A1 & A2 & A3).
    change (Qmin (et_amt t) (b_qty (es_tails s))) with (Qmin (et_amt t) (qty_of (b_items (es_tails s)))) in *.
    assert (MQ : m_qty m == et_amt t).
    { rewrite A1. rewrite MN. exact MN. }
    match goal with |- context [en_trade_loop eps eg V cfg ?z ts] => set (s1 := z) end.
    destruct (IH s1 c a b) as (s' & ms & rs & L & SV); auto.
    { unfold s1, b_qty. cbn [es_tails b_items]. unfold b_qty in LT. lra. }
    rewrite L. cbn [bind]. exists s', (m :: ms), rs. split; [reflexivity|]. constructor; [|exact SV].
    split; [exact MQ|]. intro N. exfalso. apply N. apply String.eqb_eq. exact C.
  - destruct LE as [LE|LE]; [discriminate|]. inversion FL as [|? ? F1 F2]; subst. cbn [map] in LE.
    change (qsum (?x :: ?l)) with (x + qsum l) in LE.
    set (N := need (assay_of feed) (mass_assay (m_comp (et_offer t))) (ec_tails_assay cfg) (et_amt t) / purity feed) in *.
    set (R := qsum (map _ (products cfg ts))) in *.
    destruct F1 as (G1 & G2 & G3 & G4). fold N in G4.
    assert (PP : 0 < purity feed) by (unfold purity; apply Qlt_shift_div_l; lra).
    assert (NG : forall t0, 0 < et_amt t0 -> fillable eg cfg feed t0 ->
       0 < need (assay_of feed) (mass_assay (m_comp (et_offer t0))) (ec_tails_assay cfg) (et_amt t0) / purity feed).
    { intros t0 A0 (_ & _ & X & _). apply Qlt_shift_div_l; [exact PP|]. rewrite Qmult_0_l.
      destruct (need_ge _ _ (ec_tails_assay cfg) (et_amt t0) ltac:(lra) XF X). lra. }
    assert (N0 : 0 < N) by (apply NG; [exact P1|repeat split; try assumption; apply G2]).
    assert (R0 : 0 <= R).
    { apply qsum_nonneg. rewrite Forall_map. rewrite Forall_forall in *. intros x Hx. apply Qlt_le_weak. apply NG; [|auto].
      apply P2. unfold products in Hx. apply filter_In in Hx. apply Hx. }
    assert (PS : 0 < b_qty (es_inv s)) by lra.
    assert (NE : b_items (es_inv s) <> []) by (intro Z; unfold b_qty in PS; rewrite Z, qty_of_nil in PS; lra).
    destruct (blend_same_values _ _ SB NE FU) as (V1 & V2).
    assert (PU : 0 < uranium (b_items (es_inv s))).
    { unfold purity in V2. unfold b_qty in PS. assert (Z : uranium (b_items (es_inv s)) == purity feed * qty_of (b_items (es_inv s))).
      { rewrite <- V2. field. lra. } rewrite Z. apply Qmult_lt_0_compat; assumption. }
    assert (NN : need (assay_of (b_items (es_inv s))) (mass_assay (m_comp (et_offer t))) (ec_tails_assay cfg) (et_amt t) / purity (b_items (es_inv s)) == N).
    { unfold N, purity at 1. change (uranium (b_items (es_inv s)) / qty_of (b_items (es_inv s))) with (purity (b_items (es_inv s))).
      rewrite V2. assert (Y : need (assay_of (b_items (es_inv s))) (mass_assay (m_comp (et_offer t))) (ec_tails_assay cfg) (et_amt t) ==
        need (assay_of feed) (mass_assay (m_comp (et_offer t))) (ec_tails_assay cfg) (et_amt t)) by (apply need_proper; [exact V1|reflexivity]).
      rewrite Y. reflexivity. }
    destruct (enrich_ok eps eg V cfg s (et_offer t) (et_amt t) c a b) as (s1 & m & rc & E); auto.
    { rewrite V1. exact XF. } { rewrite V1. exact G3. } { rewrite NN. lra. }
    rewrite E. cbn [bind].
    destruct (enrich_total _ _ _ _ _ _ _ _ _ _ He O E) as (A1 & A2 & t1 & A3 & A4 & A5 & A6).
    destruct (enrich_inv _ _ _ _ _ _ _ _ _ _ He O E) as (natu & r & rest & EN).
    destruct (drawn_facts _ _ _ _ _ _ _ _ _ _ _ _ _ He O EN) as (D1 & D2 & D3 & D4 & D5 & D6 & D7 & D8).
    destruct (en_swu _ _ _ _ _ _ _ _ _ _ _ _ _ EN) as (c1 & _ & C2).
    destruct (en_iswu _ _ _ _ _ _ _ _ _ _ _ _ _ EN) as (a1 & _ & C4).
    destruct (en_ifeed _ _ _ _ _ _ _ _ _ _ _ _ _ EN) as (b1 & _ & C6).
    assert (T' : b_qty (es_tails s1) == b_qty (es_tails s) + m_qty t1).
    { unfold b_qty. rewrite A3, qty_of_app, qty_of_cons, qty_of_nil. lra. }
    assert (RF : er_feed rc == N).
    { rewrite <- NN. rewrite (en_feed _ _ _ _ _ _ _ _ _ _ _ _ _ EN).
      destruct (en_natu _ _ _ _ _ _ _ _ _ _ _ _ _ EN) as (N1 & N2 & N3).
      assert (AO : assay (et_offer t) == mass_assay (m_comp (et_offer t))) by (destruct (et_offer t) as [i x k]; apply assay_comp; [exact G1|apply G2]).
      assert (UF : u_frac natu == purity (b_items (es_inv s))).
      { rewrite u_frac_spec by (try exact N2; lra). unfold purity, uranium. rewrite !N3, N1. reflexivity. }
      rewrite UF, (need_proper _ _ _ _ _ _ (assay_spec natu _ O N3) AO). reflexivity. }
    destruct (IH s1 (c1 + - er_swu rc) (a1 + er_swu rc) (b1 + er_feed rc)) as (s' & ms & rs & L & SV); auto.
    + rewrite A3. apply Forall_app. split; [exact OT|constructor; [exact A4|constructor]].
    + unfold fits in *. rewrite (en_cap _ _ _ _ _ _ _ _ _ _ _ _ _ EN). destruct (b_cap (es_inv s)); auto. split; [apply F|]. lra.
    + rewrite (en_tailscap _ _ _ _ _ _ _ _ _ _ _ _ _ EN). exact CT.
    + apply (same_blend_trans _ _ _ SB (enrich_blend _ _ _ _ _ _ _ _ _ _ He P1 O E)). congruence.
    + destruct (en_r _ _ _ _ _ _ _ _ _ _ _ _ _ EN) as [(ER & EI & DA)|(ER & _ & _ & EI)].
      * destruct (en_natu _ _ _ _ _ _ _ _ _ _ _ _ _ EN) as (N1 & _).
        left. destruct (products cfg ts) as [|p l] eqn:EP; [reflexivity|exfalso].
        inversion F2 as [|? ? H1 H2]; subst. assert (IP : In p ts) by (assert (IQ : In p (products cfg ts)) by (rewrite EP; left; reflexivity); unfold products in IQ; apply filter_In in IQ; apply IQ).
        assert (HP : 0 < et_amt p) by (rewrite Forall_forall in P2; apply P2, IP). pose proof (NG p HP H1) as PN.
        destruct H1 as (_ & _ & _ & H1). unfold R in *. cbn [map] in *. change (qsum (?x :: ?l)) with (x + qsum l) in *.
        set (np := need (assay_of feed) (mass_assay (m_comp (et_offer p))) (ec_tails_assay cfg) (et_amt p) / purity feed) in *.
        set (rl := qsum (map _ l)) in *.
        assert (RL : 0 <= rl).
        { apply qsum_nonneg. rewrite Forall_map, Forall_forall. intros x Hx. apply Qlt_le_weak, NG; [|rewrite Forall_forall in H2; auto].
          rewrite Forall_forall in P2. apply P2. assert (IQ : In x (products cfg ts)) by (rewrite EP; right; exact Hx). unfold products in IQ. apply filter_In in IQ. apply IQ. }
        destruct DA as [DA|(DA & _)]; [|lra]. apply Qabs_Qlt_condition in DA. lra.
      * right. assert (MR : m_qty r == N) by (rewrite ER; cbn [m_qty]; exact RF). change (R <= b_qty (es_inv s1)). lra.
    + lra.
    + rewrite L. cbn [bind]. exists s', (m :: ms), (rc :: rs). split; [reflexivity|]. constructor; [|exact SV].
      split; [rewrite A1; reflexivity|]. intros _. exact A2.
Qed.

(** ** Which requests are bid on *)
Section ATOMS.
Context (aw : Z -> Q) (AW : forall n, 0 < aw n).
Definition atoms (c : comp) : comp := map (fun e => (fst e, snd e / aw (fst e))) c.
Lemma cget_atoms n c : cget n (atoms c) == cget n c / aw n.
Proof.
  pose proof (AW n) as P. induction c as [|[k v] c IH]; [cbn; field; lra|]. cbn [atoms map cget fst snd]. fold (atoms c). rewrite IH.
  destruct (Z.eqb_spec k n) as [->|N]; field; lra.
Qed.
Lemma atoms_ok c : real_comp c -> 0 < csum (atoms c).
Proof.
  intros (O & P). induction c as [|[k v] c IH]; [unfold csum in P; cbn in P; lra|].
  inversion O as [|? ? V O']; subst. cbn [snd] in V. rewrite csum_cons in P. cbn [snd] in P. cbn [atoms map fst snd]. fold (atoms c).
  rewrite csum_cons. cbn [snd]. pose proof (AW k) as A. assert (NN : 0 <= csum (atoms c)).
  { clear - O' AW. induction c as [|[j w] c IH]; [unfold csum; cbn; lra|]. inversion O' as [|? ? W O'']; subst. cbn [snd] in W.
    cbn [atoms map fst snd]. fold (atoms c). rewrite csum_cons. cbn [snd]. specialize (IH O'').
    assert (0 <= w / aw j) by (apply Qle_shift_div_l; [apply AW|lra]). lra. }
  destruct (Qlt_le_dec 0 v) as [L|L].
  - assert (0 < v / aw k) by (apply Qlt_shift_div_l; lra). lra.
  - assert (Z : v / aw k == 0) by (assert (V0 : v == 0) by lra; rewrite V0; field; lra). rewrite Z.
    assert (0 < csum (atoms c)) by (apply IH; [exact O'|lra]). lra.
Qed.
Lemma atom_frac_spec c n : real_comp c -> atom_frac aw c n == n_atoms aw c n / csum (atoms c).
Proof.
  intro R. unfold atom_frac. fold (atoms c). rewrite cget_cnorm by (apply atoms_ok, R). rewrite cget_atoms. unfold n_atoms. field.
  pose proof (atoms_ok c R). pose proof (AW n). split; lra.
Qed.
Lemma n_atoms_nonneg c n : real_comp c -> 0 <= n_atoms aw c n.
Proof. intros (O & _). apply Qle_shift_div_l; [apply AW|]. pose proof (cget_nonneg n c O). lra. Qed.
Lemma n_atoms_pos c n : 0 < n_atoms aw c n <-> 0 < cget n c.
Proof.
  unfold n_atoms. pose proof (AW n) as A. split; intro H.
  - assert (E : cget n c == cget n c / aw n * aw n) by (field; lra). rewrite E. apply Qmult_lt_0_compat; assumption.
  - apply Qlt_shift_div_l; lra.
Qed.
Lemma valid_spec cfg c : real_comp c ->
  valid_req aw cfg c = true <-> 0 < cget 922380000 c /\ ec_tails_assay cfg < atom_assay aw c.
Proof.
  intro R. unfold valid_req. pose proof (atom_frac_spec c u235 R) as E5. pose proof (atom_frac_spec c u238 R) as E8. unfold u235, u238 in *.
  pose proof (atoms_ok c R) as A. pose proof (n_atoms_nonneg c 922350000 R) as N5. pose proof (n_atoms_nonneg c 922380000 R) as N8.
  rewrite <- n_atoms_pos. unfold atom_assay. cbv zeta.
  set (x := n_atoms aw c 922350000) in *. set (y := n_atoms aw c 922380000) in *.
  set (x' := atom_frac aw c 922350000) in *. set (y' := atom_frac aw c 922380000) in *. set (t := csum (atoms c)) in *.
  rewrite andb_true_iff, !Qltb_true.
  assert (Y : 0 < y' <-> 0 < y).
  { rewrite E8. split; intro H; [|apply Qlt_shift_div_l; lra]. assert (Z : y == y / t * t) by (field; lra). rewrite Z. apply Qmult_lt_0_compat; assumption. }
  assert (D : 0 < y -> x' / (x' + y') == x / (x + y)).
  { intro H. rewrite E5, E8. field. repeat split; lra. }
  split; intros (H1 & H2).
  - apply Y in H1. split; [exact H1|]. rewrite <- (D H1). exact H2.
  - split; [apply Y, H1|]. rewrite (D H1). exact H2.
Qed.
Lemma offer_spec m : request_ok m -> 0 < cget 922380000 (m_comp m) ->
  m_qty (en_offer aw m) = m_qty m /\ uranium_only (m_comp (en_offer aw m)) /\
  mass_assay (m_comp (en_offer aw m)) == mass_assay (m_comp m).
Proof.
  intros (Q0 & R) H8. split; [reflexivity|]. unfold en_offer. cbn [m_comp].
  pose proof (atom_frac_spec (m_comp m) u235 R) as E5. pose proof (atom_frac_spec (m_comp m) u238 R) as E8.
  pose proof (atoms_ok _ R) as A. pose proof (cget_nonneg 922350000 _ (proj1 R)) as P5.
  pose proof (AW u235) as A5. pose proof (AW u238) as A8.
  set (x := atom_frac aw (m_comp m) u235 * aw u235). set (y := atom_frac aw (m_comp m) u238 * aw u238).
  set (t := csum (atoms (m_comp m))) in *.
  assert (X : x == cget 922350000 (m_comp m) / t) by (unfold x; rewrite E5; unfold n_atoms; fold u235; field; split; lra).
  assert (Y : y == cget 922380000 (m_comp m) / t) by (unfold y; rewrite E8; unfold n_atoms; fold u238; field; split; lra).
  assert (X0 : 0 <= x) by (rewrite X; apply Qle_shift_div_l; lra).
  assert (Y0 : 0 < y) by (rewrite Y; apply Qlt_shift_div_l; lra).
  assert (G5 : cget 922350000 [(u235, x); (u238, y)] == x) by (unfold u235, u238; cbn; lra).
  assert (G8 : cget 922380000 [(u235, x); (u238, y)] == y) by (unfold u235, u238; cbn; lra).
  assert (S : csum [(u235, x); (u238, y)] == x + y) by (unfold csum, qsum; cbn; lra).
  split.
  - split; [|rewrite S, G5, G8; reflexivity]. split; [|lra]. constructor; [exact X0|]. constructor; [cbn; lra|constructor].
  - unfold mass_assay. rewrite G5, G8, X, Y. field. repeat split; lra.
Qed.
Lemma below_max eg cfg m : 0 <= eg -> request_ok m ->
  Qltb (assay m) (ec_max_enrich cfg) || almost_eq eg (assay m) (ec_max_enrich cfg) = true <->
  mass_assay (m_comp m) < ec_max_enrich cfg + eg.
Proof.
  intros Hg (Q0 & R). destruct m as [i q c]. cbn [m_comp m_qty] in *. pose proof (assay_comp i q c Q0 R) as A.
  set (x := assay (Mat i q c)) in *. set (y := mass_assay c) in *. set (M := ec_max_enrich cfg).
  rewrite orb_true_iff. unfold almost_eq. rewrite !Qltb_true. rewrite Qabs_Qlt_condition. split.
  - intros [H|(H1 & H2)]; lra.
  - intro H. destruct (Qlt_le_dec x M) as [L|L]; [left; exact L|right]. split; lra.
Qed.
Lemma product_offers_spec eg cfg reqs : forall k j o, In (j, o) (product_offers aw eg cfg k reqs) <->
  exists i m, j = (k + i)%nat /\ nth_error reqs i = Some m /\ o = en_offer aw m /\ valid_req aw cfg (m_comp m) = true /\
    Qltb (assay m) (ec_max_enrich cfg) || almost_eq eg (assay m) (ec_max_enrich cfg) = true.
Proof.
  induction reqs as [|m reqs IH]; intros k j o.
  - cbn. split; [intros []|]. intros (i & m & _ & N & _). destruct i; discriminate.
  - cbn [product_offers]. destruct (valid_req aw cfg (m_comp m) && _) eqn:C.
    + apply andb_true_iff in C as (C1 & C2). split.
      * intros [E|I]; [injection E as <- <-; exists 0%nat, m; rewrite Nat.add_0_r; auto|].
        apply IH in I as (i & m' & -> & N & R). exists (S i), m'. split; [lia|]. split; [exact N|exact R].
      * intros ([|i] & m' & -> & N & -> & R).
        -- cbn in N. injection N as <-. left. rewrite Nat.add_0_r. reflexivity.
        -- right. apply IH. exists i, m'. split; [lia|]. auto.
    + rewrite IH. split.
      * intros (i & m' & -> & N & R). exists (S i), m'. split; [lia|]. split; [exact N|exact R].
      * intros ([|i] & m' & -> & N & -> & R1 & R2).
        -- cbn in N. injection N as <-. rewrite R1, R2 in C. discriminate.
        -- exists i, m'. split; [lia|]. auto.
Qed.
Lemma product_offers_nodup eg cfg reqs : forall k, NoDup (map fst (product_offers aw eg cfg k reqs)).
Proof.
  induction reqs as [|m reqs IH]; intro k; [constructor|]. cbn [product_offers].
  destruct (valid_req aw cfg (m_comp m) && _); [|apply IH]. cbn [map fst]. constructor; [|apply IH].
  intro I. apply in_map_iff in I as ([j o] & E & I). cbn in E. subst j. apply product_offers_spec in I as (i & m' & E & _). lia.
Qed.
End ATOMS.

Lemma get_bids_shape eps eg aw cfg tr pr s s' B : 0 <= eps -> mats_ok (b_items (es_inv s)) ->
  en_get_bids eps eg aw cfg tr pr s = Ok (s', B) ->
  eb_supply_tails B = b_qty (es_tails s) /\ eb_supply_product B = b_qty (es_inv s) /\
  (eb_product B = None /\ ~ (pr <> [] /\ 0 < b_qty (es_inv s)) \/
   pr <> [] /\ 0 < b_qty (es_inv s) /\ exists pb, eb_product B = Some pb /\ pb_offers pb = product_offers aw eg cfg 0 pr /\
     pb_feed pb == assay_of (b_items (es_inv s)) /\ pb_swu pb = ec_swu_capacity cfg /\ pb_natu pb == b_qty (es_inv s)) /\
  (eb_tails B = None /\ ~ (tr <> [] /\ 0 < b_qty (es_tails s)) \/
   tr <> [] /\ 0 < b_qty (es_tails s) /\ exists tb, eb_tails B = Some tb /\ tb_limit tb = b_qty (es_tails s) /\
     tb_offers tb = flat_map (fun j => map (fun m => (j, m)) (b_items (es_tails s))) (seq 0 (List.length tr))).
Proof.
  intros He O H. unfold en_get_bids in H.
  set (tb := match tr with [] => None | _ => if Qltb 0 (b_qty (es_tails s)) then _ else None end) in H.
  assert (X : tb = None /\ ~ (tr <> [] /\ 0 < b_qty (es_tails s)) \/
   tr <> [] /\ 0 < b_qty (es_tails s) /\ exists t, tb = Some t /\ tb_limit t = b_qty (es_tails s) /\
     tb_offers t = flat_map (fun j => map (fun m => (j, m)) (b_items (es_tails s))) (seq 0 (List.length tr))).
  { unfold tb. destruct tr as [|x tr]; [left; split; [auto|intros (N & _); congruence]|].
    destruct (Qltb 0 (b_qty (es_tails s))) eqn:P.
    - right. apply Qltb_true in P. split; [discriminate|]. split; [exact P|]. eexists. split; [reflexivity|]. auto.
    - left. apply Qltb_false in P. split; [auto|]. intros (_ & L). lra. }
  destruct pr as [|p pr].
  { injection H as <- <-. cbn [eb_supply_tails eb_supply_product eb_tails eb_product]. split; [auto|]. split; [auto|].
    split; [left; split; [auto|intros (N & _); congruence]|exact X]. }
  destruct (Qltb 0 (b_qty (es_inv s))) eqn:P.
  2:{ injection H as <- <-. apply Qltb_false in P. cbn [eb_supply_tails eb_supply_product eb_tails eb_product]. split; [auto|]. split; [auto|].
      split; [left; split; [auto|intros (_ & L); lra]|exact X]. }
  apply Qltb_true in P. apply bind_ok in H as ([f1 b1] & F1 & H). apply bind_ok in H as ([f2 b2] & F2 & H). injection H as <- <-.
  cbn [eb_supply_tails eb_supply_product eb_tails eb_product]. split; [auto|]. split; [auto|]. split; [|exact X]. right.
  split; [discriminate|]. split; [exact P|]. eexists. split; [reflexivity|]. cbn [pb_offers pb_feed pb_swu pb_natu].
  split; [reflexivity|].
  destruct (feed_assay_inv _ _ _ _ He F1) as [(E & -> & ->)|(m & N & S & -> & ->)].
  { exfalso. unfold b_qty in P. rewrite E, qty_of_nil in P. lra. }
  destruct (feed_assay_inv _ _ _ _ He F2) as [(E & -> & ->)|(m2 & N2 & S2 & -> & ->)]; [discriminate|].
  cbn in S2. injection S2 as <-. destruct (squash_facts _ _ S) as (Q1 & Q2). destruct (Q2 O) as (Q3 & Q4).
  split; [exact (assay_spec _ _ O Q4)|]. split; [reflexivity|]. unfold b_qty. cbn [b_items]. rewrite qty_of_cons, qty_of_nil. lra.
Qed.
Lemma bids_final : forall eps eg aw cfg tr pr s s' B, 0 <= eps -> 0 <= eg -> (forall n, 0 < aw n) ->
  mats_ok (b_items (es_inv s)) -> Forall request_ok pr ->
  en_get_bids eps eg aw cfg tr pr s = Ok (s', B) ->
  (eb_product B <> None <-> pr <> [] /\ 0 < b_qty (es_inv s)) /\
  forall pb, eb_product B = Some pb ->
    NoDup (map fst (pb_offers pb)) /\ (forall j o, In (j, o) (pb_offers pb) -> (j < List.length pr)%nat) /\
    forall j m, nth_error pr j = Some m ->
      ((exists o, In (j, o) (pb_offers pb)) <->
         0 < cget 922380000 (m_comp m) /\ ec_tails_assay cfg < atom_assay aw (m_comp m) /\
         mass_assay (m_comp m) < ec_max_enrich cfg + eg) /\
      (forall o, In (j, o) (pb_offers pb) ->
         m_qty o = m_qty m /\ uranium_only (m_comp o) /\ mass_assay (m_comp o) == mass_assay (m_comp m)).
Proof.
  intros eps eg aw cfg tr pr s s' B He Hg AW O RQ H.
  destruct (get_bids_shape _ _ _ _ _ _ _ _ _ He O H) as (_ & _ & SH & _). split.
  { destruct SH as [(E & N)|(A & C & pb & E & _)]; rewrite E; split.
    - intro Z. congruence.
    - intro Z. contradiction.
    - auto.
    - discriminate. }
  intros pb E. destruct SH as [(E' & N)|(A & C & pb' & E' & OF & _)]; rewrite E' in E; [discriminate|]. injection E as ->.
  rewrite OF. split; [apply product_offers_nodup|]. split.
  { intros j o I. apply product_offers_spec in I as (i & m & -> & N & _). cbn. apply nth_error_Some. congruence. }
  intros j m N. assert (R : request_ok m) by (rewrite Forall_forall in RQ; apply RQ; eapply nth_error_In; exact N).
  split; [split|].
  - intros (o & I). apply product_offers_spec in I as (i & m' & -> & N' & _ & V & M). cbn in N. rewrite N' in N. injection N as ->.
    apply (valid_spec aw AW cfg _ (proj2 R)) in V as (V1 & V2). apply below_max in M; auto.
  - intros (V1 & V2 & M). exists (en_offer aw m). apply product_offers_spec. exists j, m. split; [reflexivity|]. split; [exact N|]. split; [reflexivity|].
    split; [apply (valid_spec aw AW cfg _ (proj2 R)); auto|]. apply below_max; auto.
  - intros o I. apply product_offers_spec in I as (i & m' & -> & N' & -> & V & _). cbn in N. rewrite N' in N. injection N as ->.
    apply (valid_spec aw AW cfg _ (proj2 R)) in V as (V1 & _). exact (offer_spec aw AW m R V1).
Qed.

(** ** Awarded trades are served *)
Lemma charged_natu fa xf xt ts x : fa == xf -> Forall (fun t => 0 < et_amt t /\ uranium_only (m_comp (et_offer t))) ts ->
  charged (natu_charge fa xt) ts x ->
  x == qsum (map (fun t => need xf (mass_assay (m_comp (et_offer t))) xt (et_amt t)) ts).
Proof.
  intros E F H. revert F. induction H as [|t ts c x C H IH]; intro F; [reflexivity|].
  inversion F as [|? ? (A & U) F']; subst. cbn [map]. change (qsum (?x :: ?l)) with (x + qsum l). rewrite <- (IH F').
  unfold natu_charge, trade_mat in C. cbn [m_qty] in C.
  destruct (feed_qty _ _) as [f|] eqn:FQ; [|discriminate]. destruct (Qeq_bool (u_frac _) 0); [discriminate|]. injection C as <-.
  apply feed_qty_some in FQ as (N & FQ). cbn [as_feed as_product as_tails] in *.
  rewrite u_frac_comp by apply U. destruct U as (R & U). rewrite U.
  assert (AP : assay (Mat 0 (et_amt t) (m_comp (et_offer t))) == mass_assay (m_comp (et_offer t))) by (apply assay_comp; assumption).
  rewrite FQ, (need_proper _ _ _ _ xt (et_amt t) E AP). pose proof (proj2 R) as P. field. lra.
Qed.
Lemma charged_swu V fa xf xt ts x : (forall x y, x == y -> V x == V y) -> fa == xf ->
  Forall (fun t => 0 < et_amt t /\ uranium_only (m_comp (et_offer t))) ts -> charged (swu_charge V fa xt) ts x ->
  x == qsum (map (fun t => work V xf (mass_assay (m_comp (et_offer t))) xt (et_amt t)) ts).
Proof.
  intros HV E F H. revert F. induction H as [|t ts c x C H IH]; intro F; [reflexivity|].
  inversion F as [|? ? (A & U) F']; subst. cbn [map]. change (qsum (?x :: ?l)) with (x + qsum l). rewrite <- (IH F').
  unfold swu_charge, trade_mat in C. cbn [m_qty] in C. apply swu_some in C as (N & C). cbn [as_feed as_product as_tails] in *.
  assert (AP : assay (Mat 0 (et_amt t) (m_comp (et_offer t))) == mass_assay (m_comp (et_offer t))) by (apply assay_comp; [assumption|apply U]).
  rewrite C. unfold work, waste, need. rewrite (HV _ _ E), (HV _ _ AP), E, AP. reflexivity.
Qed.
Lemma qsum_ext {A} (f g : A -> Q) l : (forall x, In x l -> f x == g x) -> qsum (map f l) == qsum (map g l).
Proof.
  induction l as [|a l IH]; intro H; [reflexivity|]. cbn [map]. change (qsum (?x :: ?l)) with (x + qsum l).
  rewrite (H a) by (left; reflexivity). rewrite IH; [reflexivity|]. intros x I. apply H. right. exact I.
Qed.
Lemma get_bids_ok eps eg aw cfg tr pr s : 0 <= eps -> mats_ok (b_items (es_inv s)) -> fits eps (es_inv s) ->
  exists s' B, en_get_bids eps eg aw cfg tr pr s = Ok (s', B).
Proof.
  intros He O F. unfold en_get_bids. destruct pr as [|p pr]; [eauto|]. destruct (Qltb 0 (b_qty (es_inv s))) eqn:P; [|eauto].
  apply Qltb_true in P.
  assert (NE : b_items (es_inv s) <> []) by (intro Z; unfold b_qty in P; rewrite Z, qty_of_nil in P; lra).
  destruct (blend_ok eps (es_inv s) He NE F) as (m & BL). destruct (blend_facts _ _ _ _ He O BL) as (_ & _ & M1 & _).
  unfold feed_assay at 1. destruct (b_items (es_inv s)) eqn:E; [congruence|]. rewrite BL. cbn [bind].
  assert (F1 : fits eps {| b_cap := b_cap (es_inv s); b_items := [m] |}).
  { unfold fits in *. cbn [b_cap]. destruct (b_cap (es_inv s)); auto. unfold b_qty in *. cbn [b_items]. rewrite qty_of_cons, qty_of_nil. split; [apply F|lra]. }
  destruct (blend_ok eps {| b_cap := b_cap (es_inv s); b_items := [m] |} He ltac:(discriminate) F1) as (m' & BL2).
  unfold feed_assay. cbn [b_items]. rewrite BL2. cbn [bind]. eauto.
Qed.
Section FILL.
Context (eps eg : Q) (V : Q -> Q) (aw : Z -> Q) (recipe : string -> option comp) (cfg : en_cfg).
Context (He : 0 <= eps) (Hg : 0 <= eg) (AW : forall n, 0 < aw n) (HV : forall x y, x == y -> V x == V y) (RO : recipes_ok recipe).
Context (M0 : 0 <= ec_max_feed cfg) (T0 : 0 <= ec_tails_assay cfg) (T1 : ec_tails_assay cfg <= 1) (W0 : 0 <= ec_swu_capacity cfg).
Lemma filled_final es s0 s os tr pr s2 B ts : en_sane es -> en_fair es os -> en_lived eps eg V aw recipe cfg es s0 s os ->
  Forall request_ok pr -> pure (b_items (es_inv s)) -> ec_tails_assay cfg < assay_of (b_items (es_inv s)) ->
  en_get_bids eps eg aw cfg tr pr (en_tick cfg s) = Ok (s2, B) -> awarded V cfg B ts ->
  (forall t, In t (products cfg ts) -> assay_of (b_items (es_inv s)) <= mass_assay (m_comp (et_offer t)) /\
     eg <= need (assay_of (b_items (es_inv s))) (mass_assay (m_comp (et_offer t))) (ec_tails_assay cfg) (et_amt t)) ->
  exists s3 ms rs, en_trades eps eg V cfg ts s2 = Ok (s3, ms, rs) /\ Forall2 (served cfg) ts ms.
Proof.
  intros S F L RQ PU XF GB (A1 & A2 & A3) PT.
  destruct (lived_good _ _ _ _ _ _ He RO _ _ _ _ S L) as (O & OT & CI & CT).
  pose proof (capacity_final _ _ _ _ _ _ He RO _ _ _ _ M0 S F L) as CP.
  destruct (get_bids_inv _ _ _ _ _ _ (en_tick cfg s) s2 _ He O GB) as (B1 & B2 & _ & _ & B5 & B6 & B7 & B8).
  destruct (get_bids_shape _ _ _ _ _ _ (en_tick cfg s) _ _ He O GB) as (_ & _ & SH & ST).
  change (es_tails (en_tick cfg s)) with (es_tails s) in *. change (es_inv (en_tick cfg s)) with (es_inv s) in *.
  change (es_swu (en_tick cfg s)) with (Some (ec_swu_capacity cfg)) in *.
  set (feed := b_items (es_inv s)) in *.
  assert (UP : 0 < uranium feed).
  { pose proof (uranium_nonneg feed O) as U. destruct (Qlt_le_dec 0 (uranium feed)) as [X|X]; [exact X|exfalso].
    assert (Z : assay_of feed == 0) by (apply div_zero_den; lra). lra. }
  assert (QP : 0 < qty_of feed) by (unfold pure in PU; lra).
  assert (P1 : purity feed == 1) by (unfold pure in PU; unfold purity; rewrite PU; field; lra).
  assert (OFF : forall t, In t (products cfg ts) -> 0 < et_amt t /\ 0 < m_qty (et_offer t) /\ uranium_only (m_comp (et_offer t))).
  { intros t I. assert (NE : products cfg ts <> []) by (intro Z; rewrite Z in I; exact I).
    destruct (A3 NE) as (pb & E & J & _). destruct (J t I) as (j & IJ).
    destruct (bids_final eps eg aw cfg tr pr (en_tick cfg s) s2 B He Hg AW O RQ GB) as (_ & BF). destruct (BF pb E) as (_ & LT & BF').
    pose proof (LT _ _ IJ) as JL. destruct (nth_error pr j) as [m|] eqn:N; [|apply nth_error_None in N; lia].
    destruct (BF' j m N) as (_ & BF''). destruct (BF'' _ IJ) as (Q1 & Q2 & _). split.
    - rewrite Forall_forall in A1. apply A1. unfold products in I. apply filter_In in I. apply I.
    - split; [|exact Q2]. rewrite Q1. rewrite Forall_forall in RQ. apply (RQ m (nth_error_In _ _ N)). }
  assert (FU : feed_used cfg feed ts == qsum (map (fun t => need (assay_of feed) (mass_assay (m_comp (et_offer t))) (ec_tails_assay cfg) (et_amt t)) (products cfg ts))).
  { unfold feed_used. apply qsum_ext. intros t _. rewrite P1. field. }
  assert (OFF' : Forall (fun t => 0 < et_amt t /\ uranium_only (m_comp (et_offer t))) (products cfg ts)).
  { rewrite Forall_forall. intros t I. destruct (OFF t I) as (X & _ & Y). auto. }
  assert (LF : products cfg ts = [] \/ feed_used cfg feed ts <= b_qty (es_inv s2)).
  { destruct (products cfg ts) as [|p l] eqn:E; [left; reflexivity|right]. rewrite <- E in *.
    destruct (A3 ltac:(congruence)) as (pb & EB & _ & (x & CX & LX) & _).
    destruct SH as [(N & _)|(_ & _ & pb' & EB' & _ & PF & _ & PN)]; [congruence|]. rewrite EB in EB'. injection EB' as <-.
    rewrite FU. rewrite <- (charged_natu _ _ _ _ _ PF OFF' CX). lra. }
  assert (SW : swu_used V cfg feed ts <= ec_swu_capacity cfg \/ products cfg ts = []).
  { destruct (products cfg ts) as [|p l] eqn:E; [right; reflexivity|left]. rewrite <- E in *.
    destruct (A3 ltac:(congruence)) as (pb & EB & _ & _ & (x & CX & LX)).
    destruct SH as [(N & _)|(_ & _ & pb' & EB' & _ & PF & PW & _)]; [congruence|]. rewrite EB in EB'. injection EB' as <-.
    unfold swu_used. rewrite <- (charged_swu V _ _ _ _ _ HV PF OFF' CX). rewrite <- PW. exact LX. }
  assert (LT : qsum (tails_sold cfg ts) <= b_qty (es_tails s2)).
  { rewrite B1. destruct (tails_sold cfg ts) as [|p l] eqn:E; [apply qtys_ok_nonneg, OT|]. rewrite <- E in *.
    destruct (A2 ltac:(congruence)) as (tb & EB & LX).
    destruct ST as [(N & _)|(_ & _ & tb' & EB' & TL & _)]; [congruence|]. rewrite EB in EB'. injection EB' as <-. rewrite <- TL. exact LX. }
  set (z := {| es_inv := es_inv s2; es_tails := es_tails s2; es_swu := es_swu s2; es_iswu := Some 0; es_ifeed := Some 0 |}).
  assert (SBL : same_blend feed (b_items (es_inv z))) by (apply blended; [exact QP|exact B7|exact B8]).
  assert (OZ : mats_ok (b_items (es_inv z))) by exact B6.
  assert (OTZ : qtys_ok (b_items (es_tails z))) by (unfold z; cbn [es_tails]; rewrite B1; exact OT).
  assert (FZ : fits eps (es_inv z)).
  { unfold fits, z. cbn [es_inv]. rewrite B5, CI. split; [exact M0|]. lra. }
  assert (FI : Forall (fillable eg cfg feed) (products cfg ts)).
  { rewrite Forall_forall. intros t I. destruct (OFF t I) as (X & Y & Z). destruct (PT t I) as (U & W). split; [exact Y|]. split; [exact Z|]. split; [exact U|].
    rewrite P1. assert (D : forall n, n / 1 == n) by (intro n; field). rewrite D. exact W. }
  destruct (loop_filled eps eg V cfg feed He T0 T1 QP UP O XF ts z (ec_swu_capacity cfg) 0 0 OZ OTZ FZ) as (s3 & ms & rs & LP & SV); auto.
  { unfold z. cbn [es_tails]. rewrite B1. exact CT. }
  exists s3, ms, rs. split; [|exact SV]. unfold en_trades. fold z. rewrite LP. cbn [bind].
  assert (TO : Forall trade_ok (products cfg ts)).
  { rewrite Forall_forall. intros t I. destruct (OFF t I) as (X & Y & Z). split; [exact X|]. split; [exact Y|apply Z]. }
  assert (CNT : exists c', es_swu s3 = Some c' /\ 0 <= c' - (ec_swu_capacity cfg - qsum (map er_swu rs)) /\
     Forall2 (record_of V cfg feed) (products cfg ts) rs /\ qtys_ok (b_items (es_tails s3))).
  { assert (G : forall ts s s3 ms rs c a b, mats_ok (b_items (es_inv s)) -> qtys_ok (b_items (es_tails s)) ->
       same_blend feed (b_items (es_inv s)) -> Forall trade_ok (products cfg ts) -> Forall (fun t => 0 < et_amt t) ts ->
       es_swu s = Some c -> es_iswu s = Some a -> es_ifeed s = Some b ->
       en_trade_loop eps eg V cfg s ts = Ok (s3, ms, rs) ->
       exists c', es_swu s3 = Some c' /\ c' == c - qsum (map er_swu rs) /\ Forall2 (record_of V cfg feed) (products cfg ts) rs /\ qtys_ok (b_items (es_tails s3))).
    { clear - He HV UP. clearbody feed. clear s. induction ts as [|t ts IH]; intros s s3 ms rs c a b O OT SB TO PA SC SA SF H.
      - cbn in H. injection H as <- <- <-. exists c. split; [exact SC|]. split; [unfold qsum; cbn; lra|]. split; [constructor|exact OT].
      - inversion PA as [|? ? P1 P2]; subst. cbn in H. apply bind_ok in H as ([[s1 m] r] & E & H).
        apply bind_ok in H as ([[s2 ms2] rs2] & L & H). injection H as <- <- <-. unfold en_trade1 in E. rewrite products_cons in *.
        destruct (String.eqb (et_commod t) (ec_tails_commod cfg)) eqn:C.
        + apply bind_ok in E as ([m' bb] & P & E). injection E as <- <- <-. cbn [app].
          unfold b_pop_tol in P. apply bind_ok in P as ([m2 r2] & P & E). injection E as <- <-.
          assert (NT : 0 <= b_qty (es_tails s)) by (apply qtys_ok_nonneg; exact OT).
          assert (NQ : 0 <= Qmin (et_amt t) (b_qty (es_tails s))) by (destruct (Q.min_spec (et_amt t) (b_qty (es_tails s))) as [[_ ->]|[_ ->]]; lra).
          destruct (pop_tol_q _ _ _ _ _ OT NQ P) as (_ & _ & A3).
          pose proof (fun o q sb tk sc sa sf => IH _ _ _ _ c a b o q sb tk P2 sc sa sf L) as X. exact (X O A3 SB TO SC SA SF).
        + inversion TO as [|? ? K1 K2]; subst. pose proof K1 as (Tq & To & Tc).
          apply bind_ok in E as ([[s1' m1] r1] & E & X). injection X as -> -> <-. cbn [app].
          destruct (trade1_facts eps eg V cfg s t s1 m [r1] He K1 O OT) as (D1 & D2 & _).
          { unfold en_trade1. rewrite C, E. reflexivity. }
          destruct (enrich_record _ _ _ _ _ _ _ _ _ _ He Tq O HV To Tc E) as (R0 & R1 & R2).
          destruct (enrich_inv _ _ _ _ _ _ _ _ _ _ He O E) as (natu & rr & rest & EN).
          destruct (blend_same_values _ _ SB (en_stock _ _ _ _ _ _ _ _ _ _ _ _ _ EN) UP) as (S1 & S2).
          destruct (en_swu _ _ _ _ _ _ _ _ _ _ _ _ _ EN) as (c1 & C1 & C2). rewrite SC in C1. injection C1 as <-.
          destruct (en_iswu _ _ _ _ _ _ _ _ _ _ _ _ _ EN) as (a1 & _ & C4).
          destruct (en_ifeed _ _ _ _ _ _ _ _ _ _ _ _ _ EN) as (b1 & _ & C6).
          assert (SB' : same_blend feed (b_items (es_inv s1))).
          { apply (same_blend_trans _ _ _ SB (enrich_blend _ _ _ _ _ _ _ _ _ _ He Tq O E)).
            pose proof (en_stock _ _ _ _ _ _ _ _ _ _ _ _ _ EN). congruence. }
          destruct (IH _ _ _ _ _ _ _ D1 D2 SB' K2 P2 C2 C4 C6 L) as (c' & X1 & X2 & X3 & X4).
          exists c'. split; [exact X1|]. cbn [map]. change (qsum (?x :: ?l)) with (x + qsum l). split; [lra|]. split; [|exact X4].
          constructor; [|exact X3]. split.
          * rewrite R1, S2. assert (Y : need (assay_of (b_items (es_inv s))) (mass_assay (m_comp (et_offer t))) (ec_tails_assay cfg) (et_amt t) ==
              need (assay_of feed) (mass_assay (m_comp (et_offer t))) (ec_tails_assay cfg) (et_amt t)) by (apply need_proper; [exact S1|reflexivity]).
            rewrite Y. reflexivity.
          * rewrite R2. unfold work, waste, need. rewrite (HV _ _ S1), S1. reflexivity. }
    destruct (G ts z s3 ms rs (ec_swu_capacity cfg) 0 0 OZ OTZ SBL TO A1 B2 eq_refl eq_refl LP) as (c' & X1 & X2 & X3 & X4).
    exists c'. split; [exact X1|]. split; [lra|]. auto. }
  destruct CNT as (c' & C1 & C2 & C3 & C4). destruct (records_sums _ _ _ _ _ C3) as (R1 & _). fold (swu_used V cfg feed ts) in R1.
  rewrite C1. unfold is_negative. pose proof (qtys_ok_nonneg _ C4) as NN. unfold b_qty.
  destruct (Qltb (qty_of (b_items (es_tails s3))) (- eg)) eqn:E1; [apply Qltb_true in E1; lra|].
  destruct (Qltb c' (- eg)) eqn:E2; [|reflexivity]. apply Qltb_true in E2. exfalso.
  destruct SW as [SW|Z]; [lra|]. rewrite Z in C3. inversion C3; subst. unfold qsum in C2. cbn in C2.
  lra.
Qed.
End FILL.

(** ** Preferences *)
Definition has235 (m : mat) : bool := negb (Qeq_bool (mass_of m 922350000) 0).
(** For an arrangement the preference of the bid at place [j]. *)
Lemma assign_nth l : forall i seen j k m, nth_error l j = Some (k, m) ->
  (seen = true -> nth_error (assign_prefs i seen l) j = Some (k, (i + 1 + Z.of_nat j)%Z)) /\
  (has235 m = true -> nth_error (assign_prefs i seen l) j = Some (k, (i + 1 + Z.of_nat j)%Z)) /\
  (seen = false -> (forall j' k' m', (j' <= j)%nat -> nth_error l j' = Some (k', m') -> has235 m' = false) ->
     nth_error (assign_prefs i seen l) j = Some (k, (-1)%Z)).
Proof.
  induction l as [|[k0 m0] l IH]; intros i seen j k m N; [destruct j; discriminate|].
  destruct j as [|j]; cbn [nth_error] in N.
  - injection N as -> ->. cbn [assign_prefs]. unfold has235, u235. rewrite Z.add_0_r. split; [|split].
    + intros ->. reflexivity.
    + intro H. destruct seen; [reflexivity|]. destruct (Qeq_bool _ 0); [discriminate|reflexivity].
    + intros -> H. specialize (H 0%nat k m (le_n _) eq_refl). unfold has235 in H. destruct (Qeq_bool _ 0); [reflexivity|discriminate].
  - replace (i + 1 + Z.of_nat (S j))%Z with (i + 1 + 1 + Z.of_nat j)%Z by lia.
    cbn [assign_prefs]. unfold u235.
    destruct (IH (i + 1)%Z true j k m N) as (A1 & A2 & _). destruct (IH (i + 1)%Z false j k m N) as (_ & B2 & B3). split; [|split].
    + intros ->. cbn [nth_error]. apply A1. reflexivity.
    + intro H. destruct seen; [cbn [nth_error]; auto|]. destruct (Qeq_bool _ 0); cbn [nth_error]; auto.
    + intros -> H. pose proof (H 0%nat k0 m0 (Nat.le_0_l _) eq_refl) as H0. unfold has235 in H0.
      destruct (Qeq_bool _ 0) eqn:E; [|discriminate]. cbn [nth_error]. apply B3; [reflexivity|].
      intros j' k' m' L N'. apply (H (S j') k' m'); [lia|exact N'].
Qed.
Lemma assign_fst l : forall i seen, map fst (assign_prefs i seen l) = map fst l.
Proof.
  induction l as [|[k m] l IH]; intros i seen; [reflexivity|]. cbn [assign_prefs]. destruct seen; [cbn; rewrite IH; reflexivity|].
  destruct (Qeq_bool _ 0); cbn; rewrite IH; reflexivity.
Qed.
Lemma in_fst_unique {A} (l : list (nat * A)) k x y : NoDup (map fst l) -> In (k, x) l -> In (k, y) l -> x = y.
Proof.
  induction l as [|[j z] l IH]; intros ND X Y; [destruct X|]. inversion ND as [|? ? N D]; subst.
  destruct X as [X|X], Y as [Y|Y]; [congruence| | |auto].
  - injection X as -> ->. exfalso. apply N. apply in_map_iff. exists (k, y). auto.
  - injection Y as -> ->. exfalso. apply N. apply in_map_iff. exists (k, x). auto.
Qed.
Lemma prefs_arranged bids l : NoDup (map fst bids) -> Forall (fun b => mat_ok (snd b) /\ 0 < m_qty (snd b)) bids ->
  arranged bids l -> follows_content bids (assign_prefs 0 false l).
Proof.
  intros ND OK (PM & SO). assert (NDl : NoDup (map fst l)) by (apply (Permutation_NoDup (Permutation_map fst PM) ND)).
  assert (OKl : forall j k m, nth_error l j = Some (k, m) -> mat_ok m /\ 0 < m_qty m).
  { intros j k m N. apply nth_error_In in N. apply (Permutation_in _ (Permutation_sym PM)) in N. rewrite Forall_forall in OK. exact (OK _ N). }
  assert (CZ : forall m, mat_ok m -> 0 < m_qty m -> (has235 m = false <-> content_of m <= 0)).
  { intros m O Q. unfold has235, content_of. pose proof (mass_nonneg m 922350000 O) as P. destruct (Qeq_bool _ 0) eqn:E; cbn; split; intro H; auto.
    - apply Qeq_bool_iff in E. rewrite E. apply Qle_shift_div_r; lra.
    - discriminate.
    - exfalso. apply Qeq_bool_false in E. apply E. assert (X : mass_of m 922350000 == mass_of m 922350000 / m_qty m * m_qty m) by (field; lra).
      assert (Y : mass_of m 922350000 <= 0) by (rewrite X; rewrite <- (Qmult_0_l (m_qty m)); apply Qmult_le_compat_r; lra). lra. }
  assert (AT : forall k m p, In (k, m) bids -> In (k, p) (assign_prefs 0 false l) ->
     exists j, nth_error l j = Some (k, m) /\ p = if has235 m then (1 + Z.of_nat j)%Z else (-1)%Z).
  { intros k m p I J. apply (Permutation_in _ PM) in I. apply In_nth_error in I as (j & N). exists j. split; [exact N|].
    destruct (assign_nth l 0 false j k m N) as (_ & A2 & A3). destruct (OKl j k m N) as (O & Q).
    assert (NDp : NoDup (map fst (assign_prefs 0 false l))) by (rewrite assign_fst; exact NDl).
    destruct (has235 m) eqn:H.
    - specialize (A2 eq_refl). apply nth_error_In in A2. exact (in_fst_unique _ _ _ _ NDp J A2).
    - assert (X : nth_error (assign_prefs 0 false l) j = Some (k, (-1)%Z)).
      { apply A3; [reflexivity|]. intros j' k' m' L N'. destruct (OKl j' k' m' N') as (O' & Q'). apply CZ; auto.
        apply CZ in H; auto. destruct (Nat.eq_dec j' j) as [->|D]; [rewrite N in N'; injection N' as <- <-; exact H|].
        assert (LT : (j' < j)%nat) by lia. pose proof (SO j' j _ _ LT N' N) as C. cbn [snd] in C. lra. }
      apply nth_error_In in X. exact (in_fst_unique _ _ _ _ NDp J X). }
  split; [rewrite assign_fst; apply Permutation_map, PM|]. split.
  - intros k m p I J. destruct (AT k m p I J) as (j & N & ->). destruct (has235 m) eqn:H; unfold has235 in H; split; intro M.
    + exfalso. apply Qeq_bool_iff in M. rewrite M in H. discriminate.
    + lia.
    + lia.
    + exfalso. destruct (Qeq_bool _ 0) eqn:E; [|discriminate]. apply Qeq_bool_iff in E. lra.
  - intros k m p k' m' p' I J I' J' C. destruct (AT k m p I J) as (j & N & ->). destruct (AT k' m' p' I' J') as (j' & N' & ->).
    destruct (OKl _ _ _ N) as (O & Q). destruct (OKl _ _ _ N') as (O' & Q').
    assert (H' : has235 m' = true).
    { destruct (has235 m') eqn:H'; auto. apply CZ in H'; auto. exfalso.
      assert (X : 0 <= content_of m) by (apply Qle_shift_div_l; [exact Q|]; pose proof (mass_nonneg m 922350000 O); lra). lra. }
    rewrite H'. destruct (has235 m); [|lia].
    destruct (lt_eq_lt_dec j j') as [[L|L]|L]; [lia| |].
    + subst j'. rewrite N in N'. injection N' as <- <-. lra.
    + exfalso. pose proof (SO j' j _ _ L N' N) as X. cbn [snd] in X. lra.
Qed.
Lemma insert_perm x l : Permutation (x :: l) (insert_bid x l).
Proof.
  induction l as [|y l IH]; cbn; [reflexivity|]. destruct (Qle_bool _ _); [reflexivity|].
  rewrite perm_swap. constructor. exact IH.
Qed.
Lemma increasing_perm l : Permutation l (increasing_bids l).
Proof. induction l as [|x l IH]; cbn; [constructor|]. rewrite <- insert_perm. constructor. exact IH. Qed.
Definition sortedp (l : list (nat * mat)) : Prop :=
  forall i j x y, (i < j)%nat -> nth_error l i = Some x -> nth_error l j = Some y -> content_of (snd x) <= content_of (snd y).
Lemma sortedp_cons x l : sortedp (x :: l) <-> (forall y, In y l -> content_of (snd x) <= content_of (snd y)) /\ sortedp l.
Proof.
  split.
  - intro S. split.
    + intros y I. apply In_nth_error in I as (j & N). apply (S 0%nat (Datatypes.S j) x y); [lia|reflexivity|exact N].
    + intros i j a b L A B. apply (S (Datatypes.S i) (Datatypes.S j) a b); [lia|exact A|exact B].
  - intros (A & S) i j a b L X Y. destruct j as [|j]; [lia|]. cbn in Y. destruct i as [|i].
    + cbn in X. injection X as <-. apply A. apply nth_error_In in Y. exact Y.
    + cbn in X. apply (S i j a b); [lia|exact X|exact Y].
Qed.
Lemma insert_sorted x l : sortedp l -> sortedp (insert_bid x l).
Proof.
  induction l as [|y l IH]; intro S.
  - cbn. apply sortedp_cons. split; [intros z []|exact S].
  - cbn. destruct (Qle_bool (bid_frac (snd x)) (bid_frac (snd y))) eqn:E.
    + apply Qle_bool_iff in E. apply sortedp_cons. split; [|exact S]. apply sortedp_cons in S as (A & _).
      intros z [<-|I]; [exact E|]. apply Qle_trans with (2 := A z I). exact E.
    + apply Qle_bool_false in E. apply sortedp_cons in S as (A & S). apply sortedp_cons. split; [|apply IH, S].
      intros z I. apply (Permutation_in _ (Permutation_sym (insert_perm x l))) in I. destruct I as [<-|I]; [|apply A, I].
      apply Qlt_le_weak. exact E.
Qed.
Lemma increasing_sorted l : sortedp (increasing_bids l).
Proof. induction l as [|x l IH]; [intros i j a b _ N; destruct i; discriminate|]. apply insert_sorted, IH. Qed.
Lemma comparable_spec l : distinct_bids l -> all_comparable l = true.
Proof.
  induction l as [|x l IH]; intros (Q & D); [reflexivity|]. cbn [all_comparable].
  rewrite !andb_true_iff. split; [split|].
  - destruct (Qeq_bool (m_qty (snd x)) 0) eqn:E; auto. apply Qeq_bool_iff in E. specialize (Q x (or_introl eq_refl)). lra.
  - rewrite forallb_forall. intros y I. destruct (Qeq_bool _ _) eqn:E; auto. apply Qeq_bool_iff in E. exfalso.
    apply In_nth_error in I as (j & N). apply (D 0%nat (S j) x y); [lia|reflexivity|exact N|exact E].
  - apply IH. split; [intros y I; apply Q; right; exact I|].
    intros i j a b L A B. apply (D (S i) (S j) a b); [lia|exact A|exact B].
Qed.
Lemma adjust_final cfg bids : NoDup (map fst bids) -> Forall (fun b => mat_ok (snd b)) bids -> distinct_bids bids ->
  (ec_order_prefs cfg = false -> en_adjust cfg bids = Ok None) /\
  (ec_order_prefs cfg = true -> exists prefs, en_adjust cfg bids = Ok (Some prefs) /\ follows_content bids prefs).
Proof.
  intros ND O D. unfold en_adjust. split; intros ->; [reflexivity|].
  assert (OK : Forall (fun b => mat_ok (snd b) /\ 0 < m_qty (snd b)) bids).
  { rewrite Forall_forall in *. intros b I. split; [apply O, I|]. apply (proj1 D), I. }
  assert (AR : arranged bids (increasing_bids bids)) by (split; [apply increasing_perm|exact (increasing_sorted bids)]).
  assert (X : exists l, sort_bids bids = Ok l /\ arranged bids l).
  { unfold sort_bids. rewrite (comparable_spec bids D). destruct bids as [|x [|y l]]; eauto. }
  destruct X as (l & -> & A). cbn [bind]. eexists. split; [reflexivity|]. apply prefs_arranged; auto.
Qed.

(** ** Trade-level statements *)
Lemma trade_total eps eg V cfg s t s' m rs : 0 <= eps -> mats_ok (b_items (es_inv s)) -> ~ for_tails cfg t ->
  en_trade1 eps eg V cfg s t = Ok (s', m, rs) ->
  m_qty m = et_amt t /\ m_comp m = m_comp (et_offer t) /\
  exists w, b_items (es_tails s') = b_items (es_tails s) ++ [w] /\ 0 <= m_qty w /\
    b_qty (es_inv s) == b_qty (es_inv s') + m_qty m + m_qty w.
Proof.
  intros He O N H. unfold en_trade1 in H. destruct (String.eqb (et_commod t) (ec_tails_commod cfg)) eqn:C; [apply String.eqb_eq in C; contradiction|].
  apply bind_ok in H as ([[s1 m1] r1] & E & H). injection H as <- <- <-.
  destruct (enrich_total _ _ _ _ _ _ _ _ _ _ He O E) as (A1 & A2 & w & A3 & A4 & A5 & _).
  split; [exact A1|]. split; [exact A2|]. exists w. split; [exact A3|]. split; [exact A4|]. lra.
Qed.
Lemma trade_nuclides eps eg V cfg s t s' m rs : 0 <= eps -> mats_ok (b_items (es_inv s)) -> trade_ok t -> ~ for_tails cfg t ->
  en_trade1 eps eg V cfg s t = Ok (s', m, rs) ->
  (eps = 0 \/ forall n, let used := b_qty (es_inv s) - b_qty (es_inv s') in
     let left := used * (mass_in n (b_items (es_inv s)) / b_qty (es_inv s)) - et_amt t * (cget n (m_comp (et_offer t)) / csum (m_comp (et_offer t))) in
     left == 0 \/ eps <= left) ->
  exists w, b_items (es_tails s') = b_items (es_tails s) ++ [w] /\
  forall n, mass_in n (b_items (es_inv s)) == mass_in n (b_items (es_inv s')) + mass_of m n + mass_of w n.
Proof.
  intros He O (Tq & To & Tc) N H D. unfold en_trade1 in H. destruct (String.eqb (et_commod t) (ec_tails_commod cfg)) eqn:C; [apply String.eqb_eq in C; contradiction|].
  apply bind_ok in H as ([[s1 m1] r1] & E & H). injection H as <- <- <-.
  assert (X : mat_ok m1 /\ exists w, b_items (es_tails s1) = b_items (es_tails s) ++ [w] /\ mat_ok w /\
    forall n, mass_of m1 n == et_amt t * (cget n (m_comp (et_offer t)) / csum (m_comp (et_offer t))) /\
    mass_in n (b_items (es_inv s)) - mass_in n (b_items (es_inv s1)) == mass_of m1 n + mass_of w n).
  { destruct (enrich_stock _ _ _ _ _ _ _ _ _ _ He Tq O E) as (PS & _).
    destruct D as [->|D]; [apply (enrich_nuclides0 _ _ _ _ _ _ _ _ _ (Qlt_le_weak _ _ Tq) O Tc E)|].
    exact (enrich_nuclides _ _ _ _ _ _ _ _ _ _ He (Qlt_le_weak _ _ Tq) O Tc PS E D). }
  destruct X as (_ & w & X1 & _ & X2). exists w. split; [exact X1|]. intro n. destruct (X2 n) as (_ & X3). lra.
Qed.
Lemma trade_tails eps eg V cfg s t s' m rs : 0 <= eps -> mats_ok (b_items (es_inv s)) -> trade_ok t -> uranium_only (m_comp (et_offer t)) ->
  ~ for_tails cfg t -> en_trade1 eps eg V cfg s t = Ok (s', m, rs) ->
  let feed := b_items (es_inv s) in
  let xt := ec_tails_assay cfg in
  let w := waste (assay_of feed) (mass_assay (m_comp (et_offer t))) xt (et_amt t) in
  b_qty (es_inv s) - b_qty (es_inv s') == need (assay_of feed) (mass_assay (m_comp (et_offer t))) xt (et_amt t) / purity feed ->
  (w * xt == 0 \/ eps <= w * xt) -> (w * (1 - xt) == 0 \/ eps <= w * (1 - xt)) ->
  exists p, b_items (es_tails s') = b_items (es_tails s) ++ [p] /\
    mass_of p 922350000 == xt * (mass_of p 922350000 + mass_of p 922380000).
Proof.
  intros He O (Tq & To & Tc) UO N H feed xt w D T5 T8. unfold en_trade1 in H. destruct (String.eqb (et_commod t) (ec_tails_commod cfg)) eqn:C; [apply String.eqb_eq in C; contradiction|].
  apply bind_ok in H as ([[s1 m1] r1] & E & H). injection H as <- <- <-.
  apply (enrich_tails _ _ _ _ _ _ _ _ _ _ He Tq O To UO E); auto.
  rewrite D. destruct (enrich_inv _ _ _ _ _ _ _ _ _ _ He O E) as (natu & rr & rest & EN).
  destruct (enrich_stock _ _ _ _ _ _ _ _ _ _ He Tq O E) as (PS & _).
  destruct (en_natu _ _ _ _ _ _ _ _ _ _ _ _ _ EN) as (N1 & N2 & N3).
  rewrite (en_feed _ _ _ _ _ _ _ _ _ _ _ _ _ EN).
  assert (AO : assay (et_offer t) == mass_assay (m_comp (et_offer t))) by (destruct (et_offer t) as [i x k]; apply assay_comp; [exact To|exact Tc]).
  assert (UF : u_frac natu == purity feed).
  { rewrite u_frac_spec by (try exact N2; lra). unfold purity, uranium, feed. rewrite !N3, N1. reflexivity. }
  rewrite UF, (need_proper _ _ _ _ _ _ (assay_spec natu _ O N3) AO). reflexivity.
Qed.
Lemma tails_sale eps eg V cfg s t s' m rs : 0 <= eps -> 0 < et_amt t -> qtys_ok (b_items (es_tails s)) -> for_tails cfg t ->
  en_trade1 eps eg V cfg s t = Ok (s', m, rs) ->
  m_qty m == Qmin (et_amt t) (b_qty (es_tails s)) /\ b_qty (es_tails s') == b_qty (es_tails s) - m_qty m /\
  es_inv s' = es_inv s /\ es_swu s' = es_swu s /\ rs = [].
Proof.
  intros He Tq OT F H. unfold en_trade1 in H. apply String.eqb_eq in F. rewrite F in H.
  apply bind_ok in H as ([m' b] & P & H). injection H as <- <- <-. cbn [es_inv es_tails es_swu].
  unfold b_pop_tol in P. apply bind_ok in P as ([m2 r2] & P & E). injection E as <- <-.
  assert (NT : 0 <= b_qty (es_tails s)) by (apply qtys_ok_nonneg; exact OT).
  assert (NQ : 0 <= Qmin (et_amt t) (b_qty (es_tails s))) by (destruct (Q.min_spec (et_amt t) (b_qty (es_tails s))) as [[_ ->]|[_ ->]]; lra).
  destruct (pop_tol_q _ _ _ _ _ OT NQ P) as (A1 & A2 & _).
  split; [rewrite A1; apply Q.min_l; apply Q.le_min_r|]. unfold b_qty. cbn [b_items]. auto.
Qed.
Lemma tails_bids_final eps eg aw cfg tr pr s s' B : 0 <= eps -> mats_ok (b_items (es_inv s)) ->
  en_get_bids eps eg aw cfg tr pr s = Ok (s', B) ->
  (eb_tails B <> None <-> tr <> [] /\ 0 < b_qty (es_tails s)) /\
  forall tb, eb_tails B = Some tb -> tb_limit tb == b_qty (es_tails s) /\
    forall j m, In (j, m) (tb_offers tb) <-> (j < List.length tr)%nat /\ In m (b_items (es_tails s)).
Proof.
  intros He O H. destruct (get_bids_shape _ _ _ _ _ _ _ _ _ He O H) as (_ & _ & _ & [(E & N)|(A & C & tb & E & TL & TO)]).
  - rewrite E. split; [|discriminate]. split; [congruence|intro X; contradiction].
  - rewrite E. split; [split; [auto|discriminate]|]. intros tb' X. injection X as <-. split; [rewrite TL; reflexivity|].
    intros j m. rewrite TO, in_flat_map. split.
    + intros (i & I & J). apply in_map_iff in J as (m' & Y & J). injection Y as -> ->. apply in_seq in I. split; [lia|exact J].
    + intros (L & J). exists j. split; [apply in_seq; lia|]. apply in_map_iff. eauto.
Qed.

(** ** Boolean checks used by the worked cases *)
Definition real_compb (c : comp) : bool := forallb (fun e => Qle_bool 0 (snd e)) c && Qltb 0 (csum c).
Lemma real_compb_sound c : real_compb c = true -> real_comp c.
Proof.
  unfold real_compb. intro H. apply andb_prop in H as [A B]. rewrite forallb_forall in A. split; [|apply Qltb_true; auto].
  apply Forall_forall. intros e E. apply Qle_bool_iff, A, E.
Qed.
Definition trade_okb (t : en_trade) : bool := Qltb 0 (et_amt t) && Qltb 0 (m_qty (et_offer t)) && real_compb (m_comp (et_offer t)).
Lemma trade_okb_sound t : trade_okb t = true -> trade_ok t.
Proof.
  unfold trade_okb. intro H. apply andb_prop in H as [H C]. apply andb_prop in H as [A B].
  split; [apply Qltb_true, A|]. split; [apply Qltb_true, B|apply real_compb_sound, C].
Qed.
Definition en_saneb (es : list en_env) : bool :=
  forallb (fun e => forallb mat_okb (ee_receipts e) && forallb trade_okb (ee_trades e)) es.
Lemma en_saneb_sound es : en_saneb es = true -> en_sane es.
Proof.
  unfold en_saneb. intro H. rewrite forallb_forall in H. apply Forall_forall. intros e E. specialize (H e E).
  apply andb_prop in H as [A B]. rewrite forallb_forall in A, B.
  split; apply Forall_forall; intros x X; [apply mat_okb_sound|apply trade_okb_sound]; auto.
Qed.
Fixpoint en_fairb (es : list en_env) (os : list en_out) : bool :=
  match es, os with
  | [], [] => true
  | e :: es', o :: os' => Qle_bool (qty_of (ee_receipts e)) (match eo_request o with Some m => m_qty m | None => 0 end) && en_fairb es' os'
  | _, _ => false
  end.
Lemma en_fairb_sound es : forall os, en_fairb es os = true -> en_fair es os.
Proof.
  induction es as [|e es IH]; intros [|o os] H; cbn in H; try discriminate; [constructor|].
  apply andb_prop in H as [A B]. constructor; [apply Qle_bool_iff, A|apply IH, B].
Qed.
Definition request_okb (m : mat) : bool := Qltb 0 (m_qty m) && real_compb (m_comp m).
Lemma requests_okb_sound l : forallb request_okb l = true -> Forall request_ok l.
Proof.
  intro H. rewrite forallb_forall in H. apply Forall_forall. intros m I. specialize (H m I). apply andb_prop in H as [A B].
  split; [apply Qltb_true, A|apply real_compb_sound, B].
Qed.
Fixpoint charge_sum (conv : mat -> option Q) (ts : list en_trade) : option Q :=
  match ts with
  | [] => Some 0
  | t :: ts' => match conv (trade_mat t), charge_sum conv ts' with Some c, Some x => Some (c + x) | _, _ => None end
  end.
Lemma charge_sum_sound conv ts : forall x, charge_sum conv ts = Some x -> charged conv ts x.
Proof.
  induction ts as [|t ts IH]; intros x H; cbn in H; [injection H as <-; constructor|].
  destruct (conv (trade_mat t)) as [c|] eqn:C; [|discriminate]. destruct (charge_sum conv ts) as [y|] eqn:Y; [|discriminate].
  injection H as <-. constructor; auto.
Qed.

(** ** The converters *)
Lemma charges_final : forall V feed tails m, ~ feed == tails -> mat_ok m -> 0 < m_qty m -> 0 < mass_of m u235 + mass_of m u238 ->
  exists q swu f w, natu_charge feed tails m = Some q /\ swu_charge V feed tails m = Some swu /\
    f == m_qty m + w /\ f * feed == m_qty m * (mass_of m u235 / (mass_of m u235 + mass_of m u238)) + w * tails /\
    q * (mass_of m u235 + mass_of m u238) == f * m_qty m /\
    swu == m_qty m * V (mass_of m u235 / (mass_of m u235 + mass_of m u238)) + w * V tails - f * V feed.
Proof.
  intros V feed tails m NE MO QP U.
  assert (UF : u_frac m * m_qty m == mass_of m u235 + mass_of m u238).
  { rewrite (u_frac_spec m MO QP). unfold u235, u238. field. lra. }
  assert (AS : assay m = mass_of m u235 / (mass_of m u235 + mass_of m u238)).
  { unfold assay. cbv zeta. destruct (Qltb 0 (mass_of m u235 + mass_of m u238)) eqn:E; [reflexivity|apply Qltb_false in E; lra]. }
  assert (D : ~ feed - tails == 0) by (intro X; apply NE; lra).
  assert (UN : ~ u_frac m == 0) by (intro X; rewrite X in UF; lra).
  unfold natu_charge, swu_charge, swu_required, feed_qty, tails_qty. cbn [as_feed as_product as_tails].
  destruct (Qeq_bool (feed - tails) 0) eqn:E; [apply Qeq_bool_iff in E; contradiction|].
  destruct (Qeq_bool (u_frac m) 0) eqn:E2; [apply Qeq_bool_iff in E2; contradiction|]. rewrite <- AS.
  eexists. eexists. exists (m_qty m * ((assay m - tails) / (feed - tails))), (m_qty m * ((assay m - feed) / (feed - tails))).
  split; [reflexivity|]. split; [reflexivity|]. split; [field; exact D|]. split; [field; exact D|]. split; [|lra].
  rewrite <- UF. field. split; [exact D|exact UN].
Qed.
