(** The order of trades, facility by facility (C123). *)
From Coq Require Import Lia Lqa Permutation.
From Verif Require Import Outcome KernelMaterial KernelResBuf KernelBuf KernelFacts KernelMass KernelBufFacts OrderSpec OrderProofs.
From Verif Require StorageModel ConversionModel ConversionProofs SinkModel SinkSpec SinkProofs MixerModel MixerSpec MixerRun SeparationsModel SeparationsSpec
  SeparationsRun SeparationsTolerance EnrichmentModel EnrichmentRun EnrichmentLife FuelFabModel FuelFabSpec FuelFabRun SourceModel.
Local Open Scope Q_scope.

Lemma perm_ok a b : Permutation a b -> mats_ok a -> mats_ok b.
Proof. unfold mats_ok. intros P. apply Permutation_Forall, P. Qed.

(** ** Conversion *)
Section CONVERSION.
Import ConversionModel ConversionProofs.
Lemma cv_trades_rest l amts : mats_ok l -> Forall (fun q => 0 < q) amts -> forall tot cur acc r sh, rest_after tot l cur -> cv_trades amts cur acc = Ok (r, sh) ->
  rest_after (tot + qsum amts) l r /\ exists ms, sh = acc ++ ms /\ Forall2 (fun q m => m_qty m == q) amts ms.
Proof.
  intros O F. induction F as [|q amts Pq F IH]; intros tot cur acc r sh R H; cbn [cv_trades] in H.
  - injection H as <- <-. split; [|exists []; rewrite app_nil_r; auto]. destruct R as (A & B & C & D & E). change (qsum []) with 0. repeat split; try lra; auto.
    destruct E as [E|E]; [left|auto]. eapply same_stock_trans; [exact E|]. apply left_over_same; [lra|apply same_stock_refl].
  - apply bind_ok in H as ([m c'] & P & H). destruct (rest_pop tot l cur q m c' O R Pq P) as [Q1 R1]. destruct (IH _ _ _ _ _ R1 H) as [R2 (ms & -> & F2)].
    change (qsum (q :: amts)) with (q + qsum amts). split.
    + destruct R2 as (A & B & C & D & E). repeat split; try lra; auto. destruct E as [E|E]; [left|auto]. eapply same_stock_trans; [exact E|]. apply left_over_same; [lra|apply same_stock_refl].
    + exists (m :: ms). rewrite <- app_assoc. split; [reflexivity|constructor; auto].
Qed.
Lemma conversion_sales amts amts' out : mats_ok out -> Forall (fun q => 0 < q) amts -> Permutation amts amts' -> qsum amts <= qty_of out ->
  exists r r' ms ms', cv_trades amts out [] = Ok (r, ms) /\ cv_trades amts' out [] = Ok (r', ms') /\
    Forall2 (fun q m => m_qty m == q) amts ms /\ Forall2 (fun q m => m_qty m == q) amts' ms' /\ same_content r r'.
Proof.
  intros O F P L. pose proof (qsum_perm _ _ P) as E. assert (F' : Forall (fun q => 0 < q) amts') by (eapply Permutation_Forall; eauto).
  destruct (cv_trades_ok amts out [] O F L) as ([r ms] & H). destruct (cv_trades_ok amts' out [] O F' ltac:(lra)) as ([r' ms'] & H'). exists r, r', ms, ms'.
  destruct (cv_trades_rest out amts O F 0 out [] r ms (rest_start _ O) H) as [R (x & -> & X)]. destruct (cv_trades_rest out amts' O F' 0 out [] r' ms' (rest_start _ O) H') as [R' (y & -> & Y)].
  split; [exact H|]. split; [exact H'|]. split; [exact X|]. split; [exact Y|]. apply (rest_content (0 + qsum amts) (0 + qsum amts') out r r' O ltac:(lra) R R').
Qed.
Lemma conversion_deliveries eps cfg ms ms' inp : 0 <= eps -> mats_ok inp -> mats_ok ms -> Permutation ms ms' -> qty_of inp + qty_of ms <= vc_capacity cfg ->
  exists r r', cv_accept eps cfg ms inp = Ok r /\ cv_accept eps cfg ms' inp = Ok r' /\ same_content r r'.
Proof.
  intros He O Om P L. pose proof (perm_ok _ _ P Om) as Om'. assert (L' : qty_of inp + qty_of ms' <= vc_capacity cfg) by (rewrite <- (qty_perm _ _ P); exact L). destruct (cv_accept_ok eps cfg ms inp He O Om (or_intror L)) as (r & H).
  destruct (cv_accept_ok eps cfg ms' inp He O Om' (or_intror L')) as (r' & H'). exists r, r'. split; [exact H|]. split; [exact H'|].
  apply cv_accept_facts in H as (_ & _ & A & B); auto. apply cv_accept_facts in H' as (_ & _ & A' & B'); auto. split; [rewrite A, A', (qty_perm _ _ P); reflexivity|].
  intro n. rewrite B, B', (mass_perm n _ _ P). reflexivity.
Qed.
End CONVERSION.

(** ** Storage *)
Section STORAGE.
Import StorageModel.
Lemma sell_rest eps l amts : mats_ok l -> 0 <= eps -> Forall (fun q => 0 < q) amts -> forall tot cur acc, rest_after tot l cur -> qsum amts <= qty_of cur ->
  exists r ms, sell_all eps amts cur acc = Ok (r, acc ++ ms) /\ rest_after (tot + qsum amts) l r /\ Forall2 (fun q m => m_qty m == q) amts ms.
Proof.
  intros O He F. induction F as [|q amts Pq F IH]; intros tot cur acc R L; cbn [sell_all].
  - exists cur, []. rewrite app_nil_r. split; [reflexivity|]. split; [|constructor]. destruct R as (A & B & C & D & E). change (qsum []) with 0. repeat split; try lra; auto.
    destruct E as [E|E]; [left|auto]. eapply same_stock_trans; [exact E|]. apply left_over_same; [lra|apply same_stock_refl].
  - change (qsum (q :: amts)) with (q + qsum amts) in *. assert (N : 0 <= qsum amts) by (apply KernelFacts.qsum_nonneg; eapply Forall_impl; [|exact F]; intros; cbn in *; lra).
    destruct (pop_tol_ok cur q eps Pq He ltac:(lra)) as (m & c' & P). rewrite P. cbn [bind].
    destruct (rest_pop_tol tot l cur q eps m c' O R Pq ltac:(lra) P) as [Q1 R1]. destruct (IH (tot + q) c' (acc ++ [m]) R1) as (r & ms & H & R2 & F2).
    { destruct R1 as (_ & _ & _ & D & _), R as (_ & _ & _ & D0 & _). lra. }
    exists r, (m :: ms). rewrite <- app_assoc in H. split; [exact H|]. split; [|constructor; auto]. destruct R2 as (A & B & C & D & E). repeat split; try lra; auto.
    destruct E as [E|E]; [left|auto]. eapply same_stock_trans; [exact E|]. apply left_over_same; [lra|apply same_stock_refl].
Qed.
Lemma add_all ms : forall s, fold_left st_add_mat ms s = {| ss_inventory := ss_inventory s ++ ms; ss_processing := ss_processing s; ss_entry_times := ss_entry_times s; ss_ready := ss_ready s; ss_stocks := ss_stocks s |}.
Proof. induction ms as [|m ms IH]; intro s; cbn; [rewrite app_nil_r; destruct s; reflexivity|]. rewrite IH. cbn. rewrite <- app_assoc. reflexivity. Qed.
Lemma storage_trades eps e e' s : 0 <= eps -> mats_ok (ss_stocks s) -> Forall (fun q => 0 < q) (se_sales e) -> qsum (se_sales e) <= qty_of (ss_stocks s) ->
  Permutation (se_sales e) (se_sales e') -> Permutation (se_receipts e) (se_receipts e') ->
  exists s1 s1' ms ms', st_trade eps e s = Ok (s1, ms) /\ st_trade eps e' s = Ok (s1', ms') /\
    Forall2 (fun q m => m_qty m == q) (se_sales e) ms /\ Forall2 (fun q m => m_qty m == q) (se_sales e') ms' /\
    same_content (ss_stocks s1) (ss_stocks s1') /\ Permutation (ss_inventory s1) (ss_inventory s1') /\
    ss_processing s1 = ss_processing s1' /\ ss_entry_times s1 = ss_entry_times s1' /\ ss_ready s1 = ss_ready s1'.
Proof.
  intros He O F L P PR. pose proof (qsum_perm _ _ P) as E. assert (F' : Forall (fun q => 0 < q) (se_sales e')) by (eapply Permutation_Forall; eauto).
  destruct (sell_rest eps _ _ O He F 0 _ [] (rest_start _ O) L) as (r & ms & H & R & X). destruct (sell_rest eps _ _ O He F' 0 _ [] (rest_start _ O) ltac:(lra)) as (r' & ms' & H' & R' & X').
  unfold st_trade. rewrite H, H'. cbn [bind app]. do 4 eexists. split; [reflexivity|]. split; [reflexivity|]. rewrite !add_all. cbn. split; [exact X|]. split; [exact X'|]. split; [apply (rest_content (0 + qsum (se_sales e)) (0 + qsum (se_sales e')) _ r r' O ltac:(lra) R R')|]. split; [apply Permutation_app_head, PR|auto].
Qed.
End STORAGE.

(** ** Sink *)
Section SINK.
Import SinkModel SinkSpec SinkProofs.
Lemma sink_deliveries eps cfg rs rs' s : 0 <= eps -> Forall (fun r => 0 <= r_qty r) rs -> Permutation rs rs' -> qsum (map r_qty (ks_inv s)) + qsum (map r_qty rs) <= kc_max_inv cfg ->
  exists s1 s1', sk_accept eps cfg rs s = Ok s1 /\ sk_accept eps cfg rs' s = Ok s1' /\ Permutation (ks_inv s1) (ks_inv s1') /\
    ks_prefs s1 = ks_prefs s1' /\ ks_amt s1 = ks_amt s1' /\ ks_next s1 = ks_next s1'.
Proof.
  intros He F P L. assert (F' : Forall (fun r => 0 <= r_qty r) rs') by (eapply Permutation_Forall; eauto). pose proof (qsum_perm _ _ (Permutation_map r_qty P)) as E.
  destruct (accept_ok eps cfg rs He F s ltac:(unfold held; lra)) as (s1 & H). destruct (accept_ok eps cfg rs' He F' s ltac:(unfold held; lra)) as (s1' & H').
  exists s1, s1'. split; [exact H|]. split; [exact H'|]. apply accept_facts in H as (A & B & C & D), H' as (A' & B' & C' & D'). rewrite D, D'. repeat split; try congruence. apply Permutation_app_head, P.
Qed.
End SINK.

(** ** Enrichment *)
Section ENRICHMENT.
Import EnrichmentModel EnrichmentRun EnrichmentLife.
Lemma enrichment_deliveries eps ms ms' s c : 0 <= eps -> Forall (fun m => 0 <= m_qty m) ms -> Permutation ms ms' -> b_cap (es_inv s) = Some c -> b_qty (es_inv s) + qty_of ms <= c ->
  exists s1 s1', en_accept eps ms s = Ok s1 /\ en_accept eps ms' s = Ok s1' /\ Permutation (b_items (es_inv s1)) (b_items (es_inv s1')) /\
    es_tails s1 = es_tails s1' /\ es_swu s1 = es_swu s1' /\ es_iswu s1 = es_iswu s1' /\ es_ifeed s1 = es_ifeed s1'.
Proof.
  intros He F P C L. assert (F' : Forall (fun m => 0 <= m_qty m) ms') by (eapply Permutation_Forall; eauto).
  assert (L' : b_qty (es_inv s) + qty_of ms' <= c) by (rewrite <- (qty_perm _ _ P); exact L).
  destruct (pushes_ok eps ms (es_inv s) c He F C (or_introl L)) as (b & H). destruct (pushes_ok eps ms' (es_inv s) c He F' C (or_introl L')) as (b' & H').
  unfold en_accept. rewrite H, H'. cbn [bind]. do 2 eexists. split; [reflexivity|]. split; [reflexivity|]. cbn. apply pushes_inv in H as (_ & ->), H' as (_ & ->). repeat split; auto. apply Permutation_app_head, P.
Qed.
End ENRICHMENT.

(** ** Mixer *)
Section MIXER.
Import MixerModel MixerSpec MixerRun.
Lemma deliveries_perm reqs l l' i : Permutation l l' -> Permutation (deliveries reqs l i) (deliveries reqs l' i).
Proof. intro P. unfold deliveries. apply Permutation_flat_map, P. Qed.
Lemma mixer_deliveries eps reqs l l' s : 0 <= eps -> Forall (fun jm => (fst jm < List.length (asked reqs))%nat) l -> Forall (fun jm => mat_ok (snd jm)) l ->
  (forall p, In p reqs -> (xr_stream p < List.length (xs_bufs s))%nat) ->
  (forall k b sp, nth_error (xs_bufs s) k = Some b -> b_space b = Some sp -> deliveries reqs l k <> [] -> qty_of (deliveries reqs l k) <= sp) ->
  Permutation l l' ->
  exists s1 s1', mx_accept eps (mx_req_inventories reqs) l s = Ok s1 /\ mx_accept eps (mx_req_inventories reqs) l' s = Ok s1' /\
    Forall2 (fun b b' => b_cap b = b_cap b' /\ Permutation (b_items b) (b_items b')) (xs_bufs s1) (xs_bufs s1') /\
    xs_ratios s1 = xs_ratios s1' /\ xs_output s1 = xs_output s1' /\ xs_extra s1 = xs_extra s1'.
Proof.
  intros He J M R Sp P.
  destruct (accept_loop_ok eps reqs l He (xs_bufs s) J M R Sp) as (bs & H).
  destruct (accept_loop_ok eps reqs l' He (xs_bufs s)) as (bs' & H').
  1, 2: eapply Permutation_Forall; eauto. 1: exact R.
  1: { intros k b sp N B NE. rewrite <- (qty_perm _ _ (deliveries_perm reqs l l' k P)). apply (Sp k b sp N B). intro Z. apply NE. pose proof (deliveries_perm reqs l l' k P) as PP. rewrite Z in PP. apply Permutation_nil in PP. exact PP. }
  unfold mx_accept. rewrite H, H'. cbn [bind]. do 2 eexists. split; [reflexivity|]. split; [reflexivity|]. cbn [xs_bufs xs_ratios xs_output xs_extra]. split; [|auto].
  apply accept_loop_facts in H as (_ & L1 & A1). apply accept_loop_facts in H' as (_ & L2 & A2).
  assert (G : forall k b b', nth_error bs k = Some b -> nth_error bs' k = Some b' -> b_cap b = b_cap b' /\ Permutation (b_items b) (b_items b')).
  { intros k b b' N N'. destruct (nth_error (xs_bufs s) k) as [b0|] eqn:N0; [|apply nth_error_None in N0; assert (k < List.length bs)%nat by (apply nth_error_Some; congruence); lia].
    rewrite (A1 k b0 N0) in N. rewrite (A2 k b0 N0) in N'. injection N as <-. injection N' as <-. cbn. split; [reflexivity|]. apply Permutation_app_head, deliveries_perm, P. }
  assert (LL : List.length bs = List.length bs') by congruence. clear - G LL. revert bs' LL G. induction bs as [|b bs IH]; intros [|b' bs'] LL G; try discriminate; constructor.
  - apply (G 0%nat); reflexivity.
  - apply IH; [injection LL; auto|]. intros k. apply (G (S k)).
Qed.
Lemma mx_sell_rest eps l amts : mats_ok l -> 0 <= eps -> Forall (fun q => 0 < q) amts -> forall tot b acc, rest_after tot l (b_items b) -> qsum amts <= qty_of (b_items b) ->
  exists b' ms, loop (fun (st : buf * list mat) q => let* '(m, b) := b_pop_tol (fst st) q eps in Ok (b, snd st ++ [m])) amts (b, acc) = Ok (b', acc ++ ms) /\
    b_cap b' = b_cap b /\ rest_after (tot + qsum amts) l (b_items b') /\ Forall2 (fun q m => m_qty m == q) amts ms.
Proof.
  intros O He F. induction F as [|q amts Pq F IH]; intros tot b acc R L; cbn [loop].
  - exists b, []. rewrite app_nil_r. split; [reflexivity|]. split; [reflexivity|]. split; [|constructor]. refine (rest_eq _ _ _ _ _ R). change (qsum []) with 0. ring.
  - change (qsum (q :: amts)) with (q + qsum amts) in *. assert (N : 0 <= qsum amts) by (apply KernelFacts.qsum_nonneg; eapply Forall_impl; [|exact F]; intros; cbn in *; lra).
    cbn [fst snd]. unfold b_pop_tol at 1. destruct (pop_tol_ok (b_items b) q eps Pq He ltac:(lra)) as (m & c' & P). rewrite P. cbn [bind].
    destruct (rest_pop_tol tot l _ q eps m c' O R Pq ltac:(lra) P) as [Q1 R1]. destruct (IH (tot + q) {| b_cap := b_cap b; b_items := c' |} (acc ++ [m]) R1) as (b' & ms & H & Cb & R2 & F2).
    { cbn [b_items]. destruct R1 as (_ & _ & _ & D & _), R as (_ & _ & _ & D0 & _). lra. }
    exists b', (m :: ms). rewrite <- app_assoc in H. split; [exact H|]. split; [exact Cb|]. split; [|constructor; auto]. refine (rest_eq _ _ _ _ _ R2). ring.
Qed.
Lemma mixer_sales eps amts amts' s : 0 <= eps -> mats_ok (b_items (xs_output s)) -> Forall (fun q => 0 < q) amts -> qsum amts <= b_qty (xs_output s) -> Permutation amts amts' ->
  exists s1 s1' ms ms', mx_sell eps amts s = Ok (s1, ms) /\ mx_sell eps amts' s = Ok (s1', ms') /\
    Forall2 (fun q m => m_qty m == q) amts ms /\ Forall2 (fun q m => m_qty m == q) amts' ms' /\
    same_content (b_items (xs_output s1)) (b_items (xs_output s1')) /\ xs_bufs s1 = xs_bufs s1' /\ xs_ratios s1 = xs_ratios s1' /\ xs_extra s1 = xs_extra s1'.
Proof.
  intros He O F L P. unfold b_qty in L. pose proof (qsum_perm _ _ P) as E. assert (F' : Forall (fun q => 0 < q) amts') by (eapply Permutation_Forall; eauto).
  destruct (mx_sell_rest eps _ _ O He F 0 _ [] (rest_start _ O) L) as (r & ms & H & _ & R & X). destruct (mx_sell_rest eps _ _ O He F' 0 _ [] (rest_start _ O) ltac:(lra)) as (r' & ms' & H' & _ & R' & X').
  unfold mx_sell. rewrite H, H'. cbn [bind app]. do 4 eexists. split; [reflexivity|]. split; [reflexivity|]. cbn. split; [exact X|]. split; [exact X'|].
  split; [apply (rest_content (0 + qsum amts) (0 + qsum amts') _ _ _ O ltac:(lra) R R')|auto].
Qed.
End MIXER.

(** ** Separations *)
Section SEPARATIONS.
Import SeparationsModel SeparationsSpec SeparationsRun SeparationsTolerance.
Lemma separations_deliveries eps ms ms' s c : 0 <= eps -> mats_ok ms -> Permutation ms ms' -> b_cap (ps_feed s) = Some c -> b_qty (ps_feed s) + qty_of ms <= c ->
  exists s1 s1', sp_accept eps ms s = Ok s1 /\ sp_accept eps ms' s = Ok s1' /\ Permutation (b_items (ps_feed s1)) (b_items (ps_feed s1')) /\
    ps_left s1 = ps_left s1' /\ ps_streams s1 = ps_streams s1'.
Proof.
  intros He F P C L. assert (L' : b_qty (ps_feed s) + qty_of ms' <= c) by (rewrite <- (qty_perm _ _ P); exact L). destruct (accept_ok_tol eps ms He (ps_feed s) c C F L) as (b & H). destruct (accept_ok_tol eps ms' He (ps_feed s) c C (perm_ok _ _ P F) L') as (b' & H').
  unfold sp_accept. rewrite H, H'. cbn [bind]. do 2 eexists. split; [reflexivity|]. split; [reflexivity|]. cbn. apply accept_facts in H as (_ & ->), H' as (_ & ->). repeat split; auto. apply Permutation_app_head, P.
Qed.
Lemma sold_cons c t trs : sold c (t :: trs) == (if String.eqb (fst t) c then snd t else 0) + sold c trs.
Proof. unfold sold. cbn [filter]. destruct (String.eqb (fst t) c); [reflexivity|ring]. Qed.
Lemma sold_nonneg c trs : Forall (fun t => 0 < snd t) trs -> 0 <= sold c trs.
Proof. induction 1 as [|t trs P F IH]; [unfold sold; cbn; lra|]. rewrite sold_cons. destruct (String.eqb (fst t) c); lra. Qed.
Lemma sales_rest eps cfg (s0 : sp_state) trs : (forall c, mats_ok (stock cfg s0 c)) -> Forall (fun t => 0 < snd t) trs -> forall tot s acc s' ms,
  (forall c, rest_after (tot c) (stock cfg s0 c) (stock cfg s c)) -> (forall c, sold c trs <= qty_of (stock cfg s c)) ->
  loop (trade_one eps cfg) trs (s, acc) = Ok (s', ms) -> forall c, rest_after (tot c + sold c trs) (stock cfg s0 c) (stock cfg s' c).
Proof.
  intros O F. induction F as [|[c q] trs Pq F IH]; intros tot s acc s' ms R L H x; cbn [fst snd] in *.
  - injection H as <- <-. eapply rest_eq; [|apply R]. change (sold x []) with 0. ring.
  - cbn [loop] in H. apply bind_ok in H as ([s1 acc1] & T & H). apply trade_inv in T as (m & b & b' & _ & P & C).
    assert (BQ : b_items b = stock cfg s c /\ b_items b' = stock cfg s1 c /\ forall y, y <> c -> stock cfg s1 y = stock cfg s y).
    { unfold stock, stream_items, stream_buf. destruct C as [(-> & -> & ->)|(N & Fd & ->)]; cbn [ps_left ps_streams].
      - rewrite String.eqb_refl. split; [reflexivity|]. split; [reflexivity|]. intros y Ny. destruct (String.eqb_spec y (pc_leftover_commod cfg)); [contradiction|reflexivity].
      - destruct (String.eqb_spec c (pc_leftover_commod cfg)); [contradiction|]. rewrite (find_get _ _ _ Fd), bm_get_set_same. split; [reflexivity|]. split; [reflexivity|].
        intros y Ny. destruct (String.eqb y (pc_leftover_commod cfg)); [reflexivity|]. rewrite bm_get_set_other by exact Ny. reflexivity. }
    destruct BQ as (B1 & B2 & B3). pose proof (L c) as Lc. rewrite sold_cons in Lc. cbn [fst snd] in Lc. rewrite String.eqb_refl in Lc. pose proof (sold_nonneg c trs F) as N.
    unfold b_pop_tol in P. apply bind_ok in P as ([m0 r0] & P & E). injection E as <- <-. cbn [b_items] in B2. unfold b_qty in P. rewrite B1 in P.
    assert (Mq : Qmin (qty_of (stock cfg s c)) q == q) by (apply Q.min_r; lra).
    destruct (rest_pop_tol (tot c) _ _ (Qmin (qty_of (stock cfg s c)) q) eps m0 r0 (O c) (R c) ltac:(rewrite Mq; exact Pq) ltac:(rewrite Mq; lra) P) as [Q1 R1]. rewrite B2 in R1.
    eapply rest_eq; [|apply (IH (fun y => tot y + (if String.eqb c y then q else 0)) s1 acc1 s' ms)]; [|..|exact H].
    + rewrite sold_cons. cbn [fst snd]. ring.
    + intro y. destruct (String.eqb_spec c y) as [Ey|Ny]; [subst y; refine (rest_eq _ _ _ _ _ R1); rewrite Mq; reflexivity|]. rewrite B3 by auto. refine (rest_eq _ _ _ _ _ (R y)). ring.
    + intro y. specialize (L y). rewrite sold_cons in L. cbn [fst snd] in L. destruct (String.eqb_spec c y) as [Ey|Ny]; [subst y|rewrite B3 by auto; lra].
      destruct R1 as (_ & _ & _ & D & _), (R c) as (_ & _ & _ & D0 & _). lra.
Qed.
Lemma sold_perm c t t' : Permutation t t' -> sold c t == sold c t'.
Proof. induction 1 as [|x l l' P IH|x y l|a b d P IH P' IH']; [reflexivity| | |rewrite IH; exact IH']; rewrite !sold_cons; [rewrite IH; reflexivity|ring]. Qed.
Lemma stock_ok cfg s c : mats_ok (parcels s) -> mats_ok (stock cfg s c).
Proof.
  unfold parcels, stock. intro O. apply mats_ok_app in O as [_ O]. apply mats_ok_app in O as [A B]. destruct (String.eqb c (pc_leftover_commod cfg)); [exact A|].
  unfold stream_items, stream_buf, bm_get. destruct (bm_find c (ps_streams s)) as [b|] eqn:E; [|constructor]. apply bm_find_in in E. unfold mats_ok in *. rewrite Forall_forall in *. intros m I. apply B, in_flat_map. exists (c, b). auto.
Qed.
Lemma separations_sales eps cfg trs trs' s : 0 <= eps -> Forall (fun t => 0 < snd t) trs -> mats_ok (parcels s) ->
  (forall t, In t trs -> fst t = pc_leftover_commod cfg \/ In (fst t) (map fst (ps_streams s))) -> (forall c, sold c trs <= qty_of (stock cfg s c)) -> Permutation trs trs' ->
  exists s1 s1' ms ms', sp_trades eps cfg trs s = Ok (s1, ms) /\ sp_trades eps cfg trs' s = Ok (s1', ms') /\
    Forall2 (fun t m => m_qty m == snd t) trs ms /\ Forall2 (fun t m => m_qty m == snd t) trs' ms' /\
    (forall c, same_content (stock cfg s1 c) (stock cfg s1' c)) /\ ps_feed s1 = ps_feed s1'.
Proof.
  intros He F O K L P. assert (F' : Forall (fun t => 0 < snd t) trs') by (eapply Permutation_Forall; eauto).
  assert (K' : forall t, In t trs' -> fst t = pc_leftover_commod cfg \/ In (fst t) (map fst (ps_streams s))) by (intros t I; apply K; eapply Permutation_in; [apply Permutation_sym, P|exact I]).
  assert (L' : forall c, sold c trs' <= qty_of (stock cfg s c)) by (intro c; rewrite <- (sold_perm c _ _ P); apply L).
  destruct (trades_ok eps cfg trs He s [] F O K L) as (s1 & ms & H & A & _ & Fe & _). destruct (trades_ok eps cfg trs' He s [] F' O K' L') as (s1' & ms' & H' & A' & _ & Fe' & _).
  exists s1, s1', ms, ms'. split; [exact H|]. split; [exact H'|]. split; [exact A|]. split; [exact A'|]. split; [|congruence]. intro c.
  pose proof (sales_rest eps cfg s trs (fun c => stock_ok cfg s c O) F (fun _ => 0) s [] s1 ([] ++ ms) (fun c => rest_start _ (stock_ok cfg s c O)) L H c) as R.
  pose proof (sales_rest eps cfg s trs' (fun c => stock_ok cfg s c O) F' (fun _ => 0) s [] s1' ([] ++ ms') (fun c => rest_start _ (stock_ok cfg s c O)) L' H' c) as R'.
  cbv beta in R, R'. apply (rest_content (0 + sold c trs) (0 + sold c trs') (stock cfg s c) _ _ (stock_ok cfg s c O)); auto. rewrite (sold_perm c _ _ P). reflexivity.
Qed.
End SEPARATIONS.

(** ** FuelFab *)
Section FUELFAB.
Import FuelFabModel FuelFabSpec FuelFabRun.
Lemma ff_deliveries_perm reqs l l' i : Permutation l l' -> Permutation (ff_deliveries reqs l i) (ff_deliveries reqs l' i).
Proof. intro P. unfold ff_deliveries. apply Permutation_flat_map, P. Qed.
Lemma fuelfab_ok eps reqs rs s : 0 <= eps -> ff_homogeneous s -> Forall (fun jm => (fst jm < List.length (ff_asked reqs))%nat) rs ->
  Forall (fun jm => 0 < m_qty (snd jm) /\ real_comp (m_comp (snd jm))) rs ->
  (forall i, exists c, b_cap (inventory s i) = Some c /\ b_qty (inventory s i) + qty_of (ff_deliveries reqs rs i) <= c) ->
  exists s', ff_accept eps (ff_req_inventories reqs) rs s = Ok s'.
Proof.
  intros He Ho J M Fit. destruct (loop_accept_ok eps reqs rs s He J) as (s1 & L).
  { eapply Forall_impl; [|exact M]. intros jm [A _]. lra. }
  { intros i c C. right. destruct (Fit i) as (c' & C' & X). congruence. }
  assert (SQ : forall i, exists b, ff_squash eps (inventory s1 i) = Ok b).
  { intro i. destruct (loop_accept_facts _ _ _ _ _ L i) as (C & I & _). destruct (Fit i) as (c & C' & X). apply (ff_squash_ok eps _ c); [congruence| |].
    - rewrite I. apply Forall_app. split; [apply homogeneous_reals; apply ff_hom_all; auto|apply deliveries_reals; auto].
    - right. unfold b_qty in *. rewrite I, qty_of_app. pose proof (Q.le_max_r 0 c). lra. }
  destruct (SQ InvFill) as (a & A), (SQ InvFiss) as (b & B), (SQ InvTopup) as (d & D). exists {| fb_fill := a; fb_fiss := b; fb_topup := d |}. apply accept_split. exists s1. split; [exact L|]. intros [| |]; cbn; auto.
Qed.
Lemma fuelfab_deliveries eps reqs rs rs' s : 0 <= eps -> ff_homogeneous s -> Forall (fun jm => (fst jm < List.length (ff_asked reqs))%nat) rs ->
  Forall (fun jm => 0 < m_qty (snd jm) /\ real_comp (m_comp (snd jm))) rs ->
  (forall i, exists c, b_cap (inventory s i) = Some c /\ b_qty (inventory s i) + qty_of (ff_deliveries reqs rs i) <= c) -> Permutation rs rs' ->
  exists s1 s1', ff_accept eps (ff_req_inventories reqs) rs s = Ok s1 /\ ff_accept eps (ff_req_inventories reqs) rs' s = Ok s1' /\
    forall i, same_content (b_items (inventory s1 i)) (b_items (inventory s1' i)) /\ b_cap (inventory s1 i) = b_cap (inventory s1' i).
Proof.
  intros He Ho J M Fit P.
  assert (J' : Forall (fun jm => (fst jm < List.length (ff_asked reqs))%nat) rs') by (eapply Permutation_Forall; eauto).
  assert (M' : Forall (fun jm => 0 < m_qty (snd jm) /\ real_comp (m_comp (snd jm))) rs') by (eapply Permutation_Forall; [exact P|exact M]).
  assert (Fit' : forall i, exists c, b_cap (inventory s i) = Some c /\ b_qty (inventory s i) + qty_of (ff_deliveries reqs rs' i) <= c).
  { intro i. destruct (Fit i) as (c & C & X). exists c. split; [exact C|]. rewrite <- (qty_perm _ _ (ff_deliveries_perm reqs rs rs' i P)). exact X. }
  destruct (fuelfab_ok eps reqs rs s He Ho J M Fit) as (s1 & H). destruct (fuelfab_ok eps reqs rs' s He Ho J' M' Fit') as (s1' & H'). exists s1, s1'. split; [exact H|]. split; [exact H'|]. intro i.
  apply accept_facts in H as (_ & A); auto. apply accept_facts in H' as (_ & A'); auto. destruct (A i) as (A1 & A2 & A3 & _), (A' i) as (B1 & B2 & B3 & _). split; [|congruence]. split.
  - unfold b_qty in *. rewrite A2, B2, (qty_perm _ _ (ff_deliveries_perm reqs rs rs' i P)). reflexivity.
  - intro n. rewrite A3, B3, (mass_perm n _ _ (ff_deliveries_perm reqs rs rs' i P)). reflexivity.
Qed.
End FUELFAB.
