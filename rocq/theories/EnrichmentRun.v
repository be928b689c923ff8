(** Trades, bids and histories of the Enrichment facility. *)
From Coq Require Import Lia Lqa Permutation.
From Verif Require Import Outcome KernelMaterial KernelResBuf KernelBuf KernelFacts KernelMass KernelBufFacts
  EnrichmentModel EnrichmentSpec EnrichmentProofs.
Local Open Scope Q_scope.

(** ** Sequences of trades *)
(** The feed after some trades: none left, or the same blend. *)
Definition same_blend (a b : list mat) : Prop :=
  b = [] \/ (0 < qty_of b /\ 0 < qty_of a /\ forall n, mass_in n b / qty_of b == mass_in n a / qty_of a).
Lemma same_blend_trans a b c : same_blend a b -> same_blend b c -> (b = [] -> c = []) -> same_blend a c.
Proof.
  intros [->|(B1 & A1 & E1)] [->|(C1 & _ & E2)] N; try (left; auto; fail).
  right. split; [exact C1|]. split; [exact A1|]. intro n. rewrite E2. apply E1.
Qed.
Lemma blend_same_values a b : same_blend a b -> b <> [] -> 0 < uranium a ->
  assay_of b == assay_of a /\ purity b == purity a.
Proof.
  intros [->|(B & A & E)] N U; [congruence|]. unfold assay_of, purity, uranium in *.
  pose proof (E 922350000%Z) as E5. pose proof (E 922380000%Z) as E8.
  set (x := mass_in 922350000 a) in *. set (y := mass_in 922380000 a) in *.
  assert (X5 : mass_in 922350000 b == x / qty_of a * qty_of b) by (rewrite <- E5; field; lra).
  assert (X8 : mass_in 922380000 b == y / qty_of a * qty_of b) by (rewrite <- E8; field; lra).
  assert (SUM : x / qty_of a * qty_of b + y / qty_of a * qty_of b == (x + y) * (qty_of b / qty_of a)) by (field; lra).
  assert (PQ : 0 < qty_of b / qty_of a) by (apply Qlt_shift_div_l; lra).
  split.
  - rewrite X5, X8. field. split; [lra|]. split; [lra|].
    intro Z. assert (F : x * qty_of b + y * qty_of b == (x + y) * qty_of b) by ring. rewrite F in Z.
    apply Qmult_integral in Z as [Z|Z]; lra.
  - rewrite X5, X8. field. split; lra.
Qed.

(** The effect of one trade on stocks. *)
Lemma trade1_facts eps eg V cfg s t s' m rs : 0 <= eps -> trade_ok t -> mats_ok (b_items (es_inv s)) ->
  qtys_ok (b_items (es_tails s)) -> en_trade1 eps eg V cfg s t = Ok (s', m, rs) ->
  mats_ok (b_items (es_inv s')) /\ qtys_ok (b_items (es_tails s')) /\ 0 <= m_qty m /\
  b_qty (es_inv s') + b_qty (es_tails s') + m_qty m == b_qty (es_inv s) + b_qty (es_tails s) /\
  b_qty (es_inv s') <= b_qty (es_inv s) /\ b_cap (es_inv s') = b_cap (es_inv s) /\ b_cap (es_tails s') = b_cap (es_tails s) /\
  (eps = 0 -> mats_ok (b_items (es_tails s)) -> mats_ok (b_items (es_tails s')) /\ mat_ok m /\
     forall n, mass_in n (b_items (es_inv s')) + mass_in n (b_items (es_tails s')) + mass_of m n ==
               mass_in n (b_items (es_inv s)) + mass_in n (b_items (es_tails s))).
Proof.
  intros He (Tq & To & Tc) O OT H. unfold en_trade1 in H. destruct (String.eqb (et_commod t) (ec_tails_commod cfg)) eqn:C.
  - apply bind_ok in H as ([m' b] & P & H). injection H as <- <- <-. cbn [es_inv es_tails].
    unfold b_pop_tol in P. apply bind_ok in P as ([m2 r2] & P & E). injection E as <- <-. cbn [b_items b_cap].
    assert (NT : 0 <= b_qty (es_tails s)) by (apply qtys_ok_nonneg; exact OT).
    assert (NQ : 0 <= Qmin (et_amt t) (b_qty (es_tails s))) by (destruct (Q.min_spec (et_amt t) (b_qty (es_tails s))) as [[_ ->]|[_ ->]]; lra).
    destruct (pop_tol_q _ _ _ _ _ OT NQ P) as (A1 & A2 & A3).
    assert (A4 : 0 <= m_qty m2) by (rewrite A1; apply Q.min_glb; [exact NQ|exact NT]).
    split; [exact O|]. split; [exact A3|]. split; [exact A4|].
    split; [unfold b_qty in *; cbn [b_items]; lra|]. split; [lra|]. split; [reflexivity|]. split; [reflexivity|].
    intros _ MT. destruct (pop_tol_facts _ _ _ _ _ MT NQ P) as (B1 & B2 & B3 & B4 & B5 & B6).
    split; [exact B5|]. split; [exact B4|]. intro n. rewrite <- (B6 n). ring.
  - apply bind_ok in H as ([[s1 m1] r1] & E & H). injection H as <- <- <-.
    destruct (enrich_total _ _ _ _ _ _ _ _ _ _ He O E) as (A1 & A2 & t1 & A3 & A4 & A5 & A6).
    destruct (enrich_inv _ _ _ _ _ _ _ _ _ _ He O E) as (natu & r & rest & EN).
    destruct (drawn_facts _ _ _ _ _ _ _ _ _ _ _ _ _ He O EN) as (D1 & D2 & D3 & D4 & D5 & _).
    split; [exact D2|]. assert (T' : b_qty (es_tails s1) == b_qty (es_tails s) + m_qty t1).
    { unfold b_qty. rewrite A3, qty_of_app, qty_of_cons, qty_of_nil. lra. }
    split; [rewrite A3; apply Forall_app; split; [exact OT|constructor; [exact A4|constructor]]|].
    split; [rewrite A1; lra|]. split; [lra|]. split; [lra|]. split; [apply EN|]. split; [apply EN|].
    intros -> MT. assert (HQ : 0 <= et_amt t) by lra.
    destruct (enrich_nuclides0 _ _ _ _ _ _ _ _ _ HQ O Tc E) as (B1 & t2 & B2 & B3 & B4).
    rewrite B2. split; [apply mats_ok_app; split; [exact MT|constructor; [exact B3|constructor]]|].
    split; [exact B1|]. intro n. destruct (B4 n) as [_ B5]. rewrite mass_in_app, mass_in_cons, mass_in_nil. lra.
Qed.
Lemma trade_loop_facts eps eg V cfg ts : forall s s' ms rs, 0 <= eps -> Forall trade_ok ts -> mats_ok (b_items (es_inv s)) ->
  qtys_ok (b_items (es_tails s)) -> en_trade_loop eps eg V cfg s ts = Ok (s', ms, rs) ->
  mats_ok (b_items (es_inv s')) /\ qtys_ok (b_items (es_tails s')) /\ qtys_ok ms /\
  b_qty (es_inv s') + b_qty (es_tails s') + qty_of ms == b_qty (es_inv s) + b_qty (es_tails s) /\
  b_qty (es_inv s') <= b_qty (es_inv s) /\ b_cap (es_inv s') = b_cap (es_inv s) /\ b_cap (es_tails s') = b_cap (es_tails s) /\
  (eps = 0 -> mats_ok (b_items (es_tails s)) -> mats_ok (b_items (es_tails s')) /\ mats_ok ms /\
     forall n, mass_in n (b_items (es_inv s')) + mass_in n (b_items (es_tails s')) + mass_in n ms ==
               mass_in n (b_items (es_inv s)) + mass_in n (b_items (es_tails s))).
Proof.
  induction ts as [|t ts IH]; intros s s' ms rs He OK O OT H.
  - cbn in H. injection H as <- <- <-. split; [exact O|]. split; [exact OT|]. split; [constructor|].
    rewrite qty_of_nil. split; [lra|]. split; [lra|]. split; [reflexivity|]. split; [reflexivity|].
    intros _ MT. split; [exact MT|]. split; [constructor|]. intro n. rewrite mass_in_nil. lra.
  - inversion OK as [|? ? T1 T2]; subst. cbn in H. apply bind_ok in H as ([[s1 m] r] & E & H).
    apply bind_ok in H as ([[s2 ms2] rs2] & L & H). injection H as <- <- <-.
    destruct (trade1_facts _ _ _ _ _ _ _ _ _ He T1 O OT E) as (A1 & A2 & A3 & A4 & A5 & A6 & A7 & A8).
    destruct (IH _ _ _ _ He T2 A1 A2 L) as (B1 & B2 & B3 & B4 & B5 & B6 & B7 & B8).
    split; [exact B1|]. split; [exact B2|]. split; [constructor; [exact A3|exact B3]|].
    rewrite qty_of_cons. split; [lra|]. split; [lra|]. split; [congruence|]. split; [congruence|].
    intros E0 MT. destruct (A8 E0 MT) as (C1 & C2 & C3). destruct (B8 E0 C1) as (D1 & D2 & D3).
    split; [exact D1|]. split; [constructor; [exact C2|exact D2]|]. intro n. rewrite mass_in_cons.
    specialize (C3 n). specialize (D3 n). lra.
Qed.

(** Feed stays the same blend; the records of the product trades. *)
Lemma enrich_blend eps eg V cfg s offer q s' resp rc : 0 <= eps -> 0 < q -> mats_ok (b_items (es_inv s)) ->
  en_enrich eps eg V cfg s offer q = Ok (s', resp, rc) -> same_blend (b_items (es_inv s)) (b_items (es_inv s')).
Proof.
  intros He Hq O H. destruct (enrich_stock _ _ _ _ _ _ _ _ _ _ He Hq O H) as (PS & PU).
  destruct (enrich_inv _ _ _ _ _ _ _ _ _ _ He O H) as (natu & r & rest & E).
  destruct (drawn_facts _ _ _ _ _ _ _ _ _ _ _ _ _ He O E) as (D1 & D2 & D3 & D4 & D5 & D6 & D7 & D8).
  destruct D8 as [N|P]; [left; exact N|right]. unfold b_qty in *. split; [exact P|]. split; [exact PS|].
  intro n. rewrite D6, (D7 PS n), D5. field. split; lra.
Qed.
Definition record_of (V : Q -> Q) (cfg : en_cfg) (feed : list mat) (t : en_trade) (rc : en_record) : Prop :=
  er_feed rc == need (assay_of feed) (mass_assay (m_comp (et_offer t))) (ec_tails_assay cfg) (et_amt t) / purity feed /\
  er_swu rc == work V (assay_of feed) (mass_assay (m_comp (et_offer t))) (ec_tails_assay cfg) (et_amt t).
Lemma trade_loop_records eps eg V cfg ts : forall s s' ms rs feed, 0 <= eps -> (forall x y, x == y -> V x == V y) ->
  Forall trade_ok ts -> mats_ok (b_items (es_inv s)) -> qtys_ok (b_items (es_tails s)) ->
  same_blend feed (b_items (es_inv s)) -> 0 < uranium feed ->
  en_trade_loop eps eg V cfg s ts = Ok (s', ms, rs) ->
  Forall2 (record_of V cfg feed) (products cfg ts) rs.
Proof.
  induction ts as [|t ts IH]; intros s s' ms rs feed He HV OK O OT SB PU H.
  - cbn in H. injection H as <- <- <-. constructor.
  - inversion OK as [|? ? T1 T2]; subst. cbn in H. apply bind_ok in H as ([[s1 m] r] & E & H).
    apply bind_ok in H as ([[s2 ms2] rs2] & L & H). injection H as <- <- <-.
    destruct (trade1_facts _ _ _ _ _ _ _ _ _ He T1 O OT E) as (A1 & A2 & _).
    unfold en_trade1 in E. cbn [products filter]. fold (products cfg ts).
    destruct (String.eqb (et_commod t) (ec_tails_commod cfg)) eqn:C; cbn [negb].
    + apply bind_ok in E as ([m' b] & P & E). injection E as <- <- <-. cbn [app].
      exact (IH _ _ _ _ feed He HV T2 A1 A2 SB PU L).
    + apply bind_ok in E as ([[s1' m1] r1] & E & X). injection X as -> -> <-. cbn [app].
      destruct T1 as (Tq & To & Tc).
      destruct (enrich_record _ _ _ _ _ _ _ _ _ _ He Tq O HV To Tc E) as (R0 & R1 & R2).
      destruct (enrich_inv _ _ _ _ _ _ _ _ _ _ He O E) as (natu & rr & rest & EN).
      pose proof (en_stock _ _ _ _ _ _ _ _ _ _ _ _ _ EN) as NE.
      destruct (blend_same_values _ _ SB NE PU) as (S1 & S2).
      constructor.
      * split.
        -- rewrite R1, S2. assert (Y : need (assay_of (b_items (es_inv s))) (mass_assay (m_comp (et_offer t))) (ec_tails_assay cfg) (et_amt t) ==
              need (assay_of feed) (mass_assay (m_comp (et_offer t))) (ec_tails_assay cfg) (et_amt t)) by (apply need_proper; [exact S1|reflexivity]).
           rewrite Y. reflexivity.
        -- rewrite R2. unfold work, waste, need. rewrite (HV _ _ S1), S1. reflexivity.
      * assert (SB' : same_blend feed (b_items (es_inv s1))).
        2: exact (IH _ _ _ _ feed He HV T2 A1 A2 SB' PU L).
        apply (same_blend_trans _ _ _ SB (enrich_blend _ _ _ _ _ _ _ _ _ _ He Tq O E)). congruence.
Qed.
(** Counters. *)
Lemma trade_loop_counters eps eg V cfg ts : forall s s' ms rs, 0 <= eps -> Forall trade_ok ts -> mats_ok (b_items (es_inv s)) ->
  qtys_ok (b_items (es_tails s)) -> en_trade_loop eps eg V cfg s ts = Ok (s', ms, rs) ->
  forall c a b, es_swu s = Some c -> es_iswu s = Some a -> es_ifeed s = Some b ->
  exists c' a' b', es_swu s' = Some c' /\ es_iswu s' = Some a' /\ es_ifeed s' = Some b' /\
    c' == c - qsum (map er_swu rs) /\ a' == a + qsum (map er_swu rs) /\ b' == b + qsum (map er_feed rs).
Proof.
  induction ts as [|t ts IH]; intros s s' ms rs He OK O OT H c a b SC SA SB.
  - cbn in H. injection H as <- <- <-. exists c, a, b. cbn [map qsum fold_right]. repeat split; auto; lra.
  - inversion OK as [|? ? T1 T2]; subst. cbn in H. apply bind_ok in H as ([[s1 m] r] & E & H).
    apply bind_ok in H as ([[s2 ms2] rs2] & L & H). injection H as <- <- <-.
    destruct (trade1_facts _ _ _ _ _ _ _ _ _ He T1 O OT E) as (A1 & A2 & _).
    unfold en_trade1 in E. destruct (String.eqb (et_commod t) (ec_tails_commod cfg)) eqn:C.
    + apply bind_ok in E as ([m' bb] & P & E). injection E as <- <- <-. cbn [app].
      exact (IH _ _ _ _ He T2 A1 A2 L c a b SC SA SB).
    + apply bind_ok in E as ([[s1' m1] r1] & E & X). injection X as -> -> <-. cbn [app].
      destruct (enrich_inv _ _ _ _ _ _ _ _ _ _ He O E) as (natu & rr & rest & EN).
      destruct (en_swu _ _ _ _ _ _ _ _ _ _ _ _ _ EN) as (c1 & C1 & C2).
      destruct (en_iswu _ _ _ _ _ _ _ _ _ _ _ _ _ EN) as (a1 & C3 & C4).
      destruct (en_ifeed _ _ _ _ _ _ _ _ _ _ _ _ _ EN) as (b1 & C5 & C6).
      rewrite SC in C1. injection C1 as <-. rewrite SA in C3. injection C3 as <-. rewrite SB in C5. injection C5 as <-.
      destruct (IH _ _ _ _ He T2 A1 A2 L _ _ _ C2 C4 C6) as (c' & a' & b' & X1 & X2 & X3 & X4 & X5 & X6).
      exists c', a', b'. split; [exact X1|]. split; [exact X2|]. split; [exact X3|]. cbn [map qsum fold_right] in *.
      change (fold_right Qplus 0 (map er_swu rs2)) with (qsum (map er_swu rs2)) in *.
      change (fold_right Qplus 0 (map er_feed rs2)) with (qsum (map er_feed rs2)) in *. lra.
Qed.

(** ** Invariants of a time step *)
Lemma products_stock eps eg V cfg ts : forall s s' ms rs, 0 <= eps -> Forall trade_ok ts -> mats_ok (b_items (es_inv s)) ->
  en_trade_loop eps eg V cfg s ts = Ok (s', ms, rs) -> products cfg ts <> [] -> 0 < uranium (b_items (es_inv s)).
Proof.
  induction ts as [|t ts IH]; intros s s' ms rs He OK O H N; [contradiction N; reflexivity|].
  inversion OK as [|? ? T1 T2]; subst. cbn in H. apply bind_ok in H as ([[s1 m] r] & E & H).
  apply bind_ok in H as ([[s2 ms2] rs2] & L & H). unfold en_trade1 in E.
  cbn [products filter] in N. fold (products cfg ts) in N. destruct (String.eqb (et_commod t) (ec_tails_commod cfg)) eqn:C; cbn [negb] in N.
  - apply bind_ok in E as ([m' b] & P & E). injection E as <- <- <-. pose proof (fun o => IH _ _ _ _ He T2 o L N) as X. exact (X O).
  - apply bind_ok in E as ([[s1' m1] r1] & E & X). destruct T1 as (Tq & _).
    exact (proj2 (enrich_stock _ _ _ _ _ _ _ _ _ _ He Tq O E)).
Qed.
Lemma no_products eps eg V cfg ts : forall s s' ms rs, en_trade_loop eps eg V cfg s ts = Ok (s', ms, rs) ->
  products cfg ts = [] -> rs = [].
Proof.
  induction ts as [|t ts IH]; intros s s' ms rs H E; cbn in H; [injection H as _ _ <-; reflexivity|].
  apply bind_ok in H as ([[s1 m] r] & E1 & H). apply bind_ok in H as ([[s2 ms2] rs2] & L & H). injection H as _ _ <-.
  cbn [products filter] in E. fold (products cfg ts) in E. unfold en_trade1 in E1.
  destruct (String.eqb (et_commod t) (ec_tails_commod cfg)) eqn:C; cbn [negb] in E; [|discriminate].
  apply bind_ok in E1 as ([m' b] & P & E1). injection E1 as _ _ <-. cbn [app]. exact (IH _ _ _ _ L E).
Qed.
Lemma uranium_le_qty ms : mats_ok ms -> uranium ms <= qty_of ms.
Proof.
  induction 1 as [|m ms O _ IH]; unfold uranium in *; [vm_compute; discriminate|].
  rewrite !mass_in_cons, qty_of_cons. pose proof (uranium_le m O). lra.
Qed.
Lemma loop_records eps eg V cfg ts s s' ms rs feed : 0 <= eps -> (forall x y, x == y -> V x == V y) ->
  Forall trade_ok ts -> mats_ok (b_items (es_inv s)) -> qtys_ok (b_items (es_tails s)) ->
  same_blend feed (b_items (es_inv s)) ->
  en_trade_loop eps eg V cfg s ts = Ok (s', ms, rs) -> Forall2 (record_of V cfg feed) (products cfg ts) rs.
Proof.
  intros He HV OK O OT SB H. destruct (products cfg ts) as [|p l] eqn:E.
  - rewrite (no_products _ _ _ _ _ _ _ _ _ H E). constructor.
  - assert (N : products cfg ts <> []) by congruence. rewrite <- E.
    pose proof (products_stock _ _ _ _ _ _ _ _ _ He OK O H N) as U.
    assert (PF : 0 < uranium feed).
    { destruct SB as [Z|(B & A & EE)]; [rewrite Z in U; unfold uranium in U; rewrite !mass_in_nil in U; lra|].
      unfold uranium in *. pose proof (EE 922350000%Z) as E5. pose proof (EE 922380000%Z) as E8.
      assert (X5 : mass_in 922350000 feed == mass_in 922350000 (b_items (es_inv s)) / qty_of (b_items (es_inv s)) * qty_of feed) by (rewrite E5; field; lra).
      assert (X8 : mass_in 922380000 feed == mass_in 922380000 (b_items (es_inv s)) / qty_of (b_items (es_inv s)) * qty_of feed) by (rewrite E8; field; lra).
      rewrite X5, X8. set (a := mass_in 922350000 (b_items (es_inv s))) in *. set (b := mass_in 922380000 (b_items (es_inv s))) in *.
      set (q := qty_of (b_items (es_inv s))) in *. set (f := qty_of feed) in *.
      assert (Y : a / q * f + b / q * f == (a + b) * f / q) by (field; lra). rewrite Y.
      apply Qlt_shift_div_l; [exact B|]. rewrite Qmult_0_l. apply Qmult_lt_0_compat; assumption. }
    exact (trade_loop_records _ _ _ _ _ _ _ _ _ feed He HV OK O OT SB PF H).
Qed.

Lemma get_bids_inv eps eg aw cfg tr pr s s' B : 0 <= eps -> mats_ok (b_items (es_inv s)) ->
  en_get_bids eps eg aw cfg tr pr s = Ok (s', B) ->
  es_tails s' = es_tails s /\ es_swu s' = es_swu s /\ es_iswu s' = es_iswu s /\ es_ifeed s' = es_ifeed s /\
  b_cap (es_inv s') = b_cap (es_inv s) /\ mats_ok (b_items (es_inv s')) /\ b_qty (es_inv s') == b_qty (es_inv s) /\
  (forall n, mass_in n (b_items (es_inv s')) == mass_in n (b_items (es_inv s))).
Proof.
  intros He O H. unfold en_get_bids in H. destruct pr as [|p pr].
  { injection H as <- _. repeat split; auto; reflexivity. }
  destruct (Qltb 0 (b_qty (es_inv s))) eqn:P.
  2:{ injection H as <- _. repeat split; auto; reflexivity. }
  apply bind_ok in H as ([f1 b1] & F1 & H). apply bind_ok in H as ([f2 b2] & F2 & H). injection H as <- _.
  cbn [es_inv es_tails es_swu es_iswu es_ifeed]. split; [auto|]. split; [auto|]. split; [auto|]. split; [auto|].
  destruct (feed_assay_inv _ _ _ _ He F1) as [(E & -> & ->)|(m & N & S & -> & ->)].
  - exfalso. apply Qltb_true in P. unfold b_qty in P. rewrite E, qty_of_nil in P. lra.
  - destruct (feed_assay_inv _ _ _ _ He F2) as [(E & -> & ->)|(m2 & N2 & S2 & -> & ->)]; [discriminate|].
    cbn in S2. injection S2 as <-. cbn [b_cap b_items]. destruct (squash_facts _ _ S) as (Q1 & Q2). destruct (Q2 O) as (Q3 & Q4).
    split; [auto|]. split; [constructor; [exact Q3|constructor]|].
    split; [unfold b_qty at 1; cbn [b_items]; rewrite qty_of_cons, qty_of_nil; unfold b_qty; lra|].
    intro n. rewrite mass_in_cons, mass_in_nil, Q4. lra.
Qed.
Lemma pushes_inv eps ms : forall b b', loop (fun b m => b_push eps b m) ms b = Ok b' ->
  b_cap b' = b_cap b /\ b_items b' = b_items b ++ ms.
Proof.
  induction ms as [|m ms IH]; intros b b' H.
  - cbn in H. injection H as <-. rewrite app_nil_r. auto.
  - cbn in H. apply bind_ok in H as (b1 & P & H). destruct (b_push_facts _ _ _ _ P) as (A & C & _).
    destruct (IH _ _ H) as (D & E). rewrite E, C, <- app_assoc. split; [congruence|reflexivity].
Qed.
Record stepped (eps eg : Q) (V : Q -> Q) (aw : Z -> Q) (recipe : string -> option comp) (cfg : en_cfg)
  (s : en_state) (e : en_env) (s' : en_state) (o : en_out) (s2 s3 : en_state) : Prop := {
  sp_request : en_requests eps recipe cfg s = Ok (eo_request o);
  sp_bids : en_get_bids eps eg aw cfg (ee_treqs e) (ee_preqs e) (en_tick cfg s) = Ok (s2, eo_bids o);
  sp_trades : (ee_trades e = [] /\ s3 = s2 /\ eo_shipped o = [] /\ eo_records o = []) \/
              (ee_trades e <> [] /\ en_trades eps eg V cfg (ee_trades e) s2 = Ok (s3, eo_shipped o, eo_records o));
  sp_inv : b_items (es_inv s') = b_items (es_inv s3) ++ ee_receipts e;
  sp_cap : b_cap (es_inv s') = b_cap (es_inv s3);
  sp_tails : es_tails s' = es_tails s3;
  sp_iswu : es_iswu s' = es_iswu s3;
  sp_ifeed : es_ifeed s' = es_ifeed s3;
  sp_rec : eo_recorded o = (es_iswu s3, es_ifeed s3) }.
Lemma step_inv eps eg V aw recipe cfg s e s' o : en_step eps eg V aw recipe cfg s e = Ok (s', o) ->
  exists s2 s3, stepped eps eg V aw recipe cfg s e s' o s2 s3.
Proof.
  intro H. unfold en_step in H. apply bind_ok in H as (rq & R & H). apply bind_ok in H as ([s2 B] & GB & H).
  apply bind_ok in H as ([[s3 ms] rs] & T & H). apply bind_ok in H as (s4 & A & H). injection H as <- <-.
  unfold en_accept in A. apply bind_ok in A as (b & P & A). injection A as <-. destruct (pushes_inv _ _ _ _ P) as (P1 & P2).
  exists s2, s3. constructor; cbn [eo_request eo_bids eo_shipped eo_records eo_recorded es_inv es_tails es_iswu es_ifeed]; auto.
  destruct (ee_trades e) as [|t ts]; [left; injection T as <- <- <-; auto|right]. split; [discriminate|exact T].
Qed.
Lemma trades_inv eps eg V cfg ts s s' ms rs : en_trades eps eg V cfg ts s = Ok (s', ms, rs) ->
  en_trade_loop eps eg V cfg {| es_inv := es_inv s; es_tails := es_tails s; es_swu := es_swu s; es_iswu := Some 0; es_ifeed := Some 0 |} ts
    = Ok (s', ms, rs) /\ exists c, es_swu s' = Some c /\ - eg <= c.
Proof.
  intro H. unfold en_trades in H. apply bind_ok in H as ([[s1 ms1] rs1] & L & H).
  destruct (is_negative eg (b_qty (es_tails s1))); [discriminate|]. destruct (es_swu s1) as [c|] eqn:E; [|discriminate].
  destruct (is_negative eg c) eqn:N; [discriminate|]. injection H as <- <- <-. split; [exact L|]. exists c. split; [exact E|].
  apply Qltb_false in N. exact N.
Qed.
Lemma blended ms ms' : 0 < qty_of ms -> qty_of ms' == qty_of ms -> (forall n, mass_in n ms' == mass_in n ms) -> same_blend ms ms'.
Proof. intros P E M. right. split; [lra|]. split; [exact P|]. intro n. rewrite M, E. reflexivity. Qed.

Definition en_good (cfg : en_cfg) (s : en_state) : Prop :=
  mats_ok (b_items (es_inv s)) /\ qtys_ok (b_items (es_tails s)) /\ b_cap (es_inv s) = Some (ec_max_feed cfg) /\ b_cap (es_tails s) = None.
Definition env_ok (e : en_env) : Prop := Forall mat_ok (ee_receipts e) /\ Forall trade_ok (ee_trades e).
Lemma step_facts eps eg V aw recipe cfg s e s' o : 0 <= eps -> en_good cfg s -> env_ok e ->
  en_step eps eg V aw recipe cfg s e = Ok (s', o) ->
  en_good cfg s' /\ qtys_ok (eo_shipped o) /\
  qty_of (en_held s') + qty_of (eo_shipped o) == qty_of (en_held s) + qty_of (ee_receipts e) /\
  b_qty (es_inv s') <= b_qty (es_inv s) + qty_of (ee_receipts e) /\
  (eps = 0 -> mats_ok (b_items (es_tails s)) -> mats_ok (b_items (es_tails s')) /\ mats_ok (eo_shipped o) /\
     forall n, mass_in n (en_held s') + mass_in n (eo_shipped o) == mass_in n (en_held s) + mass_in n (ee_receipts e)).
Proof.
  intros He (O & OT & CI & CT) (RO & TO) H. destruct (step_inv _ _ _ _ _ _ _ _ _ _ H) as (s2 & s3 & S).
  destruct S as [_ B T SI SC ST _ _ _].
  destruct (get_bids_inv _ _ _ _ _ _ (en_tick cfg s) s2 _ He O B) as (B1 & _ & _ & _ & B5 & B6 & B7 & B8).
  change (es_tails (en_tick cfg s)) with (es_tails s) in *. change (es_inv (en_tick cfg s)) with (es_inv s) in *.
  assert (X : mats_ok (b_items (es_inv s3)) /\ qtys_ok (b_items (es_tails s3)) /\ qtys_ok (eo_shipped o) /\
    b_qty (es_inv s3) + b_qty (es_tails s3) + qty_of (eo_shipped o) == b_qty (es_inv s2) + b_qty (es_tails s2) /\
    b_qty (es_inv s3) <= b_qty (es_inv s2) /\ b_cap (es_inv s3) = b_cap (es_inv s2) /\ b_cap (es_tails s3) = b_cap (es_tails s2) /\
    (eps = 0 -> mats_ok (b_items (es_tails s2)) -> mats_ok (b_items (es_tails s3)) /\ mats_ok (eo_shipped o) /\
     forall n, mass_in n (b_items (es_inv s3)) + mass_in n (b_items (es_tails s3)) + mass_in n (eo_shipped o) ==
               mass_in n (b_items (es_inv s2)) + mass_in n (b_items (es_tails s2)))).
  { destruct T as [(_ & -> & -> & _)|(_ & T)].
    - rewrite B1. split; [exact B6|]. split; [exact OT|]. split; [constructor|]. rewrite qty_of_nil. split; [lra|]. split; [lra|].
      split; [auto|]. split; [auto|]. intros _ M. split; [exact M|]. split; [constructor|]. intro n. rewrite mass_in_nil. lra.
    - apply trades_inv in T as (T & _). rewrite <- B1 in OT.
      pose proof (fun a b => trade_loop_facts _ _ _ _ _ _ _ _ _ He TO a b T) as X. exact (X B6 OT). }
  destruct X as (X1 & X2 & X3 & X4 & X5 & X6 & X7 & X8).
  assert (Q' : b_qty (es_inv s') == b_qty (es_inv s3) + qty_of (ee_receipts e)) by (unfold b_qty; rewrite SI, qty_of_app; reflexivity).
  split.
  { split; [rewrite SI; apply mats_ok_app; auto|]. rewrite ST. split; [exact X2|]. split; congruence. }
  split; [exact X3|]. unfold en_held. rewrite ST. split.
  { rewrite !qty_of_app. unfold b_qty in *. rewrite B1 in X4. lra. }
  split; [lra|]. intros E0 MT. rewrite B1 in X8. destruct (X8 E0 MT) as (Y1 & Y2 & Y3). split; [exact Y1|]. split; [exact Y2|].
  intro n. rewrite !mass_in_app, SI, mass_in_app. specialize (Y3 n). rewrite B8 in Y3. lra.
Qed.
Lemma build_good eps recipe cfg s0 : 0 <= eps -> recipes_ok recipe -> en_build eps recipe cfg = Ok s0 ->
  en_good cfg s0 /\ b_items (es_tails s0) = [] /\ es_iswu s0 = None /\ es_ifeed s0 = None /\
  b_qty (es_inv s0) == Qmax 0 (ec_initial_feed cfg) /\
  (0 <= ec_max_feed cfg -> b_qty (es_inv s0) <= ec_max_feed cfg + eps).
Proof.
  intros He RO H. unfold en_build, en_recipe in H. destruct (Qltb 0 (ec_initial_feed cfg)) eqn:P.
  - destruct (recipe (ec_feed_recipe cfg)) as [c|] eqn:R; [|discriminate]. cbn [bind] in H.
    apply bind_ok in H as (b & PB & H). injection H as <-. cbn [es_inv es_tails es_iswu es_ifeed].
    apply Qltb_true in P. destruct (b_push_facts _ _ _ _ PB) as (A & B & C). unfold b_qty in C.
    cbn [en_new es_inv b_cap b_items app] in A, B, C. destruct (RO _ _ R) as (R1 & R2).
    assert (E : b_qty b == ec_initial_feed cfg) by (unfold b_qty; rewrite B, qty_of_cons, qty_of_nil; cbn [m_qty]; lra).
    split. { split; [cbn [es_inv]; rewrite B; constructor; [|constructor]|].
      - split; cbn; [lra|]. split; [exact R1|left; exact R2].
      - cbn [es_tails es_inv]. split; [constructor|]. split; [exact A|reflexivity]. }
    split; [reflexivity|]. split; [reflexivity|]. split; [reflexivity|].
    split; [rewrite Q.max_r by lra; exact E|]. intro M. rewrite E.
    cbn [m_qty] in C. rewrite qty_of_nil, Q.max_r in C by lra. lra.
  - injection H as <-. apply Qltb_false in P. cbn [en_new es_inv es_tails es_iswu es_ifeed]. split.
    { split; [constructor|]. split; [constructor|]. split; reflexivity. }
    split; [reflexivity|]. split; [reflexivity|]. split; [reflexivity|]. unfold b_qty. cbn [b_items]. rewrite qty_of_nil.
    split; [rewrite Q.max_l by exact P; reflexivity|]. intro. lra.
Qed.
Lemma run_facts eps eg V aw recipe cfg es : forall s s' os, 0 <= eps -> en_good cfg s -> en_sane es ->
  en_run eps eg V aw recipe cfg s es = Ok (s', os) ->
  en_good cfg s' /\ qtys_ok (en_shipped os) /\
  qty_of (en_held s') + qty_of (en_shipped os) == qty_of (en_held s) + qty_of (en_received es) /\
  (eps = 0 -> mats_ok (b_items (es_tails s)) -> mats_ok (b_items (es_tails s')) /\
     forall n, mass_in n (en_held s') + mass_in n (en_shipped os) == mass_in n (en_held s) + mass_in n (en_received es)).
Proof.
  induction es as [|e es IH]; intros s s' os He G S H.
  - cbn in H. injection H as <- <-. unfold en_shipped, en_received. cbn [flat_map]. rewrite qty_of_nil.
    split; [exact G|]. split; [constructor|]. split; [lra|]. intros _ M. split; [exact M|]. intro n. rewrite mass_in_nil. lra.
  - inversion S as [|? ? S1 S2]; subst. cbn in H. apply bind_ok in H as ([s1 o] & E & H).
    apply bind_ok in H as ([s2 os2] & R & H). injection H as <- <-.
    destruct (step_facts _ _ _ _ _ _ _ _ _ _ He G S1 E) as (A1 & A2 & A3 & _ & A5).
    destruct (IH _ _ _ He A1 S2 R) as (B1 & B2 & B3 & B4). unfold en_shipped, en_received in *. cbn [flat_map].
    rewrite !qty_of_app. split; [exact B1|]. split; [apply Forall_app; auto|]. split; [lra|].
    intros E0 M. destruct (A5 E0 M) as (C1 & _ & C3). destruct (B4 E0 C1) as (D1 & D2). split; [exact D1|].
    intro n. rewrite !mass_in_app. specialize (C3 n). specialize (D2 n). lra.
Qed.
Lemma run_app eps eg V aw recipe cfg a : forall b s s' os, en_run eps eg V aw recipe cfg s (a ++ b) = Ok (s', os) ->
  exists s1 oa ob, en_run eps eg V aw recipe cfg s a = Ok (s1, oa) /\ en_run eps eg V aw recipe cfg s1 b = Ok (s', ob) /\ os = oa ++ ob.
Proof.
  induction a as [|e a IH]; intros b s s' os H.
  - exists s, [], os. auto.
  - cbn in H. apply bind_ok in H as ([s1 o] & E & H). apply bind_ok in H as ([s2 os2] & R & H). injection H as <- <-.
    destruct (IH _ _ _ _ R) as (s3 & oa & ob & R1 & R2 & ->). exists s3, (o :: oa), ob. cbn. rewrite E. cbn [bind].
    rewrite R1. cbn [bind]. auto.
Qed.

(** ** SWU and feed of a step *)
Lemma records_sums V cfg feed ts rs : Forall2 (record_of V cfg feed) ts rs ->
  qsum (map er_swu rs) == qsum (map (fun t => work V (assay_of feed) (mass_assay (m_comp (et_offer t))) (ec_tails_assay cfg) (et_amt t)) ts) /\
  qsum (map er_feed rs) == qsum (map (fun t => need (assay_of feed) (mass_assay (m_comp (et_offer t))) (ec_tails_assay cfg) (et_amt t) / purity feed) ts).
Proof.
  induction 1 as [|t r ts rs (A & B) H (IH1 & IH2)]; [split; reflexivity|]. cbn [map qsum fold_right].
  unfold qsum in *. cbn [fold_right]. rewrite IH1, IH2, A, B. split; reflexivity.
Qed.
Lemma step_trades eps eg V aw recipe cfg s e s' o : 0 <= eps -> (forall x y, x == y -> V x == V y) ->
  en_good cfg s -> env_ok e -> en_step eps eg V aw recipe cfg s e = Ok (s', o) -> ee_trades e <> [] ->
  swu_used V cfg (b_items (es_inv s)) (ee_trades e) <= ec_swu_capacity cfg + eg /\
  exists a b, eo_recorded o = (Some a, Some b) /\ a == swu_used V cfg (b_items (es_inv s)) (ee_trades e) /\
    b == feed_used cfg (b_items (es_inv s)) (ee_trades e).
Proof.
  intros He HV (O & OT & _) (RO & TO) H NT. destruct (step_inv _ _ _ _ _ _ _ _ _ _ H) as (s2 & s3 & S).
  destruct S as [_ B T SI SC ST S6 S7 S8]. destruct T as [(Z & _)|(_ & T)]; [congruence|].
  destruct (get_bids_inv _ _ _ _ _ _ (en_tick cfg s) s2 _ He O B) as (B1 & B2 & _ & _ & B5 & B6 & B7 & B8).
  change (es_tails (en_tick cfg s)) with (es_tails s) in *. change (es_inv (en_tick cfg s)) with (es_inv s) in *.
  change (es_swu (en_tick cfg s)) with (Some (ec_swu_capacity cfg)) in *.
  apply trades_inv in T as (T & c & C1 & C2). rewrite <- B1 in OT.
  assert (X : Forall2 (record_of V cfg (b_items (es_inv s))) (products cfg (ee_trades e)) (eo_records o)).
  { destruct (Qlt_le_dec 0 (b_qty (es_inv s))) as [P|P].
    - pose proof (fun a b f => loop_records _ _ _ _ _ _ _ _ _ (b_items (es_inv s)) He HV TO a b f T) as X.
      exact (X B6 OT (blended _ _ P B7 B8)).
    - pose proof (fun a => products_stock _ _ _ _ _ _ _ _ _ He TO a T) as U.
      pose proof (fun a b f => loop_records _ _ _ _ _ _ _ _ _ (b_items (es_inv s2)) He HV TO a b f T) as X.
      destruct (products cfg (ee_trades e)) as [|p l] eqn:E.
      + rewrite (no_products _ _ _ _ _ _ _ _ _ T E). constructor.
      + exfalso. assert (U' : 0 < uranium (b_items (es_inv s2))) by (apply U; [exact B6|discriminate]).
        pose proof (uranium_le_qty _ B6) as Y. unfold b_qty in *. lra. }
  destruct (records_sums _ _ _ _ _ X) as (R1 & R2).
  pose proof (fun a b => trade_loop_counters _ _ _ _ _ _ _ _ _ He TO a b T) as CT.
  destruct (CT B6 OT (ec_swu_capacity cfg) 0 0 B2 eq_refl eq_refl) as (c' & a' & b' & X1 & X2 & X3 & X4 & X5 & X6). clear CT.
  rewrite X1 in C1. injection C1 as <-. 
  assert (Y1 : qsum (map er_swu (eo_records o)) == swu_used V cfg (b_items (es_inv s)) (ee_trades e)) by exact R1.
  assert (Y2 : qsum (map er_feed (eo_records o)) == feed_used cfg (b_items (es_inv s)) (ee_trades e)) by exact R2.
  split; [lra|].
  exists a', b'. rewrite S8, X2, X3. split; [reflexivity|]. split; lra.
Qed.

(** A step without trades leaves the counters alone. *)
Lemma step_idle eps eg V aw recipe cfg s e s' o : 0 <= eps -> en_good cfg s ->
  en_step eps eg V aw recipe cfg s e = Ok (s', o) -> ee_trades e = [] ->
  eo_recorded o = (es_iswu s, es_ifeed s) /\ es_iswu s' = es_iswu s /\ es_ifeed s' = es_ifeed s.
Proof.
  intros He (O & _) H NT. destruct (step_inv _ _ _ _ _ _ _ _ _ _ H) as (s2 & s3 & S).
  destruct S as [_ B T SI SC ST S6 S7 S8]. destruct T as [(_ & -> & _)|(Z & _)]; [|congruence].
  destruct (get_bids_inv _ _ _ _ _ _ (en_tick cfg s) s2 _ He O B) as (_ & _ & B3 & B4 & _).
  change (es_iswu (en_tick cfg s)) with (es_iswu s) in *. change (es_ifeed (en_tick cfg s)) with (es_ifeed s) in *.
  rewrite S8, S6, S7, B3, B4. auto.
Qed.
Lemma step_recorded eps eg V aw recipe cfg s e s' o : en_step eps eg V aw recipe cfg s e = Ok (s', o) ->
  eo_recorded o = (es_iswu s', es_ifeed s').
Proof.
  intro H. destruct (step_inv _ _ _ _ _ _ _ _ _ _ H) as (s2 & s3 & S). destruct S as [_ _ _ _ _ _ S6 S7 S8].
  rewrite S8, S6, S7. reflexivity.
Qed.
Lemma run_idle eps eg V aw recipe cfg es : forall s s' os, 0 <= eps -> en_good cfg s -> en_sane es ->
  Forall (fun e => ee_trades e = []) es -> en_run eps eg V aw recipe cfg s es = Ok (s', os) ->
  Forall (fun o => eo_recorded o = (es_iswu s, es_ifeed s)) os.
Proof.
  induction es as [|e es IH]; intros s s' os He G S N H.
  - cbn in H. injection H as _ <-. constructor.
  - inversion S as [|? ? S1 S2]; subst. inversion N as [|? ? N1 N2]; subst. cbn in H. apply bind_ok in H as ([s1 o] & E & H).
    apply bind_ok in H as ([s2 os2] & R & H). injection H as <- <-.
    destruct (step_facts _ _ _ _ _ _ _ _ _ _ He G S1 E) as (A1 & _).
    destruct (step_idle _ _ _ _ _ _ _ _ _ _ He G E N1) as (B1 & B2 & B3).
    constructor; [exact B1|]. pose proof (IH _ _ _ He A1 S2 N2 R) as X. rewrite B2, B3 in X. exact X.
Qed.

(** ** Statements about lives *)
Section LIFE.
Context (eps eg : Q) (V : Q -> Q) (aw : Z -> Q) (recipe : string -> option comp) (cfg : en_cfg).
Context (He : 0 <= eps) (RO : recipes_ok recipe).
Lemma lived_good es s0 s os : en_sane es -> en_lived eps eg V aw recipe cfg es s0 s os -> en_good cfg s.
Proof.
  intros S (B & R). destruct (build_good _ _ _ _ He RO B) as (G & _).
  exact (proj1 (run_facts _ _ _ _ _ _ _ _ _ _ He G S R)).
Qed.
Lemma swu_final : (forall x y, x == y -> V x == V y) -> forall es e s0 s os s' o, en_sane (es ++ [e]) ->
  en_lived eps eg V aw recipe cfg es s0 s os -> en_step eps eg V aw recipe cfg s e = Ok (s', o) -> ee_trades e <> [] ->
  swu_used V cfg (b_items (es_inv s)) (ee_trades e) <= ec_swu_capacity cfg + eg.
Proof.
  intros HV es e s0 s os s' o S L H N. apply Forall_app in S as (S1 & S2). inversion S2 as [|? ? S3 _]; subst.
  exact (proj1 (step_trades _ _ _ _ _ _ _ _ _ _ He HV (lived_good _ _ _ _ S1 L) S3 H N)).
Qed.
Lemma recorded_final : (forall x y, x == y -> V x == V y) -> forall es e s0 s os s' o, en_sane (es ++ [e]) ->
  en_lived eps eg V aw recipe cfg es s0 s os -> en_step eps eg V aw recipe cfg s e = Ok (s', o) -> ee_trades e <> [] ->
  exists a b, eo_recorded o = (Some a, Some b) /\
    a == swu_used V cfg (b_items (es_inv s)) (ee_trades e) /\ b == feed_used cfg (b_items (es_inv s)) (ee_trades e).
Proof.
  intros HV es e s0 s os s' o S L H N. apply Forall_app in S as (S1 & S2). inversion S2 as [|? ? S3 _]; subst.
  exact (proj2 (step_trades _ _ _ _ _ _ _ _ _ _ He HV (lived_good _ _ _ _ S1 L) S3 H N)).
Qed.
Lemma stale_final : forall es e es' s0 s os s1 o s2 os', en_sane (es ++ e :: es') ->
  en_lived eps eg V aw recipe cfg es s0 s os -> en_step eps eg V aw recipe cfg s e = Ok (s1, o) ->
  en_run eps eg V aw recipe cfg s1 es' = Ok (s2, os') -> Forall (fun e => ee_trades e = []) es' ->
  Forall (fun o' => eo_recorded o' = eo_recorded o) os'.
Proof.
  intros es e es' s0 s os s1 o s2 os' S L H R N. apply Forall_app in S as (S1 & S2). inversion S2 as [|? ? S3 S4]; subst.
  destruct (step_facts _ _ _ _ _ _ _ _ _ _ He (lived_good _ _ _ _ S1 L) S3 H) as (G & _).
  rewrite (step_recorded _ _ _ _ _ _ _ _ _ _ H). exact (run_idle _ _ _ _ _ _ _ _ _ _ He G S4 N R).
Qed.
Lemma life_total es s0 s os : en_sane es -> en_lived eps eg V aw recipe cfg es s0 s os ->
  qty_of (en_held s0) == Qmax 0 (ec_initial_feed cfg) /\
  qty_of (en_held s) + qty_of (en_shipped os) == qty_of (en_held s0) + qty_of (en_received es).
Proof.
  intros S (B & R). destruct (build_good _ _ _ _ He RO B) as (G & T & _ & _ & Q & _).
  split; [unfold en_held; rewrite T, app_nil_r; exact Q|]. apply (run_facts _ _ _ _ _ _ _ _ _ _ He G S R).
Qed.
Lemma life_nuclides es s0 s os : eps = 0 -> en_sane es -> en_lived eps eg V aw recipe cfg es s0 s os ->
  forall n, mass_in n (en_held s) + mass_in n (en_shipped os) == mass_in n (en_held s0) + mass_in n (en_received es).
Proof.
  intros E S (B & R). destruct (build_good _ _ _ _ He RO B) as (G & T & _).
  assert (M : mats_ok (b_items (es_tails s0))) by (rewrite T; constructor).
  exact (proj2 (proj2 (proj2 (proj2 (run_facts _ _ _ _ _ _ _ _ _ _ He G S R))) E M)).
Qed.
(** Requests and capacity. *)
Lemma request_final es e s0 s os s' o : en_sane (es ++ [e]) ->
  en_lived eps eg V aw recipe cfg es s0 s os -> en_step eps eg V aw recipe cfg s e = Ok (s', o) ->
  (eps < ec_max_feed cfg - b_qty (es_inv s) -> exists m c, eo_request o = Some m /\ recipe (ec_feed_recipe cfg) = Some c /\
     m_comp m = c /\ m_qty m == ec_max_feed cfg - b_qty (es_inv s)) /\
  (ec_max_feed cfg - b_qty (es_inv s) <= eps -> eo_request o = None).
Proof.
  intros S L H. destruct (step_inv _ _ _ _ _ _ _ _ _ _ H) as (s2 & s3 & X). destruct X as [R _ _ _ _ _ _ _ _].
  unfold en_requests, en_recipe in R. destruct (recipe (ec_feed_recipe cfg)) as [c|] eqn:E; [|discriminate]. cbn [bind] in R.
  destruct (Q.max_spec 0 (ec_max_feed cfg - b_qty (es_inv s))) as [[X Y]|[X Y]].
  - split; intro Z.
    + destruct (Qltb eps _) eqn:Q.
      * injection R as R. eexists. exists c. split; [symmetry; exact R|]. auto.
      * apply Qltb_false in Q. lra.
    + destruct (Qltb eps _) eqn:Q; [apply Qltb_true in Q; lra|]. injection R as <-. reflexivity.
  - split; intro Z; [lra|]. destruct (Qltb eps _) eqn:Q; [apply Qltb_true in Q; lra|]. injection R as <-. reflexivity.
Qed.
Lemma step_capacity s e s' o : en_good cfg s -> env_ok e -> en_step eps eg V aw recipe cfg s e = Ok (s', o) ->
  qty_of (ee_receipts e) <= match eo_request o with Some m => m_qty m | None => 0 end ->
  b_qty (es_inv s) <= ec_max_feed cfg + eps -> b_qty (es_inv s') <= ec_max_feed cfg + eps.
Proof.
  intros G EO H F C. destruct (step_facts _ _ _ _ _ _ _ _ _ _ He G EO H) as (_ & _ & _ & X & _).
  destruct (step_inv _ _ _ _ _ _ _ _ _ _ H) as (s2 & s3 & S). destruct S as [R _ _ _ _ _ _ _ _].
  unfold en_requests, en_recipe in R. destruct (recipe (ec_feed_recipe cfg)) as [c|] eqn:E; [|discriminate]. cbn [bind] in R.
  destruct (Qltb eps _) eqn:Q; injection R as R; rewrite <- R in F; cbn [m_qty] in F.
  - apply Qltb_true in Q. destruct (Q.max_spec 0 (ec_max_feed cfg - b_qty (es_inv s))) as [[Y Z]|[Y Z]]; lra.
  - lra.
Qed.
Lemma capacity_run es : forall s s' os, en_good cfg s -> en_sane es -> en_run eps eg V aw recipe cfg s es = Ok (s', os) ->
  en_fair es os -> b_qty (es_inv s) <= ec_max_feed cfg + eps -> b_qty (es_inv s') <= ec_max_feed cfg + eps.
Proof.
  induction es as [|e es IH]; intros s s' os G S H F C.
  - cbn in H. injection H as <- _. exact C.
  - inversion S as [|? ? S1 S2]; subst. cbn in H. apply bind_ok in H as ([s1 o] & E & H).
    apply bind_ok in H as ([s2 os2] & R & H). injection H as <- <-. inversion F as [|? ? ? ? F1 F2]; subst.
    destruct (step_facts _ _ _ _ _ _ _ _ _ _ He G S1 E) as (A1 & _).
    exact (IH _ _ _ A1 S2 R F2 (step_capacity _ _ _ _ G S1 E F1 C)).
Qed.
Lemma capacity_final es s0 s os : 0 <= ec_max_feed cfg -> en_sane es -> en_fair es os -> en_lived eps eg V aw recipe cfg es s0 s os ->
  b_qty (es_inv s) <= ec_max_feed cfg + eps.
Proof.
  intros M S F (B & R). destruct (build_good _ _ _ _ He RO B) as (G & _ & _ & _ & _ & C).
  exact (capacity_run _ _ _ _ G S R F (C M)).
Qed.
End LIFE.
