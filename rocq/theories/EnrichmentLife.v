(** An Enrichment facility with enrichable feed keeps working. *)
From Coq Require Import Lia Lqa Permutation.
From Verif Require Import Outcome KernelMaterial KernelResBuf KernelBuf KernelFacts KernelMass KernelBufFacts
  EnrichmentModel EnrichmentSpec EnrichmentProofs EnrichmentRun EnrichmentBids.
Local Open Scope Q_scope.

(** ** Enrichable stocks *)
Definition clean (cfg : en_cfg) (ms : list mat) : Prop :=
  uranium ms == qty_of ms /\ (0 < qty_of ms -> ec_tails_assay cfg * qty_of ms < mass_in 922350000 ms).
Lemma clean_nil cfg : clean cfg [].
Proof. split; [reflexivity|]. rewrite qty_of_nil. intro. lra. Qed.
Lemma clean_parcels cfg ms : Forall (enrichable cfg) ms -> mats_ok ms -> clean cfg ms.
Proof.
  induction ms as [|m ms IH]; intros E O; [apply clean_nil|]. inversion E as [|? ? (E1 & E2) E']; subst. inversion O as [|? ? O1 O2]; subst.
  destruct (IH E' O2) as (A & B). unfold clean, uranium in *. rewrite qty_of_cons, !mass_in_cons. split; [lra|]. intros _.
  assert (N : 0 <= qty_of ms) by (apply mats_qty_nonneg; exact O2).
  assert (P : 0 <= mass_in 922350000 ms) by (apply mass_in_nonneg; exact O2).
  destruct (Qlt_le_dec 0 (qty_of ms)) as [X|X]; [specialize (B X); lra|]. assert (Z : qty_of ms == 0) by lra.
  rewrite Z. lra.
Qed.
Lemma clean_app cfg a b : clean cfg a -> clean cfg b -> mats_ok a -> mats_ok b -> clean cfg (a ++ b).
Proof.
  intros (A1 & A2) (B1 & B2) OA OB. unfold clean, uranium in *. rewrite qty_of_app, !mass_in_app. split; [lra|].
  intro P. assert (N1 : 0 <= qty_of a) by (apply mats_qty_nonneg; exact OA).
  assert (N2 : 0 <= qty_of b) by (apply mats_qty_nonneg; exact OB).
  assert (M1 : 0 <= mass_in 922350000 a) by (apply mass_in_nonneg; exact OA).
  assert (M2 : 0 <= mass_in 922350000 b) by (apply mass_in_nonneg; exact OB).
  destruct (Qlt_le_dec 0 (qty_of a)) as [X|X]; destruct (Qlt_le_dec 0 (qty_of b)) as [Y|Y].
  - specialize (A2 X). specialize (B2 Y). lra.
  - specialize (A2 X). assert (Z : qty_of b == 0) by lra. rewrite Z. lra.
  - specialize (B2 Y). assert (Z : qty_of a == 0) by lra. rewrite Z. lra.
  - lra.
Qed.
Lemma clean_ext cfg a b : clean cfg a -> qty_of b == qty_of a -> (forall n, mass_in n b == mass_in n a) -> clean cfg b.
Proof. intros (A & B) E M. unfold clean, uranium in *. rewrite !M, E. auto. Qed.
Lemma clean_blend cfg a b : clean cfg a -> same_blend a b -> clean cfg b.
Proof.
  intros (A & B) [->|(P & Q & E)]; [apply clean_nil|]. specialize (B Q).
  assert (X : forall n, mass_in n b == mass_in n a * (qty_of b / qty_of a)).
  { intro n. assert (Y : mass_in n b == mass_in n b / qty_of b * qty_of b) by (field; lra). rewrite Y, E. field. lra. }
  assert (K : 0 < qty_of b / qty_of a) by (apply Qlt_shift_div_l; lra).
  assert (R : qty_of b == qty_of a * (qty_of b / qty_of a)) by (field; lra).
  unfold clean, uranium in *. set (k := qty_of b / qty_of a) in *. rewrite !X. split; [rewrite R; nra|]. intros _. rewrite R. nra.
Qed.

(** ** Trades *)
Lemma loop_blend eps eg V cfg ts : forall s s' ms rs, 0 <= eps -> Forall trade_ok ts -> mats_ok (b_items (es_inv s)) ->
  qtys_ok (b_items (es_tails s)) -> en_trade_loop eps eg V cfg s ts = Ok (s', ms, rs) ->
  b_items (es_inv s') = b_items (es_inv s) \/ same_blend (b_items (es_inv s)) (b_items (es_inv s')).
Proof.
  induction ts as [|t ts IH]; intros s s' ms rs He TO O OT H; cbn in H; [injection H as <- <- <-; auto|].
  inversion TO as [|? ? K1 K2]; subst. apply bind_ok in H as ([[s1 m] r] & E & H). apply bind_ok in H as ([[s2 ms2] rs2] & L & H). injection H as <- <- <-.
  destruct (trade1_facts _ _ _ _ _ _ _ _ _ He K1 O OT E) as (D1 & D2 & _).
  pose proof (IH _ _ _ _ He K2 D1 D2 L) as X. unfold en_trade1 in E. destruct (String.eqb (et_commod t) (ec_tails_commod cfg)) eqn:C.
  - apply bind_ok in E as ([m' b] & P & E). injection E as <- _ _. cbn [es_inv] in X. exact X.
  - apply bind_ok in E as ([[s1' m1] r1] & E & Z). injection Z as -> _ _.
    pose proof (enrich_blend _ _ _ _ _ _ _ _ _ _ He (proj1 K1) O E) as Y. right. destruct X as [X|X]; [rewrite X; exact Y|].
    destruct (enrich_inv _ _ _ _ _ _ _ _ _ _ He O E) as (natu & rr & rest & EN).
    apply (same_blend_trans _ _ _ Y X). intro Z. rewrite Z in X. destruct X as [X|(_ & X & _)]; [exact X|]. rewrite qty_of_nil in X. lra.
Qed.
Lemma loop_tails eps eg V cfg ts : forall s, 0 <= eps -> qtys_ok (b_items (es_tails s)) ->
  Forall (fun t => 0 < et_amt t) ts -> products cfg ts = [] -> qsum (tails_sold cfg ts) <= b_qty (es_tails s) ->
  exists s' ms, en_trade_loop eps eg V cfg s ts = Ok (s', ms, []) /\ Forall2 (served cfg) ts ms /\
    es_inv s' = es_inv s /\ es_swu s' = es_swu s /\ qtys_ok (b_items (es_tails s')).
Proof.
  induction ts as [|t ts IH]; intros s He OT PA PR L.
  - cbn. exists s, []. auto.
  - inversion PA as [|? ? P1 P2]; subst. rewrite products_cons in PR. rewrite tails_sold_cons in L.
    destruct (String.eqb (et_commod t) (ec_tails_commod cfg)) eqn:C; [|discriminate].
    change (qsum (et_amt t :: tails_sold cfg ts)) with (et_amt t + qsum (tails_sold cfg ts)) in L.
    assert (RN : 0 <= qsum (tails_sold cfg ts)).
    { apply qsum_nonneg. unfold tails_sold. rewrite Forall_map, Forall_forall. intros x I. apply filter_In in I as (I & _).
      rewrite Forall_forall in P2. apply Qlt_le_weak, P2, I. }
    cbn [en_trade_loop]. unfold en_trade1. rewrite C.
    assert (MN : Qmin (et_amt t) (b_qty (es_tails s)) == et_amt t) by (apply Q.min_l; lra).
    destruct (pop_tol_ok (b_items (es_tails s)) (Qmin (et_amt t) (b_qty (es_tails s))) eps) as (m & r & P); [lra|exact He|rewrite MN; unfold b_qty in *; lra|].
    unfold b_pop_tol. rewrite P. cbn [bind]. assert (MQ : 0 <= Qmin (et_amt t) (b_qty (es_tails s))) by lra.
    destruct (pop_tol_q _ _ _ _ _ OT MQ P) as (A1 & A2 & A3).
    destruct (IH {| es_inv := es_inv s; es_tails := {| b_cap := b_cap (es_tails s); b_items := r |}; es_swu := es_swu s;
                    es_iswu := es_iswu s; es_ifeed := es_ifeed s |}) as (s' & ms & E & SV & I1 & I2 & I3); auto.
    + cbn [es_tails]. unfold b_qty in *. cbn [b_items]. 
      assert (Y : m_qty m == et_amt t) by (rewrite A1; unfold b_qty in *; rewrite Q.min_l; lra). lra.
    + cbn [es_inv es_swu] in *. rewrite E. cbn [bind app]. exists s', (m :: ms). split; [reflexivity|]. split; [|auto].
      constructor; [|exact SV]. split; [|intro N; exfalso; apply N; unfold for_tails; apply String.eqb_eq, C].
      unfold b_qty in *. rewrite A1. rewrite Q.min_l; lra.
Qed.

(** ** Deliveries *)
Lemma pushes_ok eps ms : forall b c, 0 <= eps -> qtys_ok ms -> b_cap b = Some c -> 
  b_qty b + qty_of ms <= c \/ ms = [] -> exists b', loop (fun b m => b_push eps b m) ms b = Ok b'.
Proof.
  induction ms as [|m ms IH]; intros b c He O C F; [exists b; reflexivity|]. inversion O as [|? ? O1 O2]; subst.
  destruct F as [F|F]; [|discriminate]. rewrite qty_of_cons in F. pose proof (qtys_ok_nonneg _ O2) as N.
  cbn [loop]. rewrite b_push_ok; [cbn [bind]|].
  - apply (IH _ c); auto. cbn [b_cap b_items]. left. unfold b_qty in *. cbn [b_items]. rewrite qty_of_app, qty_of_cons, qty_of_nil. lra.
  - rewrite C. pose proof (Q.le_max_r 0 (c - b_qty b)). lra.
Qed.

Section LIFE.
Context (eps eg : Q) (V : Q -> Q) (aw : Z -> Q) (recipe : string -> option comp) (cfg : en_cfg) (c : comp).
Context (He : 0 <= eps) (Hg : 0 <= eg) (AW : forall n, 0 < aw n) (HV : forall x y, x == y -> V x == V y) (RO : recipes_ok recipe).
Context (M0 : 0 <= ec_max_feed cfg) (T0 : 0 <= ec_tails_assay cfg) (T1 : ec_tails_assay cfg <= 1) (W0 : 0 <= ec_swu_capacity cfg).
Context (RC : recipe (ec_feed_recipe cfg) = Some c) (UC : uranium_only c) (XC : ec_tails_assay cfg < mass_assay c).

Lemma build_clean s0 : en_build eps recipe cfg = Ok s0 -> clean cfg (b_items (es_inv s0)).
Proof.
  unfold en_build, en_recipe. rewrite RC. cbn [bind]. destruct (Qltb 0 (ec_initial_feed cfg)) eqn:P; intro H.
  - apply Qltb_true in P. apply bind_ok in H as (b & B & H). injection H as <-. cbn [es_inv].
    destruct (b_push_facts _ _ _ _ B) as (_ & -> & _). cbn [en_new es_inv b_items app].
    destruct UC as ((U1 & U2) & U3).
    apply clean_parcels; [constructor; [|constructor]|constructor; [|constructor]].
    + assert (MO : forall n, mass_of (Mat 0 (ec_initial_feed cfg) c) n == ec_initial_feed cfg * (cget n c / csum c)).
      { intro n. apply cget_cnorm. exact U2. }
      split; cbn [m_qty].
      * rewrite !MO. assert (Y : ec_initial_feed cfg * (cget 922350000 c / csum c) + ec_initial_feed cfg * (cget 922380000 c / csum c) ==
          ec_initial_feed cfg * ((cget 922350000 c + cget 922380000 c) / csum c)) by (field; lra). rewrite Y, U3. field. lra.
      * rewrite MO. unfold mass_assay in XC. rewrite U3 in XC. nra.
    + split; cbn; [lra|]. split; [exact U1|left; exact U2].
  - injection H as <-. cbn [en_new es_inv b_items]. apply clean_nil.
Qed.

Lemma step_works es e s0 s os : en_sane es -> en_fair es os -> en_lived eps eg V aw recipe cfg es s0 s os ->
  clean cfg (b_items (es_inv s)) -> orderly_step eps eg V aw cfg s e ->
  exists s' o, en_step eps eg V aw recipe cfg s e = Ok (s', o) /\ Forall2 (served cfg) (ee_trades e) (eo_shipped o) /\
    clean cfg (b_items (es_inv s')) /\
    qty_of (ee_receipts e) <= match eo_request o with Some m => m_qty m | None => 0 end.
Proof.
  intros S F L CL (D1 & D2 & D3 & D4 & RQ & TO & AWD & PT).
  destruct (lived_good _ _ _ _ _ _ He RO _ _ _ _ S L) as (O & OT & CI & CT).
  pose proof (capacity_final _ _ _ _ _ _ He RO _ _ _ _ M0 S F L) as CP.
  assert (FI : fits eps (es_inv (en_tick cfg s))) by (unfold fits; cbn [en_tick es_inv]; rewrite CI; auto).
  destruct (get_bids_ok eps eg aw cfg (ee_treqs e) (ee_preqs e) (en_tick cfg s) He O FI) as (s2 & B & GB).
  specialize (AWD _ _ GB).
  destruct (get_bids_inv _ _ _ _ _ _ (en_tick cfg s) s2 _ He O GB) as (B1 & B2 & _ & _ & B5 & B6 & B7 & B8).
  destruct (get_bids_shape _ _ _ _ _ _ (en_tick cfg s) _ _ He O GB) as (_ & _ & SH & ST).
  change (es_tails (en_tick cfg s)) with (es_tails s) in *. change (es_inv (en_tick cfg s)) with (es_inv s) in *.
  change (es_swu (en_tick cfg s)) with (Some (ec_swu_capacity cfg)) in *.
  assert (CL2 : clean cfg (b_items (es_inv s2))) by (apply (clean_ext _ _ _ CL B7 B8)).
  assert (OT2 : qtys_ok (b_items (es_tails s2))) by (rewrite B1; exact OT).
  assert (TR : exists s3 ms rs, (match ee_trades e with [] => Ok (s2, [], []) | ts => en_trades eps eg V cfg ts s2 end) = Ok (s3, ms, rs) /\
     Forall2 (served cfg) (ee_trades e) ms).
  { destruct (Qlt_le_dec 0 (b_qty (es_inv s))) as [P|P].
    - destruct CL as (C1 & C2). specialize (C2 P). unfold b_qty in P.
      assert (XF : ec_tails_assay cfg < assay_of (b_items (es_inv s))).
      { unfold assay_of. rewrite C1. apply Qlt_shift_div_l; lra. }
      destruct (filled_final eps eg V aw recipe cfg He Hg AW HV RO M0 T0 T1 W0 es s0 s os _ _ s2 B (ee_trades e) S F L RQ C1 XF GB AWD PT) as (s3 & ms & rs & E & SV).
      destruct (ee_trades e) as [|t ts]; [exists s2, [], []; split; [reflexivity|constructor]|]. exists s3, ms, rs. auto.
    - destruct AWD as (A1 & A2 & A3).
      assert (NP : products cfg (ee_trades e) = []).
      { destruct (products cfg (ee_trades e)) as [|p l] eqn:EP; [reflexivity|exfalso].
        destruct (A3 ltac:(discriminate)) as (pb & EB & _). destruct SH as [(N & _)|(_ & N & _)]; [congruence|lra]. }
      set (z := {| es_inv := es_inv s2; es_tails := es_tails s2; es_swu := es_swu s2; es_iswu := Some 0; es_ifeed := Some 0 |}).
      destruct (loop_tails eps eg V cfg (ee_trades e) z He OT2 A1 NP) as (s3 & ms & E & SV & I1 & I2 & I3).
      { unfold z. cbn [es_tails]. rewrite B1. destruct (tails_sold cfg (ee_trades e)) as [|p l] eqn:ET; [apply qtys_ok_nonneg, OT|]. rewrite <- ET in *.
        destruct (A2 ltac:(congruence)) as (tb & EB & LX).
        destruct ST as [(N & _)|(_ & _ & tb' & EB' & TL & _)]; [congruence|]. rewrite EB in EB'. injection EB' as <-. rewrite <- TL. exact LX. }
      destruct (ee_trades e) as [|t ts] eqn:ET; [exists s2, [], []; split; [reflexivity|constructor]|]. rewrite <- ET in *.
      exists s3, ms, []. split; [|exact SV]. assert (X : en_trades eps eg V cfg (ee_trades e) s2 = Ok (s3, ms, [])); [|rewrite ET in X |- *; exact X].
      unfold en_trades. fold z. rewrite E. cbn [bind]. rewrite I2. unfold z. cbn [es_swu]. rewrite B2.
      unfold is_negative. pose proof (qtys_ok_nonneg _ I3). unfold b_qty.
      destruct (Qltb (qty_of (b_items (es_tails s3))) (- eg)) eqn:E1; [apply Qltb_true in E1; lra|].
      destruct (Qltb (ec_swu_capacity cfg) (- eg)) eqn:E2; [apply Qltb_true in E2; lra|reflexivity]. }
  destruct TR as (s3 & ms & rs & ET & SV).
  assert (AFT : clean cfg (b_items (es_inv s3)) /\ mats_ok (b_items (es_inv s3)) /\ b_cap (es_inv s3) = Some (ec_max_feed cfg) /\
     b_qty (es_inv s3) <= b_qty (es_inv s)).
  { destruct (ee_trades e) as [|t ts] eqn:EE.
    - injection ET as <- <- <-. split; [exact CL2|]. split; [exact B6|]. split; [rewrite B5; exact CI|lra].
    - rewrite <- EE in *. apply trades_inv in ET as (T & _).
      destruct ((fun a b => trade_loop_facts _ _ _ _ _ _ _ _ _ He TO a b T) B6 OT2) as (X1 & _ & _ & _ & X5 & X6 & _). cbn [es_inv] in X5, X6.
      split; [|split; [exact X1|split; [rewrite X6, B5; exact CI|lra]]].
      destruct ((fun a b => loop_blend _ _ _ _ _ _ _ _ _ He TO a b T) B6 OT2) as [Y|Y]; cbn [es_inv] in Y; [rewrite Y; exact CL2|exact (clean_blend _ _ _ CL2 Y)]. }
  destruct AFT as (C3 & O3 & K3 & Q3).
  assert (ROOM : b_qty (es_inv s) + qty_of (ee_receipts e) <= ec_max_feed cfg \/ ee_receipts e = []).
  { destruct (Qlt_le_dec eps (ec_max_feed cfg - b_qty (es_inv s))) as [X|X]; [left|right; apply D4; exact X].
    rewrite Q.max_r in D3 by lra. lra. }
  destruct (pushes_ok eps (ee_receipts e) (es_inv s3) (ec_max_feed cfg) He (mats_qtys _ D1) K3) as (b & PB).
  { destruct ROOM; [left; lra|right; assumption]. }
  destruct (pushes_inv _ _ _ _ PB) as (_ & PI).
  unfold en_step, en_requests, en_recipe. rewrite RC. cbn [bind]. rewrite GB.
  set (q := Qmax 0 (ec_max_feed cfg - b_qty (es_inv (en_tick cfg s)))).
  assert (FIN : forall rq, (exists o, eo_request o = rq /\ eo_shipped o = ms /\
      (let* '(s3, ms, rs) := (match ee_trades e with [] => Ok (s2, [], []) | ts => en_trades eps eg V cfg ts s2 end) in
       let* s4 := en_accept eps (ee_receipts e) s3 in
       Ok (s4, {| eo_request := rq; eo_bids := B; eo_shipped := ms; eo_records := rs; eo_recorded := en_tock s4 |})) =
      Ok ({| es_inv := b; es_tails := es_tails s3; es_swu := es_swu s3; es_iswu := es_iswu s3; es_ifeed := es_ifeed s3 |}, o))).
  { intro rq. rewrite ET. cbn [bind]. unfold en_accept. rewrite PB. cbn [bind]. eexists. split; [|split; [|reflexivity]]; reflexivity. }
  assert (CB : clean cfg (b_items b)) by (rewrite PI; apply clean_app; auto using clean_parcels).
  destruct (Qltb eps q) eqn:EQ; cbn [bind].
  - destruct (FIN (Some (Mat 0 q c))) as (o & O1 & O2 & E). rewrite E. do 2 eexists. split; [reflexivity|]. rewrite O1, O2. cbn [m_qty es_inv]. auto.
  - destruct (FIN None) as (o & O1 & O2 & E). rewrite E. do 2 eexists. split; [reflexivity|]. rewrite O1, O2. cbn [es_inv]. split; [exact SV|]. split; [exact CB|].
    apply Qltb_false in EQ. unfold q in EQ. change (es_inv (en_tick cfg s)) with (es_inv s) in EQ. rewrite (D4); [rewrite qty_of_nil; lra|].
    pose proof (Q.le_max_r 0 (ec_max_feed cfg - b_qty (es_inv s))). lra.
Qed.

Lemma run_snoc es : forall s e s1 os s2 o, en_run eps eg V aw recipe cfg s es = Ok (s1, os) -> en_step eps eg V aw recipe cfg s1 e = Ok (s2, o) ->
  en_run eps eg V aw recipe cfg s (es ++ [e]) = Ok (s2, os ++ [o]).
Proof.
  induction es as [|a es IH]; intros s e s1 os s2 o R S; cbn in *.
  - injection R as <- <-. rewrite S. reflexivity.
  - apply bind_ok in R as ([sa oa] & A & R). apply bind_ok in R as ([sb ob] & B & R). injection R as <- <-. rewrite A. cbn [bind].
    rewrite (IH _ _ _ _ _ _ B S). reflexivity.
Qed.
Lemma works es : forall s0, en_build eps recipe cfg = Ok s0 -> orderly eps eg V aw recipe cfg s0 es ->
  exists s os, en_run eps eg V aw recipe cfg s0 es = Ok (s, os) /\
    Forall2 (fun e o => Forall2 (served cfg) (ee_trades e) (eo_shipped o)) es os /\
    en_sane es /\ en_fair es os /\ clean cfg (b_items (es_inv s)).
Proof.
  induction es as [|e es IH] using rev_ind; intros s0 B OR.
  - exists s0, []. split; [reflexivity|]. split; [constructor|]. split; [constructor|]. split; [constructor|apply build_clean; exact B].
  - destruct (IH s0 B) as (s & os & R & SV & SA & FA & CL).
    { intros pre x post s os E R. apply (OR pre x (post ++ [e]) s os); [|exact R]. rewrite E, <- app_assoc. reflexivity. }
    pose proof (OR es e [] s os eq_refl R) as OS.
    destruct (step_works es e s0 s os SA FA (conj B R) CL OS) as (s' & o & ST & S1 & S2 & S3).
    exists s', (os ++ [o]). split; [exact (run_snoc _ _ _ _ _ _ _ R ST)|].
    split; [apply Forall2_app; [exact SV|constructor; [exact S1|constructor]]|].
    destruct OS as (D1 & _ & _ & _ & _ & D6 & _).
    split; [unfold en_sane; apply Forall_app; split; [exact SA|constructor; [split; assumption|constructor]]|].
    split; [apply Forall2_app; [exact FA|constructor; [exact S3|constructor]]|exact S2].
Qed.
End LIFE.
Lemma keeps_working : forall eps eg V aw recipe cfg c, 0 <= eps -> 0 <= eg -> (forall n, 0 < aw n) ->
  (forall x y, x == y -> V x == V y) -> recipes_ok recipe -> 0 <= ec_max_feed cfg ->
  0 <= ec_tails_assay cfg -> ec_tails_assay cfg <= 1 -> 0 <= ec_swu_capacity cfg ->
  recipe (ec_feed_recipe cfg) = Some c -> uranium_only c -> ec_tails_assay cfg < mass_assay c ->
  forall es s0, en_build eps recipe cfg = Ok s0 -> orderly eps eg V aw recipe cfg s0 es ->
  exists s os, en_run eps eg V aw recipe cfg s0 es = Ok (s, os) /\
    Forall2 (fun e o => Forall2 (served cfg) (ee_trades e) (eo_shipped o)) es os.
Proof.
  intros eps eg V aw recipe cfg c He Hg AW HV RO M0 T0 T1 W0 RC UC XC es s0 B OR.
  destruct (works eps eg V aw recipe cfg c He Hg AW HV RO M0 T0 T1 W0 RC UC XC es s0 B OR) as (s & os & R & SV & _). eauto.
Qed.

(** ** Boolean checks used by the worked scenario *)
Definition q_same (a b : Q) : bool := Z.eqb (Qnum a) (Qnum b) && Pos.eqb (Qden a) (Qden b).
Lemma q_same_sound a b : q_same a b = true -> a = b.
Proof. destruct a, b. unfold q_same. cbn. intro H. apply andb_prop in H as [A B]. apply Z.eqb_eq in A. apply Pos.eqb_eq in B. congruence. Qed.
Fixpoint comp_same (a b : comp) : bool :=
  match a, b with
  | [], [] => true
  | (n, x) :: a', (m, y) :: b' => Z.eqb n m && q_same x y && comp_same a' b'
  | _, _ => false
  end.
Lemma comp_same_sound a : forall b, comp_same a b = true -> a = b.
Proof.
  induction a as [|[n x] a IH]; intros [|[m y] b] H; cbn in H; try discriminate; [reflexivity|].
  apply andb_prop in H as [H C]. apply andb_prop in H as [A B]. apply Z.eqb_eq in A. apply q_same_sound in B. apply IH in C. congruence.
Qed.
Definition mat_same (a b : mat) : bool := Z.eqb (m_id a) (m_id b) && q_same (m_qty a) (m_qty b) && comp_same (m_comp a) (m_comp b).
Lemma mat_same_sound a b : mat_same a b = true -> a = b.
Proof.
  destruct a, b. unfold mat_same. cbn. intro H. apply andb_prop in H as [H C]. apply andb_prop in H as [A B].
  apply Z.eqb_eq in A. apply q_same_sound in B. apply comp_same_sound in C. congruence.
Qed.
Definition within (o : option Q) (l : Q) : bool := match o with Some x => Qle_bool x l | None => false end.
Definition awardedb (V : Q -> Q) (cfg : en_cfg) (B : en_bids) (ts : list en_trade) : bool :=
  forallb (fun t => Qltb 0 (et_amt t)) ts &&
  match tails_sold cfg ts with [] => true | _ => match eb_tails B with Some tb => Qle_bool (qsum (tails_sold cfg ts)) (tb_limit tb) | None => false end end &&
  match products cfg ts with [] => true | _ => match eb_product B with
    | Some pb => forallb (fun t => existsb (fun jo => mat_same (snd jo) (et_offer t)) (pb_offers pb)) (products cfg ts) &&
        within (charge_sum (natu_charge (pb_feed pb) (ec_tails_assay cfg)) (products cfg ts)) (pb_natu pb) &&
        within (charge_sum (swu_charge V (pb_feed pb) (ec_tails_assay cfg)) (products cfg ts)) (pb_swu pb)
    | None => false end end.
Lemma within_sound conv ts l : within (charge_sum conv ts) l = true -> exists x, charged conv ts x /\ x <= l.
Proof.
  unfold within. destruct (charge_sum conv ts) as [x|] eqn:E; [|discriminate]. intro H. exists x.
  split; [apply charge_sum_sound, E|apply Qle_bool_iff, H].
Qed.
Lemma awardedb_sound V cfg B ts : awardedb V cfg B ts = true -> awarded V cfg B ts.
Proof.
  unfold awardedb. intro H. apply andb_prop in H as [H C]. apply andb_prop in H as [A T]. rewrite forallb_forall in A. split; [|split].
  - apply Forall_forall. intros t I. apply Qltb_true, A, I.
  - intro N. destruct (tails_sold cfg ts) as [|x l]; [congruence|]. destruct (eb_tails B) as [tb|]; [|discriminate]. exists tb. split; [reflexivity|apply Qle_bool_iff, T].
  - intro N. destruct (products cfg ts) as [|x l]; [congruence|]. destruct (eb_product B) as [pb|]; [|discriminate]. exists pb. split; [reflexivity|].
    apply andb_prop in C as [C3 C2]. apply andb_prop in C3 as [C1 C3]. split; [|split; apply within_sound; assumption].
    intros t I. rewrite forallb_forall in C1. specialize (C1 t I). apply existsb_exists in C1 as ([j o] & J & E). apply mat_same_sound in E. cbn in E. subst o. eauto.
Qed.
Definition enrichableb (cfg : en_cfg) (m : mat) : bool :=
  Qeq_bool (mass_of m 922350000 + mass_of m 922380000) (m_qty m) && Qltb (ec_tails_assay cfg * m_qty m) (mass_of m 922350000).
Definition orderly_stepb (eps eg : Q) (V : Q -> Q) (aw : Z -> Q) (cfg : en_cfg) (s : en_state) (e : en_env) : bool :=
  forallb mat_okb (ee_receipts e) && forallb (enrichableb cfg) (ee_receipts e) &&
  Qle_bool (qty_of (ee_receipts e)) (Qmax 0 (ec_max_feed cfg - b_qty (es_inv s))) &&
  Qltb eps (ec_max_feed cfg - b_qty (es_inv s)) &&
  forallb request_okb (ee_preqs e) && forallb trade_okb (ee_trades e) &&
  match en_get_bids eps eg aw cfg (ee_treqs e) (ee_preqs e) (en_tick cfg s) with Ok (_, B) => awardedb V cfg B (ee_trades e) | _ => false end &&
  forallb (fun t => Qle_bool (assay_of (b_items (es_inv s))) (mass_assay (m_comp (et_offer t))) &&
     Qle_bool eg (need (assay_of (b_items (es_inv s))) (mass_assay (m_comp (et_offer t))) (ec_tails_assay cfg) (et_amt t))) (products cfg (ee_trades e)).
Lemma orderly_stepb_sound eps eg V aw cfg s e : orderly_stepb eps eg V aw cfg s e = true -> orderly_step eps eg V aw cfg s e.
Proof.
  unfold orderly_stepb. intro H. apply andb_prop in H as [H H8]. apply andb_prop in H as [H H7]. apply andb_prop in H as [H H6].
  apply andb_prop in H as [H H5]. apply andb_prop in H as [H H4]. apply andb_prop in H as [H H3]. apply andb_prop in H as [H1 H2].
  split; [apply mats_okb_sound, H1|]. rewrite forallb_forall in H2, H6, H8. split; [|split; [apply Qle_bool_iff, H3|split; [|split; [apply requests_okb_sound, H5|split; [|split]]]]].
  - apply Forall_forall. intros m I. specialize (H2 m I). apply andb_prop in H2 as [A B]. split; [apply Qeq_bool_iff, A|apply Qltb_true, B].
  - intro L. apply Qltb_true in H4. lra.
  - apply Forall_forall. intros t I. apply trade_okb_sound, H6, I.
  - intros s2 B E. rewrite E in H7. apply awardedb_sound, H7.
  - intros t I. specialize (H8 t I). apply andb_prop in H8 as [A B]. split; apply Qle_bool_iff; assumption.
Qed.
Fixpoint orderlyb (eps eg : Q) (V : Q -> Q) (aw : Z -> Q) (recipe : string -> option comp) (cfg : en_cfg) (s : en_state) (es : list en_env) : bool :=
  match es with
  | [] => true
  | e :: es' => orderly_stepb eps eg V aw cfg s e &&
      match en_step eps eg V aw recipe cfg s e with Ok (s1, _) => orderlyb eps eg V aw recipe cfg s1 es' | _ => true end
  end.
Lemma orderlyb_sound eps eg V aw recipe cfg es : forall s, orderlyb eps eg V aw recipe cfg s es = true -> orderly eps eg V aw recipe cfg s es.
Proof.
  induction es as [|x es IH]; intros s H pre e post s1 os E R; [destruct pre; discriminate|]. cbn in H. apply andb_prop in H as [A B].
  destruct pre as [|p pre]; cbn in E; injection E as <- ->.
  - cbn in R. injection R as <- _. apply orderly_stepb_sound, A.
  - cbn in R. apply bind_ok in R as ([sa oa] & S & R). apply bind_ok in R as ([sb ob] & R2 & R). injection R as <- _. rewrite S in B.
    apply (IH sa B pre e post sb ob eq_refl R2).
Qed.
