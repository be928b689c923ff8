(** An enrichment facility fed with the same uranium divided differently (C125). *)
From Coq Require Import Lia Lqa.
From Verif Require Import Outcome KernelMaterial KernelResBuf KernelBuf KernelFacts KernelMass KernelBufFacts EnrichmentModel EnrichmentProofs
  DivisionSpec DivisionProofs DivisionComp DivisionSeparations DivisionConversion.
From Verif Require Import SeparationsTolerance SeparationsRun.
Local Open Scope Q_scope.

Lemma feed_qty_eqv b b' : same_feed b b' -> b_qty b == b_qty b'. Proof. intros (_ & [Q _] & _). exact Q. Qed.
Lemma squash_content l l' m : solid l -> solid l' -> same_content l l' -> squash l = Ok m ->
  exists m', squash l' = Ok m' /\ alike m m' /\ mat_ok m /\ mat_ok m' /\ 0 < m_qty m.
Proof.
  intros S S' [Q C] H. destruct (squash_facts _ _ H) as (Q1 & F). destruct (F (solid_ok _ S)) as (O & M).
  assert (P : 0 < m_qty m). { rewrite Q1. destruct S as [|x l [Ox Px] S]; [discriminate|]. rewrite qty_of_cons. pose proof (mats_qty_nonneg l (solid_ok l S)). lra. }
  assert (N : l' <> []). { intros ->. rewrite qty_of_nil in Q. lra. }
  destruct (squash_nonempty l' N) as (m' & H'). destruct (squash_facts _ _ H') as (Q1' & F'). destruct (F' (solid_ok _ S')) as (O' & M'). exists m'. split; [exact H'|]. split; [|auto].
  split; [lra|]. intro n. rewrite (M n), (M' n). apply C.
Qed.
Lemma content_one m m' : alike m m' -> same_content [m] [m'].
Proof. intros [Q A]. split; [rewrite !qty_of_cons, !qty_of_nil; lra|]. intro n. rewrite !mass_in_cons, !mass_in_nil. rewrite (A n). reflexivity. Qed.
Lemma blend_same eps b b' m r : 0 <= eps -> same_feed b b' -> blend eps b = Ok (m, r) ->
  exists m' r', blend eps b' = Ok (m', r') /\ alike m m' /\ mat_ok m /\ mat_ok m' /\ 0 < m_qty m /\ same_feed r r' /\ b_items r = [m] /\ b_items r' = [m'] /\ b_qty r == b_qty b.
Proof.
  intros He S H. pose proof (feed_qty_eqv _ _ S) as Q. destruct S as (C & Ct & T & T'). destruct (blend_inv _ _ _ _ He H) as (N & Sq & ->).
  destruct (squash_content _ _ _ T T' Ct Sq) as (m' & Sq' & A & O & O' & P). exists m', {| b_cap := b_cap b'; b_items := [m'] |}.
  assert (B : blend eps b' = Ok (m', {| b_cap := b_cap b'; b_items := [m'] |})).
  { unfold blend, b_pop_tol in *. assert (N' : b_items b' <> []) by (intro Z; rewrite Z in Sq'; discriminate).
    destruct (pop_all (b_items b) eps He N) as (m1 & S1 & P1). destruct (pop_all (b_items b') eps He N') as (m2 & S2 & P2). rewrite Sq in S1. injection S1 as <-. rewrite Sq' in S2. injection S2 as <-.
    unfold b_qty in *. rewrite P1 in H. rewrite P2. cbn [bind] in *. apply bind_ok in H as (b2 & Pu & _). unfold b_push in *.
    rewrite <- (fits_eq eps {| b_cap := b_cap b; b_items := [] |} {| b_cap := b_cap b'; b_items := [] |} (m_qty m) (m_qty m')) by (cbn [b_cap]; auto; try reflexivity; apply A).
    destruct (b_fits _ _ _); [reflexivity|discriminate]. }
  split; [exact B|]. split; [exact A|]. split; [exact O|]. split; [exact O'|]. split; [exact P|]. split; [|split; [reflexivity|split; [reflexivity|]]].
  - split; [exact C|]. cbn [b_items]. split; [apply content_one, A|]. pose proof (proj1 A). split; (constructor; [split; [assumption|lra]|constructor]).
  - unfold b_qty. cbn [b_items]. rewrite qty_of_cons, qty_of_nil. destruct (squash_facts _ _ Sq) as (Q1 & _). lra.
Qed.
Lemma assay_same m m' : alike m m' -> assay m == assay m'.
Proof.
  intros [_ A]. unfold assay. cbv zeta. rewrite <- (qltb_eq 0 0 (mass_of m u235 + mass_of m u238) (mass_of m' u235 + mass_of m' u238)) by (try reflexivity; rewrite (A u235), (A u238); reflexivity).
  destruct (Qltb 0 _); [|reflexivity]. rewrite (A u235), (A u238). reflexivity.
Qed.
Lemma u_frac_same m m' : alike m m' -> 0 < m_qty m -> u_frac m == u_frac m'.
Proof.
  intros A P. assert (N : ~ m_qty m == 0) by lra. destruct (alike_cut m m' 0 0 1 1 A (Qeq_refl _) N) as [_ B]. unfold mass_of in B. cbn [m_qty m_comp] in B. unfold u_frac. rewrite (B u235), (B u238). reflexivity.
Qed.
Lemma feed_assay_same eps b b' a r : 0 <= eps -> same_feed b b' -> feed_assay eps b = Ok (a, r) -> exists a' r', feed_assay eps b' = Ok (a', r') /\ a == a' /\ same_feed r r' /\ b_qty r == b_qty b.
Proof.
  intros He S H. unfold feed_assay in *. pose proof S as (_ & [Q _] & T & T'). destruct (b_items b) as [|x l] eqn:E.
  - injection H as <- <-. rewrite (solid_nil _ T') by (rewrite <- Q; reflexivity). exists 0, b'. split; [reflexivity|]. split; [reflexivity|]. split; [exact S|reflexivity].
  - assert (N : b_items b' <> []). { intro Z. rewrite Z in Q. pose proof (solid_nil _ T Q). discriminate. }
    destruct (b_items b') as [|x' l'] eqn:E'; [congruence|]. apply bind_ok in H as ([m b1] & B & H). injection H as <- <-.
    destruct (blend_same _ _ _ _ _ He S B) as (m' & r' & -> & A & _ & _ & _ & R & _ & _ & Qr). cbn [bind]. eexists. eexists. split; [reflexivity|]. split; [apply assay_same, A|]. auto.
Qed.
Lemma pop_less l q tol m r : solid l -> items_pop_tol l q tol = Ok (m, r) -> qty_of r <= qty_of l /\ solid r.
Proof.
  intros S H. destruct (layers_pop_tol l l q q tol m r S S (layers_refl l) (Qeq_refl _) H) as (_ & _ & _ & _ & _ & _ & P & _ & R & _). split; [|exact R].
  destruct (Qlt_le_dec q 0) as [Z|Z].
  - exfalso. unfold items_pop_tol in H. destruct (Qltb _ q); [discriminate|]. destruct (Qle_bool (qty_of l) q) eqn:L.
    + apply Qle_bool_iff in L. pose proof (mats_qty_nonneg l (solid_ok l S)). lra.
    + unfold items_pop_qty in H. destruct (Qltb (qty_of l) q); [discriminate|]. destruct l as [|x l]; [discriminate|]. cbn [take_qty] in H. assert (Lz : Qle_bool q 0 = true) by (apply Qle_bool_iff; lra). rewrite Lz in H. discriminate.
  - destruct (pop_tol_q l q tol m r) as (A & B & _); auto; [|lra]. eapply Forall_impl; [|exact S]. cbv beta. intros x [_ Px]. lra.
Qed.
Lemma feed_pop b b' q q' tol m r : Forall2 alike (b_items b) (b_items b') -> same_feed b b' -> q == q' -> b_pop_tol b q tol = Ok (m, r) ->
  exists m' r', b_pop_tol b' q' tol = Ok (m', r') /\ alike m m' /\ same_feed r r' /\ b_qty r <= b_qty b.
Proof.
  intros F (C & Ct & T & T') E H. unfold b_pop_tol in *. apply bind_ok in H as ([m1 r1] & P & H). injection H as -> <-. destruct (alike_pop_tol _ _ _ _ _ _ _ F E P) as (m' & r' & P' & A & B). rewrite P'. cbn [bind].
  destruct (pop_less _ _ _ _ _ T P) as [L S]. destruct (pop_less _ _ _ _ _ T' P') as [_ S'].
  eexists. eexists. split; [reflexivity|]. split; [exact A|]. split; [|exact L]. split; [exact C|]. cbn [b_items]. split; [|auto]. split; [apply alike_qty, B|]. intro n. clear - B. induction B as [|x y l l' H F IH]; [reflexivity|]. rewrite !mass_in_cons, IH, (proj2 H n). reflexivity.
Qed.
Lemma feed_qty_same q a a' : as_feed a == as_feed a' -> as_product a = as_product a' -> as_tails a = as_tails a' -> both Qeq (feed_qty q a) (feed_qty q a') /\ both Qeq (tails_qty q a) (tails_qty q a').
Proof.
  intros E P T. unfold feed_qty, tails_qty. rewrite P, T. rewrite <- (qeqb_eq (as_feed a - as_tails a') (as_feed a' - as_tails a') 0 0) by (try reflexivity; rewrite E; reflexivity).
  destruct (Qeq_bool _ 0); [split; exact I|]. split; cbn [both]; rewrite E; reflexivity.
Qed.
Lemma swu_same V q a a' : (forall x y, x == y -> V x == V y) -> as_feed a == as_feed a' -> as_product a = as_product a' -> as_tails a = as_tails a' -> both Qeq (swu_required V q a) (swu_required V q a').
Proof.
  intros HV E P T. destruct (feed_qty_same q a a' E P T) as [F G]. unfold swu_required. destruct (feed_qty q a), (feed_qty q a'); try contradiction; destruct (tails_qty q a), (tails_qty q a'); try contradiction; try exact I. cbn [both] in *.
  rewrite P, T, F, G, (HV _ _ E). reflexivity.
Qed.
Lemma oplus_same a a' x x' r : both Qeq a a' -> x == x' -> oplus a x = Ok r -> exists r', oplus a' x' = Ok r' /\ both Qeq r r'.
Proof. intros A E H. destruct a as [a|], a' as [a'|]; try contradiction; [|discriminate]. cbn in *. injection H as <-. eexists. split; [reflexivity|]. cbn. rewrite A, E. reflexivity. Qed.
Lemma almost_same eg a a' b b' : a == a' -> b == b' -> almost_eq eg a b = almost_eq eg a' b'.
Proof. intros A B. unfold almost_eq. apply qltb_eq; [|reflexivity]. rewrite A, B. reflexivity. Qed.
Definition same_record (a b : en_record) : Prop := er_feed a == er_feed b /\ er_swu a == er_swu b.
Lemma enrich_same eps eg V cfg s s' off q s1 m r : 0 <= eps -> (forall x y, x == y -> V x == V y) -> same_enricher s s' -> en_enrich eps eg V cfg s off q = Ok (s1, m, r) ->
  exists s1' m' r', en_enrich eps eg V cfg s' off q = Ok (s1', m', r') /\ same_enricher s1 s1' /\ alike m m' /\ same_record r r' /\ b_qty (es_inv s1) <= b_qty (es_inv s) /\ b_cap (es_inv s1) = b_cap (es_inv s).
Proof.
  intros He HV (Sf & St & Sw & Si & Se) H. unfold en_enrich in *. apply bind_ok in H as ([fa b0] & A0 & H).
  destruct (feed_assay_same _ _ _ _ _ He Sf A0) as (fa' & b0' & A0' & Ea & F0 & Q0). rewrite A0'. cbn [bind]. cbv zeta in *.
  apply bind_ok in H as ([nat0 b1] & B & H). destruct (blend_same _ _ _ _ _ He F0 B) as (nat0' & b1' & B' & A1 & O1 & O1' & P1 & F1 & I1 & I1' & Q1). rewrite B'. cbn [bind].
  set (a := {| as_feed := fa; as_product := assay off; as_tails := ec_tails_assay cfg |}) in *. set (a' := {| as_feed := fa'; as_product := assay off; as_tails := ec_tails_assay cfg |}).
  pose proof (swu_same V q a a' HV Ea eq_refl eq_refl) as Es. destruct (feed_qty_same q a a' Ea eq_refl eq_refl) as [Ef _].
  destruct (swu_required V q a) as [swu|]; [|discriminate]. destruct (swu_required V q a') as [swu'|]; [|contradiction]. destruct (feed_qty q a) as [fq|]; [|discriminate]. destruct (feed_qty q a') as [fq'|]; [|contradiction]. cbn [both] in *.
  pose proof (u_frac_same _ _ A1 P1) as Eu. rewrite <- (qeqb_eq (u_frac nat0) (u_frac nat0') 0 0) by (auto; reflexivity). destruct (Qeq_bool (u_frac nat0) 0); [discriminate|].
  assert (E : fq / u_frac nat0 == fq' / u_frac nat0') by (rewrite Ef, Eu; reflexivity). rewrite <- (almost_same eg (fq / u_frac nat0) _ (b_qty b1) (b_qty b1') E (feed_qty_eqv _ _ F1)).
  apply bind_ok in H as ([rr b2] & X & H).
  assert (X' : exists rr' b2', (if almost_eq eg (fq / u_frac nat0) (b_qty b1) then match squash (b_items b1') with Ok r => Ok (r, {| b_cap := b_cap b1'; b_items := [] |}) | _ => Throw ValueError end
      else match b_pop_tol b1' (fq' / u_frac nat0') eps with Ok x => Ok x | _ => Throw ValueError end) = Ok (rr', b2') /\ alike rr rr' /\ same_feed b2 b2' /\ b_qty b2 <= b_qty b1 /\ b_cap b2 = b_cap b1).
  { destruct (almost_eq eg (fq / u_frac nat0) (b_qty b1)).
    - rewrite I1 in X. rewrite I1'. cbn [squash fold_left] in *. injection X as <- <-. eexists. eexists. split; [reflexivity|]. split; [exact A1|]. split; [|split; [|reflexivity]].
      + split; [apply F1|]. cbn [b_items]. split; [split; [reflexivity|intro; reflexivity]|]. split; constructor.
      + unfold b_qty. cbn [b_items]. rewrite qty_of_nil. apply mats_qty_nonneg. rewrite I1. constructor; [exact O1|constructor].
    - destruct (b_pop_tol b1 (fq / u_frac nat0) eps) as [y| | |] eqn:Py; try discriminate. injection X as ->.
      destruct (feed_pop b1 b1' _ _ _ _ _ ltac:(rewrite I1, I1'; constructor; [exact A1|constructor]) F1 E Py) as (m' & r' & -> & A2 & F2 & L2). eexists. eexists. split; [reflexivity|]. split; [exact A2|]. split; [exact F2|]. split; [exact L2|].
      unfold b_pop_tol in Py. apply bind_ok in Py as ([? ?] & _ & Py). injection Py as _ <-. reflexivity. }
  destruct X' as (rr' & b2' & -> & A2 & F2 & L2 & C2). cbn [bind]. apply bind_ok in H as ([resp rest] & Xc & H).
  destruct (alike_extract eps q q (m_comp off) (m_comp off) rr rr' _ _ A2 (fun n => Qeq_refl _) (Qeq_refl _) Xc) as (resp' & rest' & -> & A3 & A4 & _). cbn [bind].
  apply bind_ok in H as (t & Pt & H). destruct (store_push _ _ _ _ _ _ St A4 Pt) as (t' & -> & St'). cbn [bind].
  apply bind_ok in H as (cur & Oc & H). destruct (oplus_same _ _ (- swu) (- swu') _ Sw ltac:(rewrite Es; reflexivity) Oc) as (cur' & -> & Ec). cbn [bind].
  apply bind_ok in H as (isw & Oi & H). destruct (oplus_same _ _ swu swu' _ Si Es Oi) as (isw' & -> & Ei). cbn [bind].
  apply bind_ok in H as (ife & Of & H). destruct (oplus_same _ _ _ (fq' / u_frac nat0') _ Se E Of) as (ife' & -> & Eife). cbn [bind].
  injection H as <- <- <-. eexists. eexists. eexists. split; [reflexivity|]. split; [|split; [exact A3|split; [split; [exact E|exact Es]|]]].
  - split; [exact F2|]. split; [exact St'|]. split; [exact Ec|]. split; [exact Ei|exact Eife].
  - cbn [es_inv]. split; [lra|]. rewrite C2. apply (proj1 (proj2 (blend_facts _ _ _ _ He (solid_ok _ (proj1 (proj2 (proj2 F0)))) B))) || idtac.
    destruct (blend_inv _ _ _ _ He B) as (_ & _ & ->). cbn [b_cap]. unfold feed_assay in A0. destruct (b_items (es_inv s)); [injection A0 as _ <-; reflexivity|]. apply bind_ok in A0 as ([m0 b9] & B0 & A0). injection A0 as _ <-. destruct (blend_inv _ _ _ _ He B0) as (_ & _ & ->). reflexivity.
Qed.
Lemma trade1_same eps eg V cfg s s' t s1 m r : 0 <= eps -> (forall x y, x == y -> V x == V y) -> same_enricher s s' -> en_trade1 eps eg V cfg s t = Ok (s1, m, r) ->
  exists s1' m' r', en_trade1 eps eg V cfg s' t = Ok (s1', m', r') /\ same_enricher s1 s1' /\ alike m m' /\ Forall2 same_record r r' /\ b_qty (es_inv s1) <= b_qty (es_inv s) /\ b_cap (es_inv s1) = b_cap (es_inv s).
Proof.
  intros He HV S H. unfold en_trade1 in *. destruct (String.eqb (et_commod t) (ec_tails_commod cfg)).
  - destruct S as (Sf & St & Sw & Si & Se). apply bind_ok in H as ([m0 b0] & P & H). injection H as <- <- <-.
    destruct (store_pop _ _ _ (Qmin (et_amt t) (b_qty (es_tails s'))) _ _ _ St (qmin_eq _ _ _ _ (Qeq_refl _) (store_qty _ _ St)) P) as (m' & b' & -> & A & B). cbn [bind].
    eexists. eexists. eexists. split; [reflexivity|]. split; [split; [exact Sf|split; [exact B|auto]]|]. split; [exact A|]. split; [constructor|]. cbn [es_inv]. split; [apply Qle_refl|reflexivity].
  - apply bind_ok in H as ([[s0 m0] r0] & E & H). injection H as <- <- <-. destruct (enrich_same _ _ _ _ _ _ _ _ _ _ _ He HV S E) as (s1' & m' & r' & -> & S1 & A & R & L & C). cbn [bind].
    eexists. eexists. eexists. split; [reflexivity|]. split; [exact S1|]. split; [exact A|]. split; [constructor; [exact R|constructor]|]. auto.
Qed.
Lemma trade_loop_same eps eg V cfg : 0 <= eps -> (forall x y, x == y -> V x == V y) -> forall ts s s' s1 ms rs, same_enricher s s' -> en_trade_loop eps eg V cfg s ts = Ok (s1, ms, rs) ->
  exists s1' ms' rs', en_trade_loop eps eg V cfg s' ts = Ok (s1', ms', rs') /\ same_enricher s1 s1' /\ Forall2 alike ms ms' /\ Forall2 same_record rs rs' /\
    b_qty (es_inv s1) <= b_qty (es_inv s) /\ b_cap (es_inv s1) = b_cap (es_inv s).
Proof.
  intros He HV. induction ts as [|t ts IH]; intros s s' s1 ms rs S H; cbn [en_trade_loop] in *.
  - injection H as <- <- <-. exists s', [], []. split; [reflexivity|]. split; [exact S|]. split; [constructor|]. split; [constructor|]. split; [apply Qle_refl|reflexivity].
  - apply bind_ok in H as ([[s0 m] r] & H1 & H). apply bind_ok in H as ([[s2 ms1] rs1] & H2 & H). injection H as <- <- <-.
    destruct (trade1_same _ _ _ _ _ _ _ _ _ _ He HV S H1) as (s0' & m' & r' & -> & S0 & A & R & L & C). cbn [bind].
    destruct (IH _ _ _ _ _ S0 H2) as (s2' & ms' & rs' & -> & S2 & As & Rs & L2 & C2). cbn [bind]. eexists. eexists. eexists. split; [reflexivity|]. split; [exact S2|]. split; [constructor; auto|]. split; [apply Forall2_app; auto|]. split; [lra|congruence].
Qed.
Lemma en_trades_same eps eg V cfg ts s s' s1 ms rs : 0 <= eps -> (forall x y, x == y -> V x == V y) -> same_enricher s s' -> en_trades eps eg V cfg ts s = Ok (s1, ms, rs) ->
  exists s1' ms' rs', en_trades eps eg V cfg ts s' = Ok (s1', ms', rs') /\ same_enricher s1 s1' /\ Forall2 alike ms ms' /\ Forall2 same_record rs rs' /\
    b_qty (es_inv s1) <= b_qty (es_inv s) /\ b_cap (es_inv s1) = b_cap (es_inv s).
Proof.
  intros He HV (Sf & St & Sw & Si & Se) H. unfold en_trades in *. cbv zeta in *. apply bind_ok in H as ([[s2 ms2] rs2] & L & H).
  assert (S0 : same_enricher {| es_inv := es_inv s; es_tails := es_tails s; es_swu := es_swu s; es_iswu := Some 0; es_ifeed := Some 0 |} {| es_inv := es_inv s'; es_tails := es_tails s'; es_swu := es_swu s'; es_iswu := Some 0; es_ifeed := Some 0 |}).
  { split; [exact Sf|]. split; [exact St|]. split; [exact Sw|]. split; reflexivity. }
  destruct (trade_loop_same _ _ _ _ He HV _ _ _ _ _ _ S0 L) as (s2' & ms' & rs' & -> & S2 & A & R & Le & C). cbn [bind]. pose proof S2 as (_ & St2 & Sw2 & _). unfold is_negative in *.
  rewrite <- (qltb_eq (b_qty (es_tails s2)) (b_qty (es_tails s2')) (- eg) (- eg)) by (try reflexivity; apply store_qty, St2). destruct (Qltb (b_qty (es_tails s2)) (- eg)); [discriminate|].
  destruct (es_swu s2) as [c|]; [|discriminate]. destruct (es_swu s2') as [c'|]; [|contradiction]. cbn [both] in Sw2. rewrite <- (qltb_eq c c' (- eg) (- eg)) by (auto; reflexivity). destruct (Qltb c (- eg)); [discriminate|].
  injection H as <- <- <-. exists s2', ms', rs'. auto 8.
Qed.
Lemma get_bids_same eps eg aw cfg tr pr s s' s1 b : 0 <= eps -> same_enricher s s' -> en_get_bids eps eg aw cfg tr pr s = Ok (s1, b) ->
  exists s1' b', en_get_bids eps eg aw cfg tr pr s' = Ok (s1', b') /\ same_enricher s1 s1' /\ same_en_bids b b' /\ b_qty (es_inv s1) == b_qty (es_inv s) /\ b_cap (es_inv s1) = b_cap (es_inv s).
Proof.
  intros He S H. pose proof S as (Sf & St & Sw & Si & Se). pose proof (store_qty _ _ St) as Qt. pose proof (feed_qty_eqv _ _ Sf) as Qi. unfold en_get_bids in *. cbv zeta in *.
  set (tb := match tr with [] => None | _ => if Qltb 0 (b_qty (es_tails s)) then Some {| tb_offers := flat_map (fun j => map (fun m => (j, m)) (b_items (es_tails s))) (seq 0 (List.length tr)); tb_limit := b_qty (es_tails s) |} else None end) in *.
  set (tb' := match tr with [] => None | _ => if Qltb 0 (b_qty (es_tails s')) then Some {| tb_offers := flat_map (fun j => map (fun m => (j, m)) (b_items (es_tails s'))) (seq 0 (List.length tr)); tb_limit := b_qty (es_tails s') |} else None end) in *.
  assert (T : both (fun a b => Forall2 (fun i j => fst i = fst j /\ alike (snd i) (snd j)) (tb_offers a) (tb_offers b) /\ tb_limit a == tb_limit b) tb tb').
  { unfold tb, tb'. destruct tr as [|t0 tr]; [exact I|]. rewrite <- (qltb_eq 0 0 (b_qty (es_tails s)) (b_qty (es_tails s'))) by (auto; reflexivity). destruct (Qltb 0 (b_qty (es_tails s))); [|exact I]. split; [|exact Qt]. cbn [tb_offers].
    clear H tb tb'. destruct St as [_ F]. clear - F. induction (seq 0 (List.length (t0 :: tr))) as [|j js IH]; cbn [flat_map]; [constructor|]. apply Forall2_app; [|exact IH]. clear IH. induction F as [|x y l l' A F IH]; cbn [map]; constructor; auto. }
  destruct pr as [|p0 pr].
  - injection H as <- <-. eexists. eexists. split; [reflexivity|]. split; [exact S|]. split; [|split; reflexivity]. split; [exact Qt|]. split; [exact Qi|]. split; [exact T|exact I].
  - rewrite <- (qltb_eq 0 0 (b_qty (es_inv s)) (b_qty (es_inv s'))) by (auto; reflexivity). destruct (Qltb 0 (b_qty (es_inv s))).
    + apply bind_ok in H as ([a1 b1] & A1 & H). apply bind_ok in H as ([a2 b2] & A2 & H). injection H as <- <-.
      destruct (feed_assay_same _ _ _ _ _ He Sf A1) as (a1' & b1' & -> & _ & F1 & Q1). cbn [bind]. destruct (feed_assay_same _ _ _ _ _ He F1 A2) as (a2' & b2' & -> & Ea & F2 & Q2). cbn [bind].
      eexists. eexists. split; [reflexivity|]. split; [split; [exact F2|split; [exact St|auto]]|]. split.
      * split; [exact Qt|]. split; [exact Qi|]. split; [exact T|]. cbn [eb_product both]. split; [reflexivity|]. split; [exact Ea|]. split; [reflexivity|]. cbn [pb_natu]. apply feed_qty_eqv, F2.
      * cbn [es_inv]. split; [lra|]. assert (K : forall b a r, feed_assay eps b = Ok (a, r) -> b_cap r = b_cap b).
        { intros b a r K. unfold feed_assay in K. destruct (b_items b); [injection K as _ <-; reflexivity|]. apply bind_ok in K as ([m0 b9] & B0 & K). injection K as _ <-. destruct (blend_inv _ _ _ _ He B0) as (_ & _ & ->). reflexivity. }
        rewrite (K _ _ _ A2). apply (K _ _ _ A1).
    + injection H as <- <-. eexists. eexists. split; [reflexivity|]. split; [exact S|]. split; [|split; reflexivity]. split; [exact Qt|]. split; [exact Qi|]. split; [exact T|exact I].
Qed.
Lemma content_app l l' k k' : same_content l l' -> same_content k k' -> same_content (l ++ k) (l' ++ k').
Proof. intros [Q A] [R B]. split; [rewrite !qty_app; lra|]. intro n. rewrite !mass_app, (A n), (B n). reflexivity. Qed.
Lemma en_accept_same eps f f' ms ms' c g : 0 <= eps -> same_feed f f' -> same_content ms ms' -> solid ms -> solid ms' -> b_cap f = Some c ->
  qty_of ms <= Qmax 0 (c - b_qty f) -> loop (b_push eps) ms f = Ok g -> exists g', loop (b_push eps) ms' f' = Ok g' /\ same_feed g g' /\ b_cap g = b_cap f.
Proof.
  intros He S L T T' C Le H. pose proof (feed_qty_eqv _ _ S) as Q. pose proof (mats_qty_nonneg _ (solid_ok _ T')) as N. pose proof (proj1 L) as Qs.
  assert (X : exists g', loop (b_push eps) ms' f' = Ok g').
  { destruct (Qlt_le_dec 0 (qty_of ms')) as [P|P].
    - apply (accept_ok_tol eps ms' He f' c); [rewrite <- C; symmetry; apply S|apply solid_ok, T'|]. revert Le. apply Q.max_case_strong; [intros ? ? E; rewrite E; auto| |]; lra.
    - rewrite (solid_nil ms' T') by lra. exists f'. reflexivity. }
  destruct X as (g' & X). exists g'. split; [exact X|]. apply accept_facts in H as (C1 & I1). apply accept_facts in X as (C2 & I2). split; [|exact C1].
  destruct S as (Sc & Sl & S & S'). split; [congruence|]. rewrite I1, I2. split; [apply content_app; auto|]. split; apply solid_app; assumption.
Qed.
Lemma en_step_same eps eg V aw recipe cfg s s' e e' s2 o : 0 <= eps -> (forall x y, x == y -> V x == V y) -> same_enricher s s' -> same_feeding e e' -> b_cap (es_inv s) = Some (ec_max_feed cfg) ->
  en_step eps eg V aw recipe cfg s e = Ok (s2, o) -> qty_of (ee_receipts e) <= feed_wanted o ->
  exists s2' o', en_step eps eg V aw recipe cfg s' e' = Ok (s2', o') /\ same_enricher s2 s2' /\ same_enrichment o o' /\ b_cap (es_inv s2) = Some (ec_max_feed cfg).
Proof.
  intros He HV (Sf & St & Sw & Si & Se) (Et & Ep & Er & Ct & T & T') Cp H W. unfold en_step in *. cbv zeta in *.
  assert (S1 : same_enricher (en_tick cfg s) (en_tick cfg s')) by (split; [exact Sf|]; split; [exact St|]; split; [reflexivity|auto]).
  apply bind_ok in H as (rq & R & H). apply bind_ok in H as ([s3 bids] & B & H). apply bind_ok in H as ([[s4 ms] rs] & Tr & H). apply bind_ok in H as (s5 & A & H). injection H as <- <-.
  assert (Rq : exists rq', en_requests eps recipe cfg (en_tick cfg s') = Ok rq' /\ both alike rq rq' /\ forall x, rq = Some x -> m_qty x = Qmax 0 (ec_max_feed cfg - b_qty (es_inv s))).
  { unfold en_requests in *. cbv zeta in *. cbn [en_tick es_inv] in *. apply bind_ok in R as (c & -> & R). cbn [bind]. assert (E : Qmax 0 (ec_max_feed cfg - b_qty (es_inv s)) == Qmax 0 (ec_max_feed cfg - b_qty (es_inv s'))) by (apply qmax_eq; rewrite (feed_qty_eqv _ _ Sf); reflexivity).
    rewrite <- (qltb_eq eps eps _ _ (Qeq_refl _) E). destruct (Qltb eps _); injection R as <-; eexists; (split; [reflexivity|]); (split; [|intros x X; try discriminate]); [|injection X as <-; reflexivity|exact I]. apply csame_alike; [intro; reflexivity|exact E]. }
  destruct Rq as (rq' & -> & Rr & Rv). cbn [bind]. rewrite <- Et, <- Ep, <- Er. destruct (get_bids_same _ _ _ _ _ _ _ _ _ _ He S1 B) as (s3' & b' & -> & S3 & Bb & Q3 & C3). cbn [bind].
  assert (Trr : exists s4' ms' rs', match ee_trades e with [] => Ok (s3', [], []) | _ => en_trades eps eg V cfg (ee_trades e) s3' end = Ok (s4', ms', rs') /\ same_enricher s4 s4' /\ Forall2 alike ms ms' /\ Forall2 same_record rs rs' /\ b_qty (es_inv s4) <= b_qty (es_inv s3) /\ b_cap (es_inv s4) = b_cap (es_inv s3)).
  { destruct (ee_trades e) as [|t0 ts].
    - injection Tr as <- <- <-. exists s3', [], []. split; [reflexivity|]. split; [exact S3|]. split; [constructor|]. split; [constructor|]. split; [apply Qle_refl|reflexivity].
    - exact (en_trades_same _ _ _ _ _ _ _ _ _ _ He HV S3 Tr). }
  destruct Trr as (s4' & ms' & rs' & Tr' & S4 & As & Rs & L4 & C4). destruct (ee_trades e) as [|t0 ts]; rewrite Tr'; cbn [bind].
  all: unfold en_accept in *; apply bind_ok in A as (g & G & A); injection A as <-; cbn [es_inv en_tick] in *.
  all: assert (Le : qty_of (ee_receipts e) <= Qmax 0 (ec_max_feed cfg - b_qty (es_inv s4))) by
    (unfold feed_wanted in W; cbn [eo_request] in W; assert (M : Qmax 0 (ec_max_feed cfg - b_qty (es_inv s)) <= Qmax 0 (ec_max_feed cfg - b_qty (es_inv s4))) by (apply Q.max_le_compat_l; lra);
     destruct rq as [x|]; [rewrite <- (Rv x eq_refl) in M; lra|]; pose proof (Q.le_max_l 0 (ec_max_feed cfg - b_qty (es_inv s4))); lra).
  all: assert (C5 : b_cap (es_inv s4) = Some (ec_max_feed cfg)) by congruence.
  all: destruct S4 as (Sf4 & St4 & Sw4 & Si4 & Se4); destruct (en_accept_same _ _ _ _ _ _ _ He Sf4 Ct T T' C5 Le G) as (g' & G' & Sg & Cg); unfold b_push in G'; unfold b_push; rewrite G'; cbn [bind].
  all: eexists; eexists; split; [reflexivity|]; split; [split; [exact Sg|split; [exact St4|auto]]|]; split; [|cbn [es_inv]; congruence].
  all: split; [exact Rr|]; split; [exact Bb|]; split; [exact As|]; split; [exact Rs|]; split; [exact Si4|exact Se4].
Qed.
Lemma en_run_same eps eg V aw recipe cfg : 0 <= eps -> (forall x y, x == y -> V x == V y) -> forall es es', Forall2 same_feeding es es' -> forall s s' s2 os, same_enricher s s' ->
  b_cap (es_inv s) = Some (ec_max_feed cfg) -> en_run eps eg V aw recipe cfg s es = Ok (s2, os) -> Forall2 (fun e o => qty_of (ee_receipts e) <= feed_wanted o) es os ->
  exists s2' os', en_run eps eg V aw recipe cfg s' es' = Ok (s2', os') /\ same_enricher s2 s2' /\ Forall2 same_enrichment os os'.
Proof.
  intros He HV es es' F. induction F as [|e e' es es' D F IH]; intros s s' s2 os P C H As; cbn [en_run] in *; [injection H as <- <-; eauto|].
  apply bind_ok in H as ([s1 o] & H1 & H). apply bind_ok in H as ([s3 os1] & H2 & H). injection H as <- <-. inversion As; subst.
  destruct (en_step_same _ _ _ _ _ _ _ _ _ _ _ _ He HV P D C H1) as (s1' & o' & -> & P1 & So & C1); auto. cbn [bind].
  destruct (IH s1 s1' s3 os1 P1 C1 H2) as (s3' & os' & -> & P3 & Sos); auto. cbn [bind]. eexists. eexists. split; [reflexivity|]. auto.
Qed.
