(** Lemmas about single operations of the Enrichment facility. *)
From Coq Require Import Lia Lqa Permutation.
From Verif Require Import Outcome KernelMaterial KernelResBuf KernelBuf KernelFacts KernelMass KernelBufFacts
  EnrichmentModel EnrichmentSpec.
Local Open Scope Q_scope.

Lemma real_ok c : real_comp c -> comp_ok c /\ 0 < csum c.
Proof. exact (fun H => H). Qed.

(** ** Blending the feed *)
Lemma pop_all ms tol : 0 <= tol -> ms <> [] -> exists m, squash ms = Ok m /\ items_pop_tol ms (qty_of ms) tol = Ok (m, []).
Proof.
  intros T N. destruct (squash_nonempty ms N) as [m M]. exists m. split; [exact M|]. unfold items_pop_tol.
  destruct (Qltb (qty_of ms + tol) (qty_of ms)) eqn:E; [apply Qltb_true in E; lra|].
  destruct (Qle_bool (qty_of ms) (qty_of ms)) eqn:E2; [|apply Qle_bool_false in E2; lra].
  rewrite M. reflexivity.
Qed.
Lemma pop_all_nil tol : 0 <= tol -> items_pop_tol [] (qty_of []) tol = Throw ZeroPop.
Proof.
  intro T. unfold items_pop_tol. destruct (Qltb (qty_of [] + tol) (qty_of [])) eqn:E; [|reflexivity].
  apply Qltb_true in E. lra.
Qed.
Lemma blend_inv eps b m b' : 0 <= eps -> blend eps b = Ok (m, b') ->
  b_items b <> [] /\ squash (b_items b) = Ok m /\ b' = {| b_cap := b_cap b; b_items := [m] |}.
Proof.
  intros He H. unfold blend, b_pop_tol, b_qty in H.
  destruct (b_items b) as [|x l] eqn:E.
  - rewrite pop_all_nil in H by exact He. discriminate.
  - assert (N : x :: l <> []) by discriminate. rewrite <- E in *. destruct (pop_all (b_items b) eps He N) as (m' & S & P).
    rewrite P in H. cbn [bind] in H. apply bind_ok in H as (b2 & P2 & H). injection H as -> <-.
    apply b_push_facts in P2 as (C & I & _). cbn [b_cap b_items app] in *.
    split; [exact N|]. split; [exact S|]. destruct b2 as [c2 i2]. cbn in C, I. subst. reflexivity.
Qed.
Lemma blend_facts eps b m b' : 0 <= eps -> mats_ok (b_items b) -> blend eps b = Ok (m, b') ->
  b_items b' = [m] /\ b_cap b' = b_cap b /\ m_qty m == b_qty b /\ mat_ok m /\
  forall n, mass_of m n == mass_in n (b_items b).
Proof.
  intros He O H. destruct (blend_inv _ _ _ _ He H) as (N & S & ->). cbn [b_items b_cap].
  destruct (squash_facts _ _ S) as (Q1 & Q2). destruct (Q2 O) as (Q3 & Q4).
  split; [reflexivity|]. split; [reflexivity|]. split; [exact Q1|]. split; [exact Q3|exact Q4].
Qed.
(** Within capacity: what the buffer holds fits (up to the tolerance). *)
Definition fits (eps : Q) (b : buf) : Prop :=
  match b_cap b with None => True | Some c => 0 <= c /\ b_qty b <= c + eps end.
Lemma blend_ok eps b : 0 <= eps -> b_items b <> [] -> fits eps b ->
  exists m, blend eps b = Ok (m, {| b_cap := b_cap b; b_items := [m] |}).
Proof.
  intros He N F. unfold blend, b_pop_tol, b_qty. destruct (pop_all (b_items b) eps He N) as (m & S & P).
  rewrite P. cbn [bind]. rewrite b_push_ok; cbn [bind b_cap b_items app]; [eauto|].
  unfold fits in F. destruct (b_cap b) as [c|]; auto. destruct (squash_facts _ _ S) as (Q1 & _).
  unfold b_qty in *. cbn [b_items]. rewrite qty_of_nil. rewrite Q.max_r by lra. lra.
Qed.
Lemma squash_one m : squash [m] = Ok m.
Proof. reflexivity. Qed.
Lemma blend_one eps c m m' b' : 0 <= eps -> blend eps {| b_cap := c; b_items := [m] |} = Ok (m', b') ->
  m' = m /\ b' = {| b_cap := c; b_items := [m] |}.
Proof.
  intros He H. destruct (blend_inv _ _ _ _ He H) as (_ & S & ->). cbn in S. injection S as <-. auto.
Qed.

(** ** Assays *)
Lemma uranium_nonneg ms : mats_ok ms -> 0 <= uranium ms.
Proof. intro O. unfold uranium. pose proof (mass_in_nonneg 922350000 ms O). pose proof (mass_in_nonneg 922380000 ms O). lra. Qed.
Lemma two_le_csum c a b : a <> b -> comp_ok c -> cget a c + cget b c <= csum c.
Proof.
  intros N O. induction c as [|[k v] c IH]; [cbn; unfold csum; cbn; lra|].
  inversion O as [|? ? V O']; subst. cbn [cget snd] in *. rewrite csum_cons. cbn [snd]. specialize (IH O').
  destruct (Z.eqb_spec k a), (Z.eqb_spec k b); subst; try congruence; lra.
Qed.
Lemma uranium_le m : mat_ok m -> mass_of m 922350000 + mass_of m 922380000 <= m_qty m.
Proof.
  intro O. unfold mass_of. pose proof (ok_csum m O) as E. pose proof (two_le_csum (cnorm (m_qty m) (m_comp m)) 922350000 922380000) as T.
  specialize (T ltac:(discriminate) (ok_cnorm m O)). lra.
Qed.
(** The model's assay of a parcel that stands for the parcels [ms]. *)
Lemma div_zero_den a b : b == 0 -> a / b == 0.
Proof. intro H. rewrite H. unfold Qdiv. assert (E : / 0 == 0) by reflexivity. rewrite E. lra. Qed.
Lemma assay_spec m ms : mats_ok ms -> (forall n, mass_of m n == mass_in n ms) ->
  assay m == assay_of ms.
Proof.
  intros O M. unfold assay, assay_of, uranium, u235, u238. rewrite <- !M.
  destruct (Qltb 0 _) eqn:E; [reflexivity|]. apply Qltb_false in E.
  pose proof (mass_in_nonneg 922350000 ms O) as A. pose proof (mass_in_nonneg 922380000 ms O) as B.
  rewrite <- M in A, B. symmetry. apply div_zero_den. lra.
Qed.
(** ... and of a material of usable composition. *)
Lemma assay_comp i q c : 0 < q -> real_comp c -> assay (Mat i q c) == mass_assay c.
Proof.
  intros Hq (O & P). unfold assay, mass_assay, mass_of, u235, u238. cbn [m_qty m_comp].
  pose proof (cget_cnorm 922350000 q c P) as E5. pose proof (cget_cnorm 922380000 q c P) as E8.
  pose proof (cget_nonneg 922350000 c O) as A. pose proof (cget_nonneg 922380000 c O) as B.
  set (x := cget 922350000 c) in *. set (y := cget 922380000 c) in *.
  set (x' := cget 922350000 (cnorm q c)) in *. set (y' := cget 922380000 (cnorm q c)) in *.
  assert (F : x' + y' == (q / csum c) * (x + y)) by (rewrite E5, E8; field; lra).
  assert (PQ : 0 < q / csum c) by (apply Qlt_shift_div_l; lra).
  destruct (Qltb 0 (x' + y')) eqn:E.
  - apply Qltb_true in E. assert (NZ : ~ x + y == 0) by (intro Z; rewrite Z in F; lra).
    rewrite F, E5. field. split; [exact NZ|]. split; lra.
  - apply Qltb_false in E. symmetry. apply div_zero_den. nra.
Qed.
Lemma u_frac_comp i q c : real_comp c -> u_frac (Mat i q c) == (cget 922350000 c + cget 922380000 c) / csum c.
Proof. intros (O & P). unfold u_frac, u235, u238. cbn [m_comp]. rewrite !cget_cnorm by exact P. field. lra. Qed.
Lemma u_frac_spec m : mat_ok m -> 0 < m_qty m -> u_frac m == (mass_of m 922350000 + mass_of m 922380000) / m_qty m.
Proof.
  intros (Q1 & O & [P|Z]) Hq; [|lra]. destruct m as [i q c]. cbn [m_qty m_comp] in *. rewrite (u_frac_comp i q c (conj O P)).
  unfold mass_of. cbn [m_qty m_comp]. rewrite !cget_cnorm by exact P. field. split; lra.
Qed.
(** ** The separation equations *)
Lemma feed_qty_some q a f : feed_qty q a = Some f ->
  ~ as_feed a == as_tails a /\ f == need (as_feed a) (as_product a) (as_tails a) q.
Proof.
  unfold feed_qty, need. destruct (Qeq_bool _ 0) eqn:E; [discriminate|]. intro H. injection H as <-.
  apply Qeq_bool_false in E. split; [intro X; apply E; lra|]. field. exact E.
Qed.
Lemma swu_some V q a w : swu_required V q a = Some w ->
  ~ as_feed a == as_tails a /\ w == work V (as_feed a) (as_product a) (as_tails a) q.
Proof.
  unfold swu_required, feed_qty, tails_qty, work, need, waste. destruct (Qeq_bool _ 0) eqn:E; [discriminate|].
  intro H. injection H as <-. apply Qeq_bool_false in E. split; [intro X; apply E; lra|]. field. exact E.
Qed.
Lemma need_balance xf xp xt q : ~ xf == xt -> need xf xp xt q == q + waste xf xp xt q.
Proof. intro N. unfold need, waste. field. intro Z. apply N. lra. Qed.
Lemma need_235 xf xp xt q : ~ xf == xt -> need xf xp xt q * xf - q * xp == waste xf xp xt q * xt.
Proof. intro N. unfold need, waste. field. intro Z. apply N. lra. Qed.
Lemma need_238 xf xp xt q : ~ xf == xt -> need xf xp xt q * (1 - xf) - q * (1 - xp) == waste xf xp xt q * (1 - xt).
Proof. intro N. unfold need, waste. field. intro Z. apply N. lra. Qed.
Lemma need_proper xf xf' xp xp' xt q : xf == xf' -> xp == xp' -> need xf xp xt q == need xf' xp' xt q.
Proof. intros A B. unfold need. rewrite A, B. reflexivity. Qed.

(** ** Drawing feed from the blended parcel *)
Definition draw (eps eg : Q) (b : buf) (feed : Q) : outcome (mat * buf) :=
  if almost_eq eg feed (b_qty b) then
    match squash (b_items b) with
    | Ok r => Ok (r, {| b_cap := b_cap b; b_items := [] |})
    | _ => Throw ValueError
    end
  else match b_pop_tol b feed eps with Ok x => Ok x | _ => Throw ValueError end.
(** The whole parcel is drawn (near-equality, or too little by no more than the tolerance), or exactly what is needed. *)
Definition drawn_all (eps eg S feed : Q) : Prop := Qabs (feed - S) < eg \/ (S <= feed /\ feed <= S + eps).
Lemma draw_inv eps eg c m feed r b' : draw eps eg {| b_cap := c; b_items := [m] |} feed = Ok (r, b') ->
  (r = m /\ b' = {| b_cap := c; b_items := [] |} /\ drawn_all eps eg (m_qty m) feed) \/
  (r = Mat (m_id m) feed (m_comp m) /\ 0 < feed /\ feed < m_qty m /\
   b' = {| b_cap := c; b_items := [Mat (m_id m) (m_qty m - feed) (m_comp m)] |}).
Proof.
  unfold draw, b_pop_tol, b_qty, almost_eq, items_pop_tol. cbn [b_items b_cap squash fold_left].
  assert (E : qty_of [m] == m_qty m) by (unfold qty_of; cbn; lra).
  destruct (Qltb (Qabs (feed - qty_of [m])) eg) eqn:A.
  - intro H. injection H as <- <-. left. split; [auto|]. split; [auto|]. left. apply Qltb_true in A.
    assert (X : feed - qty_of [m] == feed - m_qty m) by lra. rewrite X in A. exact A.
  - destruct (Qltb (qty_of [m] + eps) feed) eqn:B; [discriminate|]. apply Qltb_false in B.
    destruct (Qle_bool (qty_of [m]) feed) eqn:C.
    + cbn [bind]. intro H. injection H as <- <-. apply Qle_bool_iff in C. left. split; [auto|]. split; [auto|].
      right. lra.
    + apply Qle_bool_false in C. unfold items_pop_qty. destruct (Qltb (qty_of [m]) feed) eqn:D; [discriminate|].
      cbn [take_qty]. destruct (Qle_bool feed 0) eqn:F; [discriminate|]. apply Qle_bool_false in F.
      destruct (Qltb feed (m_qty m)) eqn:G; [|apply Qltb_false in G; lra].
      cbn [bind squash fold_left]. intro H. injection H as <- <-. right. split; [auto|]. split; [auto|].
      split; [lra|reflexivity].
Qed.
Lemma draw_ok eps eg c m feed : 0 <= eps -> 0 < feed -> feed <= m_qty m ->
  exists r b', draw eps eg {| b_cap := c; b_items := [m] |} feed = Ok (r, b').
Proof.
  intros He P L. unfold draw, b_pop_tol, b_qty. cbn [b_items b_cap squash fold_left].
  destruct (almost_eq eg feed (qty_of [m])); [eauto|].
  assert (E : qty_of [m] == m_qty m) by (unfold qty_of; cbn; lra).
  destruct (pop_tol_ok [m] feed eps P He) as (r & l & H); [lra|]. rewrite H. cbn [bind]. eauto.
Qed.

(** ** One enrichment *)
(** What an enrichment of [q] units against [offer] did. *)
Record enriched (eps eg : Q) (V : Q -> Q) (cfg : en_cfg) (s : en_state) (offer : mat) (q : Q)
  (s' : en_state) (resp : mat) (rc : en_record) (natu r rest : mat) : Prop := {
  en_stock : b_items (es_inv s) <> [];
  en_natu : m_qty natu == b_qty (es_inv s) /\ mat_ok natu /\ forall n, mass_of natu n == mass_in n (b_items (es_inv s));
  en_ufrac : ~ u_frac natu == 0;
  en_feedt : ~ assay natu == ec_tails_assay cfg;
  en_feed : er_feed rc == need (assay natu) (assay offer) (ec_tails_assay cfg) q / u_frac natu;
  en_work : er_swu rc == work V (assay natu) (assay offer) (ec_tails_assay cfg) q;
  en_r : (r = natu /\ b_items (es_inv s') = [] /\ drawn_all eps eg (m_qty natu) (er_feed rc)) \/
         (r = Mat (m_id natu) (er_feed rc) (m_comp natu) /\ 0 < er_feed rc /\ er_feed rc < m_qty natu /\
          b_items (es_inv s') = [Mat (m_id natu) (m_qty natu - er_feed rc) (m_comp natu)]);
  en_extract : extract_comp eps q (m_comp offer) r = Ok (resp, rest);
  en_cap : b_cap (es_inv s') = b_cap (es_inv s);
  en_tailscap : b_cap (es_tails s') = b_cap (es_tails s);
  en_tails : b_items (es_tails s') = b_items (es_tails s) ++ [rest];
  en_swu : exists c, es_swu s = Some c /\ es_swu s' = Some (c + - er_swu rc);
  en_iswu : exists c, es_iswu s = Some c /\ es_iswu s' = Some (c + er_swu rc);
  en_ifeed : exists c, es_ifeed s = Some c /\ es_ifeed s' = Some (c + er_feed rc) }.
Lemma oplus_ok a x y : oplus a x = Ok y -> exists c, a = Some c /\ y = Some (c + x).
Proof. destruct a as [c|]; cbn; [|discriminate]. intro H. injection H as <-. eauto. Qed.
Lemma feed_assay_inv eps b fa b' : 0 <= eps -> feed_assay eps b = Ok (fa, b') ->
  (b_items b = [] /\ fa = 0 /\ b' = b) \/
  (exists m, b_items b <> [] /\ squash (b_items b) = Ok m /\ fa = assay m /\ b' = {| b_cap := b_cap b; b_items := [m] |}).
Proof.
  intros He H. unfold feed_assay in H. destruct (b_items b) as [|x l] eqn:E.
  - injection H as <- <-. auto.
  - apply bind_ok in H as ([m b1] & B & H). injection H as <- <-. right.
    destruct (blend_inv _ _ _ _ He B) as (_ & S & ->). exists m. rewrite E in S. split; [discriminate|]. auto.
Qed.
Lemma enrich_inv eps eg V cfg s offer q s' resp rc : 0 <= eps -> mats_ok (b_items (es_inv s)) ->
  en_enrich eps eg V cfg s offer q = Ok (s', resp, rc) ->
  exists natu r rest, enriched eps eg V cfg s offer q s' resp rc natu r rest.
Proof.
  intros He O H. unfold en_enrich in H. apply bind_ok in H as ([fa b0] & FA & H).
  apply bind_ok in H as ([natu b1] & BL & H).
  destruct (feed_assay_inv _ _ _ _ He FA) as [(E & -> & ->)|(m & N & S & -> & ->)].
  { exfalso. destruct (blend_inv _ _ _ _ He BL) as (N & _). congruence. }
  destruct (blend_one _ _ _ _ _ He BL) as (-> & ->).
  destruct (swu_required V q _) as [swu|] eqn:SW; [|discriminate].
  destruct (feed_qty q _) as [fq|] eqn:FQ; [|discriminate].
  destruct (Qeq_bool (u_frac m) 0) eqn:UF; [discriminate|]. apply Qeq_bool_false in UF.
  apply feed_qty_some in FQ as (N1 & FQ). apply swu_some in SW as (_ & SW). cbn [as_feed as_product as_tails] in *.
  cbv zeta in H. apply bind_ok in H as ([r b2] & DR & H). change (draw eps eg {| b_cap := b_cap (es_inv s); b_items := [m] |} (fq / u_frac m) = Ok (r, b2)) in DR.
  apply bind_ok in H as ([rp rest] & EX & H). apply bind_ok in H as (t & PT & H).
  apply bind_ok in H as (cur & C1 & H). apply bind_ok in H as (isw & C2 & H). apply bind_ok in H as (ife & C3 & H).
  injection H as <- <- <-. apply oplus_ok in C1 as (c1 & C1 & ->). apply oplus_ok in C2 as (c2 & C2 & ->).
  apply oplus_ok in C3 as (c3 & C3 & ->). apply b_push_facts in PT as (P1 & P2 & _).
  destruct (squash_facts _ _ S) as (Q1 & Q2). destruct (Q2 O) as (Q3 & Q4).
  exists m, r, rest. constructor; cbn [es_inv es_tails es_swu es_iswu es_ifeed er_feed er_swu]; auto.
  - rewrite FQ. reflexivity.
  - destruct (draw_inv _ _ _ _ _ _ _ DR) as [(A & B & C)|(A & B & C & D)].
    + left. subst b2. auto.
    + right. subst b2. auto.
  - destruct (draw_inv _ _ _ _ _ _ _ DR) as [(A & B & C)|(A & B & C & D)]; subst b2; reflexivity.
  - exists c1. auto.
  - exists c2. auto.
  - exists c3. auto.
Qed.

(** What was drawn is proportional to the feed stock. *)
Lemma drawn_facts eps eg V cfg s offer q s' resp rc natu r rest : 0 <= eps -> mats_ok (b_items (es_inv s)) ->
  enriched eps eg V cfg s offer q s' resp rc natu r rest ->
  mat_ok r /\ mats_ok (b_items (es_inv s')) /\ 0 <= m_qty r /\ m_qty r <= b_qty (es_inv s) /\
  b_qty (es_inv s') == b_qty (es_inv s) - m_qty r /\
  (forall n, mass_in n (b_items (es_inv s')) == mass_in n (b_items (es_inv s)) - mass_of r n) /\
  (0 < b_qty (es_inv s) -> forall n, mass_of r n == m_qty r * (mass_in n (b_items (es_inv s)) / b_qty (es_inv s))) /\
  (b_items (es_inv s') = [] \/ 0 < b_qty (es_inv s')).
Proof.
  intros He O E. destruct E as [ES (N1 & N2 & N3) _ _ _ _ ER _ _ _ _ _ _ _].
  set (S := b_qty (es_inv s)) in *. destruct ER as [(-> & I & _)|(-> & F1 & F2 & I)].
  - split; [exact N2|]. change (b_qty (es_inv s')) with (qty_of (b_items (es_inv s'))). rewrite I. split; [constructor|].
    split; [apply N2|]. split; [lra|]. split; [rewrite qty_of_nil; lra|].
    split; [intro n; rewrite N3, mass_in_nil; lra|]. split; [|auto].
    intros P n. rewrite N3, N1. field. lra.
  - destruct natu as [i x c]. cbn [m_id m_qty m_comp] in *. set (f := er_feed rc) in *.
    assert (OC : comp_ok c) by apply N2. cbn [m_comp] in OC.
    assert (P : 0 < csum c) by (destruct N2 as (_ & _ & [P|Z]); cbn [m_comp m_qty] in *; [exact P|lra]).
    assert (M : forall k y n, mass_of (Mat k y c) n == y * (cget n c / csum c)).
    { intros k y n. unfold mass_of. cbn [m_qty m_comp]. apply cget_cnorm. exact P. }
    assert (O1 : mat_ok (Mat i f c)) by (apply (split_ok i x f c N2); lra).
    assert (O2 : mat_ok (Mat i (x - f) c)) by (apply (split_ok i x (x - f) c N2); lra).
    split; [exact O1|]. change (b_qty (es_inv s')) with (qty_of (b_items (es_inv s'))). rewrite I. split; [constructor; [exact O2|constructor]|].
    split; [lra|]. split; [lra|]. split; [rewrite qty_of_cons, qty_of_nil; cbn [m_qty]; lra|].
    split.
    { intro n. rewrite mass_in_cons, mass_in_nil, <- N3, !M. ring. }
    split.
    { intros PS n. rewrite <- N3, !M, <- N1. field. split; lra. }
    right. rewrite qty_of_cons, qty_of_nil. cbn [m_qty]. lra.
Qed.

(** Total mass; the product. *)
Lemma enrich_total eps eg V cfg s offer q s' resp rc : 0 <= eps -> mats_ok (b_items (es_inv s)) ->
  en_enrich eps eg V cfg s offer q = Ok (s', resp, rc) ->
  m_qty resp = q /\ m_comp resp = m_comp offer /\
  exists t, b_items (es_tails s') = b_items (es_tails s) ++ [t] /\ 0 <= m_qty t /\
    b_qty (es_inv s) - b_qty (es_inv s') == m_qty resp + m_qty t /\
    b_qty (es_inv s') <= b_qty (es_inv s) - q.
Proof.
  intros He O H. destruct (enrich_inv _ _ _ _ _ _ _ _ _ _ He O H) as (natu & r & rest & E).
  destruct (drawn_facts _ _ _ _ _ _ _ _ _ _ _ _ _ He O E) as (D1 & D2 & D3 & D4 & D5 & D6 & D7 & D8).
  destruct (extract_comp_facts _ _ _ _ _ _ (en_extract _ _ _ _ _ _ _ _ _ _ _ _ _ E)) as (A & B & C & D & _).
  split; [exact A|]. split; [exact B|]. exists rest. split; [apply E|].
  rewrite C. split; [lra|]. rewrite A. split; lra.
Qed.
(** Each nuclide, when no trace is dropped from what remains of the drawn feed. *)
Lemma extract_exact_of thr q c m a b : 0 <= thr -> 0 <= q -> mat_ok m -> real_comp c ->
  extract_comp thr q c m = Ok (a, b) ->
  (forall n, mass_of m n - q * (cget n c / csum c) == 0 \/ thr <= mass_of m n - q * (cget n c / csum c)) ->
  mat_ok b /\ mat_ok a /\ forall n, mass_of a n == q * (cget n c / csum c) /\ mass_of a n + mass_of b n == mass_of m n.
Proof.
  intros Ht Hq Om (Oc & Pc) H Hn.
  destruct (extract_comp_facts _ _ _ _ _ _ H) as (A & B & C & D & _).
  destruct (extract_comp_exact thr q c m Ht Hq D Om Oc Pc) as (b' & E & Ob & Qb & Mb).
  { intro n. pose proof (cget_cnorm n q c Pc) as G. specialize (Hn n). rewrite <- G in Hn.
    split; [destruct Hn; lra|exact Hn]. }
  rewrite E in H. injection H as <- <-. split; [exact Ob|]. split.
  { split; cbn; [exact Hq|]. split; [exact Oc|left; exact Pc]. }
  intro n. assert (G : mass_of (Mat (m_id m) q c) n == q * (cget n c / csum c)) by (unfold mass_of; cbn [m_qty m_comp]; apply cget_cnorm; exact Pc).
  split; [exact G|]. rewrite G, Mb, cget_cnorm by exact Pc. lra.
Qed.
Lemma cthreshold_0 c : map snd (cthreshold 0 c) = map snd c /\ forall n, cget n (cthreshold 0 c) = cget n c.
Proof.
  assert (E : cthreshold 0 c = c).
  { unfold cthreshold. rewrite <- map_id. apply map_ext. intros [k x]. cbn [fst snd].
    destruct (Qltb (Qabs x) 0) eqn:L; [apply Qltb_true in L; pose proof (Qabs_nonneg x); lra|reflexivity]. }
  rewrite E. auto.
Qed.
Lemma extract_exact0 q c m a b : 0 <= q -> mat_ok m -> real_comp c -> extract_comp 0 q c m = Ok (a, b) ->
  mat_ok b /\ mat_ok a /\ forall n, mass_of a n == q * (cget n c / csum c) /\ mass_of a n + mass_of b n == mass_of m n.
Proof.
  intros Hq Om Rc H. apply (extract_exact_of 0 q c m a b); auto; [lra|]. intro n. right.
  destruct (extract_comp_facts _ _ _ _ _ _ H) as (_ & _ & _ & _ & O & E). rewrite E in O.
  pose proof (cget_nonneg n _ O) as G. rewrite (proj2 (cthreshold_0 _) n), cget_csub in G.
  rewrite (cget_cnorm n q c (proj2 Rc)) in G. exact G.
Qed.
Lemma enrich_nuclides eps eg V cfg s offer q s' resp rc : 0 <= eps -> 0 <= q -> mats_ok (b_items (es_inv s)) ->
  real_comp (m_comp offer) -> 0 < b_qty (es_inv s) ->
  en_enrich eps eg V cfg s offer q = Ok (s', resp, rc) ->
  (let c := m_comp offer in let used := b_qty (es_inv s) - b_qty (es_inv s') in
   forall n, let left := used * (mass_in n (b_items (es_inv s)) / b_qty (es_inv s)) - q * (cget n c / csum c) in
     left == 0 \/ eps <= left) ->
  mat_ok resp /\ exists t, b_items (es_tails s') = b_items (es_tails s) ++ [t] /\ mat_ok t /\
  forall n, mass_of resp n == q * (cget n (m_comp offer) / csum (m_comp offer)) /\
    mass_in n (b_items (es_inv s)) - mass_in n (b_items (es_inv s')) == mass_of resp n + mass_of t n.
Proof.
  intros He Hq O Rc PS H Hn. destruct (enrich_inv _ _ _ _ _ _ _ _ _ _ He O H) as (natu & r & rest & E).
  destruct (drawn_facts _ _ _ _ _ _ _ _ _ _ _ _ _ He O E) as (D1 & D2 & D3 & D4 & D5 & D6 & D7 & D8).
  specialize (D7 PS).
  destruct (extract_exact_of eps q (m_comp offer) r resp rest He Hq D1 Rc (en_extract _ _ _ _ _ _ _ _ _ _ _ _ _ E)) as (R1 & R2 & R3).
  { intro n. specialize (Hn n). cbv zeta in Hn. rewrite D7.
    assert (X : b_qty (es_inv s) - b_qty (es_inv s') == m_qty r) by lra. rewrite X in Hn. exact Hn. }
  split; [exact R2|]. exists rest. split; [apply E|]. split; [exact R1|].
  intro n. destruct (R3 n) as [R4 R5]. split; [exact R4|]. rewrite D6, R5. lra.
Qed.
Lemma enrich_nuclides0 eg V cfg s offer q s' resp rc : 0 <= q -> mats_ok (b_items (es_inv s)) ->
  real_comp (m_comp offer) ->
  en_enrich 0 eg V cfg s offer q = Ok (s', resp, rc) ->
  mat_ok resp /\ exists t, b_items (es_tails s') = b_items (es_tails s) ++ [t] /\ mat_ok t /\
  forall n, mass_of resp n == q * (cget n (m_comp offer) / csum (m_comp offer)) /\
    mass_in n (b_items (es_inv s)) - mass_in n (b_items (es_inv s')) == mass_of resp n + mass_of t n.
Proof.
  intros Hq O Rc H. assert (He : 0 <= 0) by lra. destruct (enrich_inv _ _ _ _ _ _ _ _ _ _ He O H) as (natu & r & rest & E).
  destruct (drawn_facts _ _ _ _ _ _ _ _ _ _ _ _ _ He O E) as (D1 & D2 & D3 & D4 & D5 & D6 & D7 & D8).
  destruct (extract_exact0 q (m_comp offer) r resp rest Hq D1 Rc (en_extract _ _ _ _ _ _ _ _ _ _ _ _ _ E)) as (R1 & R2 & R3).
  split; [exact R2|]. exists rest. split; [apply E|]. split; [exact R1|].
  intro n. destruct (R3 n) as [R4 R5]. split; [exact R4|]. rewrite D6, R5. lra.
Qed.
(** The stock is positive. *)
Lemma enrich_stock eps eg V cfg s offer q s' resp rc : 0 <= eps -> 0 < q -> mats_ok (b_items (es_inv s)) ->
  en_enrich eps eg V cfg s offer q = Ok (s', resp, rc) -> 0 < b_qty (es_inv s) /\ 0 < uranium (b_items (es_inv s)).
Proof.
  intros He Hq O H. destruct (enrich_inv _ _ _ _ _ _ _ _ _ _ He O H) as (natu & r & rest & E).
  destruct (drawn_facts _ _ _ _ _ _ _ _ _ _ _ _ _ He O E) as (D1 & D2 & D3 & D4 & D5 & D6 & D7 & D8).
  destruct (extract_comp_facts _ _ _ _ _ _ (en_extract _ _ _ _ _ _ _ _ _ _ _ _ _ E)) as (_ & _ & _ & D & _).
  assert (PS : 0 < b_qty (es_inv s)) by lra. split; [exact PS|].
  destruct (en_natu _ _ _ _ _ _ _ _ _ _ _ _ _ E) as (N1 & N2 & N3).
  pose proof (en_ufrac _ _ _ _ _ _ _ _ _ _ _ _ _ E) as U. rewrite u_frac_spec in U by (try exact N2; lra).
  unfold uranium. rewrite <- !N3. pose proof (mass_nonneg natu 922350000 N2). pose proof (mass_nonneg natu 922380000 N2).
  destruct (Qlt_le_dec 0 (mass_of natu 922350000 + mass_of natu 922380000)) as [L|L]; [exact L|]. exfalso. apply U.
  assert (Z : mass_of natu 922350000 + mass_of natu 922380000 == 0) by lra. rewrite Z. field. lra.
Qed.
(** The records in terms of the feed stock. *)
Lemma enrich_record eps eg V cfg s offer q s' resp rc : 0 <= eps -> 0 < q -> mats_ok (b_items (es_inv s)) ->
  (forall x y, x == y -> V x == V y) -> 0 < m_qty offer -> real_comp (m_comp offer) ->
  en_enrich eps eg V cfg s offer q = Ok (s', resp, rc) ->
  ~ assay_of (b_items (es_inv s)) == ec_tails_assay cfg /\
  er_feed rc == need (assay_of (b_items (es_inv s))) (mass_assay (m_comp offer)) (ec_tails_assay cfg) q / purity (b_items (es_inv s)) /\
  er_swu rc == work V (assay_of (b_items (es_inv s))) (mass_assay (m_comp offer)) (ec_tails_assay cfg) q.
Proof.
  intros He Hq O HV Ho Rc H. destruct (enrich_stock _ _ _ _ _ _ _ _ _ _ He Hq O H) as (PS & PU).
  destruct (enrich_inv _ _ _ _ _ _ _ _ _ _ He O H) as (natu & r & rest & E).
  destruct (en_natu _ _ _ _ _ _ _ _ _ _ _ _ _ E) as (N1 & N2 & N3).
  pose proof (assay_spec natu _ O N3) as AS.
  assert (AO : assay offer == mass_assay (m_comp offer)) by (destruct offer as [i x c]; apply assay_comp; auto).
  assert (UF : u_frac natu == purity (b_items (es_inv s))).
  { rewrite u_frac_spec by (try exact N2; lra). unfold purity, uranium. rewrite !N3, N1. reflexivity. }
  split; [rewrite <- AS; apply E|]. split.
  - rewrite (en_feed _ _ _ _ _ _ _ _ _ _ _ _ _ E), UF, (need_proper _ _ _ _ _ _ AS AO). reflexivity.
  - rewrite (en_work _ _ _ _ _ _ _ _ _ _ _ _ _ E). unfold work, waste, need. rewrite (HV _ _ AS), (HV _ _ AO), AS, AO. reflexivity.
Qed.

(** Masses of a remainder are proportional to the remaining amounts. *)
Lemma mass_prop i q c : comp_ok c -> exists k, forall n, mass_of (Mat i q c) n == k * cget n c.
Proof.
  intro O. unfold mass_of. cbn [m_qty m_comp]. destruct (Qlt_le_dec 0 (csum c)) as [P|P].
  - exists (q / csum c). intro n. rewrite cget_cnorm by exact P. field. lra.
  - exists 1. intro n. rewrite cnorm_zero by (pose proof (csum_nonneg c O); lra). lra.
Qed.
Lemma extract_left thr q c m a b n : 0 <= thr -> mat_ok m -> real_comp c -> extract_comp thr q c m = Ok (a, b) ->
  (mass_of m n - q * (cget n c / csum c) == 0 \/ thr <= mass_of m n - q * (cget n c / csum c)) ->
  cget n (m_comp b) == mass_of m n - q * (cget n c / csum c).
Proof.
  intros Ht Om (Oc & Pc) H Hn. destruct (extract_comp_facts _ _ _ _ _ _ H) as (_ & _ & _ & _ & O & E). rewrite E.
  assert (X : cget n (csub (cnorm (m_qty m) (m_comp m)) (cnorm q c)) == mass_of m n - q * (cget n c / csum c)).
  { rewrite cget_csub, (cget_cnorm n q c Pc). reflexivity. }
  rewrite cthreshold_exact; [exact X|apply csub_nodup|]. rewrite X.
  destruct Hn as [Z|L]; [left; exact Z|right]. rewrite Qabs_pos; [exact L|lra].
Qed.
Lemma enrich_tails eps eg V cfg s offer q s' resp rc : 0 <= eps -> 0 < q -> mats_ok (b_items (es_inv s)) ->
  0 < m_qty offer -> uranium_only (m_comp offer) ->
  en_enrich eps eg V cfg s offer q = Ok (s', resp, rc) ->
  let xf := assay_of (b_items (es_inv s)) in let xp := mass_assay (m_comp offer) in let xt := ec_tails_assay cfg in
  let w := waste xf xp xt q in
  b_qty (es_inv s) - b_qty (es_inv s') == er_feed rc ->
  (w * xt == 0 \/ eps <= w * xt) -> (w * (1 - xt) == 0 \/ eps <= w * (1 - xt)) ->
  exists t, b_items (es_tails s') = b_items (es_tails s) ++ [t] /\
    mass_of t 922350000 == xt * (mass_of t 922350000 + mass_of t 922380000).
Proof.
  intros He Hq O Ho (Rc & UO) H xf xp xt w EX T5 T8.
  destruct (enrich_stock _ _ _ _ _ _ _ _ _ _ He Hq O H) as (PS & PU).
  destruct (enrich_inv _ _ _ _ _ _ _ _ _ _ He O H) as (natu & r & rest & E).
  destruct (drawn_facts _ _ _ _ _ _ _ _ _ _ _ _ _ He O E) as (D1 & D2 & D3 & D4 & D5 & D6 & D7 & D8).
  specialize (D7 PS). destruct (en_natu _ _ _ _ _ _ _ _ _ _ _ _ _ E) as (N1 & N2 & N3).
  assert (NF : ~ xf == xt).
  { unfold xf. rewrite <- (assay_spec natu _ O N3). apply E. }
  assert (FD : m_qty r == need xf xp xt q / purity (b_items (es_inv s))).
  { assert (X : m_qty r == er_feed rc) by lra. rewrite X. rewrite (en_feed _ _ _ _ _ _ _ _ _ _ _ _ _ E).
    assert (AO : assay offer == xp) by (destruct offer as [i x c]; apply assay_comp; auto).
    assert (Y : need (assay natu) (assay offer) (ec_tails_assay cfg) q == need xf xp xt q)
      by (apply need_proper; [exact (assay_spec natu _ O N3)|exact AO]).
    rewrite Y.
    rewrite u_frac_spec by (try exact N2; lra). unfold purity, uranium. rewrite !N3, N1. reflexivity. }
  exists rest. split; [apply E|].
  set (S := b_qty (es_inv s)) in *. set (ms := b_items (es_inv s)) in *. set (c := m_comp offer) in *.
  assert (PC : 0 < csum c) by apply Rc.
  assert (EQS : qty_of ms = S) by reflexivity.
  assert (M5 : mass_of r 922350000 == need xf xp xt q * xf).
  { rewrite D7, FD. generalize (need xf xp xt q). intro N. unfold xf, assay_of, purity. rewrite EQS. field. split; lra. }
  assert (M8 : mass_of r 922380000 == need xf xp xt q * (1 - xf)).
  { assert (X1 : 1 - xf == mass_in 922380000 ms / uranium ms).
    { unfold xf, assay_of. unfold uranium in *. field. lra. }
    rewrite X1, D7, FD. generalize (need xf xp xt q). intro N. unfold purity. rewrite EQS. field. split; lra. }
  assert (P5 : cget 922350000 c / csum c == xp).
  { unfold xp, mass_assay. fold c. rewrite UO. reflexivity. }
  assert (P8 : cget 922380000 c / csum c == 1 - xp).
  { rewrite <- P5. rewrite <- UO in PC |- *. field. lra. }
  pose proof (en_extract _ _ _ _ _ _ _ _ _ _ _ _ _ E) as EXT.
  pose proof (extract_left eps q c r resp rest 922350000 He D1 Rc EXT) as L5.
  pose proof (extract_left eps q c r resp rest 922380000 He D1 Rc EXT) as L8.
  rewrite P5, M5, (need_235 xf xp xt q NF) in L5. rewrite P8, M8, (need_238 xf xp xt q NF) in L8.
  specialize (L5 T5). specialize (L8 T8).
  destruct (extract_comp_facts _ _ _ _ _ _ EXT) as (_ & _ & _ & _ & OR & _).
  destruct rest as [ri rq rcmp]. cbn [m_comp] in *. destruct (mass_prop ri rq rcmp OR) as (k & K).
  rewrite !K, L5, L8. fold w. ring.
Qed.
