(** Proofs about the Source. *)
From Coq Require Import Lia Lqa.
From Verif Require Import Outcome KernelMaterial KernelResBuf KernelBuf KernelFacts KernelMass KernelBufFacts SourceModel SourceSpec.
Local Open Scope Q_scope.

(** ** Packages *)
Lemma split_facts fs : forall m ps r, split_packages fs m = Ok (ps, r) ->
  map m_qty ps = fs /\ Forall (fun p => m_comp p = m_comp m) ps /\ m_comp r = m_comp m /\
  m_qty r == m_qty m - qsum fs.
Proof.
  induction fs as [|f fs IH]; intros m ps r H; cbn [split_packages] in H.
  - injection H as <- <-. repeat split; auto. cbn. lra.
  - destruct (extract_qty f m) as [[p m1]| | |] eqn:E; try discriminate. cbn [bind] in H.
    destruct (split_packages fs m1) as [[ps' r']| | |] eqn:S; try discriminate. cbn [bind] in H. injection H as <- <-.
    unfold extract_qty in E. destruct (Qltb (m_qty m) f); [discriminate|]. injection E as <- <-.
    apply IH in S as (A & B & C & D). cbn in B, C, D. cbn [map m_qty]. rewrite A. split; [reflexivity|].
    split; [constructor; [reflexivity|exact B]|]. split; [exact C|]. change (qsum (f :: fs)) with (f + qsum fs). lra.
Qed.
Lemma split_ok fs : forall m, Forall (fun x => 0 <= x) fs -> qsum fs <= m_qty m -> exists ps r, split_packages fs m = Ok (ps, r).
Proof.
  induction fs as [|f fs IH]; intros m N L; cbn [split_packages]; [eauto|].
  inversion N as [|? ? Nf N']; subst. change (f + qsum fs <= m_qty m) in L.
  pose proof (qsum_nonneg fs N') as P. unfold extract_qty.
  destruct (Qltb (m_qty m) f) eqn:E; [apply Qltb_true in E; lra|]. cbn [bind].
  destruct (IH {| m_id := m_id m; m_qty := m_qty m - f; m_comp := m_comp m |} N') as (ps & r & S); [cbn; lra|].
  rewrite S. cbn [bind]. eauto.
Qed.

(** ** One trade *)
Lemma trade_one eps eg cfg fill i k amt tgt ts b b' rs : (0 < k)%Z ->
  sr_trade_loop eps eg cfg fill i k ((amt, tgt) :: ts) b = Ok (b', rs) ->
  exists m r1 pkgs rest b2 resp k' rs', items_pop_qty (b_items b) amt = Ok (m, r1) /\
    split_packages (fill i (m_qty m)) m = Ok (pkgs, rest) /\
    (b_cap b = None -> b_cap b2 = None) /\
    (eg < m_qty rest -> b_items b2 = r1 ++ [rest]) /\ (m_qty rest <= eg -> b_items b2 = r1) /\
    m_qty resp = match pkgs with p :: _ => m_qty p | [] => 0 end /\ m_comp resp = match pkgs with p :: _ => m_comp p | [] => m_comp rest end /\
    k' = match pkgs with _ :: _ => (k - 1)%Z | [] => k end /\
    sr_trade_loop eps eg cfg fill (S i) k' ts b2 = Ok (b', rs') /\
    rs = (i, if String.eqb (sc_recipe cfg) "" then transmute resp (m_comp tgt) else resp) :: rs'.
Proof.
  intros K H. cbn [sr_trade_loop] in H. apply Z.ltb_lt in K. rewrite K in H. unfold b_pop_qty in H.
  destruct (items_pop_qty (b_items b) amt) as [[m r1]| | |] eqn:P; try discriminate. cbn [bind] in H.
  destruct (split_packages (fill i (m_qty m)) m) as [[pkgs rest]| | |] eqn:S; try discriminate. cbn [bind] in H.
  destruct (if Qltb eg (m_qty rest) then b_push eps _ rest else _) as [b2| | |] eqn:U; try discriminate. cbn [bind] in H.
  assert (X : (b_cap b = None -> b_cap b2 = None) /\ (eg < m_qty rest -> b_items b2 = r1 ++ [rest]) /\ (m_qty rest <= eg -> b_items b2 = r1)).
  { destruct (Qltb eg (m_qty rest)) eqn:E.
    - apply b_push_facts in U as (U1 & U2 & _). cbn in U1, U2. apply Qltb_true in E. split; [congruence|]. split; [auto|]. intro; lra.
    - injection U as <-. cbn. apply Qltb_false in E. split; [auto|]. split; [intro; lra|auto]. }
  destruct X as (X1 & X2 & X3).
  destruct pkgs as [|p pkgs].
  - destruct (sr_trade_loop eps eg cfg fill (Datatypes.S i) k ts b2) as [[b3 rs']| | |] eqn:T; try discriminate. cbn [bind] in H. injection H as <- <-.
    exists m, r1, [], rest, b2, (Mat 0 0 (m_comp rest)), k, rs'. repeat (split; [auto|]). reflexivity.
  - destruct (sr_trade_loop eps eg cfg fill (Datatypes.S i) (k - 1) ts b2) as [[b3 rs']| | |] eqn:T; try discriminate. cbn [bind] in H. injection H as <- <-.
    exists m, r1, (p :: pkgs), rest, b2, p, (k - 1)%Z, rs'. repeat (split; [auto|]). reflexivity.
Qed.
Lemma trade_none eps eg cfg fill i k t ts b : ~ (0 < k)%Z ->
  sr_trade_loop eps eg cfg fill i k (t :: ts) b = sr_trade_loop eps eg cfg fill (S i) k ts b.
Proof. intro K. cbn [sr_trade_loop]. destruct t as [amt tgt]. destruct (Z.ltb_spec 0 k); [lia|reflexivity]. Qed.

Lemma resp_qty cfg resp tgt : m_qty (if String.eqb (sc_recipe cfg) "" then transmute resp (m_comp tgt) else resp) = m_qty resp.
Proof. destruct (String.eqb (sc_recipe cfg) ""); reflexivity. Qed.

Lemma fill_split (l : list Q) (ps : list mat) : map m_qty ps = l -> Forall (fun x => 0 <= x) l ->
  0 <= match ps with p :: _ => m_qty p | [] => 0 end /\ match ps with p :: _ => m_qty p | [] => 0 end <= qsum l /\
  ((List.length l <= 1)%nat -> match ps with p :: _ => m_qty p | [] => 0 end == qsum l).
Proof.
  intros <- N. destruct ps as [|p ps]; cbn [map]; [cbn; repeat split; lra|]. inversion N as [|? ? Np N']; subst.
  change (qsum (m_qty p :: map m_qty ps)) with (m_qty p + qsum (map m_qty ps)). pose proof (qsum_nonneg _ N').
  split; [exact Np|]. split; [lra|]. intro L. destruct ps; [cbn; lra|cbn in L; lia].
Qed.

(** ** All trades of a step *)
Lemma loop_qty eps eg cfg fill : 0 <= eg -> filler_ok fill -> forall ts i k b b' rs, qtys_ok (b_items b) -> Forall (fun t => 0 <= fst t) ts ->
  sr_trade_loop eps eg cfg fill i k ts b = Ok (b', rs) ->
  qtys_ok (b_items b') /\ qty_of (b_items b') + qty_of (map snd rs) <= qty_of (b_items b) /\
  (b_cap b = None -> b_cap b' = None) /\
  Forall (fun jr => exists j amt tgt, fst jr = (i + j)%nat /\ nth_error ts j = Some (amt, tgt) /\ 0 <= m_qty (snd jr) <= amt /\
     (sc_recipe cfg = ""%string -> m_comp (snd jr) = m_comp tgt)) rs /\
  ((forall j amt tgt q, nth_error ts j = Some (amt, tgt) -> q == amt ->
      (List.length (fill (i + j)%nat q) <= 1)%nat /\ (qsum (fill (i + j)%nat q) == q \/ eg < q - qsum (fill (i + j)%nat q))) ->
   qty_of (b_items b') + qty_of (map snd rs) == qty_of (b_items b)).
Proof.
  intros Heg F. induction ts as [|[amt tgt] ts IH]; intros i k b b' rs O N H.
  - cbn in H. injection H as <- <-. split; [exact O|]. cbn [map]. rewrite qty_of_nil. split; [lra|]. split; [auto|]. split; [constructor|]. intros _. lra.
  - inversion N as [|? ? Na N']; subst. cbn [fst] in Na. destruct (Z_lt_dec 0 k) as [K|K].
    2: { rewrite trade_none in H by exact K. destruct (IH _ _ _ _ _ O N' H) as (A & B & C & D & E).
         split; [exact A|]. split; [exact B|]. split; [exact C|]. split.
         - eapply Forall_impl; [|exact D]. intros jr (j & a & t & J1 & J2 & J3). exists (S j), a, t. split; [lia|]. auto.
         - intro X. apply E. intros j a t q J. replace (S i + j)%nat with (i + S j)%nat by lia. apply (X (S j) a t). exact J. }
    apply trade_one in H as (m & r1 & pkgs & rest & b2 & resp & k' & rs' & P & S & C & U1 & U2 & RQ & RC & _ & T & ->); [|exact K].
    apply pop_qty_q in P as (P1 & P2 & P3 & P4); [|exact O|exact Na].
    pose proof (split_facts _ _ _ _ S) as (S1 & S2 & S3 & S4).
    destruct (F i (m_qty m)) as [F1 F2]; [lra|]. pose proof (fill_split _ _ S1 F1) as (G0 & G1 & G2). rewrite <- RQ in G0, G1, G2.
    assert (O2 : qtys_ok (b_items b2) /\ qty_of (b_items b2) <= qty_of r1 + m_qty rest /\
                 (m_qty rest == 0 \/ eg < m_qty rest -> qty_of (b_items b2) == qty_of r1 + m_qty rest)).
    { destruct (Qlt_le_dec eg (m_qty rest)) as [Y|Y].
      - rewrite (U1 Y). split; [apply Forall_app; split; [exact P4|constructor; [lra|constructor]]|].
        rewrite qty_of_app, qty_of_cons, qty_of_nil. split; [lra|]. intros _. lra.
      - rewrite (U2 Y). split; [exact P4|]. split; [lra|]. intros [Z|Z]; lra. }
    destruct O2 as (O2 & L2 & E2).
    destruct (IH _ _ _ _ _ O2 N' T) as (A & B & CC & D & E). split; [exact A|].
    cbn [map snd]. rewrite qty_of_cons, resp_qty. split; [lra|]. split; [auto|]. split.
    + constructor.
      * exists 0%nat, amt, tgt. cbn [fst snd nth_error]. rewrite resp_qty. split; [lia|]. split; [reflexivity|]. split; [lra|].
        intros ->. cbn. reflexivity.
      * eapply Forall_impl; [|exact D]. intros jr (j & a & t & J1 & J2 & J3). exists (Datatypes.S j), a, t. split; [lia|]. auto.
    + intro X. destruct (X 0%nat amt tgt (m_qty m) eq_refl P1) as [X1 X2]. rewrite Nat.add_0_r in X1, X2.
      assert (EE : qty_of (b_items b') + qty_of (map snd rs') == qty_of (b_items b2)).
      { apply E. intros j a t q J. replace (Datatypes.S i + j)%nat with (i + Datatypes.S j)%nat by lia. apply (X (Datatypes.S j) a t). exact J. }
      specialize (G2 X1). assert (R0 : m_qty rest == 0 \/ eg < m_qty rest) by (destruct X2; [left|right]; lra).
      specialize (E2 R0). lra.
Qed.

(** Transport: no more full responses than may be shipped. *)
Lemma loop_shipped eps eg cfg fill : forall ts i k b b' rs, sr_trade_loop eps eg cfg fill i k ts b = Ok (b', rs) ->
  (zlen (filter (fun jr => negb (Qeq_bool (m_qty (snd jr)) 0)) rs) <= Z.max 0 k)%Z.
Proof.
  induction ts as [|[amt tgt] ts IH]; intros i k b b' rs H.
  - cbn in H. injection H as <- <-. cbn. unfold zlen. cbn. lia.
  - destruct (Z_lt_dec 0 k) as [K|K].
    2: { rewrite trade_none in H by exact K. exact (IH _ _ _ _ _ H). }
    apply trade_one in H as (m & r1 & pkgs & rest & b2 & resp & k' & rs' & _ & _ & _ & _ & _ & RQ & _ & KE & T & ->); [|exact K].
    specialize (IH _ _ _ _ _ T). cbn [filter snd]. rewrite resp_qty, RQ. destruct pkgs as [|p pkgs].
    + cbn. subst k'. exact IH.
    + destruct (negb _); unfold zlen in *; cbn [List.length]; lia.
Qed.

Lemma build_facts eps recipe cfg s0 : sr_build eps recipe cfg = Ok s0 ->
  exists c, ss_inv s0 = {| b_cap := None; b_items := [Mat 0 (sc_inv_size cfg) c] |} /\
    (sc_recipe cfg = ""%string -> c = []) /\ (sc_recipe cfg <> ""%string -> recipe (sc_recipe cfg) = Some c).
Proof.
  unfold sr_build. destruct (String.eqb_spec (sc_recipe cfg) "") as [E|E].
  - cbn. intro H. injection H as <-. exists []. split; [reflexivity|]. split; [auto|congruence].
  - destruct (recipe (sc_recipe cfg)) as [c|]; cbn; [|discriminate]. intro H. injection H as <-. exists c. split; [reflexivity|]. split; [congruence|auto].
Qed.

Section SRC.
Variables (eps eg : Q) (recipe : string -> option comp) (cfg : sr_cfg).
Hypothesis Heg : 0 <= eg.

Lemma step_parts s e s' o : sr_step eps eg recipe cfg s e = Ok (s', o) ->
  sr_get_bids eg recipe cfg (se_fill_bids e) (se_ship e) (se_reqs e) s = Ok (so_supply o, so_port o) /\
  sr_trade_loop eps eg cfg (se_fill e) 0 (se_ship e (zlen (se_trades e))) (se_trades e) (ss_inv s) = Ok (ss_inv s', so_sent o).
Proof.
  unfold sr_step, sr_get_trades. intro H.
  destruct (sr_get_bids eg recipe cfg (se_fill_bids e) (se_ship e) (se_reqs e) s) as [[q p]| | |]; try discriminate. cbn [bind] in H.
  destruct (sr_trade_loop eps eg cfg (se_fill e) 0 (se_ship e (zlen (se_trades e))) (se_trades e) (ss_inv s)) as [[b rs]| | |]; try discriminate.
  cbn [bind] in H. injection H as <- <-. auto.
Qed.
Definition sr_good (s : sr_state) : Prop := qtys_ok (b_items (ss_inv s)) /\ b_cap (ss_inv s) = None.
Lemma step_qty s e s' o : env_ok e -> sr_good s -> sr_step eps eg recipe cfg s e = Ok (s', o) ->
  sr_good s' /\ held s' + sent o <= held s /\ (tidy eg e -> held s' + sent o == held s).
Proof.
  intros (F1 & F2 & N) [O C] H. apply step_parts in H as [_ T].
  destruct (loop_qty eps eg cfg (se_fill e) Heg F2 _ _ _ _ _ _ O N T) as (A & B & D & _ & E).
  split; [split; auto|]. split; [exact B|]. intro X. apply E. exact X.
Qed.
Lemma build_good s0 : 0 <= sc_inv_size cfg -> sr_build eps recipe cfg = Ok s0 -> sr_good s0 /\ held s0 == sc_inv_size cfg.
Proof.
  intros P H. apply build_facts in H as (c & E & _). unfold sr_good, held. rewrite E. cbn [b_items b_cap].
  split; [split; [constructor; [exact P|constructor]|reflexivity]|]. rewrite qty_of_cons, qty_of_nil. cbn. lra.
Qed.
Lemma run_qty es : forall s s' os, Forall env_ok es -> sr_good s -> sr_run eps eg recipe cfg s es = Ok (s', os) ->
  sr_good s' /\ held s' + sent_all os <= held s /\ (Forall (tidy eg) es -> held s' + sent_all os == held s).
Proof.
  induction es as [|e es IH]; intros s s' os N G H; cbn [sr_run] in H.
  - injection H as <- <-. split; [exact G|]. unfold sent_all. cbn. split; [lra|]. intros _. lra.
  - destruct (sr_step eps eg recipe cfg s e) as [[s1 o]| | |] eqn:T; try discriminate. cbn [bind] in H.
    destruct (sr_run eps eg recipe cfg s1 es) as [[s2 os']| | |] eqn:R; try discriminate. cbn [bind] in H. injection H as <- <-.
    inversion N as [|? ? Ne N']; subst. destruct (step_qty s e s1 o Ne G T) as (G1 & A & B).
    destruct (IH _ _ _ N' G1 R) as (G2 & C & D). split; [exact G2|].
    change (sent_all (o :: os')) with (sent o + sent_all os'). split; [lra|]. intro X. inversion X as [|? ? X1 X2]; subst.
    specialize (B X1). specialize (D X2). lra.
Qed.
Lemma lived_qty es s os : 0 <= sc_inv_size cfg -> Forall env_ok es -> sr_lived eps eg recipe cfg es s os ->
  sr_good s /\ 0 <= held s /\ held s + sent_all os <= sc_inv_size cfg /\ (Forall (tidy eg) es -> held s + sent_all os == sc_inv_size cfg).
Proof.
  intros P N (s0 & B & R). destruct (build_good s0 P B) as [G E]. destruct (run_qty es s0 s os N G R) as (G' & C & D).
  split; [exact G'|]. split; [apply qtys_ok_nonneg, G'|]. split; [lra|]. intro X. specialize (D X). lra.
Qed.
Lemma never_more_final es s os : 0 <= sc_inv_size cfg -> Forall env_ok es -> sr_lived eps eg recipe cfg es s os ->
  0 <= held s /\ held s + sent_all os <= sc_inv_size cfg.
Proof. intros P N L. destruct (lived_qty es s os P N L) as (_ & A & B & _). auto. Qed.
Lemma conserved_final es s os : 0 <= sc_inv_size cfg -> Forall env_ok es -> Forall (tidy eg) es -> sr_lived eps eg recipe cfg es s os ->
  held s + sent_all os == sc_inv_size cfg.
Proof. intros P N X L. destruct (lived_qty es s os P N L) as (_ & _ & _ & B). auto. Qed.
Lemma unpackaged_tidy e : unpackaged (se_fill e) -> tidy eg e.
Proof. intros U i amt tgt q _ _. rewrite U. cbn. split; [lia|]. left. lra. Qed.
Lemma unpackaged_ok f : unpackaged f -> filler_ok f.
Proof. intros U i q P. rewrite U. cbn. split; [constructor; [exact P|constructor]|lra]. Qed.
Lemma unpackaged_conserved_final es s os : 0 <= sc_inv_size cfg ->
  Forall (fun e => unpackaged (se_fill_bids e) /\ unpackaged (se_fill e) /\ Forall (fun t => 0 <= fst t) (se_trades e)) es ->
  sr_lived eps eg recipe cfg es s os -> held s + sent_all os == sc_inv_size cfg.
Proof.
  intros P U L. apply (conserved_final es s os P); [| |exact L].
  - eapply Forall_impl; [|exact U]. intros e (A & B & C). repeat split; auto; apply unpackaged_ok; auto.
  - eapply Forall_impl; [|exact U]. intros e (_ & B & _). apply unpackaged_tidy, B.
Qed.

(** ** Bids *)
Definition promised (target : mat) : outcome comp :=
  if String.eqb (sc_recipe cfg) "" then Ok (m_comp target)
  else match recipe (sc_recipe cfg) with Some c => Ok c | None => Throw KeyError end.
Lemma bids_for_facts j tgt fs : forall bs, sr_bids_for recipe cfg j tgt fs = Ok bs ->
  map (fun b => m_qty (sb_mat b)) bs = fs /\ Forall (fun b => sb_req b = j /\ promised tgt = Ok (m_comp (sb_mat b))) bs.
Proof.
  induction fs as [|f fs IH]; intros bs H; cbn [sr_bids_for] in H.
  - injection H as <-. auto.
  - fold (promised tgt) in H. destruct (promised tgt) as [c| | |] eqn:P; try discriminate. cbn [bind] in H.
    destruct (sr_bids_for recipe cfg j tgt fs) as [bs'| | |]; try discriminate. cbn [bind] in H. injection H as <-.
    destruct (IH _ eq_refl) as [A B]. cbn. rewrite A. auto.
Qed.
Lemma filter_all {A} (f : A -> bool) l : Forall (fun x => f x = true) l -> filter f l = l.
Proof. induction 1; cbn; [reflexivity|]. rewrite H. f_equal. exact IHForall. Qed.
Lemma filter_none {A} (f : A -> bool) l : Forall (fun x => f x = false) l -> filter f l = [].
Proof. induction 1; cbn; [reflexivity|]. rewrite H. exact IHForall. Qed.
Lemma bids_loop_facts fill ship mx targets : forall j bs, sr_bids_loop recipe cfg fill ship mx j targets = Ok bs ->
  Forall (fun b => (j <= sb_req b < j + List.length targets)%nat) bs /\
  forall i tgt, nth_error targets i = Some tgt ->
    let mine := map sb_mat (filter (fun b => Nat.eqb (sb_req b) (j + i)) bs) in
    map m_qty mine = cut_to_shippable ship (fill (j + i)%nat (Qmin (m_qty tgt) mx)) /\
    Forall (fun m => promised tgt = Ok (m_comp m)) mine.
Proof.
  induction targets as [|t ts IH]; intros j bs H; cbn [sr_bids_loop] in H.
  - injection H as <-. split; [constructor|]. intros [|i] tgt X; discriminate.
  - destruct (sr_bids_for recipe cfg j t _) as [b1| | |] eqn:B; try discriminate. cbn [bind] in H.
    destruct (sr_bids_loop recipe cfg fill ship mx (S j) ts) as [b2| | |] eqn:L; try discriminate. cbn [bind] in H. injection H as <-.
    destruct (IH _ _ L) as [A C]. apply bids_for_facts in B as [B1 B2]. split.
    + apply Forall_app. split; [eapply Forall_impl; [|exact B2]|eapply Forall_impl; [|exact A]]; cbn [List.length]; intros b Hb; cbn in Hb; [destruct Hb|]; lia.
    + intros [|i] tgt X; cbn [nth_error] in X; cbv zeta; rewrite filter_app.
      * injection X as ->. rewrite Nat.add_0_r. rewrite (filter_all _ b1), (filter_none _ b2), app_nil_r.
        -- rewrite map_map. split; [exact B1|]. apply Forall_map. eapply Forall_impl; [|exact B2]. cbn. tauto.
        -- eapply Forall_impl; [|exact A]. cbn. intros b Hb. apply Nat.eqb_neq. lia.
        -- eapply Forall_impl; [|exact B2]. cbn. intros b [-> _]. apply Nat.eqb_refl.
      * rewrite (filter_none _ b1). 2: { eapply Forall_impl; [|exact B2]. cbn. intros b [-> _]. apply Nat.eqb_neq. lia. }
        cbn [app]. replace (j + S i)%nat with (S j + i)%nat by lia. apply (C i tgt X).
Qed.
Lemma cut_facts ship fs : Forall (fun x => 0 <= x) fs -> Forall (fun x => 0 <= x) (cut_to_shippable ship fs) /\ qsum (cut_to_shippable ship fs) <= qsum fs /\
  (forall x, In x (cut_to_shippable ship fs) -> x <= qsum fs).
Proof.
  intro N. assert (S : forall n, qsum (firstn n fs) <= qsum fs).
  { induction N as [|f fs Nf N' IH]; intros [|n]; cbn [firstn]; try (cbn; lra).
    - cbn. change (0 <= f + qsum fs). pose proof (qsum_nonneg _ N'). lra.
    - change (f + qsum (firstn n fs) <= f + qsum fs). specialize (IH n). lra. }
  assert (X : forall x, In x fs -> x <= qsum fs).
  { clear S. induction N as [|f fs Nf N' IH]; intros x []; change (x <= f + qsum fs); pose proof (qsum_nonneg _ N').
    - subst. lra.
    - specialize (IH x H). lra. }
  unfold cut_to_shippable. destruct (_ && _)%bool; [|repeat split; auto; lra].
  split; [apply Forall_firstn, N|]. split; [apply S|]. intros x I. apply X. eapply firstn_In, I.
Qed.
Lemma bids_final es e s os s' o : 0 <= sc_inv_size cfg -> 0 <= sc_throughput cfg -> Forall env_ok (es ++ [e]) -> Forall (fun r => 0 <= m_qty (snd r)) (se_reqs e) ->
  sr_lived eps eg recipe cfg es s os -> sr_step eps eg recipe cfg s e = Ok (s', o) ->
  so_supply o = most cfg s /\
  (so_port o <> None <-> wanted cfg e <> [] /\ eg <= most cfg s) /\
  forall p, so_port o = Some p -> sp_limit p = most cfg s /\
    Forall (fun b => (sb_req b < List.length (wanted cfg e))%nat) (sp_bids p) /\
    forall j target, nth_error (wanted cfg e) j = Some target ->
      let room := Qmin (m_qty target) (most cfg s) in
      qty_of (offered_to j p) <= room /\ Forall (fun m => 0 <= m_qty m <= room) (offered_to j p) /\
      Forall (fun m => if String.eqb (sc_recipe cfg) "" then m_comp m = m_comp target else recipe (sc_recipe cfg) = Some (m_comp m)) (offered_to j p) /\
      (unpackaged (se_fill_bids e) -> unrestricted (se_ship e) -> map m_qty (offered_to j p) = [room]) /\
      (let packages := se_fill_bids e j room in let most_packages := se_ship e (zlen packages) in
       map m_qty (offered_to j p) = packages \/
       (0 <= most_packages < zlen packages)%Z /\ map m_qty (offered_to j p) = firstn (Z.to_nat most_packages) packages) /\
      ((0 <= se_ship e (zlen (se_fill_bids e j room)))%Z -> (zlen (offered_to j p) <= se_ship e (zlen (se_fill_bids e j room)))%Z).
Proof.
  intros P TP N RN L H. apply Forall_app in N as [N N1]. inversion N1 as [|? ? (F1 & F2 & _) _]; subst.
  destruct (lived_qty es s os P N L) as (_ & HS & _). apply step_parts in H as [B _].
  unfold sr_get_bids in B. fold (wanted cfg e) in B.
  change (Qmin (sc_throughput cfg) (b_qty (ss_inv s))) with (most cfg s) in B.
  destruct (Qltb (most cfg s) eg) eqn:E.
  { injection B as <- <-. apply Qltb_true in E. split; [reflexivity|]. split; [split; [congruence|intros [_ X]; lra]|discriminate]. }
  apply Qltb_false in E. destruct (wanted cfg e) as [|t ts] eqn:W.
  { injection B as <- <-. split; [reflexivity|]. split; [split; [congruence|intros [X _]; congruence]|discriminate]. }
  rewrite <- W in B |- *.
  assert (B' : exists bs, sr_bids_loop recipe cfg (se_fill_bids e) (se_ship e) (most cfg s) 0 (wanted cfg e) = Ok bs /\
              so_supply o = most cfg s /\ so_port o = Some {| sp_bids := bs; sp_limit := most cfg s |}).
  { rewrite W in B |- *. destruct (sr_bids_loop recipe cfg (se_fill_bids e) (se_ship e) (most cfg s) 0 (t :: ts)) as [bs| | |]; try discriminate.
    cbn [bind] in B. injection B as <- <-. eauto. }
  destruct B' as (bs & BL & S1 & S2). split; [exact S1|]. rewrite S2.
  split. { split; [intros _; split; [rewrite W; discriminate|exact E]|discriminate]. }
  intros p X. injection X as <-. cbn [sp_limit sp_bids]. split; [reflexivity|].
  destruct (bids_loop_facts _ _ _ _ _ _ BL) as [A C]. split; [eapply Forall_impl; [|exact A]; cbn; intros; lia|].
  intros j target J. set (room := Qmin (m_qty target) (most cfg s)). destruct (C j target J) as [C1 C2]. cbn [Nat.add] in C1, C2. unfold offered_to. cbn [sp_bids].
  fold room in C1.
  assert (T0 : 0 <= m_qty target).
  { assert (I : In target (wanted cfg e)) by (eapply nth_error_In, J). unfold wanted in I. apply in_map_iff in I as (r & <- & I).
    apply filter_In in I as [I _]. rewrite Forall_forall in RN. apply RN, I. }
  assert (R0 : 0 <= room).
  { subst room. apply Q.min_glb; [exact T0|]. unfold most. apply Q.min_glb; [exact TP|exact HS]. }
  destruct (F1 j room R0) as [G1 G2]. destruct (cut_facts (se_ship e) _ G1) as (K1 & K2 & K3).
  set (mine := map sb_mat (filter (fun b => Nat.eqb (sb_req b) j) bs)) in *.
  split; [unfold qty_of; rewrite C1; lra|]. split.
  { apply Forall_forall. intros m I. assert (I' : In (m_qty m) (map m_qty mine)) by (apply in_map, I). rewrite C1 in I'.
    rewrite Forall_forall in K1. split; [apply K1, I'|]. specialize (K3 _ I'). lra. }
  split.
  { eapply Forall_impl; [|exact C2]. unfold promised. intros m Hm. destruct (String.eqb (sc_recipe cfg) ""); [congruence|].
    destruct (recipe (sc_recipe cfg)); congruence. }
  split; [intros U V; rewrite C1, U; unfold cut_to_shippable; rewrite V; reflexivity|].
  assert (Ln : zlen mine = zlen (map m_qty mine)) by (unfold zlen; rewrite map_length; reflexivity). cbv zeta. unfold cut_to_shippable in C1. set (pk := se_fill_bids e j room) in *.
  destruct (Z.leb_spec 0 (se_ship e (zlen pk))) as [Z0|Z0], (Z.ltb_spec (se_ship e (zlen pk)) (zlen pk)) as [Z1|Z1]; cbn [andb] in C1; rewrite Ln, C1.
  - split; [right; auto|]. intros _. unfold zlen at 1. rewrite firstn_length. lia.
  - split; [left; reflexivity|]. intros _. exact Z1.
  - split; [left; reflexivity|]. lia.
  - split; [left; reflexivity|]. lia.
Qed.

(** ** Composition *)
Lemma made_split c i q1 i2 q c' : made_of c (Mat i q c') -> mat_ok (Mat i q c') -> 0 < q -> 0 <= q1 -> made_of c (Mat i2 q1 c').
Proof.
  intros M O Q P n. specialize (M n). destruct O as (_ & OC & OS). cbn in OS. destruct OS as [OS|OS]; [|cbn in OS; lra].
  unfold mass_of in M |- *. cbn [m_qty m_comp] in M |- *. rewrite cget_cnorm in M |- * by exact OS.
  assert (E : cget n c' / csum c' == cget n c / csum c).
  { assert (NZ : ~ q == 0) by lra. apply (Qmult_inj_l _ _ q NZ). exact M. }
  rewrite E. reflexivity.
Qed.
Lemma take_made c ms : forall q a r, mats_ok ms -> Forall (made_of c) ms -> 0 <= q -> q <= qty_of ms -> take_qty q ms = (a, r) ->
  Forall (made_of c) a /\ Forall (made_of c) r.
Proof.
  induction ms as [|m ms IH]; intros q a r O M Q L T; cbn [take_qty] in T.
  - injection T as <- <-. auto.
  - inversion O as [|? ? Om O']; subst. inversion M as [|? ? Mm M']; subst.
    destruct (Qle_bool q 0) eqn:E; [injection T as <- <-; auto|]. apply Qle_bool_false in E.
    rewrite qty_of_cons in L. destruct (Qltb q (m_qty m)) eqn:E2.
    + apply Qltb_true in E2. injection T as <- <-. destruct m as [i qm cm]. cbn [m_qty m_comp m_id] in *.
      split; constructor; auto; apply (made_split c i _ i qm cm); auto; lra.
    + apply Qltb_false in E2. destruct (take_qty (q - m_qty m) ms) as [a' r'] eqn:T'. injection T as <- <-.
      destruct (IH (q - m_qty m) a' r' O' M' ltac:(lra) ltac:(lra) T') as [A B]. auto.
Qed.
Lemma mass_in_made c ms n : Forall (made_of c) ms -> mass_in n ms == qty_of ms * (cget n c / csum c).
Proof.
  induction 1 as [|m ms Hm _ IH]; [rewrite mass_in_nil, qty_of_nil; set (f := cget n c / csum c); ring|].
  rewrite mass_in_cons, qty_of_cons, IH, (Hm n). set (f := cget n c / csum c). ring.
Qed.
Lemma pop_made c ms q m r : mats_ok ms -> Forall (made_of c) ms -> 0 <= q -> items_pop_qty ms q = Ok (m, r) ->
  made_of c m /\ Forall (made_of c) r.
Proof.
  intros O M Q H. pose proof (pop_qty_facts ms q m r O Q H) as (A1 & A2 & A3 & A4 & A5 & A6 & A7).
  unfold items_pop_qty in H. destruct (Qltb (qty_of ms) q); [discriminate|].
  destruct (take_qty q ms) as [a r0] eqn:T. destruct (squash a) as [m'| | |] eqn:S; try discriminate. cbn [bind] in H. injection H as <- <-.
  destruct (take_made c ms q a r0 O M Q A3 T) as [B1 B2]. split; [|exact B2].
  destruct (take_qty_facts ms q a r0 O Q A3 T) as (_ & _ & OA & _). apply squash_facts in S as [S1 S2].
  destruct (S2 OA) as [_ S3]. intro n. rewrite S3, (mass_in_made c a n B1), S1. reflexivity.
Qed.
Lemma loop_made c fill : filler_ok fill -> sc_recipe cfg <> ""%string -> forall ts i k b b' rs,
  mats_ok (b_items b) -> Forall (made_of c) (b_items b) -> Forall (fun t => 0 <= fst t) ts ->
  sr_trade_loop eps eg cfg fill i k ts b = Ok (b', rs) ->
  mats_ok (b_items b') /\ Forall (made_of c) (b_items b') /\ Forall (fun jr => made_of c (snd jr)) rs.
Proof.
  intros F RN. induction ts as [|[amt tgt] ts IH]; intros i k b b' rs O M N H.
  - cbn in H. injection H as <- <-. auto.
  - inversion N as [|? ? Na N']; subst. cbn [fst] in Na. destruct (Z_lt_dec 0 k) as [K|K].
    2: { rewrite trade_none in H by exact K. exact (IH _ _ _ _ _ O M N' H). }
    apply trade_one in H as (m & r1 & pkgs & rest & b2 & resp & k' & rs' & P & S & C & U1 & U2 & RQ & RC & _ & T & ->); [|exact K].
    pose proof (pop_qty_facts _ _ _ _ O Na P) as (P1 & P2 & P3 & P4 & P5 & _ & P7).
    destruct (pop_made c _ _ _ _ O M Na P) as [M1 M2].
    pose proof (split_facts _ _ _ _ S) as (S1 & S2 & S3 & S4).
    destruct (F i (m_qty m)) as [F1 F2]; [lra|]. pose proof (fill_split _ _ S1 F1) as (G0 & G1 & _). rewrite <- RQ in G0, G1.
    assert (Q0 : 0 < m_qty m) by lra.
    assert (MK : forall i2 q2, 0 <= q2 -> made_of c (Mat i2 q2 (m_comp m))).
    { intros i2 q2 Y. destruct m as [im qm cm]. cbn [m_comp m_qty] in *. apply (made_split c im q2 i2 qm cm); auto. }
    assert (CR : m_comp resp = m_comp m).
    { rewrite RC. destruct pkgs; [exact S3|]. inversion S2; subst. assumption. }
    assert (MR : made_of c resp). { destruct resp as [ir qr cr]. cbn [m_qty m_comp] in *. rewrite CR. apply MK. exact G0. }
    assert (RO : mat_ok rest).
    { destruct P4 as (_ & OC & OS). split; [lra|]. rewrite S3. split; [exact OC|]. destruct OS as [OS|OS]; [left; exact OS|lra]. }
    assert (MRest : made_of c rest). { destruct rest as [ir qr cr]. cbn [m_qty m_comp] in *. rewrite S3. apply MK. apply RO. }
    assert (O2 : mats_ok (b_items b2) /\ Forall (made_of c) (b_items b2)).
    { destruct (Qlt_le_dec eg (m_qty rest)) as [Y|Y].
      - rewrite (U1 Y). split; apply Forall_app; split; auto.
      - rewrite (U2 Y). split; assumption. }
    destruct O2 as [O2 M2']. destruct (IH _ _ _ _ _ O2 M2' N' T) as (A & B & D). split; [exact A|]. split; [exact B|].
    constructor; [|exact D]. cbn [snd]. destruct (String.eqb_spec (sc_recipe cfg) ""); [congruence|exact MR].
Qed.
Lemma run_made c es : sc_recipe cfg <> ""%string -> forall s s' os, Forall env_ok es -> mats_ok (b_items (ss_inv s)) -> Forall (made_of c) (b_items (ss_inv s)) ->
  sr_run eps eg recipe cfg s es = Ok (s', os) ->
  mats_ok (b_items (ss_inv s')) /\ Forall (made_of c) (b_items (ss_inv s')) /\ Forall (fun o => Forall (fun jr => made_of c (snd jr)) (so_sent o)) os.
Proof.
  intro RN. induction es as [|e es IH]; intros s s' os N O M H; cbn [sr_run] in H.
  - injection H as <- <-. auto.
  - destruct (sr_step eps eg recipe cfg s e) as [[s1 o]| | |] eqn:T; try discriminate. cbn [bind] in H.
    destruct (sr_run eps eg recipe cfg s1 es) as [[s2 os']| | |] eqn:R; try discriminate. cbn [bind] in H. injection H as <- <-.
    inversion N as [|? ? (F1 & F2 & Nt) N']; subst. apply step_parts in T as [_ T].
    destruct (loop_made c _ F2 RN _ _ _ _ _ _ O M Nt T) as (A & B & C). destruct (IH _ _ _ N' A B R) as (D & E & G). auto.
Qed.
Lemma recipe_final c es s os : 0 <= sc_inv_size cfg -> Forall env_ok es -> sr_lived eps eg recipe cfg es s os ->
  sc_recipe cfg <> ""%string -> recipe (sc_recipe cfg) = Some c -> Forall (fun x => 0 <= snd x) c -> 0 < csum c ->
  Forall (fun o => Forall (fun jr => made_of c (snd jr)) (so_sent o)) os.
Proof.
  intros P N (s0 & B & R) RN RC OC OS. apply build_facts in B as (c' & E & _ & E2). specialize (E2 RN). rewrite RC in E2. injection E2 as <-.
  assert (X : mat_ok (Mat 0 (sc_inv_size cfg) c)) by (split; [exact P|]; split; [exact OC|left; exact OS]).
  apply (run_made c es RN s0 s os N).
  - rewrite E. constructor; [exact X|constructor].
  - rewrite E. constructor; [|constructor]. intro n. unfold mass_of. cbn [m_qty m_comp]. apply cget_cnorm. exact OS.
  - exact R.
Qed.
(** Each shipment answers one trade, of at most the amount; without a recipe it
    has the composition requested. *)
Lemma shipments_final es e s os s' o : 0 <= sc_inv_size cfg -> Forall env_ok (es ++ [e]) -> sr_lived eps eg recipe cfg es s os ->
  sr_step eps eg recipe cfg s e = Ok (s', o) ->
  Forall (fun jr => exists amt target, nth_error (se_trades e) (fst jr) = Some (amt, target) /\ 0 <= m_qty (snd jr) <= amt /\
     (sc_recipe cfg = ""%string -> m_comp (snd jr) = m_comp target)) (so_sent o).
Proof.
  intros P N L H. apply Forall_app in N as [N N1]. inversion N1 as [|? ? (F1 & F2 & Nt) _]; subst.
  destruct (lived_qty es s os P N L) as ((O & C) & _). apply step_parts in H as [_ T].
  destruct (loop_qty eps eg cfg (se_fill e) Heg F2 _ _ _ _ _ _ O Nt T) as (_ & _ & _ & D & _).
  eapply Forall_impl; [|exact D]. intros jr (j & a & t & J1 & J2 & J3). cbn in J1. rewrite J1. eauto.
Qed.

Lemma shipped_final s e s' o : sr_step eps eg recipe cfg s e = Ok (s', o) ->
  (zlen (filter (fun jr => negb (Qeq_bool (m_qty (snd jr)) 0)) (so_sent o)) <= Z.max 0 (se_ship e (zlen (se_trades e))))%Z.
Proof. intro H. apply step_parts in H as [_ T]. exact (loop_shipped _ _ _ _ _ _ _ _ _ _ T). Qed.

(** ** Awarded trades are filled *)
Lemma loop_filled fill : filler_ok fill -> forall ts i k b, qtys_ok (b_items b) -> b_cap b = None -> Forall (fun t => 0 < fst t) ts ->
  qsum (map fst ts) <= qty_of (b_items b) ->
  exists b' rs, sr_trade_loop eps eg cfg fill i k ts b = Ok (b', rs) /\ qty_of (map snd rs) <= qsum (map fst ts) /\
    (unpackaged fill -> (Z.of_nat (List.length ts) <= k)%Z ->
       Forall2 Qeq (map (fun jr => m_qty (snd jr)) rs) (map fst ts) /\ map fst rs = seq i (List.length ts)).
Proof.
  intro F. induction ts as [|[amt tgt] ts IH]; intros i k b O C N L.
  - exists b, []. cbn. split; [reflexivity|]. split; [unfold qty_of; cbn; lra|]. intros _ _. split; [constructor|reflexivity].
  - inversion N as [|? ? Na N']; subst. cbn [fst map] in Na, L. change (amt + qsum (map fst ts) <= qty_of (b_items b)) in L.
    assert (PN : 0 <= qsum (map fst ts)).
    { apply qsum_nonneg, Forall_map. eapply Forall_impl; [|exact N']. intros t Ht. cbn in Ht |- *. lra. }
    destruct (Z_lt_dec 0 k) as [K|K].
    2: { rewrite trade_none by exact K. destruct (IH (S i) k b O C N') as (b' & rs & T & Q & _); [lra|].
         exists b', rs. split; [exact T|]. cbn [map fst]. change (qsum (amt :: map fst ts)) with (amt + qsum (map fst ts)). split; [lra|].
         intros _ X. cbn [List.length] in X. lia. }
    cbn [sr_trade_loop]. assert (K' := K). apply Z.ltb_lt in K'. rewrite K'. unfold b_pop_qty.
    destruct (pop_qty_ok (b_items b) amt Na ltac:(lra)) as (m & r1 & P). rewrite P. cbn [bind].
    pose proof (pop_qty_q _ amt m r1 O ltac:(lra) P) as (P1 & P2 & P3 & P4).
    destruct (F i (m_qty m)) as [F1 F2]; [lra|].
    destruct (split_ok (fill i (m_qty m)) m F1 F2) as (pkgs & rest & S). rewrite S. cbn [bind].
    pose proof (split_facts _ _ _ _ S) as (S1 & S2 & S3 & S4). pose proof (fill_split _ _ S1 F1) as (G0 & G1 & G2).
    set (b1 := {| b_cap := b_cap b; b_items := r1 |}).
    assert (X : exists b2, (if Qltb eg (m_qty rest) then b_push eps b1 rest else Ok b1) = Ok b2 /\ qtys_ok (b_items b2) /\ b_cap b2 = None /\ qty_of r1 <= qty_of (b_items b2)).
    { destruct (Qltb eg (m_qty rest)) eqn:Y.
      - apply Qltb_true in Y. rewrite b_push_ok by (cbn; rewrite C; exact I). eexists. split; [reflexivity|]. cbn [b_items b_cap b1].
        split; [apply Forall_app; split; [exact P4|constructor; [lra|constructor]]|]. split; [exact C|].
        rewrite qty_of_app, qty_of_cons, qty_of_nil. lra.
      - eexists. split; [reflexivity|]. subst b1. cbn [b_items b_cap]. split; [exact P4|]. split; [exact C|lra]. }
    destruct X as (b2 & -> & O2 & C2 & L2). cbn [bind].
    set (pr := match pkgs with p :: _ => (p, (k - 1)%Z) | [] => (Mat 0 0 (m_comp rest), k) end).
    assert (PQ : m_qty (fst pr) = match pkgs with p :: _ => m_qty p | [] => 0 end) by (subst pr; destruct pkgs; reflexivity).
    assert (PK : snd pr = match pkgs with p :: _ => (k - 1)%Z | [] => k end) by (subst pr; destruct pkgs; reflexivity).
    destruct pr as [resp k']. cbn [fst snd] in PQ, PK.
    destruct (IH (Datatypes.S i) k' b2 O2 C2 N') as (b' & rs & T & Q & U); [lra|]. rewrite T. cbn [bind].
    eexists. eexists. split; [reflexivity|]. cbn [map snd fst]. rewrite qty_of_cons, resp_qty, PQ.
    change (qsum (amt :: map fst ts)) with (amt + qsum (map fst ts)). split; [lra|].
    intros UP KK. cbn [List.length] in KK. rewrite UP in *. destruct pkgs as [|p pkgs]; [discriminate|]. cbn [map] in S1. injection S1 as S1 _.
    destruct U as [U1 U2]; [exact UP|rewrite PK; lia|]. split; [constructor; [rewrite S1; exact P1|exact U1]|].
    cbn [seq List.length]. f_equal. exact U2.
Qed.
Lemma bids_ok e s : (sc_recipe cfg = ""%string \/ recipe (sc_recipe cfg) <> None) ->
  exists q p, sr_get_bids eg recipe cfg (se_fill_bids e) (se_ship e) (se_reqs e) s = Ok (q, p).
Proof.
  intro R. unfold sr_get_bids. destruct (Qltb _ eg); [eauto|].
  assert (A : forall tgt, exists c, promised tgt = Ok c).
  { intro tgt. unfold promised. destruct (String.eqb_spec (sc_recipe cfg) ""); [eauto|]. destruct (recipe (sc_recipe cfg)); [eauto|tauto]. }
  assert (B : forall j tgt fs, exists bs, sr_bids_for recipe cfg j tgt fs = Ok bs).
  { intros j tgt fs. induction fs as [|f fs [bs IH]]; cbn [sr_bids_for]; [eauto|]. destruct (A tgt) as [c Hc]. unfold promised in Hc. rewrite Hc. cbn [bind].
    rewrite IH. cbn [bind]. eauto. }
  assert (C : forall ts j mx, exists bs, sr_bids_loop recipe cfg (se_fill_bids e) (se_ship e) mx j ts = Ok bs).
  { induction ts as [|t ts IH]; intros j mx; cbn [sr_bids_loop]; [eauto|].
    destruct (B j t (cut_to_shippable (se_ship e) (se_fill_bids e j (Qmin (m_qty t) mx)))) as [bs ->]. cbn [bind].
    destruct (IH (S j) mx) as [bs' ->]. cbn [bind]. eauto. }
  destruct (map snd _) as [|t ts]; [eauto|]. destruct (C (t :: ts) 0%nat (Qmin (sc_throughput cfg) (b_qty (ss_inv s)))) as [bs ->]. cbn [bind]. eauto.
Qed.
Lemma filled_final es e s os : 0 <= sc_inv_size cfg -> Forall env_ok (es ++ [e]) -> sr_lived eps eg recipe cfg es s os -> awarded cfg s e ->
  exists s' o, sr_step eps eg recipe cfg s e = Ok (s', o) /\ sent o <= sc_throughput cfg /\
    (unpackaged (se_fill e) -> unrestricted (se_ship e) ->
       Forall2 Qeq (map (fun jr => m_qty (snd jr)) (so_sent o)) (map fst (se_trades e)) /\
       map fst (so_sent o) = seq 0 (List.length (se_trades e))).
Proof.
  intros P N L [AP AS]. apply Forall_app in N as [N N1]. inversion N1 as [|? ? (F1 & F2 & Nt) _]; subst.
  destruct (lived_qty es s os P N L) as ((O & C) & _).
  assert (RK : sc_recipe cfg = ""%string \/ recipe (sc_recipe cfg) <> None).
  { destruct L as (s0 & B & _). apply build_facts in B as (c & _ & _ & E). destruct (string_dec (sc_recipe cfg) "") as [D|D]; [auto|]. right. rewrite (E D). discriminate. }
  assert (M1 : most cfg s <= sc_throughput cfg) by apply Q.le_min_l. assert (M2 : most cfg s <= held s) by apply Q.le_min_r.
  destruct (bids_ok e s RK) as (q & p & B).
  destruct (loop_filled (se_fill e) F2 (se_trades e) 0 (se_ship e (zlen (se_trades e))) (ss_inv s) O C AP) as (b' & rs & T & Q & U).
  { unfold held in M2. lra. }
  exists {| ss_inv := b' |}, {| so_supply := q; so_port := p; so_sent := rs |}. split.
  { unfold sr_step, sr_get_trades. rewrite B. cbn [bind]. rewrite T. reflexivity. }
  cbn [so_sent]. unfold sent. cbn [so_sent]. split; [lra|]. intros UP UR. apply U; [exact UP|]. rewrite UR. unfold zlen. lia.
Qed.
End SRC.
