(** Properties C40-C46, C73-C76 and C86 of the Enrichment facility.  Statements use
    EnrichmentSpec.v; proofs are a single [exact] or a computed witness. *)
From Coq Require Import Lia Lqa.
From Verif Require Import Outcome KernelMaterial KernelResBuf KernelBuf KernelFacts KernelMass KernelBufFacts
  EnrichmentModel EnrichmentSpec EnrichmentProofs EnrichmentRun EnrichmentBids.
Local Open Scope Q_scope.

(** ** A worked history: feed of assay 1/2, product of assay 4/5, tails of assay 1/5. *)
Definition nx_cfg : en_cfg := {|
  ec_feed_commod := "natu"; ec_feed_recipe := "natu"; ec_product_commod := "leu"; ec_tails_commod := "tails";
  ec_tails_assay := 1 # 5; ec_initial_feed := 0; ec_max_feed := 40; ec_max_enrich := 9 # 10;
  ec_order_prefs := true; ec_swu_capacity := 6 |}.
Definition nx_feed : comp := [(922350000%Z, 1); (922380000%Z, 1)].
Definition nx_prod : comp := [(922350000%Z, 4); (922380000%Z, 1)].
Definition nx_recipe (k : string) : option comp := if String.eqb k "natu" then Some nx_feed else None.
Definition nx_V (x : Q) : Q := (2 * x - 1) * (2 * x - 1).
Definition nx_aw (n : Z) : Q := 1.
Definition nx_eg : Q := 1 # 100.
Definition nx_offer (q : Q) : mat := Mat 0 q nx_prod.
Definition nx_sale (q : Q) : en_trade := {| et_commod := "leu"; et_offer := nx_offer q; et_amt := q |}.
Definition nx_tails_sale (q : Q) : en_trade := {| et_commod := "tails"; et_offer := nx_offer q; et_amt := q |}.
Definition nx_es : list en_env :=
  [ {| ee_treqs := []; ee_preqs := [nx_offer 1]; ee_trades := []; ee_receipts := [Mat 1 20 nx_feed] |} ].
Definition nx_e : en_env := {| ee_treqs := [nx_offer 2]; ee_preqs := [nx_offer 3; Mat 0 2 nx_feed; nx_offer 2];
  ee_trades := [nx_sale 3; nx_tails_sale 1]; ee_receipts := [Mat 3 8 nx_feed] |}.
Definition nx_idle : en_env := {| ee_treqs := []; ee_preqs := []; ee_trades := []; ee_receipts := [] |}.
Definition nx_s0 : en_state := match en_build 0 nx_recipe nx_cfg with Ok s => s | _ => en_new nx_cfg end.
Definition nx_run := en_run 0 nx_eg nx_V nx_aw nx_recipe nx_cfg nx_s0 nx_es.
Definition nx_s : en_state := match nx_run with Ok (s, _) => s | _ => nx_s0 end.
Definition nx_os : list en_out := match nx_run with Ok (_, os) => os | _ => [] end.
Example nx_built : en_build 0 nx_recipe nx_cfg = Ok nx_s0.
Proof. reflexivity. Qed.
Example nx_ran : en_run 0 nx_eg nx_V nx_aw nx_recipe nx_cfg nx_s0 nx_es = Ok (nx_s, nx_os).
Proof. vm_compute. reflexivity. Qed.
Example nx_lived : en_lived 0 nx_eg nx_V nx_aw nx_recipe nx_cfg nx_es nx_s0 nx_s nx_os.
Proof. exact (conj nx_built nx_ran). Qed.
Example nx_sane : en_sane (nx_es ++ [nx_e]).
Proof. apply en_saneb_sound. vm_compute. reflexivity. Qed.
Example nx_sane0 : en_sane nx_es.
Proof. apply en_saneb_sound. vm_compute. reflexivity. Qed.
Example nx_fair : en_fair nx_es nx_os.
Proof. apply en_fairb_sound. vm_compute. reflexivity. Qed.
Example nx_recipes : recipes_ok nx_recipe.
Proof. intros k c. unfold nx_recipe. destruct (String.eqb k "natu"); [|discriminate]. intro H. injection H as <-. apply real_compb_sound. reflexivity. Qed.
Example nx_V_proper : forall x y, x == y -> nx_V x == nx_V y.
Proof. intros x y E. unfold nx_V. rewrite E. reflexivity. Qed.
(** The state in which the trades of a step find the facility. *)
Definition nx_t : en_state :=
  {| es_inv := {| b_cap := Some 40; b_items := [Mat 1 20 nx_feed] |}; es_tails := new_buf;
     es_swu := Some 6; es_iswu := Some 0; es_ifeed := Some 0 |}.
Example nx_t_ok : mats_ok (b_items (es_inv nx_t)).
Proof. apply mats_okb_sound. reflexivity. Qed.
Example nx_sale_ok : trade_ok (nx_sale 3) /\ ~ for_tails nx_cfg (nx_sale 3) /\ uranium_only (m_comp (et_offer (nx_sale 3))).
Proof.
  split; [apply trade_okb_sound; reflexivity|]. split; [discriminate|]. split; [apply real_compb_sound; reflexivity|reflexivity].
Qed.
Lemma ok_check {A} (x : outcome A) (P : A -> bool) :
  match x with Ok v => P v | _ => false end = true -> exists v, x = Ok v /\ P v = true.
Proof. destruct x; try discriminate. eauto. Qed.

(** ** C40: mass balance of a product trade *)
Theorem C40_total : forall eps eg V cfg s t s' m rs, 0 <= eps -> mats_ok (b_items (es_inv s)) -> ~ for_tails cfg t ->
  en_trade1 eps eg V cfg s t = Ok (s', m, rs) ->
  m_qty m = et_amt t /\ m_comp m = m_comp (et_offer t) /\
  exists w, b_items (es_tails s') = b_items (es_tails s) ++ [w] /\ 0 <= m_qty w /\
    b_qty (es_inv s) == b_qty (es_inv s') + m_qty m + m_qty w.
Proof. exact trade_total. Qed.
Print Assumptions C40_total.
Example C40_total_nontrivial : exists v, en_trade1 0 nx_eg nx_V nx_cfg nx_t (nx_sale 3) = Ok v /\
  Qeq_bool (b_qty (es_inv (fst (fst v)))) 14 && Qeq_bool (b_qty (es_tails (fst (fst v)))) 3 = true.
Proof. apply ok_check. vm_compute. reflexivity. Qed.
(** Each nuclide.  The full statement has no hypothesis about traces; it is false
    because a remainder of a nuclide below the resource tolerance is dropped: *)
Definition nx_dirty : comp := [(922350000%Z, 10); (922380000%Z, 10); (942390000%Z, 1)].
Definition nx_d : en_state :=
  {| es_inv := {| b_cap := Some 40; b_items := [Mat 1 21 nx_dirty] |}; es_tails := new_buf;
     es_swu := Some 6; es_iswu := Some 0; es_ifeed := Some 0 |}.
Theorem C40_nuclides_refuted : exists eps eg V cfg s t s' m rs n, 0 < eps /\ mats_ok (b_items (es_inv s)) /\ trade_ok t /\
  ~ for_tails cfg t /\ b_items (es_tails s) = [] /\ en_trade1 eps eg V cfg s t = Ok (s', m, rs) /\
  mass_in n (b_items (es_inv s')) + mass_of m n + mass_in n (b_items (es_tails s')) < mass_in n (b_items (es_inv s)).
Proof.
  destruct (en_trade1 (1 # 2) nx_eg nx_V nx_cfg nx_d (nx_sale 4)) as [[[s' m] rs]| | |] eqn:E; try (vm_compute in E; discriminate).
  exists (1 # 2), nx_eg, nx_V, nx_cfg, nx_d, (nx_sale 4), s', m, rs, 942390000%Z.
  split; [reflexivity|]. split; [apply mats_okb_sound; reflexivity|]. split; [apply trade_okb_sound; reflexivity|].
  split; [discriminate|]. split; [reflexivity|]. split; [exact E|]. vm_compute in E. injection E as <- <- <-. vm_compute. reflexivity.
Qed.
Print Assumptions C40_nuclides_refuted.
(** What holds: with tolerance 0, or when no remainder is smaller than the tolerance. *)
Theorem C40_nuclides_partial : forall eps eg V cfg s t s' m rs, 0 <= eps -> mats_ok (b_items (es_inv s)) -> trade_ok t ->
  ~ for_tails cfg t -> en_trade1 eps eg V cfg s t = Ok (s', m, rs) ->
  (eps = 0 \/ forall n, let used := b_qty (es_inv s) - b_qty (es_inv s') in
     let left := used * (mass_in n (b_items (es_inv s)) / b_qty (es_inv s)) - et_amt t * (cget n (m_comp (et_offer t)) / csum (m_comp (et_offer t))) in
     left == 0 \/ eps <= left) ->
  exists w, b_items (es_tails s') = b_items (es_tails s) ++ [w] /\
  forall n, mass_in n (b_items (es_inv s)) == mass_in n (b_items (es_inv s')) + mass_of m n + mass_of w n.
Proof. exact trade_nuclides. Qed.
Print Assumptions C40_nuclides_partial.
Example C40_nuclides_nontrivial : mats_ok (b_items (es_inv nx_t)) /\ trade_ok (nx_sale 3) /\ ~ for_tails nx_cfg (nx_sale 3) /\
  exists v, en_trade1 0 nx_eg nx_V nx_cfg nx_t (nx_sale 3) = Ok v /\
  Qeq_bool (mass_in 922350000 (b_items (es_tails (fst (fst v))))) (3 # 5) = true.
Proof.
  split; [exact nx_t_ok|]. split; [apply nx_sale_ok|]. split; [apply nx_sale_ok|]. apply ok_check. vm_compute. reflexivity.
Qed.

(** ** C41: the assay of the tails *)
(** Full statement: without the hypothesis that the feed drawn is exactly the
    feed needed (and without traces below the tolerance).  It is false when
    what is needed is almost the whole stock, because then the whole stock is used: *)
Theorem C41_tails_assay_refuted : exists eps eg V cfg s t s' m rs w, 0 <= eps /\ 0 < eg /\ mats_ok (b_items (es_inv s)) /\ trade_ok t /\
  uranium_only (m_comp (et_offer t)) /\ pure (b_items (es_inv s)) /\ ~ for_tails cfg t /\
  ec_tails_assay cfg < assay_of (b_items (es_inv s)) /\ en_trade1 eps eg V cfg s t = Ok (s', m, rs) /\
  b_items (es_tails s') = [w] /\
  ec_tails_assay cfg * (mass_of w 922350000 + mass_of w 922380000) < mass_of w 922350000.
Proof.
  destruct (en_trade1 0 (1 # 10) nx_V nx_cfg nx_t (nx_sale (399 # 40))) as [[[s' m] rs]| | |] eqn:E; try (vm_compute in E; discriminate).
  destruct (b_items (es_tails s')) as [|w [|w' l]] eqn:T; try (vm_compute in E; injection E as <- <- <-; discriminate).
  exists 0, (1 # 10), nx_V, nx_cfg, nx_t, (nx_sale (399 # 40)), s', m, rs, w.
  split; [apply Qle_refl|]. split; [reflexivity|]. split; [exact nx_t_ok|]. split; [apply trade_okb_sound; reflexivity|].
  split; [exact (proj2 (proj2 nx_sale_ok))|]. split; [reflexivity|]. split; [discriminate|]. split; [reflexivity|].
  split; [exact E|]. split; [exact T|]. vm_compute in E. injection E as <- <- <-. vm_compute in T. injection T as <-. vm_compute. reflexivity.
Qed.
Print Assumptions C41_tails_assay_refuted.
Theorem C41_tails_assay_partial : forall eps eg V cfg s t s' m rs, 0 <= eps -> mats_ok (b_items (es_inv s)) -> trade_ok t ->
  uranium_only (m_comp (et_offer t)) -> ~ for_tails cfg t -> en_trade1 eps eg V cfg s t = Ok (s', m, rs) ->
  let feed := b_items (es_inv s) in
  let xt := ec_tails_assay cfg in
  let w := waste (assay_of feed) (mass_assay (m_comp (et_offer t))) xt (et_amt t) in
  b_qty (es_inv s) - b_qty (es_inv s') == need (assay_of feed) (mass_assay (m_comp (et_offer t))) xt (et_amt t) / purity feed ->
  (w * xt == 0 \/ eps <= w * xt) -> (w * (1 - xt) == 0 \/ eps <= w * (1 - xt)) ->
  exists p, b_items (es_tails s') = b_items (es_tails s) ++ [p] /\
    mass_of p 922350000 == xt * (mass_of p 922350000 + mass_of p 922380000).
Proof. exact trade_tails. Qed.
Print Assumptions C41_tails_assay_partial.
(** Feed with an impurity. *)
Example C41_nontrivial : mats_ok (b_items (es_inv nx_d)) /\ trade_ok (nx_sale 3) /\ uranium_only (m_comp (et_offer (nx_sale 3))) /\
  exists v, en_trade1 0 nx_eg nx_V nx_cfg nx_d (nx_sale 3) = Ok v /\
  Qeq_bool (b_qty (es_inv nx_d) - b_qty (es_inv (fst (fst v))))
    (need (assay_of (b_items (es_inv nx_d))) (mass_assay nx_prod) (1 # 5) 3 / purity (b_items (es_inv nx_d))) &&
  Qeq_bool (b_qty (es_inv nx_d) - b_qty (es_inv (fst (fst v)))) (63 # 10) &&
  Qeq_bool (waste (assay_of (b_items (es_inv nx_d))) (mass_assay nx_prod) (1 # 5) 3) 3 = true.
Proof.
  split; [apply mats_okb_sound; reflexivity|]. split; [apply nx_sale_ok|]. split; [apply nx_sale_ok|].
  apply ok_check. vm_compute. reflexivity.
Qed.

(** ** C42: the SWU capacity of a step *)
Theorem C42_swu_capacity : forall eps eg V aw recipe cfg, 0 <= eps -> recipes_ok recipe -> (forall x y, x == y -> V x == V y) ->
  forall es e s0 s os s' o, en_sane (es ++ [e]) -> en_lived eps eg V aw recipe cfg es s0 s os ->
  en_step eps eg V aw recipe cfg s e = Ok (s', o) -> ee_trades e <> [] ->
  swu_used V cfg (b_items (es_inv s)) (ee_trades e) <= ec_swu_capacity cfg + eg.
Proof. exact swu_final. Qed.
Print Assumptions C42_swu_capacity.
Example C42_nontrivial : recipes_ok nx_recipe /\ en_sane (nx_es ++ [nx_e]) /\ en_lived 0 nx_eg nx_V nx_aw nx_recipe nx_cfg nx_es nx_s0 nx_s nx_os /\
  swu_used nx_V nx_cfg (b_items (es_inv nx_s)) (ee_trades nx_e) == 54 # 25 /\
  exists v, en_step 0 nx_eg nx_V nx_aw nx_recipe nx_cfg nx_s nx_e = Ok v /\ Nat.eqb (List.length (eo_shipped (snd v))) 2 = true.
Proof.
  split; [exact nx_recipes|]. split; [exact nx_sane|]. split; [exact nx_lived|]. split; [vm_compute; reflexivity|].
  apply ok_check. vm_compute. reflexivity.
Qed.

(** ** C43: what is recorded for a step *)
(** Full statement: in every step the recorded SWU and feed are those of the
    trades of that step.  False: a step without trades records the values of the
    last step that had some, or indeterminate values when there was none yet. *)
Theorem C43_recorded_refuted : exists eps eg V aw recipe cfg es e e' s0 s os s1 o1 s2 o2, 0 <= eps /\ 0 <= eg /\ recipes_ok recipe /\
  en_sane (es ++ [e; e']) /\ en_lived eps eg V aw recipe cfg es s0 s os /\
  en_step eps eg V aw recipe cfg s e = Ok (s1, o1) /\ en_step eps eg V aw recipe cfg s1 e' = Ok (s2, o2) /\
  ee_trades e' = [] /\ exists a b, eo_recorded o2 = (Some a, Some b) /\ 0 < a /\ 0 < b.
Proof.
  destruct (en_step 0 nx_eg nx_V nx_aw nx_recipe nx_cfg nx_s nx_e) as [[s1 o1]| | |] eqn:E; try (vm_compute in E; discriminate).
  destruct (en_step 0 nx_eg nx_V nx_aw nx_recipe nx_cfg s1 nx_idle) as [[s2 o2]| | |] eqn:E2;
    try (vm_compute in E; injection E as <- <-; vm_compute in E2; discriminate).
  exists 0, nx_eg, nx_V, nx_aw, nx_recipe, nx_cfg, nx_es, nx_e, nx_idle, nx_s0, nx_s, nx_os, s1, o1, s2, o2.
  split; [apply Qle_refl|]. split; [discriminate|]. split; [exact nx_recipes|].
  split; [apply en_saneb_sound; vm_compute; reflexivity|]. split; [exact nx_lived|]. split; [exact E|]. split; [exact E2|]. split; [reflexivity|].
  vm_compute in E. injection E as <- <-. vm_compute in E2. injection E2 as <- <-. eexists. eexists. split; [reflexivity|]. split; reflexivity.
Qed.
Print Assumptions C43_recorded_refuted.
Theorem C43_indeterminate_refuted : exists eps eg V aw recipe cfg s0 s1 o, recipes_ok recipe /\ en_build eps recipe cfg = Ok s0 /\
  en_step eps eg V aw recipe cfg s0 nx_idle = Ok (s1, o) /\ eo_recorded o = (None, None).
Proof.
  exists 0, nx_eg, nx_V, nx_aw, nx_recipe, nx_cfg, nx_s0. eexists. eexists. split; [exact nx_recipes|]. split; [exact nx_built|].
  split; vm_compute; reflexivity.
Qed.
Print Assumptions C43_indeterminate_refuted.
(** What holds: the value is right in a step with trades (and stays until the next one). *)
Theorem C43_recorded_partial : forall eps eg V aw recipe cfg, 0 <= eps -> recipes_ok recipe -> (forall x y, x == y -> V x == V y) ->
  forall es e s0 s os s' o, en_sane (es ++ [e]) -> en_lived eps eg V aw recipe cfg es s0 s os ->
  en_step eps eg V aw recipe cfg s e = Ok (s', o) -> ee_trades e <> [] ->
  exists a b, eo_recorded o = (Some a, Some b) /\
    a == swu_used V cfg (b_items (es_inv s)) (ee_trades e) /\ b == feed_used cfg (b_items (es_inv s)) (ee_trades e).
Proof. exact recorded_final. Qed.
Print Assumptions C43_recorded_partial.
Theorem C43_latest_partial : forall eps eg V aw recipe cfg, 0 <= eps -> recipes_ok recipe ->
  forall es e es' s0 s os s1 o s2 os', en_sane (es ++ e :: es') -> en_lived eps eg V aw recipe cfg es s0 s os ->
  en_step eps eg V aw recipe cfg s e = Ok (s1, o) -> en_run eps eg V aw recipe cfg s1 es' = Ok (s2, os') ->
  Forall (fun e => ee_trades e = []) es' -> Forall (fun o' => eo_recorded o' = eo_recorded o) os'.
Proof. exact stale_final. Qed.
Print Assumptions C43_latest_partial.
Example C43_nontrivial : en_sane (nx_es ++ nx_e :: [nx_idle; nx_idle]) /\
  swu_used nx_V nx_cfg (b_items (es_inv nx_s)) (ee_trades nx_e) == 54 # 25 /\
  feed_used nx_cfg (b_items (es_inv nx_s)) (ee_trades nx_e) == 6 /\
  exists v, en_run 0 nx_eg nx_V nx_aw nx_recipe nx_cfg nx_s [nx_e; nx_idle; nx_idle] = Ok v /\ Nat.eqb (List.length (snd v)) 3 = true.
Proof.
  split; [apply en_saneb_sound; vm_compute; reflexivity|]. split; [vm_compute; reflexivity|]. split; [vm_compute; reflexivity|].
  apply ok_check. vm_compute. reflexivity.
Qed.

(** ** C44: which requests are bid on *)
(** Full statement: with "the assay of the requested uranium is above
    tails_assay" by mass, as everywhere else.  The code compares the atom
    fraction, so a product no richer than the tails is bid on: *)
Definition nx_aw2 (n : Z) : Q := if Z.eqb n 922350000 then 235 else 238.
Definition nx_poor : mat := Mat 0 1 [(922350000%Z, 1); (922380000%Z, 4)].
Theorem C44_bids_refuted : exists eps eg aw cfg s m s' B pb, (forall n, 0 < aw n) /\ mats_ok (b_items (es_inv s)) /\ request_ok m /\
  mass_assay (m_comp m) == ec_tails_assay cfg /\ en_get_bids eps eg aw cfg [] [m] s = Ok (s', B) /\
  eb_product B = Some pb /\ exists o, In (0%nat, o) (pb_offers pb).
Proof.
  destruct (en_get_bids 0 nx_eg nx_aw2 nx_cfg [] [nx_poor] nx_t) as [[s' B]| | |] eqn:E; try (vm_compute in E; discriminate).
  destruct (eb_product B) as [pb|] eqn:P; [|vm_compute in E; injection E as <- <-; discriminate].
  exists 0, nx_eg, nx_aw2, nx_cfg, nx_t, nx_poor, s', B, pb.
  split; [intro n; unfold nx_aw2; destruct (Z.eqb n 922350000); reflexivity|]. split; [exact nx_t_ok|].
  split; [split; [reflexivity|apply real_compb_sound; reflexivity]|]. split; [vm_compute; reflexivity|]. split; [exact E|]. split; [exact P|].
  vm_compute in E. injection E as <- <-. vm_compute in P. injection P as <-. eexists. left. reflexivity.
Qed.
Print Assumptions C44_bids_refuted.
Theorem C44_bids_partial : forall eps eg aw cfg tr pr s s' B, 0 <= eps -> 0 <= eg -> (forall n, 0 < aw n) ->
  mats_ok (b_items (es_inv s)) -> Forall request_ok pr ->
  en_get_bids eps eg aw cfg tr pr s = Ok (s', B) ->
  (eb_product B <> None <-> pr <> [] /\ 0 < b_qty (es_inv s)) /\
  forall pb, eb_product B = Some pb ->
    NoDup (map fst (pb_offers pb)) /\ (forall j o, In (j, o) (pb_offers pb) -> (j < List.length pr)%nat) /\
    forall j m, nth_error pr j = Some m ->
      ((exists o, In (j, o) (pb_offers pb)) <->
         0 < cget 922380000 (m_comp m) /\ ec_tails_assay cfg < atom_assay aw (m_comp m) /\
         mass_assay (m_comp m) < ec_max_enrich cfg + eg) /\
      (forall o, In (j, o) (pb_offers pb) ->
         m_qty o = m_qty m /\ uranium_only (m_comp o) /\ mass_assay (m_comp o) == mass_assay (m_comp m)).
Proof. exact bids_final. Qed.
Print Assumptions C44_bids_partial.
(** Three requests: a good one, one without uranium-238, one below the tails. *)
Definition nx_reqs : list mat :=
  [Mat 0 3 [(922350000%Z, 4); (922380000%Z, 1); (10010000%Z, 5)]; Mat 0 2 [(922350000%Z, 1)]; Mat 0 5 [(922350000%Z, 1); (922380000%Z, 9)]].
Example C44_nontrivial : mats_ok (b_items (es_inv nx_t)) /\ Forall request_ok nx_reqs /\
  exists v, en_get_bids 0 nx_eg nx_aw nx_cfg [] nx_reqs nx_t = Ok v /\
  match eb_product (snd v) with Some pb => match pb_offers pb with [(0%nat, o)] => Qeq_bool (m_qty o) 3 | _ => false end | None => false end = true.
Proof.
  split; [exact nx_t_ok|]. split; [apply requests_okb_sound; reflexivity|]. apply ok_check. vm_compute. reflexivity.
Qed.

(** ** C45: preferences follow the uranium-235 content *)
Theorem C45_preferences_partial : forall cfg bids, NoDup (map fst bids) -> Forall (fun b => mat_ok (snd b)) bids -> distinct_bids bids ->
  (ec_order_prefs cfg = false -> en_adjust cfg bids = Ok None) /\
  (ec_order_prefs cfg = true -> exists prefs, en_adjust cfg bids = Ok (Some prefs) /\ follows_content bids prefs).
Proof. exact adjust_final. Qed.
Print Assumptions C45_preferences_partial.
(** Missing: bids of equal content, for which the comparison is not a strict
    weak ordering and the sort is undefined: *)
Definition nx_bids : list (nat * mat) :=
  [(7%nat, Mat 0 2 nx_prod); (3%nat, Mat 0 1 [(922380000%Z, 1)]); (5%nat, Mat 0 4 nx_feed)].
Theorem C45_ties_refuted : exists cfg bids, NoDup (map fst bids) /\ Forall (fun b => mat_ok (snd b) /\ 0 < m_qty (snd b)) bids /\
  ec_order_prefs cfg = true /\ en_adjust cfg bids = UB BadComparator.
Proof.
  exists nx_cfg, [(0%nat, Mat 0 2 nx_feed); (1%nat, Mat 0 4 nx_feed)]. split; [repeat constructor; cbn; intuition discriminate|].
  split; [repeat constructor; try discriminate; left; reflexivity|]. split; [reflexivity|]. vm_compute. reflexivity.
Qed.
Print Assumptions C45_ties_refuted.
(** If the sort nevertheless leaves the bids in increasing order, any such
    order of tied bids gives right preferences. *)
Theorem C45_any_arrangement : forall bids l, NoDup (map fst bids) -> Forall (fun b => mat_ok (snd b) /\ 0 < m_qty (snd b)) bids ->
  arranged bids l -> follows_content bids (assign_prefs 0 false l).
Proof. exact prefs_arranged. Qed.
Print Assumptions C45_any_arrangement.
Example C45_nontrivial : NoDup (map fst nx_bids) /\ Forall (fun b => mat_ok (snd b)) nx_bids /\ distinct_bids nx_bids /\
  en_adjust nx_cfg nx_bids = Ok (Some [(3%nat, (-1)%Z); (5%nat, 2%Z); (7%nat, 3%Z)]).
Proof.
  split; [repeat constructor; cbn; intuition discriminate|].
  split; [repeat constructor; try discriminate; left; reflexivity|]. split; [|vm_compute; reflexivity]. split.
  - intros x [<-|[<-|[<-|[]]]]; reflexivity.
  - intros [|[|[|i]]] [|[|[|j]]] x y L X Y; try lia; cbn in X, Y; try (destruct i; discriminate); try (destruct j; discriminate);
      injection X as <-; injection Y as <-; vm_compute; discriminate.
Qed.

(** ** C46: awarded trades can be filled *)
(** Full statement: for every lived state and all trades awarded within the
    published constraints.  False for feed with impurities: the published feed
    constraint does not account for them. *)
Definition nx_impure : comp := [(922350000%Z, 1); (922380000%Z, 1); (942390000%Z, 2)].
Definition nx_es2 : list en_env :=
  [ {| ee_treqs := []; ee_preqs := []; ee_trades := []; ee_receipts := [Mat 1 10 nx_impure] |} ].
Definition nx_s2 : en_state := match en_run 0 nx_eg nx_V nx_aw nx_recipe nx_cfg nx_s0 nx_es2 with Ok (s, _) => s | _ => nx_s0 end.
Definition nx_os2 : list en_out := match en_run 0 nx_eg nx_V nx_aw nx_recipe nx_cfg nx_s0 nx_es2 with Ok (_, os) => os | _ => [] end.
Lemma nx_awarded s reqs ts s2 B pb x y : en_get_bids 0 nx_eg nx_aw nx_cfg [] reqs s = Ok (s2, B) -> eb_product B = Some pb ->
  products nx_cfg ts = ts -> tails_sold nx_cfg ts = [] -> Forall (fun t => 0 < et_amt t) ts ->
  (forall t, In t ts -> exists j, In (j, et_offer t) (pb_offers pb)) ->
  charge_sum (natu_charge (pb_feed pb) (1 # 5)) ts = Some x -> x <= pb_natu pb ->
  charge_sum (swu_charge nx_V (pb_feed pb) (1 # 5)) ts = Some y -> y <= pb_swu pb -> awarded nx_V nx_cfg B ts.
Proof.
  intros _ P PR TS A J X XL Y YL. split; [exact A|]. split; [intro N; congruence|]. intros _. exists pb. rewrite PR.
  split; [exact P|]. split; [exact J|]. split; [exists x|exists y]; (split; [apply charge_sum_sound; assumption|assumption]).
Qed.
Theorem C46_impure_refuted : exists eps eg V aw recipe cfg es s0 s os tr pr s2 B ts e,
  0 <= eps /\ 0 <= eg /\ (forall n, 0 < aw n) /\ recipes_ok recipe /\ en_sane es /\ en_fair es os /\
  en_lived eps eg V aw recipe cfg es s0 s os /\ Forall request_ok pr /\ ec_tails_assay cfg < assay_of (b_items (es_inv s)) /\
  en_get_bids eps eg aw cfg tr pr (en_tick cfg s) = Ok (s2, B) /\ awarded V cfg B ts /\
  (forall t, In t (products cfg ts) -> assay_of (b_items (es_inv s)) <= mass_assay (m_comp (et_offer t))) /\
  en_trades eps eg V cfg ts s2 = Throw e.
Proof.
  destruct (en_get_bids 0 nx_eg nx_aw nx_cfg [] [nx_offer 4] (en_tick nx_cfg nx_s2)) as [[s2 B]| | |] eqn:E; try (vm_compute in E; discriminate).
  destruct (eb_product B) as [pb|] eqn:P; [|vm_compute in E; injection E as <- <-; discriminate].
  destruct (pb_offers pb) as [|[j o] l] eqn:PO; [vm_compute in E; injection E as <- <-; vm_compute in P; injection P as <-; discriminate|].
  pose (t := {| et_commod := "leu"; et_offer := o; et_amt := 4 |}).
  exists 0, nx_eg, nx_V, nx_aw, nx_recipe, nx_cfg, nx_es2, nx_s0, nx_s2, nx_os2, [], [nx_offer 4], s2, B, [t], ValueError.
  split; [apply Qle_refl|]. split; [discriminate|]. split; [reflexivity|]. split; [exact nx_recipes|].
  split; [apply en_saneb_sound; vm_compute; reflexivity|]. split; [apply en_fairb_sound; vm_compute; reflexivity|].
  split; [split; [exact nx_built|vm_compute; reflexivity]|]. split; [apply requests_okb_sound; reflexivity|]. split; [vm_compute; reflexivity|].
  split; [exact E|]. assert (I : In (j, o) (pb_offers pb)) by (rewrite PO; left; reflexivity).
  vm_compute in E. injection E as <- <-. vm_compute in P. injection P as <-. vm_compute in PO. injection PO as <- <- <-.
  split.
  { eapply (nx_awarded (en_tick nx_cfg nx_s2) [nx_offer 4] [t]).
    - vm_compute. reflexivity.
    - reflexivity.
    - reflexivity.
    - reflexivity.
    - repeat constructor.
    - intros t' [<-|[]]. exists 0%nat. left. reflexivity.
    - vm_compute. reflexivity.
    - vm_compute. discriminate.
    - vm_compute. reflexivity.
    - vm_compute. discriminate. }
  split; [intros t' [<-|[]]; vm_compute; discriminate|]. vm_compute. reflexivity.
Qed.
Print Assumptions C46_impure_refuted.
(** What holds: pure feed richer than the tails, product at least as rich as the
    feed, and no trade so small that it needs less feed than the tolerance. *)
Theorem C46_filled_partial : forall eps eg V aw recipe cfg, 0 <= eps -> 0 <= eg -> (forall n, 0 < aw n) ->
  (forall x y, x == y -> V x == V y) -> recipes_ok recipe -> 0 <= ec_max_feed cfg ->
  0 <= ec_tails_assay cfg -> ec_tails_assay cfg <= 1 -> 0 <= ec_swu_capacity cfg ->
  forall es s0 s os tr pr s2 B ts, en_sane es -> en_fair es os -> en_lived eps eg V aw recipe cfg es s0 s os ->
  Forall request_ok pr -> pure (b_items (es_inv s)) -> ec_tails_assay cfg < assay_of (b_items (es_inv s)) ->
  en_get_bids eps eg aw cfg tr pr (en_tick cfg s) = Ok (s2, B) -> awarded V cfg B ts ->
  (forall t, In t (products cfg ts) -> assay_of (b_items (es_inv s)) <= mass_assay (m_comp (et_offer t)) /\
     eg <= need (assay_of (b_items (es_inv s))) (mass_assay (m_comp (et_offer t))) (ec_tails_assay cfg) (et_amt t)) ->
  exists s3 ms rs, en_trades eps eg V cfg ts s2 = Ok (s3, ms, rs) /\ Forall2 (served cfg) ts ms.
Proof. exact filled_final. Qed.
Print Assumptions C46_filled_partial.
(** Two sales awarded on the bids of the worked history. *)
Lemma nx_filled : exists s2 B ts, Forall request_ok nx_reqs /\ pure (b_items (es_inv nx_s)) /\
  ec_tails_assay nx_cfg < assay_of (b_items (es_inv nx_s)) /\
  en_get_bids 0 nx_eg nx_aw nx_cfg [] nx_reqs (en_tick nx_cfg nx_s) = Ok (s2, B) /\ awarded nx_V nx_cfg B ts /\ List.length ts = 2%nat /\
  (forall t, In t (products nx_cfg ts) -> assay_of (b_items (es_inv nx_s)) <= mass_assay (m_comp (et_offer t)) /\
     nx_eg <= need (assay_of (b_items (es_inv nx_s))) (mass_assay (m_comp (et_offer t))) (ec_tails_assay nx_cfg) (et_amt t)).
Proof.
  destruct (en_get_bids 0 nx_eg nx_aw nx_cfg [] nx_reqs (en_tick nx_cfg nx_s)) as [[s2 B]| | |] eqn:E; try (vm_compute in E; discriminate).
  destruct (eb_product B) as [pb|] eqn:P; [|vm_compute in E; injection E as <- <-; discriminate].
  destruct (pb_offers pb) as [|[j o] l] eqn:PO; [vm_compute in E; injection E as <- <-; vm_compute in P; injection P as <-; discriminate|].
  exists s2, B, [{| et_commod := "leu"; et_offer := o; et_amt := 2 |}; {| et_commod := "leu"; et_offer := o; et_amt := 1 |}].
  split; [apply requests_okb_sound; reflexivity|]. split; [vm_compute; reflexivity|]. split; [vm_compute; reflexivity|]. split; [reflexivity|].
  assert (I : In (j, o) (pb_offers pb)) by (rewrite PO; left; reflexivity).
  vm_compute in E. injection E as <- <-. vm_compute in P. injection P as <-. vm_compute in PO. injection PO as <- <- <-.
  split.
  { eapply (nx_awarded (en_tick nx_cfg nx_s) nx_reqs).
    - vm_compute. reflexivity.
    - reflexivity.
    - reflexivity.
    - reflexivity.
    - repeat constructor.
    - intros t' [<-|[<-|[]]]; exists 0%nat; left; reflexivity.
    - vm_compute. reflexivity.
    - vm_compute. discriminate.
    - vm_compute. reflexivity.
    - vm_compute. discriminate. }
  split; [reflexivity|]. intros t' [<-|[<-|[]]]; split; vm_compute; discriminate.
Qed.
Example C46_nontrivial : exists s2 B ts s3 ms rs, List.length ts = 2%nat /\
  en_get_bids 0 nx_eg nx_aw nx_cfg [] nx_reqs (en_tick nx_cfg nx_s) = Ok (s2, B) /\ awarded nx_V nx_cfg B ts /\
  en_trades 0 nx_eg nx_V nx_cfg ts s2 = Ok (s3, ms, rs) /\ Forall2 (served nx_cfg) ts ms.
Proof.
  destruct nx_filled as (s2 & B & ts & R & P & A & G & W & L & F).
  assert (E : 0 <= nx_eg) by discriminate. assert (X : forall n, 0 < nx_aw n) by reflexivity.
  destruct (C46_filled_partial 0 nx_eg nx_V nx_aw nx_recipe nx_cfg (Qle_refl 0) E X nx_V_proper nx_recipes
    ltac:(discriminate) ltac:(discriminate) ltac:(discriminate) ltac:(discriminate)
    nx_es nx_s0 nx_s nx_os [] nx_reqs s2 B ts nx_sane0 nx_fair nx_lived R P A G W F) as (s3 & ms & rs & T & V).
  exists s2, B, ts, s3, ms, rs. auto.
Qed.

(** ** C73: feed is requested up to max_feed_inventory, which is never exceeded *)
Theorem C73_request : forall eps eg V aw recipe cfg, 0 <= eps ->
  forall es e s0 s os s' o, en_sane (es ++ [e]) ->
  en_lived eps eg V aw recipe cfg es s0 s os -> en_step eps eg V aw recipe cfg s e = Ok (s', o) ->
  (eps < ec_max_feed cfg - b_qty (es_inv s) -> exists m c, eo_request o = Some m /\ recipe (ec_feed_recipe cfg) = Some c /\
     m_comp m = c /\ m_qty m == ec_max_feed cfg - b_qty (es_inv s)) /\
  (ec_max_feed cfg - b_qty (es_inv s) <= eps -> eo_request o = None).
Proof. exact request_final. Qed.
Print Assumptions C73_request.
Theorem C73_capacity : forall eps eg V aw recipe cfg, 0 <= eps -> recipes_ok recipe ->
  forall es s0 s os, 0 <= ec_max_feed cfg -> en_sane es -> en_fair es os -> en_lived eps eg V aw recipe cfg es s0 s os ->
  b_qty (es_inv s) <= ec_max_feed cfg + eps.
Proof. exact capacity_final. Qed.
Print Assumptions C73_capacity.
Definition nx_full : list en_env :=
  [ {| ee_treqs := []; ee_preqs := []; ee_trades := []; ee_receipts := [Mat 1 20 nx_feed; Mat 2 20 nx_prod] |} ].
Example C73_nontrivial : recipes_ok nx_recipe /\ en_sane nx_full /\
  exists v, en_run 0 nx_eg nx_V nx_aw nx_recipe nx_cfg nx_s0 (nx_full ++ [nx_idle]) = Ok v /\
  en_fairb (nx_full ++ [nx_idle]) (snd v) && Qeq_bool (b_qty (es_inv (fst v))) 40 &&
  match map eo_request (snd v) with [Some m; None] => Qeq_bool (m_qty m) 40 | _ => false end = true.
Proof.
  split; [exact nx_recipes|]. split; [apply en_saneb_sound; vm_compute; reflexivity|]. apply ok_check. vm_compute. reflexivity.
Qed.

(** ** C74: conservation over a lifetime *)
Theorem C74_total : forall eps eg V aw recipe cfg, 0 <= eps -> recipes_ok recipe ->
  forall es s0 s os, en_sane es -> en_lived eps eg V aw recipe cfg es s0 s os ->
  qty_of (en_held s0) == Qmax 0 (ec_initial_feed cfg) /\
  qty_of (en_held s) + qty_of (en_shipped os) == qty_of (en_held s0) + qty_of (en_received es).
Proof. exact life_total. Qed.
Print Assumptions C74_total.
(** Each nuclide: with a positive tolerance this is false (C40_nuclides_refuted). *)
Theorem C74_nuclides_partial : forall eps eg V aw recipe cfg, 0 <= eps -> recipes_ok recipe ->
  forall es s0 s os, eps = 0 -> en_sane es -> en_lived eps eg V aw recipe cfg es s0 s os ->
  forall n, mass_in n (en_held s) + mass_in n (en_shipped os) == mass_in n (en_held s0) + mass_in n (en_received es).
Proof. exact life_nuclides. Qed.
Print Assumptions C74_nuclides_partial.
Example C74_nontrivial : recipes_ok nx_recipe /\ en_sane (nx_es ++ [nx_e]) /\
  exists v, en_run 0 nx_eg nx_V nx_aw nx_recipe nx_cfg nx_s0 (nx_es ++ [nx_e]) = Ok v /\
  Qeq_bool (qty_of (en_held (fst v))) 24 && Qeq_bool (qty_of (en_shipped (snd v))) 4 = true.
Proof. split; [exact nx_recipes|]. split; [exact nx_sane|]. apply ok_check. vm_compute. reflexivity. Qed.

(** ** C75: a product trade awarded on a bid is served *)
(** False: a bid is also made for uranium poorer than the feed, and filling it
    fails when the product is taken out of too little feed. *)
Definition nx_mid : mat := Mat 0 4 [(922350000%Z, 1); (922380000%Z, 3)].
Theorem C75_served_refuted : exists eps eg V aw recipe cfg es s0 s os tr pr s2 B ts e,
  0 <= eps /\ 0 <= eg /\ (forall n, 0 < aw n) /\ recipes_ok recipe /\ en_sane es /\ en_fair es os /\
  en_lived eps eg V aw recipe cfg es s0 s os /\ Forall request_ok pr /\ pure (b_items (es_inv s)) /\
  ec_tails_assay cfg < assay_of (b_items (es_inv s)) /\
  en_get_bids eps eg aw cfg tr pr (en_tick cfg s) = Ok (s2, B) /\ awarded V cfg B ts /\
  (forall t, In t (products cfg ts) -> ec_tails_assay cfg < mass_assay (m_comp (et_offer t))) /\
  en_trades eps eg V cfg ts s2 = Throw e.
Proof.
  destruct (en_get_bids 0 nx_eg nx_aw nx_cfg [] [nx_mid] (en_tick nx_cfg nx_s)) as [[s2 B]| | |] eqn:E; try (vm_compute in E; discriminate).
  destruct (eb_product B) as [pb|] eqn:P; [|vm_compute in E; injection E as <- <-; discriminate].
  destruct (pb_offers pb) as [|[j o] l] eqn:PO; [vm_compute in E; injection E as <- <-; vm_compute in P; injection P as <-; discriminate|].
  pose (t := {| et_commod := "leu"; et_offer := o; et_amt := 4 |}).
  exists 0, nx_eg, nx_V, nx_aw, nx_recipe, nx_cfg, nx_es, nx_s0, nx_s, nx_os, [], [nx_mid], s2, B, [t], ValueError.
  split; [apply Qle_refl|]. split; [discriminate|]. split; [reflexivity|]. split; [exact nx_recipes|].
  split; [exact nx_sane0|]. split; [exact nx_fair|]. split; [exact nx_lived|]. split; [apply requests_okb_sound; reflexivity|].
  split; [vm_compute; reflexivity|]. split; [vm_compute; reflexivity|]. split; [exact E|].
  assert (I : In (j, o) (pb_offers pb)) by (rewrite PO; left; reflexivity).
  vm_compute in E. injection E as <- <-. vm_compute in P. injection P as <-. vm_compute in PO. injection PO as <- <- <-.
  split.
  { eapply (nx_awarded (en_tick nx_cfg nx_s) [nx_mid] [t]).
    - vm_compute. reflexivity.
    - reflexivity.
    - reflexivity.
    - reflexivity.
    - repeat constructor.
    - intros t' [<-|[]]. exists 0%nat. left. reflexivity.
    - vm_compute. reflexivity.
    - vm_compute. discriminate.
    - vm_compute. reflexivity.
    - vm_compute. discriminate. }
  split; [intros t' [<-|[]]; vm_compute; reflexivity|]. vm_compute. reflexivity.
Qed.
Print Assumptions C75_served_refuted.

(** ** C76: tails are offered and sold as they are *)
Theorem C76_tails_bids : forall eps eg aw cfg tr pr s s' B, 0 <= eps -> mats_ok (b_items (es_inv s)) ->
  en_get_bids eps eg aw cfg tr pr s = Ok (s', B) ->
  (eb_tails B <> None <-> tr <> [] /\ 0 < b_qty (es_tails s)) /\
  forall tb, eb_tails B = Some tb -> tb_limit tb == b_qty (es_tails s) /\
    forall j m, In (j, m) (tb_offers tb) <-> (j < List.length tr)%nat /\ In m (b_items (es_tails s)).
Proof. exact tails_bids_final. Qed.
Print Assumptions C76_tails_bids.
Theorem C76_tails_sale : forall eps eg V cfg s t s' m rs, 0 <= eps -> 0 < et_amt t -> qtys_ok (b_items (es_tails s)) -> for_tails cfg t ->
  en_trade1 eps eg V cfg s t = Ok (s', m, rs) ->
  m_qty m == Qmin (et_amt t) (b_qty (es_tails s)) /\ b_qty (es_tails s') == b_qty (es_tails s) - m_qty m /\
  es_inv s' = es_inv s /\ es_swu s' = es_swu s /\ rs = [].
Proof. exact tails_sale. Qed.
Print Assumptions C76_tails_sale.
Definition nx_w : en_state :=
  {| es_inv := {| b_cap := Some 40; b_items := [Mat 1 20 nx_feed] |};
     es_tails := {| b_cap := None; b_items := [Mat 2 3 [(922380000%Z, 1)]; Mat 3 2 [(922380000%Z, 1)]] |};
     es_swu := Some 6; es_iswu := Some 0; es_ifeed := Some 0 |}.
Example C76_nontrivial : mats_ok (b_items (es_inv nx_w)) /\ qtys_ok (b_items (es_tails nx_w)) /\ for_tails nx_cfg (nx_tails_sale 4) /\
  (exists v, en_get_bids 0 nx_eg nx_aw nx_cfg [nx_offer 1; nx_offer 2] [] nx_w = Ok v /\
     match eb_tails (snd v) with Some tb => Nat.eqb (List.length (tb_offers tb)) 4 | None => false end = true) /\
  exists v, en_trade1 0 nx_eg nx_V nx_cfg nx_w (nx_tails_sale 4) = Ok v /\ Qeq_bool (m_qty (snd (fst v))) 4 &&
     Qeq_bool (b_qty (es_tails (fst (fst v)))) 1 = true.
Proof.
  split; [apply mats_okb_sound; reflexivity|]. split; [repeat constructor; discriminate|]. split; [reflexivity|].
  split; apply ok_check; vm_compute; reflexivity.
Qed.

(** ** C86: what the constraints charge for an offer.  [f] and [w] are the uranium
    fed and the uranium left as tails when the offer is made: uranium and
    uranium-235 balance.  The feed charge is [f] over the offer's uranium
    fraction; the SWU charge is the gain in value. *)
Theorem C86_charges : forall V feed tails m, ~ feed == tails -> mat_ok m -> 0 < m_qty m -> 0 < mass_of m u235 + mass_of m u238 ->
  exists q swu f w, natu_charge feed tails m = Some q /\ swu_charge V feed tails m = Some swu /\
    f == m_qty m + w /\ f * feed == m_qty m * (mass_of m u235 / (mass_of m u235 + mass_of m u238)) + w * tails /\
    q * (mass_of m u235 + mass_of m u238) == f * m_qty m /\
    swu == m_qty m * V (mass_of m u235 / (mass_of m u235 + mass_of m u238)) + w * V tails - f * V feed.
Proof. exact charges_final. Qed.
Print Assumptions C86_charges.
(** 6 kg, of which 3 are uranium of assay 2/3. *)
Definition nx_mixed_offer : mat := Mat 0 6 [(922350000%Z, 2); (922380000%Z, 1); (10010000%Z, 3)].
Example C86_nontrivial : mat_ok nx_mixed_offer /\ mass_of nx_mixed_offer u235 + mass_of nx_mixed_offer u238 == 3 /\
  option_map Qred (natu_charge (1 # 2) (1 # 5) nx_mixed_offer) = Some (56 # 3) /\ option_map Qred (swu_charge nx_V (1 # 2) (1 # 5) nx_mixed_offer) = Some (28 # 15).
Proof. split; [apply mat_okb_sound; reflexivity|]. split; [vm_compute; reflexivity|]. split; vm_compute; reflexivity. Qed.
