(** Proofs about the Sink. *)
From Coq Require Import Lia Lqa.
From Verif Require Import Outcome KernelMaterial KernelFacts SinkModel SinkSpec.
Local Open Scope Q_scope.

Lemma free_le_cap cfg s : free cfg s <= kc_capacity cfg.
Proof. apply Q.le_min_l. Qed.
Lemma available_eq cfg s : 0 <= kc_capacity cfg -> sk_available cfg s == Qmax 0 (free cfg s).
Proof.
  intro C. unfold sk_available, sk_space, free, held, rsrcs_qty.
  destruct (Q.max_spec 0 (kc_max_inv cfg - qsum (map r_qty (ks_inv s)))) as [[A ->]|[A ->]];
  destruct (Q.min_spec (kc_capacity cfg) (kc_max_inv cfg - qsum (map r_qty (ks_inv s)))) as [[B ->]|[B ->]];
  repeat match goal with
  | |- context [Qmax ?a ?b] => let H := fresh in let H' := fresh in destruct (Q.max_spec a b) as [[H H']|[H H']]; setoid_rewrite H'; clear H'
  | |- context [Qmin ?a ?b] => let H := fresh in let H' := fresh in destruct (Q.min_spec a b) as [[H H']|[H H']]; setoid_rewrite H'; clear H'
  end; lra.
Qed.
Lemma available_nonneg cfg s : 0 <= kc_capacity cfg -> 0 <= sk_available cfg s.
Proof. intro C. rewrite available_eq by auto. apply Q.le_max_l. Qed.

(** The amount set never exceeds what is available, and is not negative. *)
Lemma amt_range cfg g s : 0 <= kc_capacity cfg -> rng_ok g ->
  0 <= sk_request_amt cfg g s <= sk_available cfg s.
Proof.
  intros C (U & N & _). pose proof (available_nonneg cfg s C) as P. unfold sk_request_amt.
  destruct (String.eqb (kc_size_type cfg) "None"); [lra|].
  destruct (String.eqb (kc_size_type cfg) "UniformReal"); [apply U, P|].
  destruct (String.eqb (kc_size_type cfg) "NormalReal"); [apply N, P|]. lra.
Qed.

(** ** Tick *)
Lemma tick_facts eg cfg g t s s' d : sk_tick eg cfg g t s = Ok (s', d) ->
  ks_prefs s' = ks_prefs s /\ ks_inv s' = ks_inv s /\
  (let buy := Z.eqb (ks_next s) (-1) || Z.eqb (ks_next s) t in
   ks_amt s' = (if buy then sk_request_amt cfg g s else 0) /\
   ks_next s' = (if Z.eqb (ks_next s) (-1) then ks_next s else if Z.eqb (ks_next s) t then sk_next_buy cfg g t else ks_next s)) /\
  d = (if Qltb eg (ks_amt s') then map (fun c => (("demand" ++ c)%string, ks_amt s')) (kc_commods cfg) else []).
Proof.
  unfold sk_tick. intro H.
  set (s1 := if Z.eqb (ks_next s) (-1) then _ else _) in H.
  assert (E : s' = s1 /\ d = (if Qltb eg (ks_amt s1) then map (fun c => (("demand" ++ c)%string, ks_amt s1)) (kc_commods cfg) else [])).
  { destruct (Qltb eg (ks_amt s1)); [|injection H as <- <-; auto].
    destruct (vec_at (kc_commods cfg) 0); try discriminate. cbn [bind] in H. injection H as <- <-. auto. }
  destruct E as [-> ->]. subst s1. destruct (Z.eqb (ks_next s) (-1)); cbn [orb]; [cbn; auto|]. destruct (Z.eqb (ks_next s) t); cbn; auto.
Qed.
(** ** Requests *)
Lemma items_loop A (ps : list A) (cs : list string) acc : List.length ps = List.length cs ->
  forall k pre preP, List.length pre = k -> List.length preP = k ->
  loop (fun acc i => let* cm := vec_at (pre ++ cs) i in let* p := vec_at (preP ++ ps) i in Ok (acc ++ [(cm, p)]))
       (seq k (List.length cs)) acc = Ok (acc ++ combine cs ps).
Proof.
  revert ps acc. induction cs as [|c cs IH]; intros ps acc L k pre preP Lp Lq; destruct ps as [|p ps]; try discriminate L.
  - cbn. rewrite app_nil_r. reflexivity.
  - cbn [List.length seq loop]. unfold vec_at.
    rewrite nth_error_app2, nth_error_app2 by lia. rewrite Lp, Lq, Nat.sub_diag. cbn [nth_error bind].
    assert (L' : List.length ps = List.length cs) by (cbn in L; lia).
    specialize (IH ps (acc ++ [(c, p)]) L' (S k) (pre ++ [c]) (preP ++ [p])). rewrite <- !app_assoc in IH. cbn [app] in IH.
    cbn [app combine] in IH |- *. apply IH; rewrite app_length; cbn; lia.
Qed.
Lemma requests_items A (ps : list A) (cs : list string) : List.length ps = List.length cs ->
  loop (fun acc i => let* cm := vec_at cs i in let* p := vec_at ps i in Ok (acc ++ [(cm, p)])) (seq 0 (List.length cs)) [] = Ok (combine cs ps).
Proof. intro L. exact (items_loop A ps cs [] L 0%nat [] [] eq_refl eq_refl). Qed.

Lemma mat_requests_facts eg recipe cfg g s s' r : sk_mat_requests eg recipe cfg g s = Ok (s', r) ->
  ks_amt s <= sk_available cfg s -> List.length (ks_prefs s) = List.length (kc_commods cfg) ->
  s' = s /\ r = if Qltb eg (ks_amt s)
      then Some {| mq_qty := ks_amt s; mq_comp := if String.eqb (kc_recipe cfg) "" then None else recipe (kc_recipe cfg);
                   mq_items := combine (kc_commods cfg) (ks_prefs s) |}
      else None.
Proof.
  unfold sk_mat_requests. intros H A L.
  assert (E : Qltb (sk_available cfg s) (ks_amt s) = false) by (unfold Qltb; apply negb_false_iff, Qle_bool_iff, A).
  rewrite E in H.
  destruct (String.eqb (kc_recipe cfg) "") eqn:R.
  - cbn [bind] in H. destruct (Qltb eg (ks_amt s)); [|injection H as <- <-; auto].
    rewrite (requests_items Q) in H by auto. cbn [bind] in H. injection H as <- <-. auto.
  - destruct (recipe (kc_recipe cfg)) as [c|]; [|discriminate]. cbn [bind] in H.
    destruct (Qltb eg (ks_amt s)); [|injection H as <- <-; auto].
    rewrite (requests_items Q) in H by auto. cbn [bind] in H. injection H as <- <-. auto.
Qed.
(** ** Deliveries *)
Lemma accept_facts eps cfg rs : forall s s', sk_accept eps cfg rs s = Ok s' ->
  ks_prefs s' = ks_prefs s /\ ks_amt s' = ks_amt s /\ ks_next s' = ks_next s /\ ks_inv s' = ks_inv s ++ rs.
Proof.
  induction rs as [|r rs IH]; intros s s' H; cbn in H.
  - injection H as <-. rewrite app_nil_r. auto.
  - destruct (Qltb eps (r_qty r - sk_space cfg s)); [discriminate|]. apply IH in H as (A & B & C & D). cbn in A, B, C, D.
    rewrite <- app_assoc in D. auto.
Qed.
Lemma qsum_app a b : qsum (a ++ b) == qsum a + qsum b.
Proof. induction a; cbn [app]; [cbn; lra|]. change (qsum (a :: a0 ++ b)) with (a + qsum (a0 ++ b)). change (qsum (a :: a0)) with (a + qsum a0). lra. Qed.
Lemma qsum_nonneg l : Forall (fun q => 0 <= q) l -> 0 <= qsum l.
Proof. induction 1; [cbn; lra|]. change (0 <= x + qsum l). lra. Qed.
Lemma accept_ok eps cfg rs : 0 <= eps -> Forall (fun r => 0 <= r_qty r) rs -> forall s,
  qsum (map r_qty rs) <= kc_max_inv cfg - held s -> exists s', sk_accept eps cfg rs s = Ok s'.
Proof.
  intros He H. induction H as [|r rs Hr Hrs IH]; intros s L; cbn; [eauto|].
  cbn [map] in L. change (r_qty r + qsum (map r_qty rs) <= kc_max_inv cfg - held s) in L.
  assert (P : 0 <= qsum (map r_qty rs)) by (apply qsum_nonneg, Forall_map; exact Hrs).
  assert (X : Qltb eps (r_qty r - sk_space cfg s) = false).
  { unfold Qltb. apply negb_false_iff, Qle_bool_iff. unfold sk_space, rsrcs_qty. unfold held in L.
    pose proof (Q.le_max_r 0 (kc_max_inv cfg - qsum (map r_qty (ks_inv s)))). lra. }
  rewrite X. apply IH. unfold held in *. cbn [ks_inv]. rewrite map_app, qsum_app. cbn. lra.
Qed.

(** ** Steps *)
Section SINK.
Variables (eps eg : Q) (recipe : string -> option comp) (cfg : sk_cfg).
Hypothesis Heg : 0 <= eg.
Hypothesis Hcap : 0 <= kc_capacity cfg.

Definition buying (t : Z) (s : sk_state) : bool := Z.eqb (ks_next s) (-1) || Z.eqb (ks_next s) t.
Definition amount (g : rng) (t : Z) (s : sk_state) : Q := if buying t s then sk_request_amt cfg g s else 0.
Definition prefs_ok (s : sk_state) : Prop := ks_prefs s = prefs_in_force cfg /\ List.length (ks_prefs s) = List.length (kc_commods cfg).

Lemma amount_range g t s : rng_ok g -> 0 <= amount g t s <= sk_available cfg s.
Proof.
  intro G. unfold amount. destruct (buying t s); [apply amt_range; auto|]. split; [lra|apply available_nonneg; auto].
Qed.
Lemma request_same g s s' : ks_inv s' = ks_inv s -> sk_available cfg s' = sk_available cfg s /\ sk_request_amt cfg g s' = sk_request_amt cfg g s.
Proof. intro I. unfold sk_request_amt, sk_available, sk_space. rewrite I. auto. Qed.

Lemma step_facts t s e s' o : rng_ok (ke_rng e) -> rng_ok (ke_rng2 e) -> prefs_ok s ->
  sk_step eps eg recipe cfg t s e = Ok (s', o) ->
  let a := amount (ke_rng e) t s in
  prefs_ok s' /\ ks_inv s' = ks_inv s ++ arrivals e /\
  ks_next s' = (if Z.eqb (ks_next s) (-1) then ks_next s else if Z.eqb (ks_next s) t then sk_next_buy cfg (ke_rng e) t else ks_next s) /\
  ko_demand o = (if Qltb eg a then map (fun c => (("demand" ++ c)%string, a)) (kc_commods cfg) else []) /\
  ko_mat o = (if Qltb eg a
      then Some {| mq_qty := a; mq_comp := if String.eqb (kc_recipe cfg) "" then None else recipe (kc_recipe cfg);
                   mq_items := combine (kc_commods cfg) (prefs_in_force cfg) |}
      else None) /\
  ko_gen o = (if Qltb eg a then Some (map (fun c => (c, a)) (kc_commods cfg), a) else None).
Proof.
  intros G G2 [P1 P2] H. unfold sk_step in H.
  destruct (sk_tick eg cfg (ke_rng e) t s) as [[s1 d]| | |] eqn:T; try discriminate. cbn [bind] in H.
  apply tick_facts in T as (TP & TI & (TA & TN) & TD). fold (buying t s) in TA. fold (amount (ke_rng e) t s) in TA.
  destruct (sk_mat_requests eg recipe cfg (ke_rng2 e) s1) as [[s2 mr]| | |] eqn:R; try discriminate. cbn [bind] in H.
  destruct (request_same (ke_rng e) s s1 TI) as [AV _].
  assert (X : s2 = s1 /\ mr = if Qltb eg (ks_amt s1)
      then Some {| mq_qty := ks_amt s1; mq_comp := if String.eqb (kc_recipe cfg) "" then None else recipe (kc_recipe cfg);
                   mq_items := combine (kc_commods cfg) (ks_prefs s1) |}
      else None).
  { apply mat_requests_facts with (1 := R).
    - rewrite AV, TA. apply amount_range; auto.
    - rewrite TP. exact P2. }
  destruct X as [-> ->]. rewrite TA in *.
  destruct (sk_accept eps cfg (map rsrc_of_mat (ke_mats e)) s1) as [s3| | |] eqn:A1; try discriminate. cbn [bind] in H.
  destruct (sk_accept eps cfg (map rsrc_of_prod (ke_prods e)) s3) as [s4| | |] eqn:A2; try discriminate. cbn [bind] in H.
  apply accept_facts in A1 as (B1 & B2 & B3 & B4). apply accept_facts in A2 as (C1 & C2 & C3 & C4).
  injection H as <- <-. cbn [ko_demand ko_mat ko_gen]. cbv zeta.
  split; [unfold prefs_ok; rewrite C1, B1, TP; auto|].
  split; [rewrite C4, B4, TI; unfold arrivals; rewrite <- app_assoc; reflexivity|].
  split; [rewrite C3, B3; exact TN|]. split; [exact TD|]. split.
  { rewrite TP, P1. reflexivity. }
  unfold sk_gen_requests. rewrite B2, TA. reflexivity.
Qed.

Lemma enter_facts g t s0 : sk_enter cfg g t (sk_new cfg) = Ok s0 ->
  prefs_ok s0 /\ ks_inv s0 = [] /\ ks_next s0 = sk_next_buy cfg g t.
Proof.
  unfold sk_enter, prefs_ok, prefs_in_force. cbn [ks_prefs sk_new ks_inv]. destruct (kc_prefs cfg) as [|p ps].
  - cbn [bind]. intro H. injection H as <-. cbn. rewrite map_length. auto.
  - destruct (Nat.eqb (List.length (p :: ps)) (List.length (kc_commods cfg))) eqn:E; [|discriminate].
    apply Nat.eqb_eq in E. cbn [bind]. intro H. injection H as <-. cbn. auto.
Qed.

Lemma run_app es1 : forall t s es2 s' os, sk_run eps eg recipe cfg t s (es1 ++ es2) = Ok (s', os) ->
  exists s1 os1 os2, sk_run eps eg recipe cfg t s es1 = Ok (s1, os1) /\
    sk_run eps eg recipe cfg (now t es1) s1 es2 = Ok (s', os2) /\ os = os1 ++ os2.
Proof.
  induction es1 as [|e es1 IH]; intros t s es2 s' os H; cbn [app] in H.
  - exists s, [], os. unfold now. cbn. rewrite Z.add_0_r. auto.
  - cbn [sk_run] in H |- *. destruct (sk_step eps eg recipe cfg t s e) as [[s1 o]| | |]; try discriminate. cbn [bind] in H |- *.
    destruct (sk_run eps eg recipe cfg (t + 1) s1 (es1 ++ es2)) as [[s2 os']| | |] eqn:R; try discriminate. cbn [bind] in H. injection H as <- <-.
    apply IH in R as (s3 & os1 & os2 & A & B & ->). exists s3, (o :: os1), os2. rewrite A. cbn [bind].
    split; [reflexivity|]. split; [|reflexivity]. unfold now in *. cbn [List.length]. replace (t + Z.of_nat (S (List.length es1)))%Z with (t + 1 + Z.of_nat (List.length es1))%Z by lia. exact B.
Qed.

(** An invariant of runs. *)
Lemma run_inv es : forall t s s' os, rngs_ok es -> prefs_ok s -> sk_run eps eg recipe cfg t s es = Ok (s', os) ->
  prefs_ok s' /\ ks_inv s' = ks_inv s ++ flat_map arrivals es.
Proof.
  induction es as [|e es IH]; intros t s s' os R P H; cbn [sk_run] in H.
  - injection H as <- <-. cbn. rewrite app_nil_r. auto.
  - destruct (sk_step eps eg recipe cfg t s e) as [[s1 o]| | |] eqn:T; try discriminate. cbn [bind] in H.
    destruct (sk_run eps eg recipe cfg (t + 1) s1 es) as [[s2 os']| | |] eqn:N; try discriminate. cbn [bind] in H. injection H as <- <-.
    inversion R as [|? ? [G G2] R' EQ]; subst. pose proof (step_facts t s e s1 o G G2 P T) as (P' & I & _).
    destruct (IH _ _ _ _ R' P' N) as [A B]. split; [exact A|]. rewrite B, I. cbn [flat_map]. apply app_assoc_reverse.
Qed.
Lemma lived_inv g t0 es s os : rngs_ok es -> sk_lived eps eg recipe cfg g t0 es s os ->
  prefs_ok s /\ ks_inv s = flat_map arrivals es.
Proof.
  intros R (s0 & E & H). apply enter_facts in E as (P & I & _). destruct (run_inv es t0 s0 s os R P H) as [A B].
  rewrite I in B. auto.
Qed.
Lemma lived_length g t0 es s os : sk_lived eps eg recipe cfg g t0 es s os -> List.length os = List.length es.
Proof.
  intros (s0 & _ & H). revert t0 s0 os H. induction es as [|e es IH]; intros t s0 os H; cbn [sk_run] in H.
  - injection H as <- <-. reflexivity.
  - destruct (sk_step eps eg recipe cfg t s0 e) as [[s1 o]| | |]; try discriminate. cbn [bind] in H.
    destruct (sk_run eps eg recipe cfg (t + 1) s1 es) as [[s2 os']| | |] eqn:N; try discriminate. cbn [bind] in H. injection H as <- <-.
    cbn. f_equal. exact (IH _ _ _ N).
Qed.

(** ** C47 *)
Lemma requests_final g t0 es e s os s' o : rngs_ok (es ++ [e]) -> sk_lived eps eg recipe cfg g t0 es s os ->
  sk_step eps eg recipe cfg (now t0 es) s e = Ok (s', o) ->
  (forall r, ko_mat o = Some r -> eg < mq_qty r /\ mq_qty r <= free cfg s) /\
  (forall l c, ko_gen o = Some (l, c) -> eg < c /\ c <= free cfg s /\ Forall (fun x => snd x = c) l).
Proof.
  intros R L H. apply Forall_app in R as [R1 R2]. inversion R2 as [|? ? [G G2] _ EQ]; subst.
  destruct (lived_inv g t0 es s os R1 L) as [P _].
  pose proof (step_facts _ _ _ _ _ G G2 P H) as (_ & _ & _ & _ & M & N). cbv zeta in *.
  set (a := amount (ke_rng e) (now t0 es) s) in *.
  assert (X : Qltb eg a = true -> eg < a /\ a <= free cfg s).
  { intro E. apply Qltb_true in E. split; [exact E|]. pose proof (amount_range (ke_rng e) (now t0 es) s G) as [_ B]. fold a in B.
    rewrite available_eq in B by auto. destruct (Q.max_spec 0 (free cfg s)) as [[Y Z]|[Y Z]]; rewrite Z in B; lra. }
  split.
  - intros r E. rewrite M in E. destruct (Qltb eg a) eqn:B; [|discriminate]. injection E as <-. cbn. auto.
  - intros l c E. rewrite N in E. destruct (Qltb eg a) eqn:B; [|discriminate]. injection E as <- <-.
    destruct (X eq_refl). split; [auto|]. split; [auto|]. apply Forall_map, Forall_forall. reflexivity.
Qed.
Lemma held_app s e s' : ks_inv s' = ks_inv s ++ arrivals e -> held s' == held s + delivered e.
Proof.
  intro I. unfold held, delivered. rewrite I. unfold arrivals. rewrite !map_app, !qsum_app, !map_map. cbn [r_qty].
  rewrite map_id. change (map (fun x : mat => m_qty x) (ke_mats e)) with (map m_qty (ke_mats e)). lra.
Qed.
Lemma step_bounded t s e s' o : rng_ok (ke_rng e) -> rng_ok (ke_rng2 e) -> prefs_ok s ->
  sk_step eps eg recipe cfg t s e = Ok (s', o) -> delivered e <= requested o -> held s <= kc_max_inv cfg -> held s' <= kc_max_inv cfg.
Proof.
  intros G G2 P H D B. pose proof (step_facts t s e s' o G G2 P H) as (_ & I & _ & _ & M & _). cbv zeta in M.
  rewrite (held_app s e s' I). unfold requested in D. rewrite M in D.
  pose proof (amount_range (ke_rng e) t s G) as [A0 A].
  rewrite available_eq in A by auto.
  assert (F : free cfg s <= kc_max_inv cfg - held s) by apply Q.le_min_r.
  destruct (Qltb eg (amount (ke_rng e) t s)).
  - cbn [mq_qty] in D. destruct (Q.max_spec 0 (free cfg s)) as [[Y Z]|[Y Z]]; rewrite Z in A; lra.
  - lra.
Qed.
Lemma inventory_final g t0 es s os : rngs_ok es -> sk_lived eps eg recipe cfg g t0 es s os -> fair es os -> 0 <= kc_max_inv cfg ->
  held s <= kc_max_inv cfg.
Proof.
  intros R (s0 & E & H) F M. apply enter_facts in E as (P & I & _).
  assert (B : held s0 <= kc_max_inv cfg) by (unfold held; rewrite I; cbn; lra). clear I.
  revert t0 s0 os P B H F R. induction es as [|e es IH]; intros t s0 os P B H F R; cbn [sk_run] in H.
  - injection H as <- <-. exact B.
  - destruct (sk_step eps eg recipe cfg t s0 e) as [[s1 o]| | |] eqn:T; try discriminate. cbn [bind] in H.
    destruct (sk_run eps eg recipe cfg (t + 1) s1 es) as [[s2 os']| | |] eqn:N; try discriminate. cbn [bind] in H. injection H as <- <-.
    inversion R as [|? ? [G G2] R' EQ]; subst. inversion F as [|? ? ? ? [_ D] F']; subst.
    pose proof (step_facts t s0 e s1 o G G2 P T) as (P' & _).
    exact (IH _ _ _ P' (step_bounded t s0 e s1 o G G2 P T D B) N F' R').
Qed.
(** Whatever is requested can be delivered (as one kind of resource or several,
    as long as the total stays within the request). *)
Lemma accepted_final g t0 es s os : 0 <= eps -> rngs_ok es -> sk_lived eps eg recipe cfg g t0 es s os -> fair es os -> 0 <= kc_max_inv cfg ->
  kc_commods cfg <> [] -> (kc_recipe cfg = ""%string \/ recipe (kc_recipe cfg) <> None) ->
  forall g1 g2, rng_ok g1 -> rng_ok g2 -> exists o, forall ms ps,
    let e := {| ke_rng := g1; ke_rng2 := g2; ke_mats := ms; ke_prods := ps |} in
    nonneg_deliveries e -> delivered e <= requested o ->
    exists s', sk_step eps eg recipe cfg (now t0 es) s e = Ok (s', o).
Proof.
  intros He R L F M C RC g1 g2 G1 G2. destruct (lived_inv g t0 es s os R L) as [[P1 P2] _].
  pose proof (inventory_final g t0 es s os R L F M) as B. set (t := now t0 es). set (a := amount g1 t s).
  exists {| ko_demand := if Qltb eg a then map (fun c => (("demand" ++ c)%string, a)) (kc_commods cfg) else [];
            ko_mat := if Qltb eg a
              then Some {| mq_qty := a; mq_comp := if String.eqb (kc_recipe cfg) "" then None else recipe (kc_recipe cfg);
                           mq_items := combine (kc_commods cfg) (prefs_in_force cfg) |}
              else None;
            ko_gen := if Qltb eg a then Some (map (fun c => (c, a)) (kc_commods cfg), a) else None |}.
  intros ms ps e [N1 N2] D. unfold requested in D. cbn [ko_mat] in D.
  pose proof (amount_range g1 t s G1) as [A0 A]. fold a in A0, A.
  assert (TK : exists s1 d, sk_tick eg cfg g1 t s = Ok (s1, d)).
  { unfold sk_tick. set (s1 := if Z.eqb (ks_next s) (-1) then _ else _). destruct (Qltb eg (ks_amt s1)); [|eauto].
    destruct (kc_commods cfg); [congruence|]. cbn. eauto. }
  destruct TK as (s1 & d & T).
  pose proof (tick_facts _ _ _ _ _ _ _ T) as (TP & TI & (TA & TN) & _). fold (buying t s) in TA. fold (amount g1 t s) in TA. fold a in TA.
  destruct (request_same g1 s s1 TI) as [AV _].
  assert (E : Qltb (sk_available cfg s1) (ks_amt s1) = false) by (unfold Qltb; apply negb_false_iff, Qle_bool_iff; rewrite AV, TA; exact A).
  assert (RQ : exists mr, sk_mat_requests eg recipe cfg g2 s1 = Ok (s1, mr)).
  { unfold sk_mat_requests. rewrite E.
    assert (X : exists c, (if String.eqb (kc_recipe cfg) "" then Ok None
             else match recipe (kc_recipe cfg) with Some c => Ok (Some c) | None => Throw KeyError end) = Ok c).
    { destruct (String.eqb (kc_recipe cfg) "") eqn:Z; [eauto|]. destruct RC as [RC|RC]; [rewrite RC in Z; discriminate|].
      destruct (recipe (kc_recipe cfg)); [eauto|congruence]. }
    destruct X as (c & ->). cbn [bind]. destruct (Qltb eg (ks_amt s1)); [|eauto].
    rewrite (requests_items Q) by (rewrite TP; exact P2). cbn [bind]. eauto. }
  destruct RQ as (mr & RQ).
  assert (SP : qsum (map r_qty (arrivals e)) <= kc_max_inv cfg - held s).
  { unfold arrivals. rewrite map_app, qsum_app, !map_map. cbn [r_qty]. rewrite map_id.
    change (qsum (map m_qty ms) + qsum ps <= kc_max_inv cfg - held s). unfold delivered in D. cbn [ke_mats ke_prods e] in D.
    rewrite available_eq in A by auto. assert (FF : free cfg s <= kc_max_inv cfg - held s) by apply Q.le_min_r.
    destruct (Qltb eg a); cbn [mq_qty] in D; [|lra].
    destruct (Q.max_spec 0 (free cfg s)) as [[Y Z]|[Y Z]]; rewrite Z in A; lra. }
  assert (NN : Forall (fun r => 0 <= r_qty r) (map rsrc_of_mat ms) /\ Forall (fun r => 0 <= r_qty r) (map rsrc_of_prod ps)).
  { split; apply Forall_map; [exact N1|exact N2]. }
  destruct NN as [NM NP].
  assert (PP : 0 <= qsum (map r_qty (map rsrc_of_mat ms)) /\ 0 <= qsum (map r_qty (map rsrc_of_prod ps))).
  { split; apply qsum_nonneg, Forall_map; assumption. }
  assert (SP' : qsum (map r_qty (map rsrc_of_mat ms)) + qsum (map r_qty (map rsrc_of_prod ps)) <= kc_max_inv cfg - held s).
  { rewrite <- qsum_app, <- map_app. exact SP. }
  destruct (accept_ok eps cfg (map rsrc_of_mat ms) He NM s1) as (s3 & A1).
  { unfold held. rewrite TI. fold (held s). lra. }
  pose proof (accept_facts _ _ _ _ _ A1) as (B1 & B2 & B3 & B4).
  destruct (accept_ok eps cfg (map rsrc_of_prod ps) He NP s3) as (s4 & A2).
  { unfold held. rewrite B4, TI, map_app, qsum_app. fold (held s). lra. }
  exists s4. assert (ST : sk_step eps eg recipe cfg t s e = Ok (s4, {| ko_demand := d; ko_mat := mr; ko_gen := sk_gen_requests eg cfg s3 |})).
  { unfold sk_step. cbn [ke_rng ke_rng2 ke_mats ke_prods e]. rewrite T. cbn [bind]. rewrite RQ. cbn [bind]. rewrite A1. cbn [bind]. rewrite A2. reflexivity. }
  rewrite ST. pose proof (step_facts t s e _ _ G1 G2 (conj P1 P2) ST) as (_ & _ & _ & X1 & X2 & X3). cbv zeta in X1, X2, X3.
  cbn [ko_demand ko_mat ko_gen ke_rng e] in X1, X2, X3. fold a in X1, X2, X3. rewrite X1, X2, X3. reflexivity.
Qed.

(** ** C48 *)
(** The buy steps, from the next buy time [n] on. *)
Fixpoint buy_list (n t : Z) (es : list sk_env) : list bool :=
  match es with
  | [] => []
  | e :: es' => Z.eqb n t :: buy_list (if Z.eqb n t then (t + drawn cfg (ke_rng e))%Z else n) (t + 1)%Z es'
  end.
Lemma buy_list_length es : forall n t, List.length (buy_list n t es) = List.length es.
Proof. induction es; intros; cbn; auto. Qed.
Lemma buy_list_schedule es : forall n t, (t <= n)%Z -> Forall (fun e => (1 <= drawn cfg (ke_rng e))%Z) es ->
  on_schedule (n - t) (map (fun e => drawn cfg (ke_rng e)) es) (buy_list n t es).
Proof.
  induction es as [|e es IH]; intros n t L P j J; [cbn in J; lia|]. inversion P as [|? ? Pe P']; subst.
  cbn [buy_list map]. destruct (Z.eqb_spec n t) as [E|E].
  - assert (L' : (t + 1 <= t + drawn cfg (ke_rng e))%Z) by lia. pose proof (IH _ _ L' P') as H. destruct j as [|j].
    + cbn. split; [intros _; left; lia|reflexivity].
    + cbn [nth]. cbn [buy_list List.length] in J. destruct (Z.eqb_spec n t) as [_|]; [|congruence]. rewrite (H j) by lia. split.
      * intros [X|(i & I1 & I2 & I3)]; right; [exists 0%nat; cbn; split; [lia|]; split; [reflexivity|lia]|].
        exists (S i). cbn [nth]. split; [lia|]. split; [exact I2|lia].
      * intros [X|(i & I1 & I2 & I3)]; [lia|]. destruct i as [|i]; cbn [nth] in I2, I3; [left; lia|right].
        exists i. split; [lia|]. split; [exact I2|lia].
  - assert (L' : (t + 1 <= n)%Z) by lia. pose proof (IH _ _ L' P') as H. destruct j as [|j].
    + cbn. split; [discriminate|]. intros [X|(i & I & _)]; lia.
    + cbn [nth]. cbn [buy_list List.length] in J. destruct (Z.eqb_spec n t) as [|_]; [congruence|]. rewrite (H j) by lia. split.
      * intros [X|(i & I1 & I2 & I3)]; [left; lia|right]. exists (S i). cbn [nth]. split; [lia|]. split; [exact I2|lia].
      * intros [X|(i & I1 & I2 & I3)]; [left; lia|]. destruct i as [|i]; cbn [nth] in I2, I3; [discriminate|right].
        exists i. split; [lia|]. split; [exact I2|lia].
Qed.
(** A schedule with bounded intervals never runs dry. *)
Lemma schedule_live d0 gaps buys mx : on_schedule d0 gaps buys -> (0 <= d0 <= mx)%Z ->
  (forall i, (i < List.length buys)%nat -> (1 <= nth i gaps 0 <= mx)%Z) ->
  forall k, (Z.of_nat k + mx < zlen buys)%Z ->
  exists j, (Z.of_nat k <= Z.of_nat j <= Z.of_nat k + mx)%Z /\ nth j buys false = true.
Proof.
  intros S D G k. unfold zlen. induction k as [|k IH]; intro L.
  - exists (Z.to_nat d0). split; [lia|]. apply S; [lia|]. left. lia.
  - destruct (IH ltac:(lia)) as (j & J & B). destruct (Nat.eq_dec j k) as [->|N]; [|exists j; split; [lia|exact B]].
    pose proof (G k ltac:(lia)) as Gk. exists (Z.to_nat (Z.of_nat k + nth k gaps 0%Z)). split; [lia|].
    apply S; [lia|]. right. exists k. split; [lia|]. split; [exact B|lia].
Qed.
Lemma next_buy_random g t : random_frequency cfg -> sk_next_buy cfg g t = (t + drawn cfg g)%Z.
Proof. unfold sk_next_buy, drawn. intros [E|E]; rewrite E; reflexivity. Qed.
Lemma next_buy_none g t : ~ random_frequency cfg -> sk_next_buy cfg g t = (-1)%Z.
Proof.
  unfold sk_next_buy, random_frequency. intro N. destruct (String.eqb (kc_freq_type cfg) "None"); [reflexivity|].
  destruct (String.eqb (kc_freq_type cfg) "UniformInt") eqn:A; [apply String.eqb_eq in A; tauto|].
  destruct (String.eqb (kc_freq_type cfg) "NormalInt") eqn:B; [apply String.eqb_eq in B; tauto|]. reflexivity.
Qed.
Lemma drawn_range g : rng_ok g -> (kc_freq_min cfg <= kc_freq_max cfg)%Z -> (kc_freq_min cfg <= drawn cfg g <= kc_freq_max cfg)%Z.
Proof. intros (_ & _ & U & N) L. unfold drawn. destruct (String.eqb (kc_freq_type cfg) "UniformInt"); [apply U|apply N]; exact L. Qed.

(** The next buy time after a run, and the buy list. *)
Lemma run_next es : forall t s s' os, random_frequency cfg -> rngs_ok es -> prefs_ok s -> (0 <= t)%Z -> (t <= ks_next s)%Z ->
  Forall (fun e => (1 <= drawn cfg (ke_rng e))%Z) es -> sk_run eps eg recipe cfg t s es = Ok (s', os) ->
  (now t es <= ks_next s')%Z /\ forall e, buy_list (ks_next s) t (es ++ [e]) = buy_list (ks_next s) t es ++ [Z.eqb (ks_next s') (now t es)].
Proof.
  induction es as [|e es IH]; intros t s s' os RF R P T0 TN D H; cbn [sk_run] in H.
  - injection H as <- <-. unfold now. cbn. rewrite Z.add_0_r. auto.
  - destruct (sk_step eps eg recipe cfg t s e) as [[s1 o]| | |] eqn:T; try discriminate. cbn [bind] in H.
    destruct (sk_run eps eg recipe cfg (t + 1) s1 es) as [[s2 os']| | |] eqn:N; try discriminate. cbn [bind] in H. injection H as <- <-.
    inversion R as [|? ? [G G2] R' EQ]; subst. inversion D as [|? ? De D']; subst.
    pose proof (step_facts t s e s1 o G G2 P T) as (P' & _ & NX & _).
    assert (X : ks_next s1 = if Z.eqb (ks_next s) t then (t + drawn cfg (ke_rng e))%Z else ks_next s).
    { destruct (Z.eqb_spec (ks_next s) (-1)) as [B|B]; [lia|]. rewrite NX. destruct (Z.eqb (ks_next s) t); [apply next_buy_random, RF|reflexivity]. }
    assert (Y : (t + 1 <= ks_next s1)%Z) by (rewrite X; destruct (Z.eqb_spec (ks_next s) t); lia).
    destruct (IH (t + 1)%Z s1 s2 os' RF R' P' ltac:(lia) Y D' N) as [A B].
    assert (W : now t (e :: es) = now (t + 1) es) by (unfold now; cbn [List.length]; lia).
    rewrite W. split; [exact A|]. intro e'. cbn [app buy_list]. rewrite <- X, B. reflexivity.
Qed.
Lemma silent_not_buying t s e s' o : rng_ok (ke_rng e) -> rng_ok (ke_rng2 e) -> prefs_ok s -> buying t s = false ->
  sk_step eps eg recipe cfg t s e = Ok (s', o) -> silent o.
Proof.
  intros G G2 P B H. pose proof (step_facts t s e s' o G G2 P H) as (_ & _ & _ & X1 & X2 & X3). cbv zeta in X1, X2, X3.
  unfold amount in *. rewrite B in *. assert (Q0 : Qltb eg 0 = false) by (unfold Qltb; apply negb_false_iff, Qle_bool_iff, Heg).
  rewrite Q0 in *. split; [exact X2|]. split; [exact X3|exact X1].
Qed.
Lemma full_buying t s e s' o : rng_ok (ke_rng e) -> rng_ok (ke_rng2 e) -> prefs_ok s -> buying t s = true -> kc_size_type cfg = "None"%string ->
  sk_step eps eg recipe cfg t s e = Ok (s', o) -> eg < free cfg s -> exists r, ko_mat o = Some r /\ mq_qty r == free cfg s.
Proof.
  intros G G2 P B SZ H F. pose proof (step_facts t s e s' o G G2 P H) as (_ & _ & _ & _ & X2 & _). cbv zeta in X2.
  assert (E : amount (ke_rng e) t s == free cfg s).
  { unfold amount, sk_request_amt. rewrite B, SZ. change (sk_available cfg s == free cfg s).
    rewrite available_eq by auto. apply Q.max_r. lra. }
  assert (Y : Qltb eg (amount (ke_rng e) t s) = true) by (apply Qltb_true; rewrite E; exact F).
  rewrite Y in X2. eexists. split; [exact X2|exact E].
Qed.
Lemma schedule_final g t0 es e s os s' o : random_frequency cfg -> (1 <= kc_freq_min cfg <= kc_freq_max cfg)%Z -> (0 <= t0)%Z ->
  rng_ok g -> rngs_ok (es ++ [e]) -> sk_lived eps eg recipe cfg g t0 es s os ->
  sk_step eps eg recipe cfg (now t0 es) s e = Ok (s', o) ->
  (forall g', rng_ok g' -> (kc_freq_min cfg <= drawn cfg g' <= kc_freq_max cfg)%Z) /\
  exists buys, List.length buys = S (List.length es) /\
    on_schedule (drawn cfg g) (map (fun e => drawn cfg (ke_rng e)) (es ++ [e])) buys /\
    (forall k, (Z.of_nat k + kc_freq_max cfg < zlen buys)%Z ->
       exists j, (Z.of_nat k <= Z.of_nat j <= Z.of_nat k + kc_freq_max cfg)%Z /\ nth j buys false = true) /\
    (last buys false = false -> silent o) /\
    (last buys false = true -> kc_size_type cfg = "None"%string -> eg < free cfg s -> exists r, ko_mat o = Some r /\ mq_qty r == free cfg s).
Proof.
  intros RF MM T0 G R (s0 & E & H) ST. split; [intros g' G'; apply drawn_range; [exact G'|lia]|].
  assert (R0 := R). apply Forall_app in R0 as [R1 R2]. inversion R2 as [|? ? [G1 G2] _ EQ]; subst.
  pose proof (enter_facts g t0 s0 E) as (P & I & NX). rewrite next_buy_random in NX by exact RF.
  assert (D : Forall (fun e => (1 <= drawn cfg (ke_rng e))%Z) (es ++ [e])).
  { apply Forall_forall. intros x X. unfold rngs_ok in R. rewrite Forall_forall in R. destruct (R x X) as [A _].
    pose proof (drawn_range _ A ltac:(lia)). lia. }
  assert (D1 := D). apply Forall_app in D1 as [D1 _].
  pose proof (drawn_range g G ltac:(lia)) as DG.
  destruct (run_next es t0 s0 s os RF R1 P T0 ltac:(lia) D1 H) as [A B].
  destruct (run_inv es t0 s0 s os R1 P H) as [P' _].
  exists (buy_list (ks_next s0) t0 (es ++ [e])). split; [rewrite buy_list_length, app_length; cbn; lia|].
  pose proof (buy_list_schedule (es ++ [e]) (ks_next s0) t0 ltac:(lia) D) as SCH.
  replace (ks_next s0 - t0)%Z with (drawn cfg g) in SCH by lia.
  split; [exact SCH|]. split.
  { apply (schedule_live _ _ _ _ SCH); [lia|]. intros i Hi. rewrite buy_list_length in Hi.
    rewrite (nth_indep _ _ (drawn cfg (ke_rng e))) by (rewrite map_length; exact Hi).
    rewrite (map_nth (fun e => drawn cfg (ke_rng e))).
    assert (X : In (nth i (es ++ [e]) e) (es ++ [e])) by (apply nth_In; exact Hi).
    unfold rngs_ok in R. rewrite Forall_forall in R. destruct (R _ X) as [GA _]. pose proof (drawn_range _ GA ltac:(lia)). lia. }
  rewrite B, last_last.
  assert (BY : buying (now t0 es) s = Z.eqb (ks_next s) (now t0 es)).
  { unfold buying. destruct (Z.eqb_spec (ks_next s) (-1)) as [X|X]; [|reflexivity]. unfold now in A. lia. }
  split.
  - intro X. apply (silent_not_buying (now t0 es) s e s' o G1 G2 P'); [rewrite BY; exact X|exact ST].
  - intros X SZ F. apply (full_buying (now t0 es) s e s' o G1 G2 P'); [rewrite BY; exact X|exact SZ|exact ST|exact F].
Qed.
(** Without a random frequency every step is a buy step. *)
Lemma run_minus_one es : forall t s s' os, rngs_ok es -> prefs_ok s -> ks_next s = (-1)%Z -> sk_run eps eg recipe cfg t s es = Ok (s', os) ->
  ks_next s' = (-1)%Z.
Proof.
  induction es as [|e es IH]; intros t s s' os R P N H; cbn [sk_run] in H.
  - injection H as <- <-. exact N.
  - destruct (sk_step eps eg recipe cfg t s e) as [[s1 o]| | |] eqn:T; try discriminate. cbn [bind] in H.
    destruct (sk_run eps eg recipe cfg (t + 1) s1 es) as [[s2 os']| | |] eqn:X; try discriminate. cbn [bind] in H. injection H as <- <-.
    inversion R as [|? ? [G G2] R' EQ]; subst. pose proof (step_facts t s e s1 o G G2 P T) as (P' & _ & NX & _).
    rewrite N in NX. cbn in NX. exact (IH _ _ _ _ R' P' NX X).
Qed.
Lemma every_step_final g t0 es e s os s' o : ~ random_frequency cfg -> kc_size_type cfg = "None"%string ->
  rngs_ok (es ++ [e]) -> sk_lived eps eg recipe cfg g t0 es s os ->
  sk_step eps eg recipe cfg (now t0 es) s e = Ok (s', o) ->
  (eg < free cfg s -> exists r, ko_mat o = Some r /\ mq_qty r == free cfg s) /\
  (free cfg s <= eg -> silent o).
Proof.
  intros NF SZ R (s0 & E & H) ST. apply Forall_app in R as [R1 R2]. inversion R2 as [|? ? [G1 G2] _ EQ]; subst.
  pose proof (enter_facts g t0 s0 E) as (P & I & NX). rewrite next_buy_none in NX by exact NF.
  destruct (run_inv es t0 s0 s os R1 P H) as [P' _]. pose proof (run_minus_one es t0 s0 s os R1 P NX H) as M.
  assert (B : buying (now t0 es) s = true) by (unfold buying; rewrite M; reflexivity).
  split; [intro F; apply (full_buying (now t0 es) s e s' o); auto|].
  intro F. pose proof (step_facts (now t0 es) s e s' o G1 G2 P' ST) as (_ & _ & _ & X1 & X2 & X3). cbv zeta in X1, X2, X3.
  pose proof (amount_range (ke_rng e) (now t0 es) s G1) as [_ A]. rewrite available_eq in A by auto.
  assert (Q0 : Qltb eg (amount (ke_rng e) (now t0 es) s) = false).
  { unfold Qltb. apply negb_false_iff, Qle_bool_iff. destruct (Q.max_spec 0 (free cfg s)) as [[Y Z]|[Y Z]]; rewrite Z in A; lra. }
  rewrite Q0 in *. split; [exact X2|]. split; [exact X3|exact X1].
Qed.

(** ** What is in a request *)
Lemma content_final g t0 es e s os s' o : rngs_ok (es ++ [e]) -> sk_lived eps eg recipe cfg g t0 es s os ->
  sk_step eps eg recipe cfg (now t0 es) s e = Ok (s', o) ->
  List.length (prefs_in_force cfg) = List.length (kc_commods cfg) /\
  match ko_mat o with
  | Some r => mq_items r = combine (kc_commods cfg) (prefs_in_force cfg) /\
      (kc_recipe cfg = ""%string -> mq_comp r = None) /\ (kc_recipe cfg <> ""%string -> mq_comp r = recipe (kc_recipe cfg)) /\
      ko_gen o = Some (map (fun c => (c, mq_qty r)) (kc_commods cfg), mq_qty r) /\
      ko_demand o = map (fun c => (("demand" ++ c)%string, mq_qty r)) (kc_commods cfg)
  | None => silent o
  end.
Proof.
  intros R L ST. apply Forall_app in R as [R1 R2]. inversion R2 as [|? ? [G1 G2] _ EQ]; subst.
  destruct (lived_inv g t0 es s os R1 L) as [P _].
  pose proof (step_facts (now t0 es) s e s' o G1 G2 P ST) as (_ & _ & _ & X1 & X2 & X3). cbv zeta in X1, X2, X3.
  split; [destruct P as [<- P2]; exact P2|].
  destruct (Qltb eg (amount (ke_rng e) (now t0 es) s)).
  - rewrite X2. cbn [mq_items mq_comp mq_qty]. split; [reflexivity|]. split; [intros ->; reflexivity|].
    split; [|auto]. intro N. destruct (String.eqb_spec (kc_recipe cfg) ""); [congruence|reflexivity].
  - rewrite X2. split; [exact X2|auto].
Qed.
Lemma kept_final g t0 es s os : rngs_ok es -> sk_lived eps eg recipe cfg g t0 es s os ->
  ks_inv s = flat_map arrivals es.
Proof. intros R L. apply (lived_inv g t0 es s os R L). Qed.
End SINK.

Lemma enter_final cfg g t : (exists s, sk_enter cfg g t (sk_new cfg) = Ok s) <-> kc_prefs cfg = [] \/ List.length (kc_prefs cfg) = List.length (kc_commods cfg).
Proof.
  unfold sk_enter. cbn [ks_prefs sk_new]. destruct (kc_prefs cfg) as [|p ps]; [cbn [bind]; split; eauto|].
  destruct (Nat.eqb_spec (List.length (p :: ps)) (List.length (kc_commods cfg))) as [E|E]; cbn [bind].
  - split; eauto.
  - split; [intros [s X]; discriminate|intros [X|X]; [discriminate|congruence]].
Qed.

(** ** Zero intervals *)
(** A sink whose next buy time is past never requests anything again. *)
Lemma stuck_forever eps eg recipe cfg es : 0 <= eg -> 0 <= kc_capacity cfg -> forall t s s' os, rngs_ok es -> prefs_ok cfg s ->
  (0 <= ks_next s < t)%Z -> sk_run eps eg recipe cfg t s es = Ok (s', os) -> Forall silent os.
Proof.
  intros Heg Hcap. induction es as [|e es IH]; intros t s s' os R P N H; cbn [sk_run] in H.
  - injection H as <- <-. constructor.
  - destruct (sk_step eps eg recipe cfg t s e) as [[s1 o]| | |] eqn:T; try discriminate. cbn [bind] in H.
    destruct (sk_run eps eg recipe cfg (t + 1) s1 es) as [[s2 os']| | |] eqn:X; try discriminate. cbn [bind] in H. injection H as <- <-.
    inversion R as [|? ? [G G2] R' EQ]; subst. pose proof (step_facts eps eg recipe cfg Hcap t s e s1 o G G2 P T) as (P' & _ & NX & _).
    assert (B : buying t s = false) by (unfold buying; destruct (Z.eqb_spec (ks_next s) (-1)); [lia|]; destruct (Z.eqb_spec (ks_next s) t); [lia|reflexivity]).
    constructor; [exact (silent_not_buying eps eg recipe cfg Heg Hcap t s e s1 o G G2 P B T)|].
    assert (Y : ks_next s1 = ks_next s).
    { rewrite NX. destruct (Z.eqb_spec (ks_next s) (-1)); [lia|]. destruct (Z.eqb_spec (ks_next s) t); [lia|reflexivity]. }
    apply (IH (t + 1)%Z s1 s2 os' R' P'); [lia|exact X].
Qed.

(** ** Random sizes *)
Lemma uniform_final eps eg recipe cfg g t0 es e s os s' o : 0 <= eg -> 0 <= kc_capacity cfg -> rngs_ok (es ++ [e]) ->
  sk_lived eps eg recipe cfg g t0 es s os -> sk_step eps eg recipe cfg (now t0 es) s e = Ok (s', o) ->
  forall r, ko_mat o = Some r ->
  (kc_size_type cfg = "UniformReal"%string -> exists hi, hi == free cfg s /\ mq_qty r = g_uniform_real (ke_rng e) 0 hi) /\
  (kc_size_type cfg = "NormalReal"%string -> exists hi, hi == free cfg s /\
     mq_qty r = g_normal_real (ke_rng e) (hi * kc_size_mean cfg) (hi * kc_size_stddev cfg) 0 hi).
Proof.
  intros Heg Hcap R L H r Er. assert (R0 := R). apply Forall_app in R as [R1 R2]. inversion R2 as [|? ? [G G2] _ EQ]; subst.
  destruct (lived_inv eps eg recipe cfg Hcap g t0 es s os R1 L) as [P _].
  destruct (requests_final eps eg recipe cfg Heg Hcap g t0 es e s os s' o R0 L H) as [RF _]. destruct (RF r Er) as [B1 B2].
  pose proof (step_facts eps eg recipe cfg Hcap _ _ _ _ _ G G2 P H) as (_ & _ & _ & _ & M & _). cbv zeta in M.
  rewrite Er in M. assert (B : amount cfg (ke_rng e) (now t0 es) s = mq_qty r /\ Qltb eg (amount cfg (ke_rng e) (now t0 es) s) = true).
  { destruct (Qltb eg (amount cfg (ke_rng e) (now t0 es) s)) eqn:Z; [|discriminate]. injection M as ->. auto. }
  destruct B as [BA BB]. unfold amount in BA.
  assert (BY : buying (now t0 es) s = true).
  { destruct (buying (now t0 es) s); [reflexivity|]. rewrite <- BA in B1. lra. }
  rewrite BY in BA. unfold sk_request_amt in BA. cbv zeta in BA.
  assert (A : sk_available cfg s == free cfg s) by (rewrite available_eq by auto; apply Q.max_r; lra).
  split; intro T; rewrite T in BA; cbn in BA; exists (sk_available cfg s); auto.
Qed.
Lemma zero_final eps eg recipe cfg g t0 e es s os : 0 <= eg -> 0 <= kc_capacity cfg -> random_frequency cfg -> (0 <= t0)%Z ->
  drawn cfg g = 0%Z -> drawn cfg (ke_rng e) = 0%Z -> rngs_ok (e :: es) ->
  sk_lived eps eg recipe cfg g t0 (e :: es) s os -> Forall silent (tl os).
Proof.
  intros Heg Hcap RF T0 D0 D1 R (s0 & E & H). apply enter_facts in E as (P & _ & NX).
  rewrite next_buy_random in NX by exact RF. cbn [sk_run] in H.
  destruct (sk_step eps eg recipe cfg t0 s0 e) as [[s1 o]| | |] eqn:T; try discriminate. cbn [bind] in H.
  destruct (sk_run eps eg recipe cfg (t0 + 1) s1 es) as [[s2 os']| | |] eqn:X; try discriminate. cbn [bind] in H. injection H as <- <-.
  inversion R as [|? ? [G G2] R' EQ]; subst. pose proof (step_facts eps eg recipe cfg Hcap t0 s0 e s1 o G G2 P T) as (P' & _ & N1 & _).
  cbn [tl]. apply (stuck_forever eps eg recipe cfg es Heg Hcap (t0 + 1)%Z s1 s2 os' R' P'); [|exact X].
  rewrite N1. destruct (Z.eqb_spec (ks_next s0) (-1)); [lia|]. destruct (Z.eqb_spec (ks_next s0) t0); [|lia].
  rewrite next_buy_random by exact RF. lia.
Qed.
(** Checking [fair] by computation. *)
Fixpoint fairb (es : list sk_env) (os : list sk_out) : bool :=
  match es, os with
  | [], [] => true
  | e :: es', o :: os' => forallb (fun m => Qle_bool 0 (m_qty m)) (ke_mats e) && forallb (Qle_bool 0) (ke_prods e) &&
      Qle_bool (delivered e) (requested o) && fairb es' os'
  | _, _ => false
  end.
Lemma fairb_sound es : forall os, fairb es os = true -> fair es os.
Proof.
  induction es as [|e es IH]; intros [|o os] H; try discriminate; [constructor|].
  cbn [fairb] in H. rewrite !andb_true_iff in H. destruct H as [[[A B] C] D].
  constructor; [|exact (IH _ D)]. split; [|apply Qle_bool_iff, C]. split; apply Forall_forall; intros x X.
  - rewrite forallb_forall in A. apply Qle_bool_iff, A, X.
  - rewrite forallb_forall in B. apply Qle_bool_iff, B, X.
Qed.
