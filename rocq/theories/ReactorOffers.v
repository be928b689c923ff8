(** Reactor: which spent assemblies are offered to whom. *)
From Coq Require Import Lia Lqa Permutation.
From Verif Require Import Outcome KernelMaterial KernelResBuf KernelFacts ReactorModel ReactorSpec ReactorLogSpec
  ReactorProofs ReactorTradeProofs ReactorHistory ReactorCycle ReactorTrace ReactorRetire ReactorGlue.

Lemma offer_until_spec target j : forall ms tot, ms <> [] -> exists k, (1 <= k <= List.length ms)%nat /\
  offer_until target tot j ms = map (pair j) (firstn k ms) /\
  ((target <= tot + qty_of (firstn k ms))%Q \/ k = List.length ms) /\
  forall i, (1 <= i < k)%nat -> (tot + qty_of (firstn i ms) < target)%Q.
Proof.
  induction ms as [|m ms IH]; intros tot N; [congruence|]. cbn [offer_until].
  destruct (Qle_bool target (tot + m_qty m)) eqn:L.
  - apply Qle_bool_iff in L. exists 1%nat. cbn. split; [lia|]. split; [reflexivity|]. split; [left; unfold qty_of; cbn; lra|]. intros; lia.
  - assert (L' : (tot + m_qty m < target)%Q).
    { apply Qnot_le_lt. intro C. apply Qle_bool_iff in C. congruence. }
    destruct ms as [|m2 ms].
    + exists 1%nat. cbn. split; [lia|]. split; [reflexivity|]. split; [right; reflexivity|]. intros; lia.
    + destruct (IH (tot + m_qty m)%Q ltac:(discriminate)) as (k & K & E & D & F). exists (S k).
      cbn [List.length] in *. split; [lia|]. split; [cbn [firstn map]; rewrite E; reflexivity|].
      cbn [firstn]. change (qty_of (m :: firstn k (m2 :: ms))) with (m_qty m + qty_of (firstn k (m2 :: ms)))%Q. split.
      * destruct D as [D|D]; [left; lra|right; lia].
      * intros [|i] Hi; [lia|]. change (firstn (S i) (m :: m2 :: ms)) with (m :: firstn i (m2 :: ms)).
        change (qty_of (m :: firstn i (m2 :: ms))) with (m_qty m + qty_of (firstn i (m2 :: ms)))%Q.
        destruct i as [|i]; [change (firstn 0 (m2 :: ms)) with (@nil mat); unfold qty_of; cbn; lra|].
        specialize (F (S i) ltac:(lia)). lra.
Qed.

Lemma filter_pair_same {A} j (l : list A) : map snd (filter (fun x => Nat.eqb (fst x) j) (map (pair j) l)) = l.
Proof. induction l; cbn; [reflexivity|]. rewrite Nat.eqb_refl. cbn. congruence. Qed.
Lemma filter_pair_other {A} i j (l : list A) : i <> j -> filter (fun x => Nat.eqb (fst x) j) (map (pair i) l) = [].
Proof. intro N. induction l; cbn; [reflexivity|]. apply Nat.eqb_neq in N. rewrite N. exact IHl. Qed.

Lemma bids_concat ms : ms <> [] -> forall reqs n,
  let bids := List.concat (map (fun jq => offer_until (snd jq) 0%Q (fst jq) ms) (combine (seq n (List.length reqs)) reqs)) in
  (forall j q, nth_error reqs j = Some q ->
     covers q (map snd (filter (fun x => Nat.eqb (fst x) (n + j)) bids)) ms) /\
  Forall (fun x => n <= fst x < n + List.length reqs)%nat bids.
Proof.
  intros N. induction reqs as [|q reqs IH]; intro n; cbn [List.length seq combine map List.concat].
  - split; [intros [|]; discriminate|constructor].
  - destruct (IH (S n)) as (A & B). cbn [fst snd].
    destruct (offer_until_spec q n ms 0%Q N) as (k & K & E & D & F). rewrite E. split.
    + intros [|j] q' Nj.
      * injection Nj as <-. rewrite Nat.add_0_r, filter_app, map_app, filter_pair_same.
        assert (Z : filter (fun x : nat * mat => Nat.eqb (fst x) n) (List.concat (map (fun jq => offer_until (snd jq) 0%Q (fst jq) ms) (combine (seq (S n) (List.length reqs)) reqs))) = []).
        { apply ReactorCycle.filter_none. eapply Forall_impl; [|exact B]. cbn. intros x Hx. apply Nat.eqb_neq. lia. }
        rewrite Z, app_nil_r. exists k. split; [exact K|]. split; [reflexivity|]. split.
        -- destruct D as [D|D]; [left; lra|right; exact D].
        -- intros i Hi. specialize (F i Hi). lra.
      * rewrite filter_app, filter_pair_other by lia. cbn [app]. replace (n + S j)%nat with (S n + j)%nat by lia. apply A. exact Nj.
    + apply Forall_app. split.
      * apply Forall_map. apply Forall_forall. intros x _. cbn. lia.
      * eapply Forall_impl; [|exact B]. cbn. intros. lia.
Qed.

Section History.
Context {eps : Q} {recipe : string -> option comp} {cfg : rx_cfg}.
Variables (t0 : Z) (s0 : rx_state) (es : list rx_env) (os : list rx_out).
Hypothesis H : rx_history eps recipe cfg t0 s0 es os.

Lemma bids_for_exact s c reqs : (0 <= eps)%Q -> config_consistent cfg -> reactor_ok recipe cfg s ->
  bids_for eps cfg s c reqs = Ok (match reqs, waiting cfg s c with
    | [], _ => None
    | _, [] => None
    | _, ms => Some {| bp_commod := c;
        bp_bids := List.concat (map (fun jq => offer_until (snd jq) 0%Q (fst jq) ms) (combine (seq 0 (List.length reqs)) reqs));
        bp_cap := qty_of ms |}
    end).
Proof.
  intros He Hc I. unfold bids_for. destruct reqs as [|q reqs]; [reflexivity|].
  destruct (inv_ubufs _ _ _ I) as (_ & _ & U).
  rewrite (peek_spent_spec eps cfg He Hc s U (inv_spent_idx _ _ _ I)). cbn [bind].
  destruct (group_facts (ocommod cfg s) (rb_items (spent s)) []) as (_ & _ & _ & D); [constructor|constructor|].
  simpl in D. rewrite D. rewrite <- (waiting_on recipe cfg Hc s c I). destruct (waiting cfg s c); reflexivity.
Qed.

Definition portfolio_for (s : rx_state) (reqs : string -> list Q) (c : string) : option bidport :=
  match reqs c, waiting cfg s c with
    | [], _ => None
    | _, [] => None
    | _, ms => Some {| bp_commod := c;
        bp_bids := List.concat (map (fun jq => offer_until (snd jq) 0%Q (fst jq) ms) (combine (seq 0 (List.length (reqs c))) (reqs c)));
        bp_cap := qty_of ms |}
    end.
Lemma portfolio_commod s reqs c b : portfolio_for s reqs c = Some b -> bp_commod b = c.
Proof. unfold portfolio_for. destruct (reqs c), (waiting cfg s c); try discriminate. intro E. injection E as <-. reflexivity. Qed.

Lemma bids_list s reqs : (0 <= eps)%Q -> config_consistent cfg -> reactor_ok recipe cfg s ->
  get_bids eps cfg s reqs = Ok (flat_map (fun c => match portfolio_for s reqs c with Some b => [b] | None => [] end)
    (nodup string_dec (outcommods cfg))).
Proof.
  intros He Hc I. unfold get_bids.
  enough (G : forall l acc, loop (fun acc c => let* b := bids_for eps cfg s c (reqs c) in
     Ok (match b with Some p => acc ++ [p] | None => acc end)) l acc =
     Ok (acc ++ flat_map (fun c => match portfolio_for s reqs c with Some b => [b] | None => [] end) l)) by apply (G _ []).
  induction l as [|c l IH]; intro acc; cbn [loop flat_map]; [rewrite app_nil_r; reflexivity|].
  rewrite (bids_for_exact s c (reqs c) He Hc I). cbn [bind]. fold (portfolio_for s reqs c).
  destruct (portfolio_for s reqs c) as [b|]; rewrite IH; [rewrite <- app_assoc; reflexivity|reflexivity].
Qed.

Lemma offers i o e : nth_error os i = Some o -> nth_error es i = Some e ->
  NoDup (map bp_commod (o_bids o)) /\
  (forall c, In c (map bp_commod (o_bids o)) <->
     In c (outcommods cfg) /\ e_reqs e c <> [] /\ waiting cfg (o_ticked o) c <> []) /\
  (forall b, In b (o_bids o) ->
     let asked := e_reqs e (bp_commod b) in
     (forall j q, nth_error asked j = Some q -> covers q (offered_to j b) (waiting cfg (o_ticked o) (bp_commod b))) /\
     Forall (fun x => fst x < List.length asked)%nat (bp_bids b)).
Proof.
  intros N Ne. destruct (step_of _ _ _ _ H i o N) as (e' & Ne' & E & I & SC). assert (e' = e) as -> by congruence.
  pose proof H as [h1 h2 h3 h4 h5 h6]. pose proof (ticked_ok _ _ _ _ H i o N) as I1.
  destruct (step_split _ _ _ _ _ _ _ E) as (ev1 & ev2 & s2 & s3 & ev3 & ev4 & E1 & E2 & E3 & _).
  rewrite (bids_list _ _ h1 h2 I1) in E3. injection E3 as E3. rewrite <- E3. clear E3.
  set (f := fun c => match portfolio_for (o_ticked o) (e_reqs e) c with Some b => [b] | None => [] end).
  assert (IN : forall l b, In b (flat_map f l) <-> exists c, In c l /\ portfolio_for (o_ticked o) (e_reqs e) c = Some b).
  { intros l b. rewrite in_flat_map. unfold f. split.
    - intros (c & A & B). exists c. split; auto. destruct (portfolio_for _ _ c); [destruct B as [->|[]]; reflexivity|contradiction].
    - intros (c & A & B). exists c. split; auto. rewrite B. left. reflexivity. }
  assert (PF : forall c, portfolio_for (o_ticked o) (e_reqs e) c <> None <-> e_reqs e c <> [] /\ waiting cfg (o_ticked o) c <> []).
  { intro c. unfold portfolio_for. destruct (e_reqs e c), (waiting cfg (o_ticked o) c); intuition congruence. }
  assert (IC : forall l c, In c (map bp_commod (flat_map f l)) <-> In c l /\ portfolio_for (o_ticked o) (e_reqs e) c <> None).
  { intros l c. rewrite in_map_iff. split.
    - intros (b & A & B). apply IN in B as (c' & B1 & B2). pose proof (portfolio_commod _ _ _ _ B2). subst. split; congruence.
    - intros (A & B). destruct (portfolio_for _ _ c) as [b|] eqn:P; [|congruence]. exists b. split; [eapply portfolio_commod; eauto|].
      apply IN. eauto. }
  split; [|split].
  - pose proof (NoDup_nodup string_dec (outcommods cfg)) as ND. induction (nodup string_dec (outcommods cfg)) as [|c l IH]; [constructor|].
    inversion ND as [|? ? N1 N2]; subst. cbn [flat_map]. rewrite map_app. unfold f at 1.
    destruct (portfolio_for (o_ticked o) (e_reqs e) c) as [b|] eqn:P; cbn [map app]; [|apply IH; exact N2].
    constructor; [|apply IH; exact N2]. rewrite (portfolio_commod _ _ _ _ P). intro C. apply IC in C. tauto.
  - intro c. rewrite IC, PF, nodup_In. tauto.
  - intros b B. apply IN in B as (c & _ & P). rewrite (portfolio_commod _ _ _ _ P). cbv zeta.
    unfold portfolio_for in P. destruct (e_reqs e c) as [|q0 rs] eqn:R; [discriminate|]. destruct (waiting cfg (o_ticked o) c) as [|m ms] eqn:W; [discriminate|].
    injection P as <-. unfold offered_to. cbn [bp_bids].
    destruct (bids_concat (m :: ms) ltac:(discriminate) (q0 :: rs) 0%nat) as (A & B). split; [exact A|].
    eapply Forall_impl; [|exact B]. cbn. intros. lia.
Qed.
End History.
