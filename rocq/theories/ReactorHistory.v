(** Reactor: whole time steps and histories. *)
From Coq Require Import Lia Lqa Permutation.
From Verif Require Import Outcome KernelMaterial KernelResBuf KernelFacts ReactorModel ReactorSpec ReactorProofs ReactorTradeProofs.
Local Open Scope Z_scope.

Section Hist.
Variable eps : Q.
Variable recipe : string -> option comp.
Variable cfg : rx_cfg.
Hypothesis eps_nonneg : (0 <= eps)%Q.
Hypothesis Hcfg : config_consistent cfg.
Hypothesis Hknown : recipes_known recipe cfg.
Notation inv := (reactor_ok recipe cfg).

(** ** A step is its phases *)
Lemma step_split t s e o : rx_step eps recipe cfg t s e = Ok o ->
  exists ev1 ev2 s2 s3 ev3 ev4,
    tick eps recipe cfg t s = Ok (o_ticked o, ev1) /\
    get_requests recipe cfg t (o_ticked o) = Ok (o_reqs o, ev2) /\
    get_bids eps cfg (o_ticked o) (e_reqs e) = Ok (o_bids o) /\
    trade_phase eps cfg (e_pick e) (o_ticked o) = Ok (s2, o_shipped o) /\
    deliver_phase eps cfg (e_deliv e) s2 = Ok (s3, ev3) /\
    tock cfg t s3 = Ok (o_state o, ev4) /\
    o_events o = ev1 ++ ev2 ++ ev3 ++ ev4.
Proof.
  unfold rx_step. intro H.
  apply bind_ok in H as ([s1 ev1] & E1 & H).
  apply bind_ok in H as ([reqs ev2] & E2 & H).
  apply bind_ok in H as (bids & E3 & H).
  apply bind_ok in H as ([s2 sh] & E4 & H).
  apply bind_ok in H as ([s3 ev3] & E5 & H).
  apply bind_ok in H as ([s4 ev4] & E6 & H).
  inversion H; subst; clear H. simpl. exists ev1, ev2, s2, s3, ev3, ev4. repeat split; auto.
Qed.

(** Contract in the form the trade lemma needs. *)
Lemma picks_ok s1 bids reqs picks : inv s1 ->
  get_bids eps cfg s1 reqs = Ok bids ->
  (forall c, In c picks -> exists b, In b bids /\ bp_commod b = c /\
               (inject_Z (count_commod c picks) * assem cfg <= bp_cap b)%Q) ->
  forall c, In c picks -> count_commod c picks <= zlen (on (ocommod cfg s1) c (rb_items (spent s1))).
Proof.
  intros I E H c Hc. destruct (H c Hc) as (b & Hb & <- & Hq).
  destruct (get_bids_spec eps recipe cfg eps_nonneg Hcfg s1 reqs I) as (bs & E' & F).
  rewrite E in E'. inversion E'; subst bs. rewrite Forall_forall in F.
  destruct (F b Hb) as (_ & Hcap & _). rewrite Hcap in Hq.
  destruct (inv_ubufs _ _ _ I) as (_ & _ & (_ & U & _)).
  rewrite (uniform_qty (assem cfg)) in Hq.
  2: { unfold on. rewrite Forall_forall in *. intros m Hm. apply filter_In in Hm. apply U. tauto. }
  destruct (Z_le_gt_dec (count_commod (bp_commod b) picks) (zlen (on (ocommod cfg s1) (bp_commod b) (rb_items (spent s1))))) as [L|L]; auto.
  exfalso. assert (zlen (on (ocommod cfg s1) (bp_commod b) (rb_items (spent s1))) + 1 <= count_commod (bp_commod b) picks) as L' by lia.
  rewrite Zle_Qle, inject_Z_plus in L'. change (inject_Z 1) with 1%Q in L'. pose proof (Ha cfg Hcfg). nra.
Qed.

(** What the exchange phase does to a state. *)
Definition tagd (d : string * mat) : Z * Q := tag (snd d).

Lemma exchange_phase s1 picks ds : inv s1 ->
  (forall c, In c picks -> count_commod c picks <= zlen (on (ocommod cfg s1) c (rb_items (spent s1)))) ->
  zlen ds <= n_core cfg - rb_count (core s1) + (n_fresh cfg - rb_count (fresh s1)) ->
  Forall (fun d => In (fst d) (incommods cfg) /\ (m_qty (snd d) == assem cfg)%Q) ds ->
  NoDup (map (fun d => m_id (snd d)) ds ++ map m_id (assemblies s1)) ->
  exists s2 resp s3 ev3,
    trade_phase eps cfg picks s1 = Ok (s2, resp) /\
    deliver_phase eps cfg ds s2 = Ok (s3, ev3) /\
    map fst resp = picks /\
    inv s2 /\ inv s3 /\
    fresh s2 = fresh s1 /\ core s2 = core s1 /\
    (let k := Z.to_nat (Z.min (zlen ds) (n_core cfg - rb_count (core s1))) in
     rb_items (core s3) = rb_items (core s1) ++ firstn k (map snd ds) /\
     rb_items (fresh s3) = rb_items (fresh s1) ++ skipn k (map snd ds)) /\
    spent s3 = spent s2 /\
    Permutation (rb_items (spent s1)) (map snd resp ++ rb_items (spent s2)) /\
    (forall c, on (ocommod cfg s1) c (rb_items (spent s1)) =
               resp_on c resp ++ on (ocommod cfg s1) c (rb_items (spent s2))) /\
    (forall m, In m (assemblies s1) -> ~ In (m_id m) (map (fun r => m_id (snd r)) resp) ->
               idx_get (m_id m) (idx s3) = idx_get (m_id m) (idx s1)) /\
    (forall d, In d ds -> exists i, idx_get (m_id (snd d)) (idx s3) = i /\
          find_commod (fst d) (incommods cfg) 0 = Some i) /\
    inrecipes s3 = inrecipes s1 /\ outrecipes s3 = outrecipes s1 /\ prefs s3 = prefs s1 /\
    cyc s3 = cyc s1 /\ disch s3 = disch s1 /\ hybrid s3 = hybrid s1 /\
    Forall (fun ev => exists n, ev = EvLoad n) ev3 /\
    Permutation (map tag (assemblies s1) ++ map tagd ds) (map tagd resp ++ map tag (assemblies s3)).
Proof.
  intros I HP HL HF HN.
  (* outgoing *)
  assert (exists s2 resp, trade_phase eps cfg picks s1 = Ok (s2, resp) /\
    map fst resp = picks /\ fresh s2 = fresh s1 /\ core s2 = core s1 /\ rb_cap (spent s2) = rb_cap (spent s1) /\
    Permutation (rb_items (spent s1)) (map snd resp ++ rb_items (spent s2)) /\
    (forall c, on (ocommod cfg s1) c (rb_items (spent s1)) =
               resp_on c resp ++ on (ocommod cfg s1) c (rb_items (spent s2))) /\
    (forall k, ~ In k (map (fun r => m_id (snd r)) resp) -> idx_get k (idx s2) = idx_get k (idx s1)) /\
    inrecipes s2 = inrecipes s1 /\ outrecipes s2 = outrecipes s1 /\ prefs s2 = prefs s1 /\
    cyc s2 = cyc s1 /\ disch s2 = disch s1 /\ hybrid s2 = hybrid s1)
    as (s2 & resp & E1 & P1 & P2 & P3 & P4 & P5 & P6 & P7 & P8 & P9 & P10 & P11 & P12 & P13).
  { destruct picks as [|c picks].
    - exists s1, []. simpl. repeat split; auto.
    - destruct (get_trades_spec eps recipe cfg eps_nonneg Hcfg s1 (c :: picks) I HP) as (resp & items' & ix & E & F1 & F2 & F3 & F4).
      exists (upd_idx (upd_spent s1 {| rb_cap := rb_cap (spent s1); rb_items := items' |}) ix), resp.
      unfold trade_phase. rewrite E. simpl. repeat split; auto. }
  assert (Permutation (assemblies s1) (map snd resp ++ assemblies s2)) as PA.
  { unfold assemblies. rewrite P2, P3, P5. rewrite !app_assoc. apply Permutation_app_tail.
    rewrite <- (app_assoc (map snd resp)). apply Permutation_app_comm. }
  assert (forall m, In m (assemblies s2) -> In m (assemblies s1) /\ ~ In (m_id m) (map (fun r => m_id (snd r)) resp)) as Hout.
  { intros m Hm. split.
    - eapply Permutation_in; [apply Permutation_sym; exact PA|]. apply in_or_app; auto.
    - pose proof (ok_distinct _ _ _ I) as D. apply (Permutation_map m_id) in PA.
      apply (Permutation_NoDup PA) in D. rewrite map_app in D. apply NoDup_app_inv in D as (_ & _ & D).
      rewrite map_map in D. intro X. apply (D (m_id m)); auto. apply in_map; auto. }
  assert (inv s2) as I2.
  { destruct (inv_ubufs _ _ _ I) as (U1 & U2 & U3). destruct (ok_tables _ _ _ I) as (T1 & T2 & T3).
    assert (ubuf (n_spent cfg) (assem cfg) (spent s2)) as U3'.
    { destruct U3 as (A & B & C). repeat split; [rewrite P4; auto| |].
      - rewrite Forall_forall in *. intros m Hm. apply B. eapply Permutation_in; [apply Permutation_sym; exact P5|]. apply in_or_app; auto.
      - apply Permutation_length in P5. rewrite app_length in P5. unfold rb_count, zlen in *. lia. }
    constructor.
    - destruct U1 as (_ & _ & ?), U2 as (_ & _ & ?), U3' as (_ & _ & ?). unfold within_limits. rewrite P2, P3. repeat split; auto.
    - rewrite P2, P3. repeat split; [apply U1|apply U2|apply U3'].
    - rewrite Forall_forall. intros m Hm. apply Hout in Hm as [Hm _]. pose proof (ok_sizes _ _ _ I) as S. rewrite Forall_forall in S. auto.
    - pose proof (ok_distinct _ _ _ I) as D. apply (Permutation_map m_id) in PA.
      apply (Permutation_NoDup PA) in D. rewrite map_app in D. apply NoDup_app_inv in D. tauto.
    - repeat split; congruence.
    - rewrite P8, P9. apply I.
    - rewrite Forall_forall. intros m Hm. apply Hout in Hm as [Hm Hr]. rewrite P7 by auto. apply (inv_idx _ _ _ _ I Hm). }
  (* incoming *)
  pose proof (NoDup_app_inv _ _ HN) as (ND1 & ND2 & ND3).
  destruct (inv_ubufs _ _ _ I2) as (V1 & V2 & V3).
  destruct (accept_loop eps cfg eps_nonneg Hcfg ds s2 V1 V2) as (ix & EL & G1 & G2).
  { rewrite P2, P3. lia. }
  { auto. }
  { auto. }
  set (s3 := delivered_state cfg s2 ds ix) in *.
  assert (exists s3' ev3, deliver_phase eps cfg ds s2 = Ok (s3', ev3) /\ s3' = s3 /\
     Forall (fun ev => exists n, ev = EvLoad n) ev3) as (s3' & ev3 & E3 & -> & F3).
  { destruct ds as [|d ds].
    - exists s2, []. repeat split; auto. simpl in EL. congruence.
    - unfold deliver_phase, accept_trades. rewrite EL. cbn [bind]. eexists _, _. split; [reflexivity|]. split; auto.
      destruct (0 <? _); constructor; eauto. }
  set (k := Z.to_nat (Z.min (zlen ds) (n_core cfg - rb_count (core s1)))).
  assert (rb_items (core s3) = rb_items (core s1) ++ firstn k (map snd ds)) as C3
      by (unfold s3, delivered_state, k; simpl; rewrite P3; reflexivity).
  assert (rb_items (fresh s3) = rb_items (fresh s1) ++ skipn k (map snd ds)) as C4
      by (unfold s3, delivered_state, k; simpl; rewrite P2, P3; reflexivity).
  assert (Permutation (assemblies s2 ++ map snd ds) (assemblies s3)) as PB.
  { unfold assemblies. rewrite C3, C4, P2, P3. change (spent s3) with (spent s2).
    rewrite <- (firstn_skipn k (map snd ds)) at 1.
    set (f := rb_items (fresh s1)). set (c := rb_items (core s1)). set (sp := rb_items (spent s2)).
    set (a := firstn k (map snd ds)). set (b := skipn k (map snd ds)).
    rewrite <- !app_assoc. apply Permutation_app_head.
    transitivity ((c ++ sp ++ a) ++ b); [rewrite <- !app_assoc; reflexivity|].
    rewrite Permutation_app_comm. apply Permutation_app_head. apply Permutation_app_head. apply Permutation_app_comm. }
  assert (Permutation (map tag (assemblies s1) ++ map tagd ds) (map tagd resp ++ map tag (assemblies s3))) as PT.
  { rewrite (Permutation_map tag PA). rewrite <- (Permutation_map tag PB).
    rewrite !map_app. unfold tagd. rewrite !map_map. rewrite <- app_assoc. reflexivity. }
  assert (inv s3) as I3.
  { destruct (ok_tables _ _ _ I2) as (T1 & T2 & T3).
    assert (zlen (firstn k (map snd ds)) = Z.min (zlen ds) (n_core cfg - rb_count (core s1))) as Lk.
    { unfold k. apply zlen_firstn. rewrite zlen_map. pose proof (zlen_nonneg ds).
      destruct V2 as (_ & _ & L2). rewrite P3 in L2. lia. }
    assert (zlen (skipn k (map snd ds)) = zlen ds - Z.min (zlen ds) (n_core cfg - rb_count (core s1))) as Ls.
    { unfold k. rewrite zlen_skipn; rewrite zlen_map; auto. pose proof (zlen_nonneg ds).
      destruct V2 as (_ & _ & L2). rewrite P3 in L2. lia. }
    assert (Forall (fun m => (m_qty m == assem cfg)%Q) (map snd ds)) as FQ.
    { rewrite Forall_map. eapply Forall_impl; [|exact HF]. simpl. tauto. }
    destruct V1 as (A1 & A2 & A3), V2 as (B1 & B2 & B3), V3 as (W1 & W2 & W3).
    rewrite P2 in *. rewrite P3 in *. unfold rb_count in *.
    constructor.
    - unfold within_limits. rewrite C3, C4, !zlen_app, Lk, Ls. change (spent s3) with (spent s2). repeat split; try lia; auto.
    - unfold s3, delivered_state. simpl. rewrite P2, P3. auto.
    - rewrite Forall_forall. intros m Hm. eapply Permutation_in in Hm; [|apply Permutation_sym; exact PB].
      apply in_app_or in Hm as [Hm|Hm].
      + pose proof (ok_sizes _ _ _ I2) as S. rewrite Forall_forall in S. auto.
      + rewrite Forall_forall in FQ. auto.
    - apply (Permutation_map m_id) in PB. eapply Permutation_NoDup; [exact PB|].
      rewrite map_app, map_map. eapply Permutation_NoDup; [apply Permutation_app_comm|].
      assert (Permutation (map (fun d => m_id (snd d)) ds ++ map m_id (assemblies s1))
               (map (fun r => m_id (snd r)) resp ++ (map (fun d => m_id (snd d)) ds ++ map m_id (assemblies s2)))) as PP.
      { rewrite (Permutation_map m_id PA), map_app, map_map. rewrite !app_assoc. apply Permutation_app_tail. apply Permutation_app_comm. }
      apply (Permutation_NoDup PP) in HN. apply NoDup_app_inv in HN. tauto.
    - unfold s3, delivered_state; simpl. auto.
    - unfold s3, delivered_state; simpl. apply I2.
    - change (idx s3) with ix. rewrite Forall_forall. intros m Hm.
      eapply Permutation_in in Hm; [|apply Permutation_sym; exact PB].
      apply in_app_or in Hm as [Hm|Hm].
      + rewrite G1.
        * apply (inv_idx _ _ _ _ I2 Hm).
        * intro X. apply (ND3 _ X). apply in_map. apply Hout; auto.
      + apply in_map_iff in Hm as (d & <- & Hd). destruct (G2 d Hd) as (i & -> & Hi & _). auto. }
  exists s2, resp, s3, ev3. split; auto. split; auto. split; auto. split; auto. split; auto.
  split; auto. split; auto. split; [cbn zeta; fold k; auto|]. split; [reflexivity|].
  split; auto. split; auto. split.
  { intros m Hm Hr. change (idx s3) with ix. rewrite G1.
    - apply P7; auto.
    - intro X. apply (ND3 _ X). apply in_map; auto. }
  split. { intros d Hd. change (idx s3) with ix. destruct (G2 d Hd) as (i & A & B & C & D). exists i; auto. }
  unfold s3 at 1 2 3 4 5 6; simpl. repeat split; auto.
Qed.

(** ** A whole step under the contract *)
Lemma contract_deliv t s1 reqs ev2 ds : inv s1 -> get_requests recipe cfg t s1 = Ok (reqs, ev2) ->
  zlen ds <= zlen reqs ->
  Forall (fun d => exists p r, In p reqs /\ In r p /\ fst d = r_commod r /\ (m_qty (snd d) == r_qty r)%Q) ds ->
  zlen ds <= n_core cfg - rb_count (core s1) + (n_fresh cfg - rb_count (fresh s1)) /\
  Forall (fun d => In (fst d) (incommods cfg) /\ (m_qty (snd d) == assem cfg)%Q) ds.
Proof.
  intros I E HL HF.
  destruct (get_requests_spec recipe cfg Hcfg t s1 I) as (p & mc & Ep & En & Er & Eo).
  rewrite E in Er. inversion Er; subst reqs ev2. clear Er. split.
  - unfold zlen in HL at 2. rewrite repeat_length in HL. rewrite Z2Nat.id in HL by auto.
    destruct (ok_limits _ _ _ I) as (L1 & L2 & L3).
    unfold order_size in *. unfold rb_count in *. destruct (retired cfg t); [lia|]. destruct (exit_t cfg =? -1); lia.
  - eapply Forall_impl; [|exact HF]. intros d (p' & r & Hp & Hr & Hc & Hq).
    apply repeat_spec in Hp. subst p'.
    destruct (portfolio_spec recipe cfg s1 I) as (p' & Ep' & Lp & Fp). rewrite Ep in Ep'. inversion Ep'; subst p'.
    apply In_nth_error in Hr as (j & Hj). destruct (Fp j r Hj) as (rn & A & B & C & D & F).
    rewrite Hc, Hq, F. split; [eapply nth_error_In; eauto|]. reflexivity.
Qed.

Lemma step_ok t s e : inv s -> step_contract eps recipe cfg t s e ->
  exists o, rx_step eps recipe cfg t s e = Ok o /\ inv (o_ticked o) /\ inv (o_state o) /\
    moves s (o_ticked o) /\
    Permutation (map tag (assemblies s) ++ map tagd (e_deliv e))
                (map tagd (o_shipped o) ++ map tag (assemblies (o_state o))).
Proof.
  intros I HC.
  destruct (tick_ok eps recipe cfg eps_nonneg Hcfg Hknown t s I) as (s1 & ev1 & E1 & I1 & M1 & _ & _).
  destruct (get_requests_spec recipe cfg Hcfg t s1 I1) as (p & mc & _ & _ & E2 & _).
  destruct (get_bids_spec eps recipe cfg eps_nonneg Hcfg s1 (e_reqs e) I1) as (bids & E3 & _).
  destruct (HC _ _ _ _ _ E1 E2 E3) as (H1 & H2 & H3 & H4).
  destruct (contract_deliv _ _ _ _ _ I1 E2 H1 H2) as (H5 & H6).
  destruct (exchange_phase s1 (e_pick e) (e_deliv e) I1 (picks_ok _ _ _ _ I1 E3 H4) H5 H6 H3)
    as (s2 & resp & s3 & ev3 & E4 & E5 & _ & _ & I3 & _ & _ & _ & _ & _ & _ & _ & _ & _ & _ & _ & _ & _ & _ & _ & PT).
  destruct (tock_ok cfg Hcfg t s3) as (s4 & ev4 & c & d & E6 & ->).
  unfold rx_step. rewrite E1. cbn [bind]. rewrite E2. cbn [bind]. rewrite E3. cbn [bind]. rewrite E4. cbn [bind].
  rewrite E5. cbn [bind]. rewrite E6. cbn [bind]. eexists. split; [reflexivity|]. simpl.
  split; auto. split; [apply inv_cyc; auto|]. split; auto.
  change (assemblies (upd_cyc s3 c d)) with (assemblies s3).
  rewrite <- PT. apply Permutation_app_tail. exact M1.
Qed.

Lemma run_ok es : forall t s, inv s -> run_contract eps recipe cfg t s es ->
  exists os, rx_run eps recipe cfg t s es = Ok os /\
    Forall (fun o => inv (o_ticked o) /\ inv (o_state o)) os /\ List.length os = List.length es.
Proof.
  induction es as [|e es IH]; intros t s I HC; simpl.
  - eauto.
  - destruct HC as [H1 H2]. destruct (step_ok t s e I H1) as (o & E & I1 & I2 & _).
    rewrite E. cbn [bind]. destruct (IH (t + 1) (o_state o) I2 (H2 o E)) as (os & E' & F & L).
    rewrite E'. cbn [bind]. exists (o :: os). simpl. repeat split; auto.
Qed.

(** The state after a history. *)
Definition final (s : rx_state) (os : list rx_out) : rx_state := last (map o_state os) s.

Lemma final_cons s o os : final s (o :: os) = final (o_state o) os.
Proof.
  unfold final. revert o. induction os as [|o' os IH]; intro o; [reflexivity|].
  simpl map. simpl map in IH. change (last (o_state o :: o_state o' :: map o_state os) s) with (last (o_state o' :: map o_state os) s).
  assert (forall (l : list rx_state) x d d', last (x :: l) d = last (x :: l) d') as G.
  { clear. induction l as [|y l IHl]; intros x d d'; [reflexivity|]. simpl in *. apply (IHl y). }
  apply G.
Qed.

Lemma run_accounting es : forall t s, inv s -> run_contract eps recipe cfg t s es ->
  forall os, rx_run eps recipe cfg t s es = Ok os ->
  Permutation (map tag (assemblies s) ++ map tagd (List.concat (map e_deliv es)))
              (map tagd (List.concat (map o_shipped os)) ++ map tag (assemblies (final s os))).
Proof.
  induction es as [|e es IH]; intros t s I HC os H; simpl in *.
  - inversion H; subst. simpl. rewrite app_nil_r. reflexivity.
  - destruct HC as [H1 H2]. destruct (step_ok t s e I H1) as (o & E & I1 & I2 & _ & P).
    rewrite E in H. cbn [bind] in H. apply bind_ok in H as (os' & E' & H). inversion H; subst os; clear H.
    specialize (IH (t + 1) (o_state o) I2 (H2 o E) os' E').
    rewrite final_cons. simpl. rewrite !map_app. rewrite app_assoc, P, <- !app_assoc.
    apply Permutation_app_head. exact IH.
Qed.
End Hist.
