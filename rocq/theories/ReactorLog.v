(** Reactor: what the records say. *)
From Coq Require Import Lia Lqa Permutation.
From Verif Require StorageGlue.
From Verif Require Import Outcome KernelMaterial KernelResBuf KernelFacts ReactorModel ReactorSpec ReactorLogSpec
  ReactorProofs ReactorTradeProofs ReactorHistory ReactorCycle ReactorTrace ReactorFuel ReactorRetire ReactorGlue.
Local Open Scope Z_scope.

Lemma total_app a b : total (a ++ b) = total a + total b.
Proof. induction a; simpl; lia. Qed.
Definition nload (ev : list event) : Z := total (map (fun e => match e with EvLoad n => n | _ => 0 end) ev).
Definition ndisch (ev : list event) : Z := total (map (fun e => match e with EvDischarge n => n | _ => 0 end) ev).
Definition ntrans (ev : list event) : Z := total (map (fun e => match e with EvTransmute n => n | _ => 0 end) ev).
Lemma nload_app a b : nload (a ++ b) = nload a + nload b.
Proof. unfold nload. rewrite map_app. apply total_app. Qed.
Lemma ndisch_app a b : ndisch (a ++ b) = ndisch a + ndisch b.
Proof. unfold ndisch. rewrite map_app. apply total_app. Qed.
Lemma ntrans_app a b : ntrans (a ++ b) = ntrans a + ntrans b.
Proof. unfold ntrans. rewrite map_app. apply total_app. Qed.
Lemma zero_total (f : event -> Z) l : Forall (fun e => f e = 0) l -> total (map f l) = 0.
Proof. induction 1; simpl; lia. Qed.
Lemma sup_zero l : Forall (fun e => exists c q, e = EvSupply c q) l -> nload l = 0 /\ ndisch l = 0 /\ ntrans l = 0.
Proof.
  intro F. unfold nload, ndisch, ntrans. split; [|split]; apply zero_total; eapply Forall_impl; try exact F;
    intros e (c & q & ->); reflexivity.
Qed.
Lemma dem_zero l : Forall (fun e => exists c q, e = EvDemand c q) l -> nload l = 0 /\ ndisch l = 0 /\ ntrans l = 0.
Proof.
  intro F. unfold nload, ndisch, ntrans. split; [|split]; apply zero_total; eapply Forall_impl; try exact F;
    intros e (c & q & ->); reflexivity.
Qed.

Section Log.
Context {eps : Q} {recipe : string -> option comp} {cfg : rx_cfg}.
Context (EP : (0 <= eps)%Q) (HC : config_consistent cfg) (HK : recipes_known recipe cfg).
Notation inv := (reactor_ok recipe cfg).

Lemma drain_core_log fuel : forall s s' ev, inv s -> (List.length (rb_items (core s)) < fuel)%nat ->
  drain_core eps cfg fuel s = Ok (s', ev) ->
  rb_count (core s') = rb_count (core s) - ndisch ev /\ nload ev = 0 /\ ntrans ev = 0 /\ fresh s' = fresh s /\
  rb_count (spent s') = rb_count (spent s) + ndisch ev.
Proof.
  induction fuel as [|fuel IH]; intros s s' ev I L H; [lia|].
  simpl in H. destruct (0 <? rb_count (core s)) eqn:E; [|injection H as <- <-; cbn; repeat split; lia].
  rewrite (discharge_spec eps recipe cfg EP HC s I) in H. cbn zeta in H.
  pose proof (cc_batch _ HC) as Hb. apply Z.ltb_lt in E.
  set (k := Z.min (n_batch cfg) (rb_count (core s))) in *.
  destruct (n_spent cfg - rb_count (spent s) <? k) eqn:E2; cbn [bind] in H.
  - injection H as <- <-. cbn. repeat split; lia.
  - apply Z.ltb_ge in E2.
    destruct (inv_discharged recipe cfg s k I) as [I' _]; [lia|lia|].
    apply bind_ok in H as ([s2 ev2] & H1 & H2). injection H2 as <- <-.
    apply IH in H1; [|auto|unfold discharged_state; simpl; rewrite skipn_length; unfold rb_count, zlen in *; lia].
    destruct H1 as (A & B & C & D & F).
    destruct (sup_zero _ (supply_shape cfg (discharged_state s k))) as (Z1 & Z2 & Z3).
    rewrite app_comm_cons, nload_app, ndisch_app, ntrans_app.
    change (EvDischarge k :: supply_events cfg (discharged_state s k))
      with ([EvDischarge k] ++ supply_events cfg (discharged_state s k)).
    rewrite nload_app, ndisch_app, ntrans_app, Z1, Z2, Z3, B, C.
    assert (C1 : rb_count (core (discharged_state s k)) = rb_count (core s) - k).
    { unfold discharged_state, rb_count. simpl. rewrite zlen_skipn; unfold rb_count in *; lia. }
    assert (C2 : rb_count (spent (discharged_state s k)) = rb_count (spent s) + k).
    { unfold discharged_state, rb_count. simpl. rewrite zlen_app, zlen_firstn; unfold rb_count in *; lia. }
    change (ndisch [EvDischarge k]) with (k + 0). change (nload [EvDischarge k]) with 0. change (ntrans [EvDischarge k]) with 0.
    rewrite C1 in A. rewrite C2 in F. split; [lia|]. split; [lia|]. split; [lia|]. split; [exact D|]. lia.
Qed.

Lemma tick_log t s s1 ev : inv s -> tick eps recipe cfg t s = Ok (s1, ev) ->
  rb_count (core s1) = rb_count (core s) + nload ev - ndisch ev /\
  rb_count (fresh s1) + rb_count (spent s1) = rb_count (fresh s) + rb_count (spent s) + ndisch ev - nload ev /\
  (retired cfg t = false -> rb_count (fresh s1) = rb_count (fresh s) - nload ev /\
     rb_count (spent s1) = rb_count (spent s) + ndisch ev /\
     ntrans ev = (if cyc s =? cycle_t cfg then kbatch cfg s else 0)) /\
  (retired cfg t = true -> nload ev = 0 /\ ntrans ev = (if t =? exit_t cfg + 1 then burn_count cfg s else 0)).
Proof.
  intros I H. destruct (retired cfg t) eqn:Hr.
  - unfold tick in H. rewrite Hr in H. unfold tick_retired in H.
    set (n0 := if decom_all cfg then n_core cfg else half_up (n_core cfg)) in *.
    assert (0 <= n0) as Hn0 by (unfold n0; destruct (decom_all cfg); [|apply half_up_nonneg]; apply HC).
    apply bind_ok in H as ([sa ea] & H1 & H). apply bind_ok in H as ([sb eb] & H2 & H). apply bind_ok in H as (sc & H3 & H).
    injection H as <- <-.
    assert (AA : inv sa /\ rb_count (core sa) = rb_count (core s) /\ fresh sa = fresh s /\ spent sa = spent s /\
      nload ea = 0 /\ ndisch ea = 0 /\ ntrans ea = (if t =? exit_t cfg + 1 then burn_count cfg s else 0)).
    { destruct (t =? exit_t cfg + 1).
      - rewrite (transmute_core_spec eps recipe cfg EP HC) in H1 by auto. injection H1 as <- <-.
        split; [apply (inv_transmute recipe cfg s); auto|].
        split; [|split; [reflexivity|split; [reflexivity|split; [reflexivity|split; [reflexivity|]]]]].
        + unfold rb_count. simpl. unfold zlen. rewrite app_length, map_length, <- app_length, firstn_skipn. reflexivity.
        + unfold burn_count. cbn. fold n0. lia.
      - injection H1 as <- <-. split; [auto|]. repeat split. }
    destruct AA as (Ia & A1 & A2 & A3 & A4 & A5 & A6).
    destruct (drain_core_ok eps recipe cfg EP HC (S (List.length (rb_items (core sa)))) sa Ia (Nat.lt_succ_diag_r _))
      as (s2 & ev2 & E2 & I2 & _). rewrite H2 in E2. injection E2 as <- <-.
    destruct (drain_core_log _ _ _ _ Ia (Nat.lt_succ_diag_r _) H2) as (B1 & B2 & B3 & B4 & B5).
    destruct (drain_fresh_ok eps recipe cfg EP HC (S (List.length (rb_items (fresh sb)))) sb I2 (Nat.lt_succ_diag_r _))
      as (s3 & E3 & I3 & M3 & S3 & C3 & D3 & (m & Hm & Hf3 & Hsp3)). rewrite H3 in E3. injection E3 as <-.
    assert (F1 : rb_count (fresh sc) = rb_count (fresh sb) - m) by (unfold rb_count in *; rewrite Hf3, zlen_skipn; lia).
    assert (F2 : rb_count (spent sc) = rb_count (spent sb) + m)
      by (unfold rb_count in *; rewrite Hsp3, zlen_app, zlen_firstn; lia).
    change (EvRetired :: ea ++ eb ++ (if check_decom sc then [EvSchedDecom] else []))
      with ([EvRetired] ++ ea ++ eb ++ (if check_decom sc then [EvSchedDecom] else [])).
    rewrite !nload_app, !ndisch_app, !ntrans_app.
    assert (Z : forall b : bool, nload (if b then [EvSchedDecom] else []) = 0 /\ ndisch (if b then [EvSchedDecom] else []) = 0 /\
      ntrans (if b then [EvSchedDecom] else []) = 0) by (intros []; cbn; auto).
    destruct (Z (check_decom sc)) as (-> & -> & ->).
    change (nload [EvRetired]) with 0. change (ndisch [EvRetired]) with 0. change (ntrans [EvRetired]) with 0.
    rewrite A4, A5, A6, B2, B3, C3, B1, A1, F1, F2, B5, B4, A2, A3. split; [lia|]. split; [lia|]. split; [discriminate|].
    intros _. split; lia.
  - destruct (tick_spec eps recipe cfg EP HC HK t s I Hr) as (s' & ev' & E & I1 & T). rewrite H in E. injection E as <- <-.
    destruct T as [T1 T2 T3 _ _ _ _ (sup & EV & SU) _].
    destruct (sup_zero _ SU) as (Z1 & Z2 & Z3).
    pose proof (kbatch_range cfg HC s) as KB. pose proof (core1_len recipe cfg s) as CL.
    destruct (ok_limits _ _ _ I) as (L1 & L2 & L3).
    assert (CC : zlen (core2 recipe cfg s) = rb_count (core s) - (if success cfg s then kbatch cfg s else 0)).
    { unfold core2. destruct (success cfg s); [rewrite zlen_skipn|]; lia. }
    assert (MM : zlen (moved recipe cfg s) = if success cfg s then kbatch cfg s else 0).
    { unfold moved. destruct (success cfg s); [rewrite zlen_firstn; lia|reflexivity]. }
    assert (NL : 0 <= nloaded recipe cfg s <= rb_count (fresh s)).
    { unfold nloaded. destruct (cycle_t cfg <=? cyc s); unfold rb_count in *; pose proof (zlen_nonneg (rb_items (fresh s)));
        [|lia]. rewrite CC. destruct (success cfg s); lia. }
    assert (N1 : nload ev = nloaded recipe cfg s).
    { rewrite EV, !nload_app. assert (X : nload (if cyc s =? cycle_t cfg then [EvTransmute (kbatch cfg s); EvCycleEnd] else []) = 0)
        by (destruct (cyc s =? cycle_t cfg); reflexivity). rewrite X.
      assert (Y : nload (if attempt cfg s then if success cfg s then EvDischarge (kbatch cfg s) :: sup else [EvDischargeFailed] else []) = 0).
      { destruct (attempt cfg s); [|reflexivity]. destruct (success cfg s); [|reflexivity]. exact Z1. }
      rewrite Y. destruct (nloaded recipe cfg s =? 0) eqn:Q0; [apply Z.eqb_eq in Q0; cbn; lia|cbn; lia]. }
    assert (N2 : ndisch ev = if success cfg s then kbatch cfg s else 0).
    { rewrite EV, !ndisch_app. assert (X : ndisch (if cyc s =? cycle_t cfg then [EvTransmute (kbatch cfg s); EvCycleEnd] else []) = 0)
        by (destruct (cyc s =? cycle_t cfg); reflexivity). rewrite X.
      assert (Y : ndisch (if attempt cfg s then if success cfg s then EvDischarge (kbatch cfg s) :: sup else [EvDischargeFailed] else [])
        = if success cfg s then kbatch cfg s else 0).
      { unfold success. destruct (attempt cfg s); [|reflexivity]. cbn [andb]. destruct (_ <=? _); [|reflexivity].
        change (EvDischarge (kbatch cfg s) :: sup) with ([EvDischarge (kbatch cfg s)] ++ sup). rewrite ndisch_app, Z2. cbn. lia. }
      rewrite Y. destruct (nloaded recipe cfg s =? 0); cbn; lia. }
    assert (N3 : ntrans ev = if cyc s =? cycle_t cfg then kbatch cfg s else 0).
    { rewrite EV, !ntrans_app.
      assert (Y : ntrans (if attempt cfg s then if success cfg s then EvDischarge (kbatch cfg s) :: sup else [EvDischargeFailed] else []) = 0).
      { destruct (attempt cfg s); [|reflexivity]. destruct (success cfg s); [|reflexivity]. exact Z3. }
      rewrite Y. destruct (cyc s =? cycle_t cfg), (nloaded recipe cfg s =? 0); cbn; lia. }
    unfold rb_count in *. rewrite N1, N2, N3, T1, T2, T3, !zlen_app, zlen_skipn, zlen_firstn, CC, MM by lia.
    split; [lia|]. split; [lia|]. split; [intros _; split; [lia|split; [lia|reflexivity]]|discriminate].
Qed.

Lemma step_log t s e o : inv s -> step_contract eps recipe cfg t s e -> rx_step eps recipe cfg t s e = Ok o ->
  held_in core (o_state o) = held_in core s + loads o - discharges o /\
  held_in fresh (o_state o) + held_in spent (o_state o) =
    held_in fresh s + held_in spent s + zlen (e_deliv e) - loads o + discharges o - zlen (o_shipped o) /\
  (retired cfg t = false ->
     held_in fresh (o_state o) = held_in fresh s + zlen (e_deliv e) - loads o /\
     held_in spent (o_state o) = held_in spent s + discharges o - zlen (o_shipped o) /\
     transmutations o = (if cyc s =? cycle_t cfg then kbatch cfg s else 0)) /\
  (retired cfg t = true -> loads o = 0 /\ transmutations o = (if t =? exit_t cfg + 1 then burn_count cfg s else 0)).
Proof.
  intros I SC H.
  destruct (step_split _ _ _ _ _ _ _ H) as (ev1 & ev2 & s2 & s3 & ev3 & ev4 & E1 & E2 & E3 & E4 & E5 & E6 & EV).
  destruct (gen_step eps recipe cfg EP HC HK t s e o I SC H)
    as (s3' & ev1' & ev2' & ev3' & ev4' & E1' & I1 & I3 & I4 & M & X & _ & _ & _ & _ & _ & _ & HL & _).
  clear ev1' ev2' ev3' ev4' E1' s3' I3.
  destruct (SC _ _ _ _ _ E1 E2 E3) as (H1 & H2 & H3 & H4).
  destruct (contract_deliv recipe cfg HC _ _ _ _ _ I1 E2 H1 H2) as (H5 & H6).
  destruct (exchange_phase eps recipe cfg EP HC _ (e_pick e) (e_deliv e) I1 (picks_ok eps recipe cfg EP HC _ _ _ _ I1 E3 H4) H5 H6 H3)
    as (s2' & resp & s3' & ev3' & E4' & E5' & Y1 & Y2 & Y3 & Y4 & Y5 & Y6 & Y7 & Y8 & _).
  rewrite E4 in E4'. injection E4' as <- <-. rewrite E5 in E5'. injection E5' as <- <-. cbn zeta in Y6. destruct Y6 as [Yc Yf].
  destruct (tick_log _ _ _ _ I E1) as (T1 & T2 & T3 & T4).
  destruct (ok_limits _ _ _ I1) as (L1 & L2 & L3).
  set (k := Z.min (zlen (e_deliv e)) (n_core cfg - rb_count (core (o_ticked o)))) in *.
  pose proof (zlen_nonneg (e_deliv e)) as ND.
  assert (K : 0 <= k <= zlen (map snd (e_deliv e))) by (rewrite zlen_map; unfold k, rb_count; lia).
  assert (V3 : nload ev3 = k /\ ndisch ev3 = 0 /\ ntrans ev3 = 0).
  { unfold deliver_phase in E5. destruct (e_deliv e) as [|d ds] eqn:ED.
    - injection E5 as _ E5. subst ev3. split; [|split; reflexivity]. change (nload []) with 0.
      unfold k in K |- *. unfold zlen in *. cbn [List.length map Z.of_nat] in *. lia.
    - unfold accept_trades in E5. apply bind_ok in E5 as (sx & _ & E5). injection E5 as _ <-. rewrite Y5. fold k.
      destruct (0 <? k) eqn:KP; [cbn; lia|]. apply Z.ltb_ge in KP. cbn. lia. }
  destruct V3 as (V31 & V32 & V33).
  assert (V2 : nload ev2 = 0 /\ ndisch ev2 = 0 /\ ntrans ev2 = 0).
  { destruct (get_requests_spec recipe cfg HC t _ I1) as (p & mc & _ & _ & Er & _). rewrite E2 in Er. injection Er as _ ->.
    apply dem_zero. apply Forall_forall. intros x Hx. apply repeat_spec in Hx. subst; eauto. }
  destruct V2 as (V21 & V22 & V23).
  assert (V4 : nload ev4 = 0 /\ ndisch ev4 = 0 /\ ntrans ev4 = 0 /\ core (o_state o) = core s3 /\ fresh (o_state o) = fresh s3 /\
    spent (o_state o) = spent s3).
  { destruct (retired cfg t) eqn:R.
    - rewrite tock_retired in E6 by auto. injection E6 as <- <-. repeat split.
    - rewrite (tock_spec cfg HC) in E6 by auto. injection E6 as <- <-. 
      assert (SZ : forall b, nload (side_events cfg b) = 0 /\ ndisch (side_events cfg b) = 0 /\ ntrans (side_events cfg b) = 0).
      { intro b. unfold nload, ndisch, ntrans, side_events. rewrite !map_map. cbn.
        split; [|split]; induction (combine (side_products cfg) (side_qty cfg)); cbn; auto; lia. }
      split; [|split; [|split; [|auto]]].
      + rewrite nload_app. destruct ((cyc1 cfg s3 =? 0) && full cfg s3)%bool; cbn [nload map total fold_right];
          destruct (hybrid s3); try reflexivity; apply (proj1 (SZ _)).
      + rewrite ndisch_app. destruct ((cyc1 cfg s3 =? 0) && full cfg s3)%bool; cbn [ndisch map total fold_right];
          destruct (hybrid s3); try reflexivity; apply (proj1 (proj2 (SZ _))).
      + rewrite ntrans_app. destruct ((cyc1 cfg s3 =? 0) && full cfg s3)%bool; cbn [ntrans map total fold_right];
          destruct (hybrid s3); try reflexivity; apply (proj2 (proj2 (SZ _))). }
  destruct V4 as (V41 & V42 & V43 & W1 & W2 & W3).
  assert (LO : loads o = nload ev1 + k) by (unfold loads; rewrite EV; change (nload (ev1 ++ ev2 ++ ev3 ++ ev4) = nload ev1 + k);
    rewrite !nload_app; lia).
  assert (DI : discharges o = ndisch ev1) by (unfold discharges; rewrite EV; change (ndisch (ev1 ++ ev2 ++ ev3 ++ ev4) = ndisch ev1);
    rewrite !ndisch_app; lia).
  assert (TR : transmutations o = ntrans ev1) by (unfold transmutations; rewrite EV; change (ntrans (ev1 ++ ev2 ++ ev3 ++ ev4) = ntrans ev1);
    rewrite !ntrans_app; lia).
  assert (SP : rb_count (spent (o_ticked o)) = zlen (o_shipped o) + rb_count (spent s3)).
  { apply Permutation_length in Y8. rewrite app_length, map_length in Y8. unfold rb_count, zlen. rewrite Y7. lia. }
  unfold held_in. rewrite W1, W2, W3, LO, DI, TR. unfold rb_count in *.
  rewrite Yc, Yf, !zlen_app, zlen_firstn, zlen_skipn, zlen_map by lia.
  split; [lia|]. split; [lia|]. split.
  - intro R. destruct (T3 R) as (A & B & C). split; [lia|]. split; [lia|]. exact C.
  - intro R. destruct (T4 R) as (A & B).
    assert (D0 : zlen (e_deliv e) = 0).
    { pose proof E2 as G. destruct (get_requests_spec recipe cfg HC t _ I1) as (p & mc & _ & _ & Er & _). rewrite E2 in Er.
      injection Er as Er _. assert (order_size cfg t (o_ticked o) = 0) by (unfold order_size; rewrite R; reflexivity).
      rewrite H0 in Er. rewrite Er in HL. cbn in HL. lia. }
    split; [|exact B]. assert (k = 0) by (unfold k; rewrite D0; lia). lia.
Qed.
End Log.

Section History.
Context {eps : Q} {recipe : string -> option comp} {cfg : rx_cfg}.
Variables (t0 : Z) (s0 : rx_state) (es : list rx_env) (os : list rx_out).
Hypothesis H : rx_history eps recipe cfg t0 s0 es os.

Lemma firstn_snoc {A} (l : list A) k x : nth_error l k = Some x -> firstn (S k) l = firstn k l ++ [x].
Proof.
  revert k. induction l as [|y l IH]; intros k N; destruct k; cbn in *; try discriminate.
  - injection N as ->. reflexivity.
  - f_equal. apply IH. exact N.
Qed.

Lemma log_core k : (k <= List.length os)%nat ->
  held_in core (state_before s0 os k) =
    held_in core s0 + total (map loads (firstn k os)) - total (map discharges (firstn k os)) /\
  held_in fresh (state_before s0 os k) + held_in spent (state_before s0 os k) =
    held_in fresh s0 + held_in spent s0 + total (map (fun e => zlen (e_deliv e)) (firstn k es))
      - total (map loads (firstn k os)) + total (map discharges (firstn k os))
      - total (map (fun o => zlen (o_shipped o)) (firstn k os)) /\
  ((forall i, (i < k)%nat -> retired cfg (t0 + Z.of_nat i) = false) ->
    held_in fresh (state_before s0 os k) = held_in fresh s0 +
      total (map (fun e => zlen (e_deliv e)) (firstn k es)) - total (map loads (firstn k os)) /\
    held_in spent (state_before s0 os k) = held_in spent s0 + total (map discharges (firstn k os))
      - total (map (fun o => zlen (o_shipped o)) (firstn k os))).
Proof.
  induction k as [|k IH]; intro L.
  - cbn. split; [lia|]. split; [lia|]. intros _. split; lia.
  - specialize (IH ltac:(lia)). destruct IH as (A & B & C).
    destruct (nth_error os k) as [o|] eqn:N; [|apply nth_error_None in N; lia].
    destruct (step_of _ _ _ _ H k o N) as (e & Ne & E & I & SC). pose proof H as [h1 h2 h3 h4 h5 h6].
    destruct (step_log h1 h2 h3 _ _ _ _ I SC E) as (S1 & S2 & S3 & _).
    cbn [state_before]. rewrite N. rewrite (firstn_snoc _ _ _ N), (firstn_snoc _ _ _ Ne), !map_app, !total_app. cbn [map total fold_right].
    split; [lia|]. split; [lia|]. intro R. destruct (C ltac:(intros i Hi; apply R; lia)) as (C1 & C2).
    destruct (S3 (R k ltac:(lia))) as (D1 & D2 & _). split; lia.
Qed.

Lemma log_transmute i o : nth_error os i = Some o ->
  let t := t0 + Z.of_nat i in let s := state_before s0 os i in
  (retired cfg t = false -> has EvCycleEnd o -> transmutations o = Z.min (n_batch cfg) (held_in core s)) /\
  (retired cfg t = false -> ~ has EvCycleEnd o -> transmutations o = 0) /\
  (retired cfg t = true -> t = exit_t cfg + 1 -> exists n, retire_burn cfg n /\ transmutations o = Z.min n (held_in core s)) /\
  (retired cfg t = true -> t <> exit_t cfg + 1 -> transmutations o = 0) /\
  (retired cfg t = true -> loads o = 0).
Proof.
  intros N t s. destruct (step_of _ _ _ _ H i o N) as (e & Ne & E & I & SC). pose proof H as [h1 h2 h3 h4 h5 h6].
  destruct (step_log h1 h2 h3 _ _ _ _ I SC E) as (_ & _ & S3 & S4). fold t s in S3, S4.
  assert (HE : retired cfg t = false -> (has EvCycleEnd o <-> cyc s = cycle_t cfg)).
  { intro R. destruct (step_spec eps recipe cfg h1 h2 h3 _ _ _ _ I R SC E) as (s3 & SR). eapply has_end; eauto. }
  split; [|split; [|split; [|split]]].
  - intros R HE'. destruct (S3 R) as (_ & _ & T). apply (HE R) in HE'. rewrite T, HE', Z.eqb_refl. reflexivity.
  - intros R HE'. destruct (S3 R) as (_ & _ & T). rewrite T. destruct (cyc s =? cycle_t cfg) eqn:C; [|reflexivity].
    apply Z.eqb_eq in C. apply (HE R) in C. contradiction.
  - intros R ET. destruct (S4 R) as (_ & T). rewrite T, ET, Z.eqb_refl.
    exists (if decom_all cfg then n_core cfg else half_up (n_core cfg)). split; [|reflexivity].
    unfold retire_burn. destruct (decom_all cfg); [reflexivity|]. apply half_up_spec.
  - intros R ET. destruct (S4 R) as (_ & T). rewrite T. apply Z.eqb_neq in ET. rewrite ET. reflexivity.
  - intros R. apply (S4 R).
Qed.

(** ** Time series *)
Definition is_demand (e : event) : bool := match e with EvDemand _ _ => true | _ => false end.
Lemma demand_filter l : List.concat (map (fun e => match e with EvDemand c q => [(c, q)] | _ => [] end) l) =
  List.concat (map (fun e => match e with EvDemand c q => [(c, q)] | _ => [] end) (filter is_demand l)).
Proof. induction l as [|[] l IH]; cbn; congruence. Qed.
Lemma supply_filter l : List.concat (map (fun e => match e with EvSupply c q => [(c, q)] | _ => [] end) l) =
  List.concat (map (fun e => match e with EvSupply c q => [(c, q)] | _ => [] end) (filter is_supply l)).
Proof. induction l as [|[] l IH]; cbn; congruence. Qed.

Lemma tail_filter f t s3 so ev4 : config_consistent cfg -> tock cfg t s3 = Ok (so, ev4) ->
  f EvCycleStart = false -> (forall q, f (EvPower q) = false) -> (forall p q, f (EvSide p q) = false) -> filter f ev4 = [].
Proof.
  intros HC E6 F1 F2 F3. destruct (retired cfg t) eqn:R.
  - rewrite tock_retired in E6 by auto. injection E6 as _ <-. reflexivity.
  - rewrite (tock_spec cfg HC) in E6 by auto. injection E6 as _ <-. apply filter_none. apply Forall_app. split.
    + destruct (_ && _)%bool; repeat constructor. exact F1.
    + constructor; [apply F2|]. destruct (hybrid s3); [|constructor]. unfold side_events. apply Forall_map.
      apply Forall_forall. intros x _. apply F3.
Qed.

Lemma log_demand i o : nth_error os i = Some o ->
  exists j c, favourite (prefs (o_ticked o)) j /\ nth_error (incommods cfg) j = Some c /\
    demand_record o = repeat (c, assem cfg) (List.length (o_reqs o)).
Proof.
  intros N. destruct (step_of _ _ _ _ H i o N) as (e & Ne & E & I & SC). pose proof H as [h1 h2 h3 h4 h5 h6].
  destruct (step_split _ _ _ _ _ _ _ E) as (ev1 & ev2 & s2 & s3 & ev3 & ev4 & E1 & E2 & E3 & E4 & E5 & E6 & EV).
  pose proof (ticked_ok _ _ _ _ H i o N) as I1.
  destruct (get_requests_spec recipe cfg h2 (t0 + Z.of_nat i) _ I1) as (p & mc & _ & Nm & Er & _).
  rewrite E2 in Er. injection Er as Er1 Er2.
  exists (max_index (prefs (o_ticked o))), mc. split; [|split; [exact Nm|]].
  - destruct (ok_tables _ _ _ I1) as (_ & _ & T3).
    assert (PN : prefs (o_ticked o) <> []).
    { pose proof (cc_fuels _ h2). destruct (prefs (o_ticked o)), (incommods cfg); cbn in *; congruence. }
    destruct (StorageGlue.max_index_max _ PN) as (v & A & B & C). exists v. auto.
  - unfold demand_record. rewrite demand_filter, EV, !filter_app.
    assert (X1 : filter is_demand ev1 = []).
    { destruct (retired cfg (t0 + Z.of_nat i)) eqn:R.
      - destruct (tick_retired_spec eps recipe cfg h1 h2 _ _ I R) as (s' & ev & n & m & ET & T). rewrite E1 in ET. injection ET as <- <-.
        apply filter_none. eapply Forall_impl; [|exact (proj1 (proj2 (proj2 (proj2 (proj2 (proj2 (proj2 (proj2 (proj2 (proj2 (proj2 T)))))))))))].
        intros [] Q; cbn in *; auto; contradiction.
      - destruct (tick_spec eps recipe cfg h1 h2 h3 _ _ I R) as (s' & ev & ET & _ & T). rewrite E1 in ET. injection ET as <- <-.
        apply (tick_events_none _ _ _ _ _ _ T); reflexivity. }
    assert (X3 : filter is_demand ev3 = []).
    { unfold deliver_phase in E5. destruct (e_deliv e); [injection E5 as _ <-; reflexivity|].
      unfold accept_trades in E5. apply bind_ok in E5 as (sx & _ & E5). injection E5 as _ <-. destruct (0 <? _); reflexivity. }
    rewrite X1, X3, (tail_filter is_demand _ _ _ _ h2 E6) by auto. cbn [app]. rewrite app_nil_r.
    rewrite Er1, Er2, repeat_length. clear. induction (Z.to_nat _); cbn; [reflexivity|]. f_equal. auto.
Qed.

Lemma log_supply i o : nth_error os i = Some o -> retired cfg (t0 + Z.of_nat i) = false ->
  ((exists n, has (EvDischarge n) o) ->
     supply_record o = map (fun c => (c, qty_of (waiting cfg (o_ticked o) c))) (outcommods cfg)) /\
  ((forall n, ~ has (EvDischarge n) o) -> supply_record o = []).
Proof.
  intros N R. destruct (step_of _ _ _ _ H i o N) as (e & Ne & E & I & SC). pose proof H as [h1 h2 h3 h4 h5 h6].
  destruct (step_split _ _ _ _ _ _ _ E) as (ev1 & ev2 & s2 & s3 & ev3 & ev4 & E1 & E2 & E3 & E4 & E5 & E6 & EV).
  pose proof (ticked_ok _ _ _ _ H i o N) as I1.
  destruct (step_spec eps recipe cfg h1 h2 h3 _ _ _ _ I R SC E) as (sx & SR).
  assert (HD : forall n, has (EvDischarge n) o <-> success cfg (state_before s0 os i) = true /\ n = kbatch cfg (state_before s0 os i))
    by (intro n; eapply has_disch; eauto).
  assert (SUP : supply_record o = if success cfg (state_before s0 os i)
    then map (fun c => (c, qty_of (waiting cfg (o_ticked o) c))) (outcommods cfg) else []).
  { unfold supply_record. rewrite supply_filter, EV, !filter_app.
    destruct (tick_spec eps recipe cfg h1 h2 h3 _ _ I R) as (s' & ev & ET & _ & T). rewrite E1 in ET. injection ET as <- <-.
    rewrite (tr_sup _ _ _ _ _ T).
    assert (X2 : filter is_supply ev2 = []).
    { destruct (get_requests_spec recipe cfg h2 (t0 + Z.of_nat i) _ I1) as (p & mc & _ & _ & Er & _). rewrite E2 in Er. injection Er as _ ->.
      apply filter_none. apply Forall_forall. intros x Hx. apply repeat_spec in Hx. subst. reflexivity. }
    assert (X3 : filter is_supply ev3 = []).
    { unfold deliver_phase in E5. destruct (e_deliv e); [injection E5 as _ <-; reflexivity|].
      unfold accept_trades in E5. apply bind_ok in E5 as (sy & _ & E5). injection E5 as _ <-. destruct (0 <? _); reflexivity. }
    rewrite X2, X3, (tail_filter is_supply _ _ _ _ h2 E6) by auto. cbn [app]. rewrite app_nil_r.
    destruct (success cfg (state_before s0 os i)); [|reflexivity].
    unfold supply_events. rewrite map_map.
    destruct (group_facts (ocommod cfg (o_ticked o)) (rb_items (spent (o_ticked o))) []) as (_ & _ & _ & D); [constructor|constructor|].
    cbn in D.
    assert (W : forall c, smap_get c (group_by (ocommod cfg (o_ticked o)) (rb_items (spent (o_ticked o))) []) = waiting cfg (o_ticked o) c)
      by (intro c; rewrite D; symmetry; eapply waiting_on; eauto).
    clear - W. induction (outcommods cfg) as [|c l IH]; cbn; [reflexivity|]. rewrite IH, W. reflexivity. }
  rewrite SUP. split.
  - intros (n & Hn). apply HD in Hn as (-> & _). reflexivity.
  - intro Hn. destruct (success cfg (state_before s0 os i)) eqn:SU; [|reflexivity]. exfalso.
    apply (Hn (kbatch cfg (state_before s0 os i))). apply HD. auto.
Qed.
End History.
