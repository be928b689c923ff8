(** Reactor: shipping, orders, changes, retirement. *)
From Coq Require Import Lia Lqa Permutation.
From Verif Require Import Outcome KernelMaterial KernelResBuf KernelFacts ReactorModel ReactorSpec ReactorProofs ReactorTradeProofs ReactorHistory ReactorCycle ReactorTrace ReactorFuel.
Local Open Scope Z_scope.

Section Retire.
Variable eps : Q.
Variable recipe : string -> option comp.
Variable cfg : rx_cfg.
Hypothesis eps_nonneg : (0 <= eps)%Q.
Hypothesis Hcfg : config_consistent cfg.
Hypothesis Hknown : recipes_known recipe cfg.
Notation inv := (reactor_ok recipe cfg).
Notation step := (rx_step eps recipe cfg).
Notation run := (rx_run eps recipe cfg).
Notation contract := (run_contract eps recipe cfg).

(** ** The retired tick *)
Definition burn_count (s : rx_state) : Z :=
  Z.min (if decom_all cfg then n_core cfg else half_up (n_core cfg)) (rb_count (core s)).
Definition rcore1 (t : Z) (s : rx_state) : list mat :=
  if t =? exit_t cfg + 1
  then map (burn recipe s) (firstn (Z.to_nat (burn_count s)) (rb_items (core s))) ++ skipn (Z.to_nat (burn_count s)) (rb_items (core s))
  else rb_items (core s).

Lemma rcore1_len t s : zlen (rcore1 t s) = zlen (rb_items (core s)).
Proof.
  unfold rcore1. destruct (t =? exit_t cfg + 1); auto.
  unfold zlen. rewrite app_length, map_length, <- app_length, firstn_skipn. auto.
Qed.

Definition quiet (e : event) : Prop :=
  match e with EvPower _ | EvSide _ _ | EvCycleStart | EvCycleEnd | EvDemand _ _ | EvLoad _ => False | _ => True end.
Definition not_decom (e : event) : Prop := match e with EvSchedDecom => False | _ => True end.

Lemma drain_core_ev fuel : forall s s' ev, inv s -> (List.length (rb_items (core s)) < fuel)%nat ->
  drain_core eps cfg fuel s = Ok (s', ev) -> Forall (fun e => quiet e /\ not_decom e) ev.
Proof.
  induction fuel as [|fuel IH]; intros s s' ev I L H; [lia|].
  simpl in H. destruct (0 <? rb_count (core s)) eqn:E; [|inversion H; constructor].
  rewrite (discharge_spec eps recipe cfg eps_nonneg Hcfg s I) in H. cbn zeta in H.
  pose proof (cc_batch _ Hcfg) as Hb. apply Z.ltb_lt in E.
  set (k := Z.min (n_batch cfg) (rb_count (core s))) in *.
  destruct (n_spent cfg - rb_count (spent s) <? k) eqn:E2; cbn [bind] in H.
  - inversion H; subst. repeat constructor.
  - apply Z.ltb_ge in E2.
    destruct (inv_discharged recipe cfg s k I) as [I' _]; [lia|lia|].
    apply bind_ok in H as ([s2 ev2] & H1 & H2). inversion H2; subst.
    apply IH in H1; auto.
    + simpl. constructor; [simpl; auto|]. apply Forall_app. split; auto.
      eapply Forall_impl; [|apply (supply_shape cfg)]. intros x (c & q & ->). simpl; auto.
    + unfold discharged_state. simpl. rewrite skipn_length. unfold rb_count, zlen in *. lia.
Qed.

Lemma tick_retired_spec t s : inv s -> retired cfg t = true ->
  exists s' ev n m, tick eps recipe cfg t s = Ok (s', ev) /\ inv s' /\ same_rest s s' /\
    0 <= n <= zlen (rcore1 t s) /\ 0 <= m <= rb_count (fresh s) /\
    rb_items (core s') = skipn (Z.to_nat n) (rcore1 t s) /\
    rb_items (fresh s') = skipn (Z.to_nat m) (rb_items (fresh s)) /\
    rb_items (spent s') = rb_items (spent s) ++ firstn (Z.to_nat n) (rcore1 t s) ++ firstn (Z.to_nat m) (rb_items (fresh s)) /\
    ((exists q, n = q * n_batch cfg) \/ n = zlen (rb_items (core s))) /\
    (rb_count (core s') = 0 \/ n_spent cfg - (rb_count (spent s) + n) < Z.min (n_batch cfg) (rb_count (core s'))) /\
    (rb_count (fresh s') = 0 \/ rb_count (spent s') = n_spent cfg) /\
    Forall quiet ev /\ (In EvSchedDecom ev <-> rb_items (core s') = [] /\ rb_items (spent s') = []).
Proof.
  intros I Hr. unfold tick. rewrite Hr. unfold tick_retired.
  set (s1 := upd_core s {| rb_cap := rb_cap (core s); rb_items := rcore1 t s |}).
  assert (exists e1, (if t =? exit_t cfg + 1 then
             transmute_core eps recipe (if decom_all cfg then n_core cfg else half_up (n_core cfg)) s
           else Ok (s, [])) = Ok (s1, e1) /\ inv s1 /\ Forall (fun e => quiet e /\ not_decom e) e1) as (e1 & E1 & I1 & F1).
  { unfold s1, rcore1. destruct (t =? exit_t cfg + 1).
    - assert (0 <= if decom_all cfg then n_core cfg else half_up (n_core cfg)) as Hn0
        by (destruct (decom_all cfg); [|apply half_up_nonneg]; apply Hcfg).
      rewrite (transmute_core_spec eps recipe cfg eps_nonneg Hcfg) by auto.
      eexists. split; [reflexivity|]. split; [apply (inv_transmute recipe cfg s); auto|]. repeat constructor.
    - assert (upd_core s {| rb_cap := rb_cap (core s); rb_items := rb_items (core s) |} = s) as -> by
          (destruct s as [? [? ?] ? ? ? ? ? ? ? ?]; reflexivity). eexists. split; [reflexivity|]. split; auto. }
  rewrite E1. cbn [bind].
  destruct (drain_core_ok eps recipe cfg eps_nonneg Hcfg (S (List.length (rb_items (core s1)))) s1 I1 (Nat.lt_succ_diag_r _))
    as (s2 & ev2 & E2 & I2 & M2 & S2 & F2 & (n & Hn & Hc2 & Hsp2 & HQ) & D2).
  pose proof (drain_core_ev _ _ _ _ I1 (Nat.lt_succ_diag_r _) E2) as V2.
  rewrite E2. cbn [bind].
  destruct (drain_fresh_ok eps recipe cfg eps_nonneg Hcfg (S (List.length (rb_items (fresh s2)))) s2 I2 (Nat.lt_succ_diag_r _))
    as (s3 & E3 & I3 & M3 & S3 & C3 & D3 & (m & Hm & Hf3 & Hsp3)).
  rewrite E3. cbn [bind].
  exists s3, (EvRetired :: e1 ++ ev2 ++ (if check_decom s3 then [EvSchedDecom] else [])), n, m.
  rewrite F2 in *. change (fresh s1) with (fresh s) in *. change (spent s1) with (spent s) in *.
  change (rb_items (core s1)) with (rcore1 t s) in *.
  assert (same_rest s s3) as SR.
  { apply (same_rest_trans s s1); [repeat split|]. apply (same_rest_trans s1 s2); auto. }
  assert (0 <= n <= zlen (rcore1 t s)) as Hn' by exact Hn.
  split; [reflexivity|]. split; [exact I3|]. split; [exact SR|]. split; [exact Hn'|]. split; [exact Hm|].
  split; [rewrite C3; exact Hc2|]. split; [exact Hf3|].
  split; [rewrite Hsp3, Hsp2, <- app_assoc; reflexivity|].
  split; [unfold rb_count in HQ; change (rb_items (core s1)) with (rcore1 t s) in HQ; rewrite rcore1_len in HQ; exact HQ|].
  split; [|split; [exact D3|split; [|split; [intro H; split|]]]].
  - rewrite C3. destruct D2 as [D2|D2]; auto. right.
    assert (rb_count (spent s2) = rb_count (spent s) + n) as E.
    { unfold rb_count at 1. rewrite Hsp2, zlen_app. unfold rb_count at 1. f_equal.
      unfold zlen in *. rewrite firstn_length. lia. }
    lia.
  - constructor; [simpl; auto|]. apply Forall_app. split; [|apply Forall_app; split].
    + eapply Forall_impl; [|exact F1]. simpl. tauto.
    + eapply Forall_impl; [|exact V2]. simpl. tauto.
    + destruct (check_decom s3); repeat constructor.
  - destruct H as [H|H]; [discriminate|]. rewrite !in_app_iff in H. destruct H as [H|[H|H]].
    + rewrite Forall_forall in F1. destruct (F1 _ H) as [_ []].
    + rewrite Forall_forall in V2. destruct (V2 _ H) as [_ []].
    + unfold check_decom in H. destruct (rb_count (core s3) =? 0) eqn:Ec; [|destruct H].
      apply Z.eqb_eq in Ec. unfold rb_count, zlen in Ec. destruct (rb_items (core s3)); auto. simpl in Ec. lia.
  - destruct H as [H|H]; [discriminate|]. rewrite !in_app_iff in H. destruct H as [H|[H|H]].
    + rewrite Forall_forall in F1. destruct (F1 _ H) as [_ []].
    + rewrite Forall_forall in V2. destruct (V2 _ H) as [_ []].
    + unfold check_decom in H. destruct (rb_count (core s3) =? 0) eqn:Ec; [|destruct H].
      destruct (rb_count (spent s3) =? 0) eqn:Es; [|destruct H].
      apply Z.eqb_eq in Es. unfold rb_count, zlen in Es. destruct (rb_items (spent s3)); auto. simpl in Es. lia.
  - intros [A B]. right. rewrite !in_app_iff. right. right. unfold check_decom, rb_count. rewrite A, B. simpl. auto.
Qed.

(** ** The rest of a step, retired or not *)
Lemma gen_step t s e o : inv s -> step_contract eps recipe cfg t s e -> step t s e = Ok o ->
  exists s3 ev1 ev2 ev3 ev4,
    tick eps recipe cfg t s = Ok (o_ticked o, ev1) /\ inv (o_ticked o) /\ inv s3 /\ inv (o_state o) /\ moves s (o_ticked o) /\
    idx (o_ticked o) = idx s /\
    get_requests recipe cfg t (o_ticked o) = Ok (o_reqs o, ev2) /\
    tock cfg t s3 = Ok (o_state o, ev4) /\ o_events o = ev1 ++ ev2 ++ ev3 ++ ev4 /\
    Forall (fun ev => exists n, ev = EvLoad n) ev3 /\ (e_deliv e = [] -> ev3 = []) /\
    (exists c d, o_state o = upd_cyc s3 c d) /\
    zlen (e_deliv e) <= zlen (o_reqs o) /\
    (let k := Z.to_nat (Z.min (zlen (e_deliv e)) (n_core cfg - rb_count (core (o_ticked o)))) in
     rb_items (core s3) = rb_items (core (o_ticked o)) ++ firstn k (map snd (e_deliv e)) /\
     rb_items (fresh s3) = rb_items (fresh (o_ticked o)) ++ skipn k (map snd (e_deliv e))) /\
    map fst (o_shipped o) = e_pick e /\
    Permutation (rb_items (spent (o_ticked o))) (map snd (o_shipped o) ++ rb_items (spent s3)) /\
    (forall c, on (ocommod cfg (o_ticked o)) c (rb_items (spent (o_ticked o))) =
               resp_on c (o_shipped o) ++ on (ocommod cfg (o_ticked o)) c (rb_items (spent s3))) /\
    (forall m, In m (assemblies (o_ticked o)) -> ~ In (m_id m) (map (fun r => m_id (snd r)) (o_shipped o)) ->
               idx_get (m_id m) (idx s3) = idx_get (m_id m) (idx (o_ticked o))) /\
    (forall d, In d (e_deliv e) -> find_commod (fst d) (incommods cfg) 0 = Some (idx_get (m_id (snd d)) (idx s3))) /\
    Permutation (map tag (assemblies (o_ticked o)) ++ map tagd (e_deliv e)) (map tagd (o_shipped o) ++ map tag (assemblies s3)) /\
    inrecipes s3 = inrecipes (o_ticked o) /\ outrecipes s3 = outrecipes (o_ticked o) /\ prefs s3 = prefs (o_ticked o).
Proof.
  intros I HC H.
  destruct (step_split _ _ _ _ _ _ _ H) as (ev1 & ev2 & s2 & s3 & ev3 & ev4 & E1 & E2 & E3 & E4 & E5 & E6 & EV).
  destruct (tick_ok eps recipe cfg eps_nonneg Hcfg Hknown t s I) as (s1 & ev1' & E1' & I1 & M1 & X1 & _). rewrite E1 in E1'. inversion E1'; subst s1 ev1'; clear E1'.
  destruct (HC _ _ _ _ _ E1 E2 E3) as (H1 & H2 & H3 & H4).
  destruct (contract_deliv recipe cfg Hcfg _ _ _ _ _ I1 E2 H1 H2) as (H5 & H6).
  destruct (exchange_phase eps recipe cfg eps_nonneg Hcfg _ (e_pick e) (e_deliv e) I1 (picks_ok eps recipe cfg eps_nonneg Hcfg _ _ _ _ I1 E3 H4) H5 H6 H3)
    as (s2' & resp & s3' & ev3' & E4' & E5' & Y1 & Y2 & Y3 & Y4 & Y5 & Y6 & Y7 & Y8 & Y9 & Y10 & Y11 & Y12 & Y13 & Y14 & Y15 & Y16 & Y17 & Y18 & Y19).
  rewrite E4 in E4'. inversion E4'; subst s2' resp; clear E4'.
  rewrite E5 in E5'. inversion E5'; subst s3' ev3'; clear E5'.
  destruct (tock_ok cfg Hcfg t s3) as (s4 & ev4' & c & d & E6' & E7). rewrite E6 in E6'. injection E6' as A4 B4. rewrite <- A4 in E7. clear A4 B4.
  exists s3, ev1, ev2, ev3, ev4.
  assert (inv (o_state o)) as I4 by (rewrite E7; apply inv_cyc; auto).
  rewrite <- Y7 in Y8.
  assert (forall c, on (ocommod cfg (o_ticked o)) c (rb_items (spent (o_ticked o))) =
               resp_on c (o_shipped o) ++ on (ocommod cfg (o_ticked o)) c (rb_items (spent s3))) as Y9'
    by (intro c'; rewrite Y7; auto).
  assert (e_deliv e = [] -> ev3 = []) as Yd.
  { intro Z. rewrite Z in E5. simpl in E5. inversion E5. auto. }
  assert (forall d, In d (e_deliv e) -> find_commod (fst d) (incommods cfg) 0 = Some (idx_get (m_id (snd d)) (idx s3))) as Yn.
  { intros d0 Hd. destruct (Y11 d0 Hd) as (i & A & B). congruence. }
  repeat (split; [solve [auto | eauto]|]). auto.
Qed.

(** ** Shipping: one queue per commodity *)
Lemma waiting_on s c : inv s -> waiting cfg s c = on (ocommod cfg s) c (rb_items (spent s)).
Proof.
  intro I. unfold waiting, on. apply filter_ext_in. intros m Hm. unfold leaves_on, ocommod.
  assert (idx_get (m_id m) (idx s) < List.length (outcommods cfg))%nat as L.
  { rewrite (cc_out _ Hcfg). apply (inv_idx recipe cfg s m I). unfold assemblies. rewrite !in_app_iff. auto. }
  apply nth_error_Some in L. destruct (nth_error (outcommods cfg) (idx_get (m_id m) (idx s))); auto. congruence.
Qed.

Lemma on_ext cl cl' c l : (forall m, In m l -> cl m = cl' m) -> on cl c l = on cl' c l.
Proof. intro H. unfold on. apply filter_ext_in. intros m Hm. rewrite (H m Hm). auto. Qed.

Lemma ids_of_tags l : map m_id l = map fst (map tag l).
Proof. rewrite map_map. reflexivity. Qed.

Lemma tick_spent t s s1 ev : inv s -> tick eps recipe cfg t s = Ok (s1, ev) ->
  exists new, rb_items (spent s1) = rb_items (spent s) ++ new.
Proof.
  intros I H. destruct (retired cfg t) eqn:Hr.
  - destruct (tick_retired_spec t s I Hr) as (s' & ev' & n & m & E & _ & _ & _ & _ & _ & _ & Hs & _).
    rewrite H in E. inversion E; subst. eauto.
  - destruct (tick_spec eps recipe cfg eps_nonneg Hcfg Hknown t s I Hr) as (s' & ev' & E & _ & T).
    rewrite H in E. inversion E; subst. exists (moved recipe cfg s). apply (tr_spent _ _ _ _ _ T).
Qed.

Lemma shipped_held t s e o : inv s -> step_contract eps recipe cfg t s e -> step t s e = Ok o ->
  forall r, In r (o_shipped o) -> In (snd r) (waiting cfg (o_ticked o) (fst r)).
Proof.
  intros I HC H [c m] Hr.
  destruct (gen_step t s e o I HC H) as (s3 & ev1 & ev2 & ev3 & ev4 & _ & I1 & _ & _ & _ & _ & _ & _ & _ & _ & _ & _ & _ & _ & _ & _ & Q & _).
  rewrite waiting_on by auto. simpl. rewrite Q. apply in_app_iff. left. unfold resp_on.
  apply in_map_iff. exists (c, m). split; auto. apply filter_In. split; auto. simpl. apply String.eqb_refl.
Qed.

Lemma step_queue t s e o c : inv s -> step_contract eps recipe cfg t s e -> step t s e = Ok o ->
  (exists new, rb_items (spent (o_ticked o)) = rb_items (spent s) ++ new /\
     waiting cfg (o_ticked o) c = waiting cfg s c ++
        filter (fun m => match leaves_on cfg (o_ticked o) m with Some c' => String.eqb c' c | None => false end) new) /\
  waiting cfg (o_ticked o) c = shipped_on c (o_shipped o) ++ waiting cfg (o_state o) c.
Proof.
  intros I HC H.
  destruct (gen_step t s e o I HC H) as (s3 & ev1 & ev2 & ev3 & ev4 & E1 & I1 & I3 & I4 & M & X & _ & _ & _ & _ & _ & (c0 & d0 & E7) & _ & _ & Hfst & P & Q & K & _ & PT & _).
  split.
  - destruct (tick_spent t s _ _ I E1) as (new & En). exists new. split; auto.
    unfold waiting. rewrite En, filter_app. f_equal. apply filter_ext. intro m. unfold leaves_on. rewrite X. auto.
  - rewrite !waiting_on by auto. rewrite Q. unfold resp_on, shipped_on. f_equal.
    rewrite E7. simpl. apply on_ext. intros m Hm. unfold ocommod. simpl.
    assert (idx_get (m_id m) (idx s3) = idx_get (m_id m) (idx (o_ticked o))) as ->; auto.
    apply K.
    + unfold assemblies. rewrite !in_app_iff. right. right. eapply Permutation_in; [symmetry; exact P|].
      apply in_app_iff. auto.
    + intro Hin.
      assert (NoDup (map m_id (rb_items (spent (o_ticked o))))) as ND.
      { pose proof (ok_distinct _ _ _ I1) as D. unfold assemblies in D. rewrite !map_app in D.
        apply NoDup_app_inv in D as (_ & D & _). apply NoDup_app_inv in D as (_ & D & _). auto. }
      eapply Permutation_NoDup in ND; [|apply Permutation_map; exact P].
      rewrite map_app in ND. apply NoDup_app_inv in ND as (_ & _ & ND). apply (ND (m_id m)).
      * rewrite map_map. auto.
      * apply in_map; auto.
Qed.

Lemma run_queue c es : forall t s os, inv s -> contract t s es -> run t s es = Ok os ->
  exists later, shipped_on c (List.concat (map o_shipped os)) ++ waiting cfg (end_state s os) c =
                waiting cfg s c ++ later.
Proof.
  induction es as [|e es IH]; intros t s os I HC H; simpl in H.
  - inversion H; subst. simpl. exists []. rewrite app_nil_r. auto.
  - destruct HC as [H1 H2].
    destruct (step_ok eps recipe cfg eps_nonneg Hcfg Hknown t s e I H1) as (o & E & I1 & I2 & _).
    rewrite E in H. cbn [bind] in H. apply bind_ok in H as (os' & E' & H). inversion H; subst os; clear H.
    destruct (IH (t + 1) (o_state o) os' I2 (H2 o E) E') as (later & L).
    destruct (step_queue t s e o c I H1 E) as ((new & N1 & N2) & Q).
    exists (filter (fun m => match leaves_on cfg (o_ticked o) m with Some c' => String.eqb c' c | None => false end) new ++ later).
    assert (end_state s (o :: os') = end_state (o_state o) os') as -> by apply final_cons.
    cbn [map List.concat].
    assert (forall a b, shipped_on c (a ++ b) = shipped_on c a ++ shipped_on c b) as SA
      by (intros; unfold shipped_on; rewrite filter_app, map_app; auto).
    rewrite SA, <- app_assoc, L, app_assoc, <- Q, N2, <- app_assoc. auto.
Qed.

(** ** The commodity an assembly was received on decides where it leaves *)
Section Origin.
Variables (t0 : Z) (s0 : rx_state) (es : list rx_env) (os : list rx_out).
Hypothesis I0 : inv s0.
Hypothesis C0 : contract t0 s0 es.
Hypothesis R0 : run t0 s0 es = Ok os.
Notation st := (state_before s0 os).
Notation tm i := (t0 + Z.of_nat i).

Lemma held_until i e o d : nth_error es i = Some e -> nth_error os i = Some o -> In d (e_deliv e) ->
  forall k, (i + S k <= List.length os)%nat ->
  (forall m om r, (i < m < i + S k)%nat -> nth_error os m = Some om -> In r (o_shipped om) -> m_id (snd r) <> m_id (snd d)) ->
  In (m_id (snd d)) (map m_id (assemblies (st (i + S k)))) /\
  find_commod (fst d) (incommods cfg) 0 = Some (idx_get (m_id (snd d)) (idx (st (i + S k)))).
Proof.
  intros Ne N Hd. induction k as [|k IH]; intros L HN.
  - replace (i + 1)%nat with (S i) by lia. simpl. rewrite N.
    destruct (run_nth eps recipe cfg eps_nonneg Hcfg Hknown es t0 s0 os i o I0 C0 R0 N) as (e' & Ne' & Se & I & C).
    assert (e' = e) as -> by congruence.
    destruct (gen_step _ _ _ _ I C Se) as (s3 & ev1 & ev2 & ev3 & ev4 & E1 & I1 & I3 & I4 & M & X & _ & _ & _ & _ & _ & (c0 & d0 & E7) & _ & (Hc3 & Hf3) & Hfst & P & Q & K & Nw & _).
    rewrite E7. split; [|simpl; auto].
    change (assemblies (upd_cyc s3 c0 d0)) with (assemblies s3). apply in_map.
    unfold assemblies. rewrite !in_app_iff.
    assert (In (snd d) (map snd (e_deliv e))) as Hin by (apply in_map; auto).
    rewrite <- (firstn_skipn (Z.to_nat (Z.min (zlen (e_deliv e)) (n_core cfg - rb_count (core (o_ticked o))))) (map snd (e_deliv e))) in Hin.
    apply in_app_iff in Hin as [Hin|Hin].
    + right. left. rewrite Hc3. apply in_app_iff. auto.
    + left. rewrite Hf3. apply in_app_iff. auto.
  - destruct IH as [A B]; [lia|intros; eapply HN; eauto; lia|].
    destruct (nth_error os (i + S k)) as [op|] eqn:Np; [|apply nth_error_None in Np; lia].
    replace (i + S (S k))%nat with (S (i + S k)) by lia. cbn [state_before]. rewrite Np.
    destruct (run_nth eps recipe cfg eps_nonneg Hcfg Hknown es t0 s0 os _ op I0 C0 R0 Np) as (e' & Ne' & Se & I & C).
    destruct (gen_step _ _ _ _ I C Se) as (s3 & ev1 & ev2 & ev3 & ev4 & E1 & I1 & I3 & I4 & M & X & _ & _ & _ & _ & _ & (c0 & d0 & E7) & _ & (Hc3 & Hf3) & Hfst & P & Q & K & Nw & PT & _).
    assert (In (m_id (snd d)) (map m_id (assemblies (o_ticked op)))) as A1.
    { rewrite ids_of_tags in *. eapply Permutation_in; [|exact A]. apply Permutation_map. exact M. }
    apply in_map_iff in A1 as (m & Em & Hm).
    assert (~ In (m_id m) (map (fun r => m_id (snd r)) (o_shipped op))) as Hns.
    { intro Hin. apply in_map_iff in Hin as (r & Er & Hr). apply (HN (i + S k)%nat op r); auto; [lia|]. congruence. }
    rewrite E7. split.
    + change (assemblies (upd_cyc s3 c0 d0)) with (assemblies s3). rewrite <- Em.
      assert (In (tag m) (map tagd (o_shipped op) ++ map tag (assemblies s3))) as Hin.
      { eapply Permutation_in; [exact PT|]. apply in_app_iff. left. apply in_map; auto. }
      apply in_app_iff in Hin as [Hin|Hin].
      * exfalso. apply Hns. apply in_map_iff in Hin as (r & Er & Hr). apply in_map_iff. exists r. split; auto.
        unfold tagd, tag in Er. congruence.
      * apply in_map_iff in Hin as (m' & Em' & Hm'). apply in_map_iff. exists m'. split; auto. unfold tag in Em'. congruence.
    + simpl. rewrite B. f_equal. rewrite <- Em. rewrite (K m Hm Hns), X. auto.
Qed.

Lemma leaves_where_it_belongs i j e o o' d c m : nth_error es i = Some e -> nth_error os i = Some o -> In d (e_deliv e) ->
  (i < j)%nat -> nth_error os j = Some o' -> In (c, m) (o_shipped o') -> m_id m = m_id (snd d) ->
  (forall k ok r, (i < k < j)%nat -> nth_error os k = Some ok -> In r (o_shipped ok) -> m_id (snd r) <> m_id (snd d)) ->
  exists n, first_position cfg n (fst d) /\ nth_error (outcommods cfg) n = Some c.
Proof.
  intros Ne N Hd Lij N' Hs Em HN.
  assert (j < List.length os)%nat as L by (apply nth_error_Some; congruence).
  pose (k := (j - S i)%nat). assert (j = i + S k)%nat as Ej by (unfold k; lia).
  destruct (held_until i e o d Ne N Hd k) as [A B]; [lia|intros; eapply HN; eauto; lia|]. rewrite <- Ej in *.
  destruct (run_nth eps recipe cfg eps_nonneg Hcfg Hknown es t0 s0 os _ o' I0 C0 R0 N') as (e' & Ne' & Se & I & C).
  pose proof (shipped_held _ _ _ _ I C Se (c, m) Hs) as W. simpl in W.
  destruct (gen_step _ _ _ _ I C Se) as (s3 & ev1 & ev2 & ev3 & ev4 & E1 & I1 & I3 & I4 & M & X & _).
  unfold waiting in W. apply filter_In in W as [_ W]. unfold leaves_on in W. rewrite X, Em in W.
  exists (idx_get (m_id (snd d)) (idx (st j))).
  destruct (nth_error (outcommods cfg) (idx_get (m_id (snd d)) (idx (st j)))) as [c'|]; [|discriminate].
  apply String.eqb_eq in W. subst c'. split; auto.
  pose proof (find_commod_spec (fst d) (incommods cfg) 0) as F. rewrite B in F. destruct F as (F1 & F2 & F3).
  rewrite Nat.sub_0_r in *. split; auto.
Qed.
End Origin.

Lemma bids_held t s e o : inv s -> step_contract eps recipe cfg t s e -> step t s e = Ok o ->
  Forall (fun b => In (bp_commod b) (outcommods cfg) /\
     (bp_cap b == qty_of (waiting cfg (o_ticked o) (bp_commod b)))%Q /\
     Forall (fun jm => In (snd jm) (waiting cfg (o_ticked o) (bp_commod b))) (bp_bids b)) (o_bids o).
Proof.
  intros I HC H.
  destruct (step_split _ _ _ _ _ _ _ H) as (ev1 & ev2 & s2 & s3 & ev3 & ev4 & E1 & E2 & E3 & _).
  destruct (tick_ok eps recipe cfg eps_nonneg Hcfg Hknown t s I) as (s1 & ev1' & E1' & I1 & _). rewrite E1 in E1'. inversion E1'; subst.
  destruct (get_bids_spec eps recipe cfg eps_nonneg Hcfg (o_ticked o) (e_reqs e) I1) as (bs & E & F). rewrite E3 in E. inversion E; subst.
  eapply Forall_impl; [|exact F]. intros b (A & B & C). rewrite waiting_on by auto. auto.
Qed.

(** ** Orders *)

Lemma order_size_bounds t s : inv s -> order_size cfg t s <= free_positions cfg s /\
  (retired cfg t = true -> order_size cfg t s = 0) /\
  (exit_t cfg = -1 -> order_size cfg t s = free_positions cfg s) /\
  (free_positions cfg s = 0 -> order_size cfg t s = 0).
Proof.
  intro I. destruct (ok_limits _ _ _ I) as (L1 & L2 & L3).
  unfold order_size, free_positions, rb_count in *.
  destruct (retired cfg t) eqn:Hr.
  - split; [lia|]. split; auto. split; auto. intro E. unfold retired in Hr. rewrite E in Hr. discriminate.
  - destruct (exit_t cfg =? -1) eqn:Ee.
    + split; [lia|]. split; [discriminate|]. split; lia.
    + apply Z.eqb_neq in Ee. split; [lia|]. split; [discriminate|]. split; [congruence|]. lia.
Qed.

Lemma orders t s e o : inv s -> step t s e = Ok o ->
  exists p, o_reqs o = repeat p (Z.to_nat (order_size cfg t (o_ticked o))) /\ 0 <= order_size cfg t (o_ticked o) /\
    inv (o_ticked o) /\
    List.length p = List.length (incommods cfg) /\
    (forall j r, nth_error p j = Some r ->
       exists rn, nth_error (incommods cfg) j = Some (r_commod r) /\ nth_error (prefs (o_ticked o)) j = Some (r_pref r) /\
         nth_error (inrecipes (o_ticked o)) j = Some rn /\ recipe rn = Some (r_comp r) /\ r_qty r = assem cfg).
Proof.
  intros I H.
  destruct (step_split _ _ _ _ _ _ _ H) as (ev1 & ev2 & s2 & s3 & ev3 & ev4 & E1 & E2 & E3 & _).
  destruct (tick_ok eps recipe cfg eps_nonneg Hcfg Hknown t s I) as (s1 & ev1' & E1' & I1 & _). rewrite E1 in E1'. inversion E1'; subst.
  destruct (get_requests_spec recipe cfg Hcfg t _ I1) as (p & mc & Ep & _ & Er & Hn). rewrite E2 in Er. inversion Er; subst.
  destruct (portfolio_spec recipe cfg _ I1) as (p' & Ep' & L & F). rewrite Ep in Ep'. inversion Ep'; subst.
  exists p'. auto.
Qed.

(** The least number of further cycles, as the code computes it. *)
Lemma refuellings_left_ceil t s n : 0 < cycle_t cfg + refuel_t cfg -> refuellings_left cfg t s n ->
  n = Z.max 0 (- ((- (exit_t cfg - t + 1 - (cycle_t cfg + refuel_t cfg - cyc s))) / (cycle_t cfg + refuel_t cfg))).
Proof.
  intros Hp (A & B & C). set (d := cycle_t cfg + refuel_t cfg) in *.
  set (x := exit_t cfg - t + 1 - (d - cyc s)) in *.
  pose proof (Z.div_mod (- x) d ltac:(lia)) as DM. pose proof (Z.mod_pos_bound (- x) d Hp) as MB.
  set (q := (- x) / d) in *. set (r := (- x) mod d) in *.
  assert (n <= Z.max 0 (- q)).
  { apply C; [lia|]. unfold x in *. destruct (Z.max_spec 0 (- q)) as [[E ->]|[E ->]]; nia. }
  assert (- q <= n) by (unfold x in *; nia). lia.
Qed.

Lemma order_need t s n : inv s -> 0 <= cyc s -> 0 < cycle_t cfg + refuel_t cfg -> exit_t cfg <> -1 -> retired cfg t = false ->
  refuellings_left cfg t s n ->
  let free_core := n_core cfg - zlen (rb_items (core s)) in
  let free_fresh := n_fresh cfg - zlen (rb_items (fresh s)) in
  Z.min (n * n_batch cfg + free_core - zlen (rb_items (fresh s))) (free_positions cfg s) - free_fresh <= order_size cfg t s.
Proof.
  intros I Hcy Hp He Hr HN. pose proof (refuellings_left_ceil t s n Hp HN) as En.
  destruct (ok_limits _ _ _ I) as (L1 & L2 & L3).
  unfold order_size, free_positions, rb_count. rewrite Hr. replace (exit_t cfg =? -1) with false by (symmetry; apply Z.eqb_neq; auto).
  set (c := - ((- (exit_t cfg - t + 1 - (cycle_t cfg + refuel_t cfg - cyc s))) / (cycle_t cfg + refuel_t cfg))) in *.
  pose proof (cc_batch _ Hcfg). pose proof (cc_fresh _ Hcfg).
  assert (0 <= c) as Hc.
  { unfold retired in Hr. replace (exit_t cfg =? -1) with false in Hr by (symmetry; apply Z.eqb_neq; auto). simpl in Hr.
    apply Z.ltb_ge in Hr. unfold c. assert ((- (exit_t cfg - t + 1 - (cycle_t cfg + refuel_t cfg - cyc s))) / (cycle_t cfg + refuel_t cfg) < 1); [|lia].
    apply Z.div_lt_upper_bound; lia. }
  rewrite Z.max_r in En by auto. rewrite En. lia.
Qed.

(** ** Changes *)
Lemma nth_error_vec_set {A} (l : list A) j v l' : vec_set l j v = Ok l' ->
  nth_error l' j = Some v /\ forall k, k <> j -> nth_error l' k = nth_error l k.
Proof.
  revert j l'. induction l as [|x l IH]; intros [|j] l' H; simpl in H; try discriminate.
  - inversion H; subst. split; auto. intros [|k] Hk; [congruence|]. auto.
  - apply bind_ok in H as (l2 & E & H). inversion H; subst. destruct (IH _ _ E) as [A1 A2]. split; auto.
    intros [|k] Hk; auto. simpl. apply A2. congruence.
Qed.

Lemma first_position_unique j j' c : first_position cfg j c -> first_position cfg j' c -> j = j'.
Proof.
  intros [A B] [A' B']. destruct (Nat.lt_trichotomy j j') as [L|[L|L]]; auto; exfalso.
  - apply (B' j L A).
  - apply (B j' L A').
Qed.

Lemma find_commod_first c j : find_commod c (incommods cfg) 0 = Some j -> first_position cfg j c.
Proof.
  intro H. pose proof (find_commod_spec c (incommods cfg) 0) as F. rewrite H in F. destruct F as (F1 & F2 & F3).
  rewrite Nat.sub_0_r in *. split; auto.
Qed.

Lemma find_commod_none c j : find_commod c (incommods cfg) 0 = None -> ~ first_position cfg j c.
Proof.
  intros H [F _]. pose proof (find_commod_spec c (incommods cfg) 0) as G. rewrite H in G. apply G. eapply nth_error_In; eauto.
Qed.

Lemma combine_snoc {A B} (a : list A) (b : list B) x y : List.length a = List.length b ->
  combine (a ++ [x]) (b ++ [y]) = combine a b ++ [(x, y)].
Proof. revert b; induction a as [|z a IH]; intros [|w b] L; simpl in *; try lia; auto. rewrite IH by lia. auto. Qed.

Lemma scheduled_snoc {A} times commods (vals : list A) t c n ti cn v :
  nth_error times n = Some ti -> nth_error commods n = Some cn -> nth_error vals n = Some v ->
  scheduled (firstn (S n) times) (firstn (S n) commods) (firstn (S n) vals) t c =
  scheduled (firstn n times) (firstn n commods) (firstn n vals) t c ++ (if ((ti =? t) && String.eqb cn c)%bool then [v] else []).
Proof.
  intros H1 H2 H3.
  assert (forall X (l : list X) x, nth_error l n = Some x -> List.length (firstn n l) = n) as HL.
  { intros X l x H. rewrite firstn_length. assert (n < List.length l)%nat by (apply nth_error_Some; congruence). lia. }
  unfold scheduled. rewrite (firstn_snoc _ _ _ H1), (firstn_snoc _ _ _ H2), (firstn_snoc _ _ _ H3).
  rewrite !combine_snoc.
  - rewrite filter_app, map_app. simpl. destruct ((ti =? t) && String.eqb cn c)%bool; auto.
  - rewrite combine_length, (HL _ _ _ H1), (HL _ _ _ H2), (HL _ _ _ H3). lia.
  - rewrite (HL _ _ _ H1), (HL _ _ _ H2). auto.
Qed.

Lemma last_snoc_if {A} (l : list A) (b : bool) v d : last (l ++ (if b then [v] else [])) d = if b then v else last l d.
Proof. destruct b; [apply last_last|rewrite app_nil_r; auto]. Qed.

Lemma vec_at_nth_error {A} (l : list A) i x : vec_at l i = Ok x -> nth_error l i = Some x.
Proof. unfold vec_at. destruct (nth_error l i); intro H; inversion H; auto. Qed.

Lemma nth_some_lt {A} (l : list A) i : (i < List.length l)%nat -> exists x, nth_error l i = Some x.
Proof. intro L. destruct (nth_error l i) eqn:E; eauto. apply nth_error_None in E. lia. Qed.

Lemma vat {A} (l : list A) i x : nth_error l i = Some x -> vec_at l i = Ok x.
Proof. intro H. unfold vec_at. rewrite H. auto. Qed.

Lemma table_step {A} times commods (vals : list A) t n ti cn v old mid new :
  nth_error times n = Some ti -> nth_error commods n = Some cn -> nth_error vals n = Some v ->
  table_follows cfg (firstn n times) (firstn n commods) (firstn n vals) t old mid ->
  (if t =? ti then match find_commod cn (incommods cfg) 0 with
                   | Some j => vec_set mid j v = Ok new
                   | None => new = mid end else new = mid) ->
  table_follows cfg (firstn (S n) times) (firstn (S n) commods) (firstn (S n) vals) t old new.
Proof.
  intros H1 H2 H3 [F1 F2] H. split.
  - intros j c p Hj Hp. rewrite (scheduled_snoc _ _ _ _ _ _ _ _ _ H1 H2 H3), last_snoc_if.
    specialize (F1 j c p Hj Hp). rewrite (Z.eqb_sym ti t). destruct (t =? ti); [|subst; auto].
    cbn [andb]. destruct (String.eqb cn c) eqn:Ec.
    + apply String.eqb_eq in Ec. subst cn. destruct (find_commod c (incommods cfg) 0) as [j0|] eqn:Ef.
      * apply find_commod_first in Ef. pose proof (first_position_unique _ _ _ Hj Ef). subst j0.
        apply nth_error_vec_set in H as [H _]. auto.
      * exfalso. apply (find_commod_none _ j Ef Hj).
    + apply String.eqb_neq in Ec. destruct (find_commod cn (incommods cfg) 0) as [j0|] eqn:Ef; [|subst; auto].
      apply find_commod_first in Ef. apply nth_error_vec_set in H as [_ H]. rewrite H; auto.
      intros ->. destruct Hj as [Hj _]. destruct Ef as [Ef _]. congruence.
  - intros j Hj. rewrite <- (F2 j Hj). destruct (t =? ti); [|subst; auto].
    destruct (find_commod cn (incommods cfg) 0) as [j0|] eqn:Ef; [|subst; auto].
    apply find_commod_first in Ef. apply nth_error_vec_set in H as [_ H]. apply H. intros ->. apply (Hj cn Ef).
Qed.

Lemma table_start {A} times commods (vals : list A) t old :
  table_follows cfg (firstn 0 times) (firstn 0 commods) (firstn 0 vals) t old old.
Proof. split; auto. Qed.

Lemma pref_loop t n : forall s s', (n <= List.length (pc_times cfg))%nat -> loop (pref_change cfg t) (seq 0 n) s = Ok s' ->
  table_follows cfg (firstn n (pc_times cfg)) (firstn n (pc_commods cfg)) (firstn n (pc_vals cfg)) t (prefs s) (prefs s') /\
  inrecipes s' = inrecipes s /\ outrecipes s' = outrecipes s.
Proof.
  induction n as [|n IH]; intros s s' L H.
  - simpl in H. inversion H; subst. split; auto. apply table_start.
  - rewrite seq_S, loop_app in H. apply bind_ok in H as (sm & E & H). simpl in H.
    apply bind_ok in H as (s2 & E2 & H). inversion H; subst s2; clear H.
    destruct (IH s sm ltac:(lia) E) as (F & R1 & R2).
    pose proof (cc_pc1 _ Hcfg) as L1. pose proof (cc_pc2 _ Hcfg) as L2.
    destruct (nth_some_lt (pc_times cfg) n ltac:(lia)) as (ti & Ht).
    destruct (nth_some_lt (pc_commods cfg) n ltac:(lia)) as (cn & Hc).
    destruct (nth_some_lt (pc_vals cfg) n ltac:(lia)) as (v & Hv).
    unfold pref_change in E2. rewrite (vat _ _ _ Ht) in E2. cbn [bind] in E2.
    assert (inrecipes s' = inrecipes sm /\ outrecipes s' = outrecipes sm /\
      if t =? ti then match find_commod cn (incommods cfg) 0 with
                   | Some j => vec_set (prefs sm) j v = Ok (prefs s')
                   | None => prefs s' = prefs sm end else prefs s' = prefs sm) as (G1 & G2 & G3).
    { destruct (t =? ti); cbn [negb] in E2; [|inversion E2; auto].
      rewrite (vat _ _ _ Hc) in E2. cbn [bind] in E2.
      destruct (find_commod cn (incommods cfg) 0); [|inversion E2; auto].
      rewrite (vat _ _ _ Hv) in E2. cbn [bind] in E2. apply bind_ok in E2 as (p & Ep & E2). inversion E2; subst. auto. }
    split; [|split; congruence]. eapply table_step; eauto.
Qed.

Lemma recipe_loop t n : forall s s', (n <= List.length (rc_times cfg))%nat -> loop (recipe_change cfg t) (seq 0 n) s = Ok s' ->
  table_follows cfg (firstn n (rc_times cfg)) (firstn n (rc_commods cfg)) (firstn n (rc_in cfg)) t (inrecipes s) (inrecipes s') /\
  table_follows cfg (firstn n (rc_times cfg)) (firstn n (rc_commods cfg)) (firstn n (rc_out cfg)) t (outrecipes s) (outrecipes s') /\
  prefs s' = prefs s.
Proof.
  induction n as [|n IH]; intros s s' L H.
  - simpl in H. inversion H; subst. split; [|split; auto]; apply table_start.
  - rewrite seq_S, loop_app in H. apply bind_ok in H as (sm & E & H). simpl in H.
    apply bind_ok in H as (s2 & E2 & H). inversion H; subst s2; clear H.
    destruct (IH s sm ltac:(lia) E) as (F & F' & R1).
    pose proof (cc_rc1 _ Hcfg) as L1. pose proof (cc_rc2 _ Hcfg) as L2. pose proof (cc_rc3 _ Hcfg) as L3.
    destruct (nth_some_lt (rc_times cfg) n ltac:(lia)) as (ti & Ht).
    destruct (nth_some_lt (rc_commods cfg) n ltac:(lia)) as (cn & Hc).
    destruct (nth_some_lt (rc_in cfg) n ltac:(lia)) as (vi & Hvi).
    destruct (nth_some_lt (rc_out cfg) n ltac:(lia)) as (vo & Hvo).
    unfold recipe_change in E2. rewrite (vat _ _ _ Ht) in E2. cbn [bind] in E2.
    assert (prefs s' = prefs sm /\
      (if t =? ti then match find_commod cn (incommods cfg) 0 with
                   | Some j => vec_set (inrecipes sm) j vi = Ok (inrecipes s')
                   | None => inrecipes s' = inrecipes sm end else inrecipes s' = inrecipes sm) /\
      (if t =? ti then match find_commod cn (incommods cfg) 0 with
                   | Some j => vec_set (outrecipes sm) j vo = Ok (outrecipes s')
                   | None => outrecipes s' = outrecipes sm end else outrecipes s' = outrecipes sm)) as (G1 & G2 & G3).
    { destruct (t =? ti); cbn [negb] in E2; [|inversion E2; auto].
      rewrite (vat _ _ _ Hc) in E2. cbn [bind] in E2.
      destruct (find_commod cn (incommods cfg) 0); [|inversion E2; auto].
      rewrite (vat _ _ _ Hvi) in E2. cbn [bind] in E2. apply bind_ok in E2 as (p & Ep & E2).
      rewrite (vat _ _ _ Hvo) in E2. cbn [bind] in E2. apply bind_ok in E2 as (p' & Ep' & E2). inversion E2; subst. auto. }
    split; [|split; [|congruence]]; eapply table_step; eauto.
Qed.

Lemma step_tables t s e o : inv s -> step t s e = Ok o -> retired cfg t = false ->
  table_follows cfg (pc_times cfg) (pc_commods cfg) (pc_vals cfg) t (prefs s) (prefs (o_ticked o)) /\
  table_follows cfg (rc_times cfg) (rc_commods cfg) (rc_in cfg) t (inrecipes s) (inrecipes (o_ticked o)) /\
  table_follows cfg (rc_times cfg) (rc_commods cfg) (rc_out cfg) t (outrecipes s) (outrecipes (o_ticked o)).
Proof.
  intros I H Hr. destruct (step_split _ _ _ _ _ _ _ H) as (ev1 & ev2 & s2 & s3 & ev3 & ev4 & E1 & _).
  destruct (tick_spec_full eps recipe cfg eps_nonneg Hcfg Hknown t s I Hr) as (s' & ev & E & _ & _ & (sa & Ea & Ia & A1 & A2 & A3)).
  rewrite E1 in E. injection E as -> _. unfold apply_changes in Ea. apply bind_ok in Ea as (sb & Eb & Ec).
  apply pref_loop in Eb as (F & R1 & R2); [|lia]. apply recipe_loop in Ec as (G1 & G2 & R3); [|lia].
  pose proof (cc_pc1 _ Hcfg) as L1. pose proof (cc_pc2 _ Hcfg) as L2.
  pose proof (cc_rc1 _ Hcfg) as L3. pose proof (cc_rc2 _ Hcfg) as L4. pose proof (cc_rc3 _ Hcfg) as L5.
  rewrite firstn_all in F, G1, G2.
  rewrite !firstn_all2 in F by lia. rewrite !firstn_all2 in G1 by lia. rewrite !firstn_all2 in G2 by lia.
  rewrite R1 in G1. rewrite R2 in G2. rewrite <- R3 in F. rewrite A1 in G1. rewrite A2 in G2. rewrite A3 in F. auto.
Qed.

Lemma step_tables_after t s e o : inv s -> step_contract eps recipe cfg t s e -> step t s e = Ok o ->
  prefs (o_state o) = prefs (o_ticked o) /\ inrecipes (o_state o) = inrecipes (o_ticked o) /\ outrecipes (o_state o) = outrecipes (o_ticked o).
Proof.
  intros I HC H.
  destruct (gen_step t s e o I HC H) as (s3 & ev1 & ev2 & ev3 & ev4 & _ & _ & _ & _ & _ & _ & _ & _ & _ & _ & _ & (c & d & E7) & _ & _ & _ & _ & _ & _ & _ & _ & T1 & T2 & T3).
  rewrite E7. simpl. auto.
Qed.

(** ** Retirement *)
Lemma quiet_power o : Forall quiet (o_events o) -> power_record o = [] /\ side_record o = [] /\ ~ has EvCycleStart o /\ ~ has EvCycleEnd o.
Proof.
  intro F. unfold power_record, side_record, has. split; [|split; [|split]].
  - induction (o_events o) as [|x l IH]; simpl; auto. inversion F; subst. destruct x; simpl in *; try tauto; auto.
  - induction (o_events o) as [|x l IH]; simpl; auto. inversion F; subst. destruct x; simpl in *; try tauto; auto.
  - intro Hin. rewrite Forall_forall in F. apply (F _ Hin).
  - intro Hin. rewrite Forall_forall in F. apply (F _ Hin).
Qed.

Lemma retired_step t s e o : inv s -> step_contract eps recipe cfg t s e -> step t s e = Ok o -> retired cfg t = true ->
  o_reqs o = [] /\ e_deliv e = [] /\ Forall quiet (o_events o) /\
  (exists n m, 0 <= n <= zlen (rcore1 t s) /\ 0 <= m <= rb_count (fresh s) /\
    rb_items (core (o_ticked o)) = skipn (Z.to_nat n) (rcore1 t s) /\
    rb_items (fresh (o_ticked o)) = skipn (Z.to_nat m) (rb_items (fresh s)) /\
    rb_items (spent (o_ticked o)) = rb_items (spent s) ++ firstn (Z.to_nat n) (rcore1 t s) ++ firstn (Z.to_nat m) (rb_items (fresh s)) /\
    ((exists q, n = q * n_batch cfg) \/ n = zlen (rb_items (core s))) /\
    (rb_count (core (o_ticked o)) = 0 \/ n_spent cfg - (rb_count (spent s) + n) < Z.min (n_batch cfg) (rb_count (core (o_ticked o)))) /\
    (rb_count (fresh (o_ticked o)) = 0 \/ rb_count (spent (o_ticked o)) = n_spent cfg)) /\
  rb_items (core (o_state o)) = rb_items (core (o_ticked o)) /\
  rb_items (fresh (o_state o)) = rb_items (fresh (o_ticked o)) /\
  (has EvSchedDecom o <-> rb_items (core (o_ticked o)) = [] /\ rb_items (spent (o_ticked o)) = []).
Proof.
  intros I HC H Hr.
  destruct (gen_step t s e o I HC H) as (s3 & ev1 & ev2 & ev3 & ev4 & E1 & I1 & I3 & I4 & M & X & E2 & E6 & EV & V3 & D3 & (c & d & E7) & Ld & (Hc3 & Hf3) & Hfst & P & Q & K & Nw & PT & T1 & T2 & T3).
  destruct (tick_retired_spec t s I Hr) as (s' & ev & n & m & E & _ & _ & Hn & Hm & A1 & A2 & A3 & AQ & A4 & A5 & A6 & A7).
  rewrite E1 in E. inversion E; subst s' ev; clear E.
  destruct (get_requests_spec recipe cfg Hcfg t _ I1) as (p & mc & Ep & _ & Er & Hnn).
  destruct (order_size_bounds t _ I1) as (_ & O2 & _). rewrite (O2 Hr) in Er. simpl in Er. rewrite E2 in Er.
  inversion Er as [[Q1 Q2]]. rewrite Q1 in Ld. unfold zlen in Ld. simpl in Ld.
  assert (e_deliv e = []) as Ed by (destruct (e_deliv e); auto; simpl in Ld; lia).
  rewrite (D3 Ed) in *. subst ev2. rewrite (tock_retired cfg t s3 Hr) in E6. inversion E6; subst ev4.
  rewrite !app_nil_r in EV. unfold has. rewrite EV.
  rewrite Ed in Hc3, Hf3. simpl in Hc3, Hf3. rewrite firstn_nil, app_nil_r in Hc3. rewrite skipn_nil, app_nil_r in Hf3.
  rewrite H1 in Hc3, Hf3.
  repeat (split; [solve [auto]|]). split; [|auto]. exists n, m. repeat (split; [solve [auto]|]). auto.
Qed.

Lemma retired_later t t' : t <= t' -> retired cfg t = true -> retired cfg t' = true.
Proof.
  unfold retired. intros L H. apply andb_prop in H as [A B]. rewrite A. simpl. apply Z.ltb_lt in B. apply Z.ltb_lt. lia.
Qed.

Lemma zlen_skipn {A} n (l : list A) : 0 <= n <= zlen l -> zlen (skipn (Z.to_nat n) l) = zlen l - n.
Proof. unfold zlen. rewrite skipn_length. lia. Qed.

Lemma drains es : forall t s os, inv s -> contract t s es -> run t s es = Ok os ->
  retired cfg t = true -> n_batch cfg <= n_spent cfg -> rb_items (spent s) = [] ->
  Forall (fun o => rb_items (spent (o_state o)) = []) os ->
  zlen (rb_items (core s)) + zlen (rb_items (fresh s)) < zlen es ->
  Exists (has EvSchedDecom) os.
Proof.
  induction es as [|e es IH]; intros t s os I HC H Hr Hb Hs F L.
  - exfalso. pose proof (zlen_nonneg (rb_items (core s))). pose proof (zlen_nonneg (rb_items (fresh s))).
    unfold zlen at 3 in L. simpl in L. lia.
  - destruct HC as [H1 H2]. simpl in H.
    destruct (step_ok eps recipe cfg eps_nonneg Hcfg Hknown t s e I H1) as (o & E & I1 & I2 & _).
    rewrite E in H. cbn [bind] in H. apply bind_ok in H as (os' & E' & H). inversion H; subst os; clear H.
    inversion F as [|? ? Fo Fr]; subst.
    destruct (retired_step t s e o I H1 E Hr) as (_ & _ & _ & (n & m & Hn & Hm & A1 & A2 & A3 & _ & A4 & A5) & B1 & B2 & D).
    rewrite rcore1_len in Hn. pose proof (cc_batch _ Hcfg) as Hb1.
    pose proof (zlen_skipn n (rcore1 t s) ltac:(rewrite rcore1_len; lia)) as L1. rewrite <- A1, rcore1_len in L1.
    unfold rb_count in *.
    pose proof (zlen_skipn m (rb_items (fresh s)) Hm) as L2. rewrite <- A2 in L2.
    rewrite Hs in A3, A4. simpl in A3. change (zlen (@nil mat)) with 0 in A4.
    assert (zlen (rb_items (spent (o_ticked o))) = n + m) as L3.
    { rewrite A3, zlen_app. unfold zlen in *. rewrite !firstn_length.
      assert (List.length (rcore1 t s) = List.length (rb_items (core s))) by (pose proof (rcore1_len t s); unfold zlen in *; lia). lia. }
    destruct (Z.eq_dec (n + m) 0) as [Z0|Z0].
    + left. apply D. assert (n = 0) by lia. assert (m = 0) by lia. subst n m. split.
      * destruct A4 as [A4|A4]; [|lia]. unfold zlen in A4. destruct (rb_items (core (o_ticked o))); auto. simpl in A4. lia.
      * unfold zlen in L3. destruct (rb_items (spent (o_ticked o))); auto; simpl in L3; lia.
    + right. apply (IH (t + 1) (o_state o) os' I2 (H2 o E) E'); auto.
      * apply (retired_later t); auto; lia.
      * rewrite B1, B2. unfold zlen in *. simpl in L. lia.
Qed.
End Retire.
