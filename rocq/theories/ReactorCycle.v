(** Reactor: cycle, power, discharge and retirement behaviour along histories. *)
From Coq Require Import Lia Lqa Permutation.
From Verif Require Import Outcome KernelMaterial KernelResBuf KernelFacts ReactorModel ReactorSpec ReactorProofs ReactorTradeProofs ReactorHistory.
Local Open Scope Z_scope.

Definition is_start (e : event) : bool := match e with EvCycleStart => true | _ => false end.
Definition is_end (e : event) : bool := match e with EvCycleEnd => true | _ => false end.
Definition is_power (e : event) : bool := match e with EvPower _ => true | _ => false end.
Definition is_side (e : event) : bool := match e with EvSide _ _ => true | _ => false end.
Definition is_supply (e : event) : bool := match e with EvSupply _ _ => true | _ => false end.
Definition is_disch (e : event) : bool := match e with EvDischarge _ => true | _ => false end.
Definition is_dfail (e : event) : bool := match e with EvDischargeFailed => true | _ => false end.

Section Cycle.
Variable eps : Q.
Variable recipe : string -> option comp.
Variable cfg : rx_cfg.
Hypothesis eps_nonneg : (0 <= eps)%Q.
Hypothesis Hcfg : config_consistent cfg.
Hypothesis Hknown : recipes_known recipe cfg.
Notation inv := (reactor_ok recipe cfg).

(** Size of the next batch. *)
Definition kbatch (s : rx_state) : Z := Z.min (n_batch cfg) (rb_count (core s)).
(** Core contents after the end-of-cycle transmutation, if it happens. *)
Definition core1 (s : rx_state) : list mat :=
  if cyc s =? cycle_t cfg
  then map (burn recipe s) (firstn (Z.to_nat (kbatch s)) (rb_items (core s))) ++ skipn (Z.to_nat (kbatch s)) (rb_items (core s))
  else rb_items (core s).
Definition attempt (s : rx_state) : bool := ((cycle_t cfg <=? cyc s) && negb (disch s))%bool.
Definition success (s : rx_state) : bool := (attempt s && (kbatch s <=? n_spent cfg - rb_count (spent s)))%bool.
Definition moved (s : rx_state) : list mat := if success s then firstn (Z.to_nat (kbatch s)) (core1 s) else [].
Definition core2 (s : rx_state) : list mat := if success s then skipn (Z.to_nat (kbatch s)) (core1 s) else core1 s.
Definition nloaded (s : rx_state) : Z :=
  if cycle_t cfg <=? cyc s then Z.min (n_core cfg - zlen (core2 s)) (rb_count (fresh s)) else 0.

Lemma core1_len s : zlen (core1 s) = rb_count (core s).
Proof.
  unfold core1. destruct (cyc s =? cycle_t cfg); auto.
  unfold rb_count, zlen. rewrite app_length, map_length, <- app_length, firstn_skipn. auto.
Qed.
Lemma kbatch_range s : 0 <= kbatch s <= rb_count (core s).
Proof. unfold kbatch. pose proof (cc_batch _ Hcfg). pose proof (zlen_nonneg (rb_items (core s))). unfold rb_count in *. lia. Qed.

Record tick_rel (s s' : rx_state) (ev : list event) : Prop := {
  tr_core : rb_items (core s') = core2 s ++ firstn (Z.to_nat (nloaded s)) (rb_items (fresh s));
  tr_fresh : rb_items (fresh s') = skipn (Z.to_nat (nloaded s)) (rb_items (fresh s));
  tr_spent : rb_items (spent s') = rb_items (spent s) ++ moved s;
  tr_cyc : cyc s' = cyc s;
  tr_disch : disch s' = (disch s || success s)%bool;
  tr_idx : idx s' = idx s;
  tr_hybrid : hybrid s' = hybrid s;
  tr_ev : exists sup,
     ev = (if cyc s =? cycle_t cfg then [EvTransmute (kbatch s); EvCycleEnd] else []) ++
          (if attempt s then (if success s then EvDischarge (kbatch s) :: sup else [EvDischargeFailed]) else []) ++
          (if nloaded s =? 0 then [] else [EvLoad (nloaded s)]) /\
     Forall (fun e => exists c q, e = EvSupply c q) sup;
  tr_sup : filter is_supply ev = if success s then supply_events cfg s' else []
}.

Lemma supply_shape s : Forall (fun e => exists c q, e = EvSupply c q) (supply_events cfg s).
Proof. unfold supply_events. rewrite Forall_map. apply Forall_forall. eauto. Qed.

Lemma tick_spec_full t s : inv s -> retired cfg t = false ->
  exists s' ev, tick eps recipe cfg t s = Ok (s', ev) /\ inv s' /\ tick_rel s s' ev /\
    exists sa, apply_changes cfg t sa = Ok s' /\ inv sa /\ inrecipes sa = inrecipes s /\ outrecipes sa = outrecipes s /\ prefs sa = prefs s.
Proof.
  intros I Hr. unfold tick. rewrite Hr.
  pose proof (cc_batch _ Hcfg) as Hb. pose proof (kbatch_range s) as Hk.
  set (s1 := upd_core s {| rb_cap := rb_cap (core s); rb_items := core1 s |}).
  assert (exists e1, (if cyc s =? cycle_t cfg then
             let* '(s', e) := transmute_core eps recipe (n_batch cfg) s in Ok (s', e ++ [EvCycleEnd])
           else Ok (s, [])) = Ok (s1, e1) /\ inv s1 /\ e1 = if cyc s =? cycle_t cfg then [EvTransmute (kbatch s); EvCycleEnd] else []) as (e1 & E1 & I1 & V1).
  { unfold s1, core1. destruct (cyc s =? cycle_t cfg) eqn:E.
    - rewrite (transmute_core_spec eps recipe cfg eps_nonneg Hcfg) by (auto; lia). cbn [bind]. eexists. split; [reflexivity|].
      split; [|reflexivity]. apply (inv_transmute recipe cfg s); auto.
    - eexists. split; [|split; [|reflexivity]].
      + repeat f_equal. destruct s as [? [? ?] ? ? ? ? ? ? ? ?]. reflexivity.
      + assert (upd_core s {| rb_cap := rb_cap (core s); rb_items := rb_items (core s) |} = s) as -> by
          (destruct s as [? [? ?] ? ? ? ? ? ? ? ?]; reflexivity). auto. }
  rewrite E1. cbn [bind].
  assert (rb_count (core s1) = rb_count (core s)) as Ec by (unfold s1, rb_count; simpl; apply core1_len).
  set (s2 := upd_cyc (upd_spent (upd_core s {| rb_cap := rb_cap (core s); rb_items := core2 s |})
                {| rb_cap := rb_cap (spent s); rb_items := rb_items (spent s) ++ moved s |})
                (cyc s) (disch s || success s)).
  assert (exists e2 sup, (if ((cycle_t cfg <=? cyc s1) && negb (disch s1))%bool then
             let* '(s', e, ok) := discharge eps cfg s1 in Ok (upd_cyc s' (cyc s') ok, e)
           else Ok (s1, [])) = Ok (s2, e2) /\ inv s2 /\
           e2 = (if attempt s then (if success s then EvDischarge (kbatch s) :: sup else [EvDischargeFailed]) else []) /\
           Forall (fun e => exists c q, e = EvSupply c q) sup /\
           (success s = true -> sup = supply_events cfg s2)) as (e2 & sup & E2 & I2 & V2 & Vs & Vx).
  { unfold s2, success, attempt, moved, core2, success, attempt.
    change (cyc s1) with (cyc s). change (disch s1) with (disch s).
    assert (forall X, upd_cyc (upd_spent (upd_core s X) {| rb_cap := rb_cap (spent s); rb_items := rb_items (spent s) ++ [] |})
                (cyc s) (disch s) = upd_core s X) as G.
    { intro X. rewrite app_nil_r. destruct s as [? ? [? ?] ? ? ? ? ? ? ?]; reflexivity. }
    destruct (cycle_t cfg <=? cyc s) eqn:El; cbn [andb].
    2: { eexists _, []. rewrite orb_false_r, G. split; [reflexivity|].
         split; [exact I1|split; [reflexivity|split; [constructor|discriminate]]]. }
    destruct (disch s) eqn:Ed; cbn [negb].
    { eexists _, []. cbn [andb orb]. rewrite G. split; [reflexivity|].
      split; [exact I1|split; [reflexivity|split; [constructor|discriminate]]]. }
    cbn [andb orb]. rewrite (discharge_spec eps recipe cfg eps_nonneg Hcfg s1 I1). cbn zeta. rewrite Ec.
    change (spent s1) with (spent s). fold (kbatch s).
    destruct (kbatch s <=? n_spent cfg - rb_count (spent s)) eqn:Ek.
    - apply Z.leb_le in Ek. replace (n_spent cfg - rb_count (spent s) <? kbatch s) with false by (symmetry; apply Z.ltb_ge; lia).
      cbn [bind]. eexists _, (supply_events cfg (discharged_state s1 (kbatch s))). split; [reflexivity|].
      split; [|split; [reflexivity|split; [apply supply_shape|intros _; reflexivity]]].
      apply (inv_cyc recipe cfg (discharged_state s1 (kbatch s))). apply (inv_discharged recipe cfg s1); auto; try lia.
      change (spent s1) with (spent s). lia.
    - apply Z.leb_gt in Ek. replace (n_spent cfg - rb_count (spent s) <? kbatch s) with true by (symmetry; apply Z.ltb_lt; lia).
      cbn [bind]. eexists _, []. rewrite G. split; [|split; [exact I1|split; [reflexivity|split; [constructor|discriminate]]]].
      assert (upd_cyc s1 (cyc s1) false = s1) as -> by (unfold s1, upd_cyc, upd_core; simpl; rewrite Ed; reflexivity).
      reflexivity. }
  rewrite E2. cbn [bind]. change (cyc s2) with (cyc s).
  set (s3 := loaded_state s2 (nloaded s)).
  assert (exists e3, (if cycle_t cfg <=? cyc s then load eps cfg s2 else Ok (s2, [])) = Ok (s3, e3)
      /\ inv s3 /\ e3 = if nloaded s =? 0 then [] else [EvLoad (nloaded s)]) as (e3 & E3 & I3 & V3).
  { unfold s3, nloaded. destruct (cycle_t cfg <=? cyc s).
    - destruct (load_spec eps recipe cfg eps_nonneg Hcfg s2 I2) as (H1 & H2 & H3).
      eexists. split; [exact H1|]. split; [|reflexivity]. apply (inv_loaded recipe cfg s2); auto.
    - rewrite loaded_state_0. eexists; split; [reflexivity|]. auto. }
  rewrite E3. cbn [bind].
  destruct (apply_changes_ok recipe cfg Hcfg Hknown t s3 I3) as (s4 & E4 & I4 & (S1 & S2 & S3 & S4 & S5 & S6 & S7)).
  rewrite E4. cbn [bind]. eexists _, _. split; [reflexivity|]. split; auto.
  split; [|exists s3; repeat (split; [solve [auto]|]); reflexivity].
  constructor.
  - rewrite S2. reflexivity.
  - rewrite S1. reflexivity.
  - rewrite S3. reflexivity.
  - rewrite S4. reflexivity.
  - rewrite S5. reflexivity.
  - rewrite S6. reflexivity.
  - rewrite S7. reflexivity.
  - exists sup. rewrite V1, V2, V3. auto.
  - assert (SE : supply_events cfg s4 = supply_events cfg s2).
    { unfold supply_events. rewrite S3. change (spent s3) with (spent s2). apply map_ext. intro c. do 4 f_equal.
      unfold ocommod. rewrite S6. reflexivity. }
    assert (FI : forall l, Forall (fun e => exists c q, e = EvSupply c q) l -> filter is_supply l = l).
    { induction 1 as [|x l (c & q & ->) _ IH]; cbn; [reflexivity|rewrite IH; reflexivity]. }
    rewrite V1, V2, V3, !filter_app, SE.
    assert (X1 : filter is_supply (if cyc s =? cycle_t cfg then [EvTransmute (kbatch s); EvCycleEnd] else []) = [])
      by (destruct (cyc s =? cycle_t cfg); reflexivity).
    assert (X3 : filter is_supply (if nloaded s =? 0 then [] else [EvLoad (nloaded s)]) = [])
      by (destruct (nloaded s =? 0); reflexivity).
    rewrite X1, X3, app_nil_r. cbn [app]. destruct (success s) eqn:SU.
    + rewrite (Vx eq_refl) in *. unfold success in SU. destruct (attempt s); [|discriminate]. cbn. apply FI. exact Vs.
    + destruct (attempt s); reflexivity.
Qed.

Lemma tick_spec t s : inv s -> retired cfg t = false ->
  exists s' ev, tick eps recipe cfg t s = Ok (s', ev) /\ inv s' /\ tick_rel s s' ev.
Proof.
  intros I Hr. destruct (tick_spec_full t s I Hr) as (s' & ev & A & B & C & _). eauto.
Qed.

(** Tock, fully described. *)
Definition full (s : rx_state) : bool := rb_count (core s) =? n_core cfg.
Definition restart (s : rx_state) : bool := ((cycle_t cfg + refuel_t cfg <=? cyc s) && full s && disch s)%bool.
Definition cyc1 (s : rx_state) : Z := if restart s then 0 else cyc s.
Definition on_power (s : rx_state) : bool := ((0 <=? cyc1 s) && (cyc1 s <? cycle_t cfg) && full s)%bool.

Definition side_events (b : bool) : list event :=
  map (fun pq => EvSide (fst pq) (if b then snd pq else 0%Q)) (combine (side_products cfg) (side_qty cfg)).

Lemma record_side_spec s b : record_side cfg s b = Ok (if hybrid s then side_events b else []).
Proof.
  unfold record_side. destruct (hybrid s); auto. unfold side_events.
  assert (forall P Q' (pre : list string) (preq : list Q) acc,
     List.length pre = List.length preq -> List.length Q' = List.length P ->
     loop (fun acc i => let* v := (if b then vec_at (preq ++ Q') i else Ok 0%Q) in
            let* p := vec_at (pre ++ P) i in Ok (acc ++ [EvSide p v])) (seq (List.length pre) (List.length P)) acc
     = Ok (acc ++ map (fun pq => EvSide (fst pq) (if b then snd pq else 0%Q)) (combine P Q'))) as G.
  { induction P as [|p P IH]; intros Q' pre preq acc L1 L2; destruct Q' as [|q Q']; simpl in *; try lia.
    - rewrite app_nil_r; auto.
    - assert (vec_at (preq ++ q :: Q') (List.length pre) = Ok q) as A.
      { unfold vec_at. rewrite L1, nth_error_app2, Nat.sub_diag by lia. reflexivity. }
      assert (vec_at (pre ++ p :: P) (List.length pre) = Ok p) as B.
      { unfold vec_at. rewrite nth_error_app2, Nat.sub_diag by lia. reflexivity. }
      replace (if b then vec_at (preq ++ q :: Q') (List.length pre) else Ok 0%Q) with (Ok (if b then q else 0%Q)) by (destruct b; auto).
      cbn [bind]. rewrite B. cbn [bind].
      specialize (IH Q' (pre ++ [p]) (preq ++ [q]) (acc ++ [EvSide p (if b then q else 0%Q)])).
      rewrite !app_length in IH. simpl in IH. rewrite Nat.add_1_r in IH.
      rewrite <- !app_assoc in IH. simpl in IH. apply IH; lia. }
  apply (G (side_products cfg) (side_qty cfg) [] []); auto. apply Hcfg.
Qed.

Lemma tock_spec t s : retired cfg t = false ->
  tock cfg t s = Ok (upd_cyc s (if ((0 <? cyc1 s) || full s)%bool then cyc1 s + 1 else cyc1 s)
                              (if restart s then false else disch s),
     (if ((cyc1 s =? 0) && full s)%bool then [EvCycleStart] else []) ++
     EvPower (if on_power s then power_cap cfg else 0%Q) ::
     (if hybrid s then side_events (on_power s) else [])).
Proof.
  intro Hr. unfold tock. rewrite Hr. fold (full s). rewrite record_side_spec.
  unfold on_power, cyc1, restart.
  destruct ((cycle_t cfg + refuel_t cfg <=? cyc s) && full s && disch s)%bool eqn:E; cbn [bind].
  - apply andb_prop in E as [E E2]. apply andb_prop in E as [_ E3]. simpl. rewrite E3. simpl. reflexivity.
  - simpl. destruct ((0 <? cyc s) || full s)%bool; [reflexivity|]. destruct s; reflexivity.
Qed.

Lemma tock_retired t s : retired cfg t = true -> tock cfg t s = Ok (s, []).
Proof. intro H. unfold tock. rewrite H. auto. Qed.

(** Everything about a non-retired step, in terms of the ticked state [s1],
    the state [s3] after deliveries, and the final state. *)
Record step_rel (t : Z) (s : rx_state) (e : rx_env) (o : rx_out) (s3 : rx_state) : Prop := {
  sr_inv1 : inv (o_ticked o);
  sr_inv3 : inv s3;
  sr_inv : inv (o_state o);
  sr_tick : exists ev1, tick_rel s (o_ticked o) ev1 /\
     exists dem lds, o_events o = ev1 ++ dem ++ lds ++
        (if ((cyc1 s3 =? 0) && full s3)%bool then [EvCycleStart] else []) ++
        EvPower (if on_power s3 then power_cap cfg else 0%Q) ::
        (if hybrid s3 then side_events (on_power s3) else []) /\
        Forall (fun ev => exists c q, ev = EvDemand c q) dem /\ Forall (fun ev => exists n, ev = EvLoad n) lds;
  sr_core : rb_items (core s3) = rb_items (core (o_ticked o)) ++
       firstn (Z.to_nat (Z.min (zlen (e_deliv e)) (n_core cfg - rb_count (core (o_ticked o))))) (map snd (e_deliv e));
  sr_fresh : rb_items (fresh s3) = rb_items (fresh (o_ticked o)) ++
       skipn (Z.to_nat (Z.min (zlen (e_deliv e)) (n_core cfg - rb_count (core (o_ticked o))))) (map snd (e_deliv e));
  sr_cyc : cyc s3 = cyc (o_ticked o);
  sr_disch : disch s3 = disch (o_ticked o);
  sr_hybrid : hybrid s3 = hybrid (o_ticked o);
  sr_shipped : map fst (o_shipped o) = e_pick e;
  sr_spent : forall c, on (ocommod cfg (o_ticked o)) c (rb_items (spent (o_ticked o))) =
               resp_on c (o_shipped o) ++ on (ocommod cfg (o_ticked o)) c (rb_items (spent s3));
  sr_spent_perm : Permutation (rb_items (spent (o_ticked o))) (map snd (o_shipped o) ++ rb_items (spent s3));
  sr_idx : forall m, In m (assemblies (o_ticked o)) -> ~ In (m_id m) (map (fun r => m_id (snd r)) (o_shipped o)) ->
               idx_get (m_id m) (idx s3) = idx_get (m_id m) (idx (o_ticked o));
  sr_newidx : forall d, In d (e_deliv e) -> exists i, idx_get (m_id (snd d)) (idx s3) = i /\
          find_commod (fst d) (incommods cfg) 0 = Some i;
  sr_tables : inrecipes s3 = inrecipes (o_ticked o) /\ outrecipes s3 = outrecipes (o_ticked o) /\ prefs s3 = prefs (o_ticked o);
  sr_final : o_state o = upd_cyc s3 (if ((0 <? cyc1 s3) || full s3)%bool then cyc1 s3 + 1 else cyc1 s3)
                              (if restart s3 then false else disch s3)
}.

Lemma step_spec t s e o : inv s -> retired cfg t = false -> step_contract eps recipe cfg t s e ->
  rx_step eps recipe cfg t s e = Ok o -> exists s3, step_rel t s e o s3.
Proof.
  intros I Hr HC H.
  destruct (step_split _ _ _ _ _ _ _ H) as (ev1 & ev2 & s2 & s3 & ev3 & ev4 & E1 & E2 & E3 & E4 & E5 & E6 & EV).
  destruct (tick_spec t s I Hr) as (s1 & ev1' & E1' & I1 & TR). rewrite E1 in E1'. inversion E1'; subst s1 ev1'; clear E1'.
  destruct (HC _ _ _ _ _ E1 E2 E3) as (H1 & H2 & H3 & H4).
  destruct (contract_deliv recipe cfg Hcfg _ _ _ _ _ I1 E2 H1 H2) as (H5 & H6).
  destruct (exchange_phase eps recipe cfg eps_nonneg Hcfg _ (e_pick e) (e_deliv e) I1 (picks_ok eps recipe cfg eps_nonneg Hcfg _ _ _ _ I1 E3 H4) H5 H6 H3)
    as (s2' & resp & s3' & ev3' & E4' & E5' & X1 & X2 & X3 & X4 & X5 & X6 & X7 & X8 & X9 & X10 & X11 & X12 & X13 & X14 & X15 & X16 & X17 & X18 & _).
  rewrite E4 in E4'. inversion E4'; subst s2' resp; clear E4'.
  rewrite E5 in E5'. inversion E5'; subst s3' ev3'; clear E5'.
  rewrite tock_spec in E6 by auto. inversion E6 as [[E7 E8]]. clear E6.
  exists s3. constructor; auto.
  - rewrite <- E7. apply inv_cyc; auto.
  - exists ev1. split; auto. exists ev2, ev3. rewrite EV, <- E8. split; auto. split; auto.
    destruct (get_requests_spec recipe cfg Hcfg t _ I1) as (p & mc & _ & _ & Er & _). rewrite E2 in Er. inversion Er.
    apply Forall_forall. intros x Hx. apply repeat_spec in Hx. subst; eauto.
  - apply X6.
  - apply X6.
  - rewrite X7. auto.
  - rewrite X7. auto.
Qed.

(** ** Counting events of a step *)
Lemma filter_none {A} (f : A -> bool) l : Forall (fun x => f x = false) l -> filter f l = [].
Proof. induction 1; simpl; auto. rewrite H. auto. Qed.

Lemma tick_events_none f s s' ev : tick_rel s s' ev ->
  (forall n, f (EvTransmute n) = false) -> f EvCycleEnd = false -> (forall n, f (EvDischarge n) = false) ->
  f EvDischargeFailed = false -> (forall n, f (EvLoad n) = false) -> (forall c q, f (EvSupply c q) = false) ->
  filter f ev = [].
Proof.
  intros T H1 H2 H3 H4 H5 H6. destruct (tr_ev _ _ _ T) as (sup & -> & F). apply filter_none.
  apply Forall_app. split; [destruct (cyc s =? cycle_t cfg); auto|]. apply Forall_app. split.
  - destruct (attempt s); auto. destruct (success s); auto. constructor; auto.
    eapply Forall_impl; [|exact F]. intros x (c & q & ->). auto.
  - destruct (nloaded s =? 0); auto.
Qed.

Lemma step_events f t s e o s3 : step_rel t s e o s3 ->
  (forall c q, f (EvDemand c q) = false) -> (forall n, f (EvLoad n) = false) ->
  exists ev1, tick_rel s (o_ticked o) ev1 /\
  filter f (o_events o) = filter f ev1 ++
    filter f (if ((cyc1 s3 =? 0) && full s3)%bool then [EvCycleStart] else []) ++
    filter f [EvPower (if on_power s3 then power_cap cfg else 0%Q)] ++
    filter f (if hybrid s3 then side_events (on_power s3) else []).
Proof.
  intros R H1 H2. destruct (sr_tick _ _ _ _ _ R) as (ev1 & T & dem & lds & -> & F1 & F2).
  exists ev1. split; auto. rewrite !filter_app.
  rewrite (filter_none f dem), (filter_none f lds).
  - simpl. f_equal. f_equal. destruct (f _); auto.
  - eapply Forall_impl; [|exact F2]. intros x (n & ->). auto.
  - eapply Forall_impl; [|exact F1]. intros x (c & q & ->). auto.
Qed.

Lemma side_events_shape b : Forall (fun e => exists p q, e = EvSide p q) (side_events b).
Proof. unfold side_events. rewrite Forall_map. apply Forall_forall. eauto. Qed.

Lemma starts t s e o s3 : step_rel t s e o s3 ->
  filter is_start (o_events o) = if ((cyc1 s3 =? 0) && full s3)%bool then [EvCycleStart] else [].
Proof.
  intro R. destruct (step_events is_start _ _ _ _ _ R) as (ev1 & T & ->); auto.
  rewrite (tick_events_none is_start _ _ _ T) by auto. simpl.
  replace (filter is_start (if hybrid s3 then side_events (on_power s3) else [])) with (@nil event).
  - rewrite app_nil_r. destruct ((cyc1 s3 =? 0) && full s3)%bool; auto.
  - symmetry. apply filter_none. destruct (hybrid s3); auto. eapply Forall_impl; [|apply side_events_shape].
    intros x (p & q & ->). auto.
Qed.

Lemma powers t s e o s3 : step_rel t s e o s3 ->
  filter is_power (o_events o) = [EvPower (if on_power s3 then power_cap cfg else 0%Q)].
Proof.
  intro R. destruct (step_events is_power _ _ _ _ _ R) as (ev1 & T & ->); auto.
  rewrite (tick_events_none is_power _ _ _ T) by auto. simpl.
  replace (filter is_power (if hybrid s3 then side_events (on_power s3) else [])) with (@nil event).
  - destruct ((cyc1 s3 =? 0) && full s3)%bool; auto.
  - symmetry. apply filter_none. destruct (hybrid s3); auto. eapply Forall_impl; [|apply side_events_shape].
    intros x (p & q & ->). auto.
Qed.

Lemma sides t s e o s3 : step_rel t s e o s3 ->
  filter is_side (o_events o) = if hybrid s3 then side_events (on_power s3) else [].
Proof.
  intro R. destruct (step_events is_side _ _ _ _ _ R) as (ev1 & T & ->); auto.
  rewrite (tick_events_none is_side _ _ _ T) by auto. simpl.
  replace (filter is_side (if ((cyc1 s3 =? 0) && full s3)%bool then [EvCycleStart] else [])) with (@nil event)
    by (destruct ((cyc1 s3 =? 0) && full s3)%bool; auto). simpl.
  destruct (hybrid s3); auto. unfold side_events. induction (combine _ _); simpl; congruence.
Qed.

Lemma ends t s e o s3 : step_rel t s e o s3 ->
  filter is_end (o_events o) = if cyc s =? cycle_t cfg then [EvCycleEnd] else [].
Proof.
  intro R. destruct (step_events is_end _ _ _ _ _ R) as (ev1 & T & ->); auto.
  replace (filter is_end (if ((cyc1 s3 =? 0) && full s3)%bool then [EvCycleStart] else [])) with (@nil event)
    by (destruct ((cyc1 s3 =? 0) && full s3)%bool; auto).
  rewrite (filter_none is_end (if hybrid s3 then _ else _)).
  2: { destruct (hybrid s3); auto. eapply Forall_impl; [|apply side_events_shape]. intros x (p & q & ->). auto. }
  simpl. rewrite app_nil_r.
  destruct (tr_ev _ _ _ T) as (sup & -> & F). rewrite !filter_app.
  rewrite (filter_none is_end (if attempt s then _ else _)).
  2: { destruct (attempt s); auto. destruct (success s); auto. constructor; auto.
       eapply Forall_impl; [|exact F]. intros x (p & q & ->). auto. }
  destruct (nloaded s =? 0); destruct (cyc s =? cycle_t cfg); auto.
Qed.

Lemma dischs t s e o s3 : step_rel t s e o s3 ->
  filter is_disch (o_events o) = (if success s then [EvDischarge (kbatch s)] else []) /\
  filter is_dfail (o_events o) = (if (attempt s && negb (success s))%bool then [EvDischargeFailed] else []).
Proof.
  intro R.
  assert (forall f, f = is_disch \/ f = is_dfail -> filter f (o_events o) =
    filter f (if attempt s then (if success s then [EvDischarge (kbatch s)] else [EvDischargeFailed]) else [])) as G.
  { intros f Hf. destruct (step_events f _ _ _ _ _ R) as (ev1 & T & ->); try (destruct Hf; subst; auto; fail).
    replace (filter f (if ((cyc1 s3 =? 0) && full s3)%bool then [EvCycleStart] else [])) with (@nil event)
      by (destruct ((cyc1 s3 =? 0) && full s3)%bool; destruct Hf; subst; auto).
    rewrite (filter_none f (if hybrid s3 then _ else _)).
    2: { destruct (hybrid s3); auto. eapply Forall_impl; [|apply side_events_shape]. intros x (p & q & ->). destruct Hf; subst; auto. }
    replace (filter f [EvPower _]) with (@nil event) by (destruct Hf; subst; auto).
    simpl. rewrite app_nil_r.
    destruct (tr_ev _ _ _ T) as (sup & -> & F). rewrite !filter_app.
    replace (filter f (if cyc s =? cycle_t cfg then _ else _)) with (@nil event)
      by (destruct (cyc s =? cycle_t cfg); destruct Hf; subst; auto).
    replace (filter f (if nloaded s =? 0 then _ else _)) with (@nil event)
      by (destruct (nloaded s =? 0); destruct Hf; subst; auto).
    simpl. rewrite app_nil_r. destruct (attempt s); auto. destruct (success s); auto.
    simpl. rewrite (filter_none f sup); auto.
    eapply Forall_impl; [|exact F]. intros x (p & q & ->). destruct Hf; subst; auto. }
  split.
  - rewrite G by auto. unfold success. destruct (attempt s); simpl; auto. destruct (_ <=? _); auto.
  - rewrite G by auto. destruct (attempt s); simpl; auto. destruct (success s); auto.
Qed.
End Cycle.
