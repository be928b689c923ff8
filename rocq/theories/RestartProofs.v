(** Restarting Storage, FuelFab, Enrichment, Source and Sink from a snapshot:
    the proofs of C88 to C92. *)
From Coq Require Import Lia Lqa QArith Qminmax.
From Verif Require Import Outcome KernelMaterial KernelResBuf KernelBuf KernelFacts KernelMass.
From Verif Require Import FuelFabModel EnrichmentModel SinkModel StorageModel RestartModel.
From Verif Require SourceModel SourceSpec SourceProofs StorageSpec FuelFabSpec FuelFabRun.
From Verif Require EnrichmentSpec EnrichmentRun SinkSpec SinkProofs.
Local Open Scope Q_scope.

(** ** Buffers *)
Lemma fits_empty eps c (ms : list mat) : qty_of ms <= Qmax 0 c + eps ->
  b_pushv eps {| b_cap := Some c; b_items := [] |} ms = Ok {| b_cap := Some c; b_items := ms |}.
Proof.
  intro H. unfold b_pushv, b_fits, b_space, b_qty. cbn [b_cap b_items].
  assert (E : Qle_bool (qty_of ms - Qmax 0 (c - qty_of [])) eps = true).
  { apply Qle_bool_iff. assert (X : Qmax 0 (c - qty_of []) == Qmax 0 c) by (apply Q.max_compat; [reflexivity|cbn; lra]).
    rewrite X. lra. }
  rewrite E. reflexivity.
Qed.
Lemma fits_unlimited eps (ms : list mat) : b_pushv eps new_buf ms = Ok {| b_cap := None; b_items := ms |}.
Proof. reflexivity. Qed.
Lemma save_capped eps b c : b_cap b = Some c -> b_qty b <= Qmax 0 c + eps -> b_save eps b = Ok (b_items b, b).
Proof.
  destruct b as [k ms]. cbn [b_cap]. intros -> H. unfold b_save. cbn [b_cap b_items].
  rewrite fits_empty by exact H. reflexivity.
Qed.
Lemma save_unlimited eps b : b_cap b = None -> b_save eps b = Ok (b_items b, b).
Proof. destruct b as [k ms]. cbn [b_cap]. intros ->. reflexivity. Qed.

(** ** Storage *)
Lemma storage_app eps cfg a : forall b s s' os, st_run eps cfg s (a ++ b) = Ok (s', os) ->
  exists s1 oa ob, st_run eps cfg s a = Ok (s1, oa) /\ st_run eps cfg s1 b = Ok (s', ob) /\ os = oa ++ ob.
Proof.
  induction a as [|e a IH]; intros b s s' os H.
  - exists s, [], os. auto.
  - cbn in H. apply bind_ok in H as ([s1 o] & E & H). apply bind_ok in H as ([s2 os2] & R & H). injection H as <- <-.
    destruct (IH _ _ _ _ R) as (s3 & oa & ob & R1 & R2 & ->). exists s3, (o :: oa), ob. cbn. rewrite E. cbn [bind].
    rewrite R1. auto.
Qed.
Lemma ones_index (l : list string) : forall bi i, max_index_from 1 bi i (map (fun _ => default_pref) l) = bi.
Proof. induction l as [|x l IH]; intros bi i; cbn; [reflexivity|apply IH]. Qed.
Lemma ones_max (l : list string) : max_index (map (fun _ => default_pref) l) = 0%nat.
Proof. destruct l; cbn; [reflexivity|]. apply ones_index. Qed.
Lemma storage_prefs eps cfg ps : max_index ps = max_index (sc_in_prefs cfg) ->
  forall es s, st_run eps (st_with_prefs cfg ps) s es = st_run eps cfg s es.
Proof.
  intro M. assert (T : forall t s, st_tock eps (st_with_prefs cfg ps) t s = st_tock eps cfg t s).
  { intros t s. unfold st_tock. cbn [sc_in_prefs sc_in_commods sc_out_commods sc_throughput sc_residence st_with_prefs]. rewrite M. reflexivity. }
  assert (S : forall s e, st_step eps (st_with_prefs cfg ps) s e = st_step eps cfg s e).
  { intros s e. unfold st_step. destruct (st_trade eps e s) as [[s1 sold]| | |]; try reflexivity. cbn [bind]. rewrite T. reflexivity. }
  induction es as [|e es IH]; intro s; [reflexivity|]. cbn [st_run]. rewrite S.
  destruct (st_step eps cfg s e) as [[s1 o]| | |]; try reflexivity. cbn [bind]. rewrite IH. reflexivity.
Qed.
Lemma storage_enter recipe package unit cfg en : st_enter recipe package unit cfg = Ok en ->
  st_enter recipe package unit (st_with_prefs cfg (en_prefs en)) = Ok en /\
  max_index (en_prefs en) = max_index (sc_in_prefs cfg) /\ exists o, st_init_from_db cfg = Ok o.
Proof.
  unfold st_enter. intro H.
  apply bind_ok in H as (pol & P & H). apply bind_ok in H as (c & C & H). apply bind_ok in H as (prefs & PR & H).
  destruct (package (sc_package cfg)) eqn:PK; [|discriminate]. destruct (unit (sc_transport_unit cfg)) eqn:U; [|discriminate].
  cbn [negb] in H. destruct (sc_out_commods cfg) as [|o [|o2 r]] eqn:O; try discriminate. injection H as <-.
  cbn [en_prefs]. split; [|split].
  - cbn [st_with_prefs sc_reorder_point sc_cumulative_cap sc_reorder_quantity sc_max_inv sc_in_recipe sc_in_prefs sc_in_commods sc_package
         sc_transport_unit sc_out_commods sc_throughput]. rewrite P. cbn [bind]. rewrite C. cbn [bind].
    assert (X : (if Nat.eqb (List.length prefs) 0 then Ok (map (fun _ : string => default_pref) (sc_in_commods cfg))
         else if Nat.eqb (List.length prefs) (List.length (sc_in_commods cfg)) then Ok prefs else Throw ValueError) = Ok prefs).
    { destruct (Nat.eqb (List.length (sc_in_prefs cfg)) 0) eqn:E0.
      - injection PR as <-. rewrite map_length. destruct (Nat.eqb (List.length (sc_in_commods cfg)) 0); [reflexivity|].
        rewrite Nat.eqb_refl. reflexivity.
      - destruct (Nat.eqb (List.length (sc_in_prefs cfg)) (List.length (sc_in_commods cfg))) eqn:E1; [|discriminate].
        injection PR as <-. rewrite E0, E1. reflexivity. }
    rewrite X. cbn [bind]. rewrite PK, U, O. reflexivity.
  - destruct (Nat.eqb (List.length (sc_in_prefs cfg)) 0) eqn:E0.
    + injection PR as <-. rewrite ones_max. destruct (sc_in_prefs cfg); [reflexivity|discriminate].
    + destruct (Nat.eqb (List.length (sc_in_prefs cfg)) (List.length (sc_in_commods cfg))); [|discriminate]. injection PR as <-. reflexivity.
  - unfold st_init_from_db. rewrite O. eauto.
Qed.
Theorem storage_final eps recipe package unit cfg en es1 es2 s os :
  st_enter recipe package unit cfg = Ok en -> st_run eps cfg st_empty (es1 ++ es2) = Ok (s, os) ->
  exists s1 os1 os2, st_run eps cfg st_empty es1 = Ok (s1, os1) /\ os = os1 ++ os2 /\
    exists en' s1', st_load recipe package unit cfg (st_save (en_prefs en) s1) = Ok (en', s1') /\ en' = en /\ s1' = s1 /\
      st_run eps (st_with_prefs cfg (en_prefs en')) s1' es2 = Ok (s, os2).
Proof.
  intros E R. destruct (storage_app _ _ _ _ _ _ _ R) as (s1 & os1 & os2 & R1 & R2 & ->).
  exists s1, os1, os2. split; [exact R1|]. split; [reflexivity|].
  destruct (storage_enter _ _ _ _ _ E) as (E' & M & (o & I)).
  exists en, s1. split.
  - unfold st_load. rewrite I. cbn [bind tv_prefs st_save]. rewrite E'. cbn [bind]. destruct s1. reflexivity.
  - split; [reflexivity|]. split; [reflexivity|]. rewrite storage_prefs by exact M. exact R2.
Qed.

(** ** FuelFab *)
Lemma prefs_again commods ps ps' : ff_prefs commods ps = Ok ps' -> ff_prefs commods ps' = Ok ps'.
Proof.
  unfold ff_prefs. destruct ps as [|p ps].
  - intro H. injection H as <-. destruct commods as [|c cs]; [reflexivity|]. cbn [map]. cbn [List.length]. rewrite map_length, Nat.eqb_refl. reflexivity.
  - destruct (Nat.eqb (List.length (p :: ps)) (List.length commods)) eqn:E; [|discriminate]. intro H. injection H as <-. rewrite E. reflexivity.
Qed.
Lemma fuelfab_offers nz D cfg ps st n : forall reqs j, ff_offers nz D (ff_with_prefs cfg ps) st n j reqs = ff_offers nz D cfg st n j reqs.
Proof. induction reqs as [|[tgt q] reqs IH]; intro j; [reflexivity|]. cbn [ff_offers]. rewrite IH. reflexivity. Qed.
Lemma fuelfab_bids nz D recipe cfg ps s reqs : ff_get_bids nz D recipe (ff_with_prefs cfg ps) s reqs = ff_get_bids nz D recipe cfg s reqs.
Proof.
  unfold ff_get_bids. change (ff_weigh D recipe (ff_with_prefs cfg ps) s) with (ff_weigh D recipe cfg s).
  destruct (ff_weigh D recipe cfg s); try reflexivity. destruct reqs; [reflexivity|]. cbn [bind]. rewrite fuelfab_offers. reflexivity.
Qed.
Lemma fuelfab_loop eps nz D cfg ps wl wt ws ts : forall tot s,
  ff_trade_loop eps nz D (ff_with_prefs cfg ps) wl wt ws tot s ts = ff_trade_loop eps nz D cfg wl wt ws tot s ts.
Proof.
  induction ts as [|[c q] ts IH]; intros tot s; [reflexivity|]. cbn [ff_trade_loop].
  change (fc_throughput (ff_with_prefs cfg ps)) with (fc_throughput cfg).
  change (ff_trade1 eps nz D (ff_with_prefs cfg ps)) with (ff_trade1 eps nz D cfg).
  destruct (Qltb (fc_throughput cfg + eps) (tot + q)); try reflexivity.
  destruct (ff_trade1 eps nz D cfg wl wt ws s c q) as [[s1 m]| | |]; try reflexivity. cbn [bind]. rewrite IH. reflexivity.
Qed.
Lemma fuelfab_trades eps nz D cfg ps s ts : ff_trades eps nz D (ff_with_prefs cfg ps) s ts = ff_trades eps nz D cfg s ts.
Proof. unfold ff_trades. apply fuelfab_loop. Qed.
Theorem fuelfab_final eps nz D recipe cfg prefs es1 es2 s os : 0 <= eps -> FuelFabSpec.ff_sane (es1 ++ es2) ->
  ff_enter cfg = Ok prefs -> ff_run eps nz D recipe cfg prefs (ff_new cfg) (es1 ++ es2) = Ok (s, os) ->
  exists s1 os1 os2, ff_run eps nz D recipe cfg prefs (ff_new cfg) es1 = Ok (s1, os1) /\ os = os1 ++ os2 /\
    exists v, ff_save eps prefs s1 = Ok (v, s1) /\
    exists prefs' s1', ff_load eps cfg v = Ok (prefs', s1') /\ prefs' = prefs /\ s1' = s1 /\
      ff_run eps nz D recipe (ff_with_prefs cfg prefs') prefs' s1' es2 = Ok (s, os2).
Proof.
  intros EP SA E R. apply FuelFabRun.run_app in R as (s1 & os1 & os2 & R1 & R2 & ->).
  exists s1, os1, os2. split; [exact R1|]. split; [reflexivity|]. apply Forall_app in SA as [SA _].
  destruct (FuelFabRun.live_final eps nz D recipe cfg es1 s1 os1 EP SA (ex_intro _ prefs (conj E R1))) as [_ L].
  pose proof (L InvFill) as [C1 Q1]. pose proof (L InvFiss) as [C2 Q2]. pose proof (L InvTopup) as [C3 Q3]. clear L.
  cbn [FuelFabSpec.inventory FuelFabSpec.inv_size] in *.
  exists {| fv_prefs := prefs; fv_fill := b_items (fb_fill s1); fv_fiss := b_items (fb_fiss s1); fv_topup := b_items (fb_topup s1) |}.
  split.
  - unfold ff_save. rewrite (save_capped _ _ _ C1 Q1). cbn [bind]. rewrite (save_capped _ _ _ C2 Q2). cbn [bind].
    rewrite (save_capped _ _ _ C3 Q3). cbn [bind]. destruct s1. reflexivity.
  - exists prefs, s1. split; [|split; [reflexivity|split; [reflexivity|]]].
    + unfold ff_load. cbn [fv_fill fv_fiss fv_topup fv_prefs ff_new fb_fill fb_fiss fb_topup].
      rewrite (fits_empty _ _ _ Q1). cbn [bind]. rewrite (fits_empty _ _ _ Q2). cbn [bind]. rewrite (fits_empty _ _ _ Q3). cbn [bind].
      assert (E' : ff_enter (ff_with_prefs cfg prefs) = Ok prefs).
      { unfold ff_enter in E |- *. apply bind_ok in E as (a & A & E). apply bind_ok in E as (b & B & E). injection E as <-.
        cbn [ff_with_prefs fc_fiss_commods fc_fiss_prefs fc_fill_commods fc_fill_prefs fst snd].
        rewrite (prefs_again _ _ _ A). cbn [bind]. rewrite (prefs_again _ _ _ B). reflexivity. }
      rewrite E'. cbn [bind]. f_equal. f_equal. destruct s1 as [[k1 i1] [k2 i2] [k3 i3]]. cbn in *. subst. reflexivity.
    + rewrite <- R2. clear. revert s1. induction es2 as [|e es IH]; intro s1; [reflexivity|]. cbn [ff_run].
      assert (S : ff_step eps nz D recipe (ff_with_prefs cfg prefs) prefs s1 e = ff_step eps nz D recipe cfg prefs s1 e).
      { unfold ff_step. rewrite fuelfab_bids. destruct (ff_requests eps recipe cfg prefs s1) eqn:Q;
        change (ff_requests eps recipe (ff_with_prefs cfg prefs) prefs s1) with (ff_requests eps recipe cfg prefs s1); rewrite Q; cbn [bind]; try reflexivity.
        rewrite fuelfab_trades. reflexivity. }
      rewrite S. destruct (ff_step eps nz D recipe cfg prefs s1 e) as [[s2 o]| | |]; try reflexivity. cbn [bind]. rewrite IH. reflexivity.
Qed.

(** ** Source *)
Lemma source_app eps eg recipe cfg a : forall b s s' os, SourceModel.sr_run eps eg recipe cfg s (a ++ b) = Ok (s', os) ->
  exists s1 oa ob, SourceModel.sr_run eps eg recipe cfg s a = Ok (s1, oa) /\ SourceModel.sr_run eps eg recipe cfg s1 b = Ok (s', ob) /\ os = oa ++ ob.
Proof.
  induction a as [|e a IH]; intros b s s' os H.
  - exists s, [], os. auto.
  - cbn in H. apply bind_ok in H as ([s1 o] & E & H). apply bind_ok in H as ([s2 os2] & R & H). injection H as <- <-.
    destruct (IH _ _ _ _ R) as (s3 & oa & ob & R1 & R2 & ->). exists s3, (o :: oa), ob. cbn. rewrite E. cbn [bind].
    rewrite R1. auto.
Qed.
Lemma source_loop eps eg cfg fill ts : forall i k b b' rs, b_cap b = None ->
  SourceModel.sr_trade_loop eps eg cfg fill i k ts b = Ok (b', rs) -> b_cap b' = None.
Proof.
  induction ts as [|[amt target] ts IH]; intros i k b b' rs C H; cbn [SourceModel.sr_trade_loop] in H.
  - injection H as <- _. exact C.
  - destruct (Z.ltb 0 k); [|exact (IH _ _ _ _ _ C H)].
    apply bind_ok in H as ([m b1] & P & H). apply bind_ok in H as ([pkgs rest] & _ & H). apply bind_ok in H as (b2 & P2 & H).
    assert (C1 : b_cap b1 = None).
    { unfold b_pop_qty in P. apply bind_ok in P as ([m' r] & _ & P). injection P as _ <-. exact C. }
    assert (C2 : b_cap b2 = None).
    { destruct (Qltb eg (m_qty rest)); [|injection P2 as <-; exact C1]. unfold b_push in P2.
      destruct (b_fits eps b1 (m_qty rest)); [|discriminate]. injection P2 as <-. exact C1. }
    destruct pkgs as [|p ps]; apply bind_ok in H as ([b3 rs3] & L & H); injection H as <- _; exact (IH _ _ _ _ _ C2 L).
Qed.
Lemma source_cap eps eg recipe cfg es : forall s s' os, b_cap (SourceModel.ss_inv s) = None ->
  SourceModel.sr_run eps eg recipe cfg s es = Ok (s', os) -> b_cap (SourceModel.ss_inv s') = None.
Proof.
  induction es as [|e es IH]; intros s s' os C H; cbn [SourceModel.sr_run] in H.
  - injection H as <- _. exact C.
  - apply bind_ok in H as ([s1 o] & E & H). apply bind_ok in H as ([s2 os2] & R & H). injection H as <- _.
    apply (IH s1 s2 os2); [|exact R]. unfold SourceModel.sr_step in E. apply bind_ok in E as ([q p] & _ & E).
    apply bind_ok in E as ([s3 rs] & T & E). injection E as <- _. unfold SourceModel.sr_get_trades in T.
    apply bind_ok in T as ([b rs'] & L & T). injection T as <- _. exact (source_loop _ _ _ _ _ _ _ _ _ _ C L).
Qed.
Theorem source_final eps eg recipe cfg es1 es2 s os : SourceSpec.sr_lived eps eg recipe cfg (es1 ++ es2) s os ->
  exists s1 os1 os2, SourceSpec.sr_lived eps eg recipe cfg es1 s1 os1 /\ os = os1 ++ os2 /\
    exists v, sr_save eps s1 = Ok (v, s1) /\
    exists s1', sr_load eps v = Ok s1' /\ s1' = s1 /\ SourceModel.sr_run eps eg recipe cfg s1' es2 = Ok (s, os2).
Proof.
  intros (s0 & B & R). destruct (source_app _ _ _ _ _ _ _ _ _ R) as (s1 & os1 & os2 & R1 & R2 & ->).
  exists s1, os1, os2. split; [exists s0; auto|]. split; [reflexivity|].
  assert (C0 : b_cap (SourceModel.ss_inv s0) = None).
  { unfold SourceModel.sr_build in B. apply bind_ok in B as (c & _ & B). apply bind_ok in B as (b & P & B). injection B as <-.
    cbn in P. injection P as <-. reflexivity. }
  pose proof (source_cap _ _ _ _ _ _ _ _ C0 R1) as C1.
  exists (b_items (SourceModel.ss_inv s1)). split.
  - unfold sr_save. rewrite (save_unlimited _ _ C1). destruct s1. reflexivity.
  - exists s1. split; [|auto]. unfold sr_load. rewrite fits_unlimited. cbn [bind]. destruct s1 as [[k i]]. cbn in *. subst. reflexivity.
Qed.

(** ** Enrichment *)
(** The same facility with other usage counters. *)
Definition with_rec (s : en_state) (a b : option Q) : en_state :=
  {| es_inv := es_inv s; es_tails := es_tails s; es_swu := es_swu s; es_iswu := a; es_ifeed := b |}.
Definition out_rec (o : en_out) (a b : option Q) : en_out :=
  {| eo_request := eo_request o; eo_bids := eo_bids o; eo_shipped := eo_shipped o; eo_records := eo_records o; eo_recorded := (a, b) |}.
Lemma bids_rec eps eg aw cfg tr pr s s2 B a b : en_get_bids eps eg aw cfg tr pr s = Ok (s2, B) ->
  en_get_bids eps eg aw cfg tr pr (with_rec s a b) = Ok (with_rec s2 a b, B).
Proof.
  unfold en_get_bids. cbn [with_rec es_inv es_tails es_swu es_iswu es_ifeed]. destruct pr as [|p pr].
  - intro H. injection H as <- <-. reflexivity.
  - destruct (Qltb 0 (b_qty (es_inv s))).
    + intro H. apply bind_ok in H as ([fa b0] & F & H). rewrite F. cbn [bind].
      apply bind_ok in H as ([fb b1] & F1 & H). rewrite F1. cbn [bind]. injection H as <- <-. reflexivity.
    + intro H. injection H as <- <-. reflexivity.
Qed.
Lemma enrichment_step eps eg V aw recipe cfg s s' e s1 o : es_inv s' = es_inv s -> es_tails s' = es_tails s ->
  en_step eps eg V aw recipe cfg s e = Ok (s1, o) ->
  en_step eps eg V aw recipe cfg s' e =
    Ok (match ee_trades e with
        | [] => (with_rec s1 (es_iswu s') (es_ifeed s'), out_rec o (es_iswu s') (es_ifeed s'))
        | _ => (s1, o) end).
Proof.
  intros I T H. unfold en_step in *.
  assert (TK : en_tick cfg s' = with_rec (en_tick cfg s) (es_iswu s') (es_ifeed s')) by (unfold en_tick, with_rec; cbn; rewrite I, T; reflexivity).
  rewrite TK. apply bind_ok in H as (rq & RQ & H). apply bind_ok in H as ([s2 B] & BD & H).
  apply bind_ok in H as ([[s3 ms] rs] & TR & H). apply bind_ok in H as (s4 & AC & H). injection H as <- <-.
  change (en_requests eps recipe cfg (with_rec (en_tick cfg s) (es_iswu s') (es_ifeed s'))) with (en_requests eps recipe cfg (en_tick cfg s)).
  rewrite RQ. cbn [bind]. rewrite (bids_rec _ _ _ _ _ _ _ _ _ _ _ BD). cbn [bind].
  destruct (ee_trades e) as [|t ts].
  - injection TR as <- <- <-. cbn [bind]. unfold en_accept in *. cbn [with_rec es_inv]. apply bind_ok in AC as (b & L & AC).
    injection AC as <-. rewrite L. reflexivity.
  - change (en_trades eps eg V cfg (t :: ts) (with_rec s2 (es_iswu s') (es_ifeed s'))) with (en_trades eps eg V cfg (t :: ts) s2).
    rewrite TR. cbn [bind]. rewrite AC. reflexivity.
Qed.
Lemma enrichment_run eps eg V aw recipe cfg es : forall s s' s1 os, es_inv s' = es_inv s -> es_tails s' = es_tails s ->
  en_run eps eg V aw recipe cfg s es = Ok (s1, os) ->
  exists s1' os', en_run eps eg V aw recipe cfg s' es = Ok (s1', os') /\ es_inv s1' = es_inv s1 /\ es_tails s1' = es_tails s1 /\
    (es <> [] -> es_swu s1' = es_swu s1) /\
    Forall2 (fun o o' => eo_request o' = eo_request o /\ eo_bids o' = eo_bids o /\ eo_shipped o' = eo_shipped o /\ eo_records o' = eo_records o) os os' /\
    (forall e, In e es -> ee_trades e <> [] -> s1' = s1) /\
    (forall j k e, nth_error es j = Some e -> ee_trades e <> [] -> (j <= k)%nat -> nth_error os' k = nth_error os k) /\
    (forall k, Forall (fun e => ee_trades e = []) (firstn (S k) es) -> (k < List.length es)%nat ->
       exists o', nth_error os' k = Some o' /\ eo_recorded o' = (es_iswu s', es_ifeed s')).
Proof.
  induction es as [|e es IH]; intros s s' s1 os I T H; cbn [en_run] in H.
  - injection H as <- <-. exists s', []. cbn [en_run]. split; [reflexivity|]. split; [auto|]. split; [auto|]. split; [congruence|].
    split; [constructor|]. split; [intros e []|]. split; [|cbn; intros; lia]. intros j k e X. destruct j; discriminate.
  - apply bind_ok in H as ([s2 o] & E & H). apply bind_ok in H as ([s3 os2] & R & H). injection H as <- <-.
    pose proof (enrichment_step _ _ _ _ _ _ _ _ _ _ _ I T E) as ST. cbn [en_run]. rewrite ST. cbn [bind].
    destruct (ee_trades e) as [|t ts] eqn:TE.
    + destruct (IH s2 (with_rec s2 (es_iswu s') (es_ifeed s')) s3 os2 eq_refl eq_refl R) as (s1' & os' & R' & A1 & A2 & A3 & A4 & A5 & A6 & A7).
      rewrite R'. cbn [bind]. exists s1', (out_rec o (es_iswu s') (es_ifeed s') :: os'). split; [reflexivity|]. split; [exact A1|]. split; [exact A2|].
      split; [|split; [constructor; [cbn; auto|exact A4]|split; [|split]]].
      * intros _. destruct es as [|e2 es]; [|apply A3; discriminate]. cbn in R, R'. injection R as <- <-. injection R' as <- <-. reflexivity.
      * intros e' [<-|X] NT; [congruence|exact (A5 e' X NT)].
      * intros j k e' N NT L. destruct j as [|j]; [injection N as <-; congruence|]. destruct k as [|k]; [lia|]. cbn [nth_error].
        apply (A6 j k e'); [exact N|exact NT|lia].
      * intros k F L. destruct k as [|k].
        -- exists (out_rec o (es_iswu s') (es_ifeed s')). auto.
        -- cbn [nth_error]. cbn [firstn] in F. inversion F as [|? ? _ F']; subst. destruct (A7 k F' ltac:(cbn in L; lia)) as (o' & N & RC).
           exists o'. split; [exact N|]. rewrite RC. reflexivity.
    + rewrite R. cbn [bind]. exists s3, (o :: os2). split; [reflexivity|]. split; [reflexivity|]. split; [reflexivity|]. split; [reflexivity|].
      split.
      { clear. induction (o :: os2); constructor; auto. }
      split; [reflexivity|]. split; [reflexivity|]. intros k F _. cbn [firstn] in F. inversion F as [|? ? X _]; subst. congruence.
Qed.
Theorem enrichment_final eps eg V aw recipe cfg es1 es2 s0 s os : 0 <= eps -> EnrichmentSpec.recipes_ok recipe -> 0 <= ec_max_feed cfg ->
  EnrichmentSpec.en_sane (es1 ++ es2) -> EnrichmentSpec.en_fair (es1 ++ es2) os ->
  EnrichmentSpec.en_lived eps eg V aw recipe cfg (es1 ++ es2) s0 s os ->
  exists s1 os1 os2, EnrichmentSpec.en_lived eps eg V aw recipe cfg es1 s0 s1 os1 /\ os = os1 ++ os2 /\
    exists v, en_save eps s1 = Ok (v, s1) /\
    exists s1', en_load eps cfg v = Ok s1' /\ es_inv s1' = es_inv s1 /\ es_tails s1' = es_tails s1 /\
    exists s' os2', en_run eps eg V aw recipe cfg s1' es2 = Ok (s', os2') /\
      es_inv s' = es_inv s /\ es_tails s' = es_tails s /\
      Forall2 (fun o o' => eo_request o' = eo_request o /\ eo_bids o' = eo_bids o /\ eo_shipped o' = eo_shipped o /\ eo_records o' = eo_records o) os2 os2' /\
      (forall j k e, nth_error es2 j = Some e -> ee_trades e <> [] -> (j <= k)%nat -> nth_error os2' k = nth_error os2 k) /\
      (forall k, Forall (fun e => ee_trades e = []) (firstn (S k) es2) -> (k < List.length es2)%nat ->
         exists o', nth_error os2' k = Some o' /\ eo_recorded o' = (None, None)).
Proof.
  intros He RO M S F (B & R). destruct (EnrichmentRun.run_app _ _ _ _ _ _ _ _ _ _ _ R) as (s1 & os1 & os2 & R1 & R2 & ->).
  exists s1, os1, os2. split; [split; assumption|]. split; [reflexivity|].
  apply Forall_app in S as [S1 S2].
  assert (LN : List.length es1 = List.length os1).
  { clear -R1. revert s0 os1 R1. induction es1 as [|e es IH]; intros s0 os1 H; cbn [en_run] in H.
    - injection H as <- <-. reflexivity.
    - apply bind_ok in H as ([s2 o] & E & H). apply bind_ok in H as ([s3 os2] & R & H). injection H as <- <-. cbn. f_equal. exact (IH _ _ R). }
  assert (F1 : EnrichmentSpec.en_fair es1 os1).
  { clear -F LN. revert os1 F LN. unfold EnrichmentSpec.en_fair. induction es1 as [|e es IH]; intros [|o os1] F LN; try discriminate; [constructor|].
    inversion F; subst. constructor; [assumption|]. apply IH; [assumption|]. cbn in LN. lia. }
  pose proof (EnrichmentRun.capacity_final eps eg V aw recipe cfg He RO es1 s0 s1 os1 M S1 F1 (conj B R1)) as CP.
  pose proof (EnrichmentRun.lived_good eps eg V aw recipe cfg He RO es1 s0 s1 os1 S1 (conj B R1)) as (_ & _ & C1 & C2).
  assert (CP' : b_qty (es_inv s1) <= Qmax 0 (ec_max_feed cfg) + eps) by (pose proof (Q.le_max_r 0 (ec_max_feed cfg)); lra).
  exists {| nv_inv := b_items (es_inv s1); nv_tails := b_items (es_tails s1) |}. split.
  - unfold en_save. rewrite (save_capped _ _ _ C1 CP'). cbn [bind]. rewrite (save_unlimited _ _ C2). destruct s1. reflexivity.
  - exists {| es_inv := es_inv s1; es_tails := es_tails s1; es_swu := None; es_iswu := None; es_ifeed := None |}. split; [|split; [reflexivity|split; [reflexivity|]]].
    + unfold en_load. cbn [nv_inv nv_tails en_new es_inv es_tails es_swu es_iswu es_ifeed]. rewrite (fits_empty _ _ _ CP'). cbn [bind].
      rewrite fits_unlimited. cbn [bind]. destruct s1 as [[k1 i1] [k2 i2] ? ? ?]. cbn in *. subst. reflexivity.
    + destruct (enrichment_run eps eg V aw recipe cfg es2 s1
        {| es_inv := es_inv s1; es_tails := es_tails s1; es_swu := None; es_iswu := None; es_ifeed := None |} s os2 eq_refl eq_refl R2)
        as (s' & os2' & R' & A1 & A2 & _ & A4 & _ & A6 & A7).
      exists s', os2'. auto 10.
Qed.

(** ** Sink *)
Lemma sink_step eps eg recipe cfg t s s' e : ks_prefs s' = ks_prefs s -> ks_inv s' = ks_inv s -> ks_next s' = ks_next s ->
  sk_step eps eg recipe cfg t s' e = sk_step eps eg recipe cfg t s e.
Proof.
  intros P I N. unfold sk_step.
  assert (T : sk_tick eg cfg (ke_rng e) t s' = sk_tick eg cfg (ke_rng e) t s).
  { unfold sk_tick. rewrite N, P, I. unfold sk_request_amt, sk_available, sk_space. rewrite I. reflexivity. }
  rewrite T. reflexivity.
Qed.
Lemma sink_next eps eg recipe cfg : ~ SinkSpec.random_frequency cfg -> forall es t s s' os,
  ks_next s = (-1)%Z -> sk_run eps eg recipe cfg t s es = Ok (s', os) -> ks_next s' = (-1)%Z.
Proof.
  intros NR es. induction es as [|e es IH]; intros t s s' os N H; cbn [sk_run] in H.
  - injection H as <- _. exact N.
  - apply bind_ok in H as ([s1 o] & E & H). apply bind_ok in H as ([s2 os2] & R & H). injection H as <- _.
    apply (IH _ _ _ _) with (2 := R). unfold sk_step in E. apply bind_ok in E as ([t1 d] & T & E). apply bind_ok in E as ([t2 mr] & M & E).
    apply bind_ok in E as (t3 & A1 & E). apply bind_ok in E as (t4 & A2 & E). injection E as <- _.
    apply SinkProofs.accept_facts in A1 as (_ & _ & X1 & _). apply SinkProofs.accept_facts in A2 as (_ & _ & X2 & _). rewrite X2, X1.
    apply SinkProofs.tick_facts in T as (_ & _ & (_ & TN) & _).
    assert (Y : ks_next t2 = ks_next t1).
    { unfold sk_mat_requests in M. apply bind_ok in M as (c & _ & M).
      destruct (Qltb (sk_available cfg t1) (ks_amt t1)); cbn [ks_amt] in M;
        match type of M with (if ?x then _ else _) = _ => destruct x end;
        try (apply bind_ok in M as (it & _ & M)); injection M as <- _; reflexivity. }
    rewrite Y, TN, N. reflexivity.
Qed.
Lemma sink_enter cfg g t s : List.length (ks_prefs s) = List.length (kc_commods cfg) ->
  sk_enter cfg g t s = Ok {| ks_prefs := ks_prefs s; ks_inv := ks_inv s; ks_amt := sk_request_amt cfg g s; ks_next := sk_next_buy cfg g t |}.
Proof.
  intro L. unfold sk_enter. destruct s as [ps inv a n]. cbn [ks_prefs ks_inv ks_amt ks_next] in *. destruct ps as [|p ps].
  - destruct (kc_commods cfg); [reflexivity|discriminate].
  - apply Nat.eqb_eq in L. cbv zeta. rewrite L. reflexivity.
Qed.
Theorem sink_final eps eg recipe cfg g t0 es1 es2 s os : 0 <= eps -> 0 <= kc_capacity cfg -> 0 <= kc_max_inv cfg ->
  ~ SinkSpec.random_frequency cfg -> SinkSpec.rngs_ok (es1 ++ es2) -> SinkSpec.fair (es1 ++ es2) os ->
  SinkSpec.sk_lived eps eg recipe cfg g t0 (es1 ++ es2) s os ->
  exists s1 os1 os2, SinkSpec.sk_lived eps eg recipe cfg g t0 es1 s1 os1 /\ os = os1 ++ os2 /\
    exists v, sk_save eps cfg s1 = Ok (v, s1) /\
    forall g', exists s1', sk_load eps cfg g' (SinkSpec.now t0 es1) v = Ok s1' /\
      ks_inv s1' = ks_inv s1 /\ ks_prefs s1' = ks_prefs s1 /\
      exists s', sk_run eps eg recipe cfg (SinkSpec.now t0 es1) s1' es2 = Ok (s', os2) /\ ks_inv s' = ks_inv s /\ (es2 <> [] -> s' = s).
Proof.
  intros He HC HM NR RG F (s0 & E & R). destruct (SinkProofs.run_app eps eg recipe cfg es1 _ _ _ _ _ R) as (s1 & os1 & os2 & R1 & R2 & ->).
  exists s1, os1, os2. assert (L1 : SinkSpec.sk_lived eps eg recipe cfg g t0 es1 s1 os1) by (exists s0; auto).
  split; [exact L1|]. split; [reflexivity|]. apply Forall_app in RG as [RG1 RG2].
  pose proof (SinkProofs.lived_length eps eg recipe cfg g t0 es1 s1 os1 L1) as LN.
  assert (F1 : SinkSpec.fair es1 os1).
  { clear -F LN. revert os1 F LN. unfold SinkSpec.fair. induction es1 as [|e es IH]; intros [|o os1] F LN; try discriminate; [constructor|].
    inversion F; subst. constructor; [assumption|]. apply IH; [assumption|]. cbn in LN. lia. }
  pose proof (SinkProofs.inventory_final eps eg recipe cfg HC g t0 es1 s1 os1 RG1 L1 F1 HM) as B.
  pose proof (SinkProofs.lived_inv eps eg recipe cfg HC g t0 es1 s1 os1 RG1 L1) as [[P1 P2] _].
  assert (PV : sk_pushv eps cfg (ks_inv s1) = Ok (ks_inv s1)).
  { unfold sk_pushv. assert (X : Qltb eps (rsrcs_qty (ks_inv s1) - Qmax 0 (kc_max_inv cfg)) = false).
    { unfold Qltb. apply negb_false_iff, Qle_bool_iff. unfold SinkSpec.held in B. unfold rsrcs_qty.
      pose proof (Q.le_max_r 0 (kc_max_inv cfg)). lra. }
    rewrite X. reflexivity. }
  assert (N1 : ks_next s1 = (-1)%Z).
  { apply SinkProofs.enter_facts in E as (_ & _ & N0). rewrite SinkProofs.next_buy_none in N0 by exact NR. exact (sink_next _ _ _ _ NR _ _ _ _ _ N0 R1). }
  exists {| kv_prefs := ks_prefs s1; kv_inv := ks_inv s1 |}. split.
  - unfold sk_save. rewrite PV. cbn [bind]. destruct s1. reflexivity.
  - intro g'. unfold sk_load. cbn [kv_inv kv_prefs]. rewrite PV. cbn [bind].
    rewrite sink_enter by exact P2. eexists. split; [reflexivity|]. cbn [ks_inv ks_prefs]. split; [reflexivity|]. split; [reflexivity|].
    rewrite SinkProofs.next_buy_none by exact NR. destruct es2 as [|e es].
    + cbn in R2 |- *. injection R2 as <- <-. eexists. split; [reflexivity|]. cbn. split; [reflexivity|congruence].
    + exists s. split; [|auto]. cbn [sk_run]. rewrite (sink_step eps eg recipe cfg _ s1); [exact R2|reflexivity|reflexivity|]. cbn. auto.
Qed.
