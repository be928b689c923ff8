(** Proofs for C110 (all archetypes but Reactor): every call returns or throws. *)
From Coq Require Import List ZArith Lia.
From Verif Require Import Outcome KernelMaterial KernelResBuf KernelBuf KernelBufFacts SafetySpec.
From Verif Require StorageModel ConversionModel SeparationsModel MixerModel FuelFabModel EnrichmentModel SinkModel SourceModel InstModel RegionModel.
Local Open Scope Q_scope.

(** [safe P o]: [o] is reported, and a normal result satisfies [P]. *)
Definition safe {A} (P : A -> Prop) (o : outcome A) : Prop :=
  match o with Ok a => P a | Throw _ => True | UB _ | Diverge => False end.
Definition any {A} (a : A) : Prop := True.
Lemma safe_reported {A} (P : A -> Prop) o : safe P o -> reported o.
Proof. destruct o; cbn; auto. Qed.
Lemma reported_safe {A} (o : outcome A) : reported o -> safe any o.
Proof. destruct o; cbn; unfold any; auto. Qed.
Lemma safe_weaken {A} (P P' : A -> Prop) o : safe P o -> (forall a, P a -> P' a) -> safe P' o.
Proof. destruct o; cbn; auto. Qed.
Lemma safe_bind {A B} (P : A -> Prop) (P' : B -> Prop) o f : safe P o -> (forall a, P a -> safe P' (f a)) -> safe P' (bind o f).
Proof. destruct o; cbn; auto; contradiction. Qed.
Lemma safe_loop {A S} (P : S -> Prop) (f : S -> A -> outcome S) l : forall s, P s ->
  (forall s a, In a l -> P s -> safe P (f s a)) -> safe P (loop f l s).
Proof.
  induction l as [|a l IH]; intros s H F; [exact H|]. cbn [loop]. eapply safe_bind; [apply F; [left; reflexivity|exact H]|].
  intros s' H'. apply IH; [exact H'|]. intros s0 b I. apply F. right. exact I.
Qed.
Lemma safe_at {A} (v : list A) i : (i < List.length v)%nat -> safe any (vec_at v i).
Proof. intro H. unfold vec_at. destruct (nth_error v i) eqn:E; [exact I|]. apply nth_error_None in E. lia. Qed.
Lemma safe_set {A} (v : list A) i a : (i < List.length v)%nat -> safe (fun v' => List.length v' = List.length v) (vec_set v i a).
Proof.
  revert i. induction v as [|x v IH]; intros i H; cbn in H; [lia|]. destruct i; [reflexivity|]. cbn [vec_set].
  eapply safe_bind; [apply IH; lia|]. intros v' E. cbn. congruence.
Qed.

(** Destruct everything in sight; binds, loops and table accesses are left to the lemmas above. *)
Ltac sf :=
  repeat (cbv beta iota zeta; match goal with
  | |- safe _ (Ok _) => cbn
  | |- safe _ (Throw _) => exact I
  | |- any _ => exact I
  | |- safe _ (bind _ _) => eapply (safe_bind any); [|intros ? _]
  | |- safe _ (let '(_, _) := ?x in _) => destruct x
  | |- safe _ (match ?x with _ => _ end) => destruct x eqn:?
  | |- safe any (if ?b then _ else _) => destruct b
  end).

(** ** The kernel *)
Lemma s_squash ms : safe any (squash ms). Proof. unfold squash. sf. Qed.
Lemma s_pop_qty ms q : safe any (items_pop_qty ms q). Proof. unfold items_pop_qty. sf. apply s_squash. Qed.
Lemma s_pop_tol ms q t : safe any (items_pop_tol ms q t). Proof. unfold items_pop_tol. sf; [apply s_squash|apply s_pop_qty]. Qed.
Lemma s_push eps b m : safe any (b_push eps b m). Proof. unfold b_push. sf. Qed.
Lemma s_pushv eps b m : safe any (b_pushv eps b m). Proof. unfold b_pushv. sf. Qed.
Lemma s_bpop b q : safe any (b_pop_qty b q). Proof. unfold b_pop_qty. sf. apply s_pop_qty. Qed.
Lemma s_bpop_tol b q t : safe any (b_pop_tol b q t). Proof. unfold b_pop_tol. sf. apply s_pop_tol. Qed.
Lemma s_extract q m : safe any (extract_qty q m). Proof. unfold extract_qty. sf. Qed.
Lemma s_extract_comp t q c m : safe any (extract_comp t q c m). Proof. unfold extract_comp. sf. Qed.
Create HintDb sfdb.
#[global] Hint Resolve s_squash s_pop_qty s_pop_tol s_push s_pushv s_bpop s_bpop_tol s_extract s_extract_comp : sfdb.
Ltac sff := sf; auto with sfdb; try exact I.

(** ** Storage *)
Section Storage.
Import StorageModel.
Lemma st_sell eps sales : forall stocks sold, safe any (sell_all eps sales stocks sold).
Proof. induction sales as [|q l IH]; intros; cbn [sell_all]; sff. Qed.
Lemma st_step_safe eps cfg s e : (max_index (sc_in_prefs cfg) < List.length (sc_in_commods cfg))%nat -> sc_out_commods cfg <> [] ->
  safe any (st_step eps cfg s e).
Proof.
  intros H1 H2. unfold st_step, st_trade, st_tock, process_mat, ready_matl. sff; try apply st_sell; try (apply safe_at; exact H1).
  apply safe_at. destruct (sc_out_commods cfg); [congruence|cbn; lia].
Qed.
Lemma st_run_safe eps cfg es : forall s, (max_index (sc_in_prefs cfg) < List.length (sc_in_commods cfg))%nat -> sc_out_commods cfg <> [] ->
  safe any (st_run eps cfg s es).
Proof. induction es as [|e es IH]; intros s H1 H2; cbn [st_run]; sff. apply st_step_safe; auto. Qed.
Lemma st_enter_safe recipe pk un cfg : safe any (st_enter recipe pk un cfg).
Proof. unfold st_enter. sff. Qed.
End Storage.

(** ** Conversion *)
Section Conversion.
Import ConversionModel.
Lemma cv_trades_safe amts : forall o sh, safe any (cv_trades amts o sh).
Proof. induction amts as [|q l IH]; intros; cbn [cv_trades]; sff. Qed.
Lemma cv_accept_safe eps cfg ms : forall i, safe any (cv_accept eps cfg ms i).
Proof. induction ms as [|m l IH]; intros; cbn [cv_accept]; sff. Qed.
Lemma cv_step_safe eps cfg s e : safe any (cv_step eps cfg s e).
Proof.
  unfold cv_step, cv_tick, cv_bids. sff; try apply cv_trades_safe; try apply cv_accept_safe.
  apply (safe_loop any); [exact I|]. intros. sff.
Qed.
Lemma cv_run_safe eps cfg es : forall s, safe any (cv_run eps cfg s es).
Proof. induction es as [|e es IH]; intros s; cbn [cv_run]; sff. apply cv_step_safe. Qed.
End Conversion.

(** ** Separations *)
Section Separations.
Import SeparationsModel.
Lemma sp_material_safe effs m : safe any (sep_material effs m).
Proof. unfold sep_material. sff. Qed.
Lemma sp_enter_safe eps cfg s : safe any (sp_enter eps cfg s).
Proof. unfold sp_enter. sff. apply (safe_loop any); [exact I|]. intros. unfold set_cap. sff. Qed.
Lemma sp_tick_safe eps cfg s : safe any (sp_tick eps cfg s).
Proof.
  unfold sp_tick. sff.
  - apply (safe_loop any); [exact I|]. intros [? ?] a _ _. unfold stage_one. sff; apply sp_material_safe.
  - apply (safe_loop any); [exact I|]. intros [[[? ?] ?] ?] [? ?] _ _. unfold extract_one. sff.
Qed.
Lemma sp_step_safe eps recipe cfg prefs s e : List.length prefs = List.length (pc_feed_commods cfg) -> pc_feed_commods cfg <> [] ->
  safe any (sp_step eps recipe cfg prefs s e).
Proof.
  intros L N. assert (max_index prefs < List.length (pc_feed_commods cfg))%nat as M.
  { rewrite <- L. apply max_index_bound. intros ->. destruct (pc_feed_commods cfg); [congruence|discriminate]. }
  unfold sp_step, sp_requests, sp_trades, sp_accept. sff; try apply sp_tick_safe; try (apply safe_at; exact M).
  - apply (safe_loop any); [exact I|]. intros l i H _. apply in_seq in H. sff; apply safe_at; lia.
  - apply (safe_loop any); [exact I|]. intros [? ?] [? ?] _ _. unfold trade_one. sff.
  - apply (safe_loop any); [exact I|]. intros. sff.
Qed.
Lemma sp_run_safe eps recipe cfg prefs es : forall s, List.length prefs = List.length (pc_feed_commods cfg) -> pc_feed_commods cfg <> [] ->
  safe any (sp_run eps recipe cfg prefs s es).
Proof. induction es as [|e es IH]; intros s L N; cbn [sp_run]; sff. apply sp_step_safe; auto. Qed.
Lemma sp_life_safe eps recipe cfg s0 s prefs es : sp_enter eps cfg s0 = Ok (s, prefs) -> pc_feed_commods cfg <> [] ->
  pc_feed_prefs cfg = [] \/ List.length (pc_feed_prefs cfg) = List.length (pc_feed_commods cfg) ->
  safe any (sp_run eps recipe cfg prefs s es).
Proof.
  intros E N L. apply sp_run_safe; [|exact N]. unfold sp_enter in E. destruct (loop _ _ _); cbn in E; try discriminate.
  destruct (existsb _ _); [discriminate|]. injection E as <- <-. destruct (pc_feed_prefs cfg); [now rewrite map_length|].
  destruct L; [discriminate|assumption].
Qed.
End Separations.

(** ** Mixer *)
Section Mixer.
Import MixerModel.
Lemma mx_caps_safe eps strs : forall bs, safe (fun r => List.length r = List.length bs) (mx_caps eps strs bs).
Proof.
  induction strs as [|st l IH]; intros [|b bs]; cbn [mx_caps]; try reflexivity.
  eapply (safe_bind any); [unfold mx_set_cap; sff|]. intros b' _. eapply safe_bind; [apply IH|]. intros r H. cbn. congruence.
Qed.
Definition mx_inv (cfg : mx_cfg) (s : mx_state) : Prop :=
  List.length (xs_ratios s) = List.length (xc_streams cfg) /\ List.length (xs_bufs s) = List.length (xc_streams cfg).
Lemma mx_normalise_len rs : List.length (mx_normalise rs) = List.length rs.
Proof. unfold mx_normalise. destruct (negb _); now rewrite map_length. Qed.
Lemma mx_enter_safe eps cfg s : List.length (xs_bufs s) = List.length (xc_streams cfg) -> safe (mx_inv cfg) (mx_enter eps cfg s).
Proof.
  intro H. unfold mx_enter. eapply safe_bind; [apply mx_caps_safe|]. intros bs L. cbn. split; cbn; [rewrite mx_normalise_len; now rewrite map_length|congruence].
Qed.
Lemma mx_blend_safe eps tgt rs : forall acc bs, rs <> [] \/ acc <> None -> bs <> [] \/ acc <> None ->
  safe (fun r => fst r <> None /\ List.length (snd r) = List.length bs) (mx_blend eps tgt acc rs bs).
Proof.
  induction rs as [|r rs IH]; intros acc bs H1 H2.
  - destruct H1 as [H1|H1]; [congruence|]. cbn. split; [exact H1|reflexivity].
  - destruct bs as [|b bs]; [destruct H2 as [H2|H2]; [congruence|]; cbn; split; [exact H2|reflexivity]|].
    cbn [mx_blend]. eapply (safe_bind any); [apply s_bpop_tol|]. intros [m b'] _. cbv zeta. eapply safe_bind; [apply IH; right; discriminate|].
    intros [acc2 r2] [A B]. cbn in *. split; [exact A|congruence].
Qed.
Lemma mx_tick_safe eps cfg s : xc_streams cfg <> [] -> mx_inv cfg s -> safe (fun r => mx_inv cfg (fst r)) (mx_tick eps cfg s).
Proof.
  intros N [H1 H2]. unfold mx_tick. eapply (safe_bind (mx_inv cfg)).
  - destruct (Qltb _ _); [|split; assumption]. cbv zeta. destruct (Qltb _ _); [|split; assumption].
    eapply safe_bind; [apply mx_blend_safe; left; intro E; rewrite E in *; destruct (xc_streams cfg); [congruence|discriminate|congruence|discriminate]|].
    intros [acc bs] [A B]. cbn in A, B. destruct acc; [|congruence]. eapply (safe_bind any); [apply s_push|]. intros o _. cbn. split; cbn; congruence.
  - intros s' H. exact H.
Qed.
Lemma mx_push_at_safe eps i : forall m bs, safe (fun r => List.length r = List.length bs) (mx_push_at eps i m bs).
Proof.
  induction i as [|i IH]; intros m [|b bs]; cbn [mx_push_at]; try exact I.
  - eapply (safe_bind any); [apply s_push|]. reflexivity.
  - eapply safe_bind; [apply IH|]. intros r H. cbn. congruence.
Qed.
Lemma mx_step_safe eps cfg s e : xc_streams cfg <> [] -> mx_inv cfg s -> safe (fun r => mx_inv cfg (fst r)) (mx_step eps cfg s e).
Proof.
  intros N H. unfold mx_step. eapply safe_bind; [apply mx_tick_safe; eassumption|]. intros [s1 sup] [A B]. cbn [fst] in *.
  eapply (safe_bind (fun r => mx_inv cfg (fst r))).
  { unfold mx_sell. eapply (safe_bind any); [apply (safe_loop any); [exact I|]; intros; sff|]. intros [o ms] _. split; cbn; assumption. }
  intros [s2 sh] [A2 B2]. cbn [fst] in *. cbv zeta. eapply (safe_bind (mx_inv cfg)).
  { unfold mx_accept. eapply (safe_bind (fun bs : list buf => List.length bs = List.length (xc_streams cfg))).
    - apply safe_loop; [exact B2|]. intros bs [j m] _ L. cbn [fst snd]. destruct (nth_error _ _); [|exact I].
      eapply safe_weaken; [apply mx_push_at_safe|]. cbn. intros. congruence.
    - intros bs L. split; cbn; assumption. }
  intros s3 H3. exact H3.
Qed.
Lemma mx_run_safe eps cfg es : forall s, xc_streams cfg <> [] -> mx_inv cfg s -> safe any (mx_run eps cfg s es).
Proof.
  induction es as [|e es IH]; intros s N H; cbn [mx_run]; [exact I|]. eapply safe_bind; [apply mx_step_safe; eassumption|].
  intros [s1 o] H1. cbn in H1. sff.
Qed.
Lemma mx_life_safe eps cfg s es : xc_streams cfg <> [] -> mx_enter eps cfg (mx_new cfg) = Ok s -> safe any (mx_run eps cfg s es).
Proof.
  intros N E. apply mx_run_safe; [exact N|]. pose proof (mx_enter_safe eps cfg (mx_new cfg)) as H. rewrite E in H. apply H. cbn. apply map_length.
Qed.
End Mixer.

(** ** FuelFab *)
Section FuelFab.
Import FuelFabModel.
Lemma ff_enter_safe cfg : safe any (ff_enter cfg).
Proof. unfold ff_enter, ff_prefs. sff. Qed.
Lemma ff_high nz a b c : safe any (high_frac nz a b c). Proof. unfold high_frac. sff. Qed.
Lemma ff_low nz a b c : safe any (low_frac nz a b c). Proof. unfold low_frac. sff. apply ff_high. Qed.
Lemma ff_peek b : safe any (b_peek b). Proof. unfold b_peek. sff. Qed.
Hint Resolve ff_high ff_low ff_peek : sfdb.
Lemma ff_offers_safe nz D cfg st n reqs : forall j, safe any (ff_offers nz D cfg st n j reqs).
Proof. induction reqs as [|[c q] l IH]; intros; cbn [ff_offers]; sff. unfold ff_offer. sff. Qed.
Lemma ff_loop_safe eps nz D cfg a b c trades : forall tot s, safe any (ff_trade_loop eps nz D cfg a b c tot s trades).
Proof. induction trades as [|[tgt q] l IH]; intros; cbn [ff_trade_loop]; sff. unfold ff_trade1. sff. Qed.
Hint Resolve ff_offers_safe ff_loop_safe : sfdb.
Lemma ff_step_safe eps nz D recipe cfg prefs s e : safe any (ff_step eps nz D recipe cfg prefs s e).
Proof.
  unfold ff_step, ff_requests, ff_req1, ff_get_bids, ff_weigh, ff_trades, ff_accept, ff_squash, get_recipe. sff.
  apply (safe_loop any); [exact I|]. intros ? [? ?] _ _. unfold ff_accept1. sff.
Qed.
Lemma ff_run_safe eps nz D recipe cfg prefs es : forall s, safe any (ff_run eps nz D recipe cfg prefs s es).
Proof. induction es as [|e es IH]; intros s; cbn [ff_run]; sff. apply ff_step_safe. Qed.
End FuelFab.

(** ** Enrichment *)
Section Enrichment.
Import EnrichmentModel.
Lemma en_recipe_safe recipe n : safe any (en_recipe recipe n). Proof. unfold en_recipe. sff. Qed.
Lemma en_blend_safe eps b : safe any (blend eps b). Proof. unfold blend. sff. Qed.
Hint Resolve en_recipe_safe en_blend_safe : sfdb.
Lemma en_feed_safe eps b : safe any (feed_assay eps b). Proof. unfold feed_assay. sff. Qed.
Hint Resolve en_feed_safe : sfdb.
Lemma en_build_safe eps recipe cfg : safe any (en_build eps recipe cfg).
Proof. unfold en_build. sff. Qed.
Definition has_swu (s : en_state) : Prop := es_swu s <> None.
Definition has_all (s : en_state) : Prop := es_swu s <> None /\ es_iswu s <> None /\ es_ifeed s <> None.
Lemma oplus_safe a x : a <> None -> safe (fun r => r <> None) (oplus a x).
Proof. destruct a; cbn; [discriminate|congruence]. Qed.
Lemma en_get_bids_safe eps eg aw cfg tr pr s : has_swu s -> safe (fun r => has_swu (fst r)) (en_get_bids eps eg aw cfg tr pr s).
Proof.
  intro H. unfold en_get_bids. cbv zeta. destruct pr; [exact H|]. destruct (Qltb 0 (b_qty (es_inv s))); [|exact H].
  eapply (safe_bind any); [apply en_feed_safe|]. intros [? ?] _. eapply (safe_bind any); [apply en_feed_safe|]. intros [? ?] _. exact H.
Qed.
Lemma en_enrich_safe eps eg V cfg s o q : has_all s -> safe (fun r => has_all (fst (fst r))) (en_enrich eps eg V cfg s o q).
Proof.
  intros (A & B & C). unfold en_enrich. eapply (safe_bind any); [apply en_feed_safe|]. intros [fa b0] _. cbv zeta.
  eapply (safe_bind any); [apply en_blend_safe|]. intros [natu b1] _.
  destruct (swu_required _ _ _); [|exact I]. destruct (feed_qty _ _); [|exact I]. destruct (Qeq_bool _ _); [exact I|].
  eapply (safe_bind any); [destruct (almost_eq _ _ _); [destruct (squash _)|destruct (b_pop_tol _ _ _)]; exact I|]. intros [r b2] _.
  eapply (safe_bind any); [apply s_extract_comp|]. intros [resp rest] _. eapply (safe_bind any); [apply s_push|]. intros t _.
  eapply safe_bind; [apply oplus_safe; exact A|]. intros x1 H1. eapply safe_bind; [apply oplus_safe; exact B|]. intros x2 H2.
  eapply safe_bind; [apply oplus_safe; exact C|]. intros x3 H3. cbn. repeat split; assumption.
Qed.
Lemma en_trade1_safe eps eg V cfg s t : has_all s -> safe (fun r => has_all (fst (fst r))) (en_trade1 eps eg V cfg s t).
Proof.
  intro H. unfold en_trade1. destruct (String.eqb _ _).
  - eapply (safe_bind any); [apply s_bpop_tol|]. intros [m b] _. exact H.
  - eapply safe_bind; [apply en_enrich_safe; exact H|]. intros [[s' m] r] H'. exact H'.
Qed.
Lemma en_loop_safe eps eg V cfg ts : forall s, has_all s -> safe (fun r => has_all (fst (fst r))) (en_trade_loop eps eg V cfg s ts).
Proof.
  induction ts as [|t ts IH]; intros s H; cbn [en_trade_loop]; [exact H|].
  eapply safe_bind; [apply en_trade1_safe; exact H|]. intros [[s1 m] r] H1. cbn [fst] in H1.
  eapply safe_bind; [apply IH; exact H1|]. intros [[s2 ms] rs] H2. exact H2.
Qed.
Lemma en_step_safe eps eg V aw recipe cfg s e : safe any (en_step eps eg V aw recipe cfg s e).
Proof.
  unfold en_step. cbv zeta. eapply (safe_bind any); [unfold en_requests; sff|]. intros rq _.
  eapply safe_bind; [apply en_get_bids_safe; cbn; discriminate|]. intros [s2 bids] H. cbn [fst] in H.
  eapply (safe_bind any).
  - destruct (ee_trades e) as [|t ts]; [exact I|]. unfold en_trades. cbv zeta.
    eapply safe_bind; [apply en_loop_safe; repeat split; cbn; [exact H|discriminate|discriminate]|]. intros [[s1 ms] rs] (A & B & C). cbn [fst] in *.
    destruct (is_negative _ _); [exact I|]. destruct (es_swu s1); [|congruence]. destruct (is_negative _ _); exact I.
  - intros [[s3 ms] rs] _. unfold en_accept. sff. apply (safe_loop any); [exact I|]. intros. sff.
Qed.
Lemma en_run_safe eps eg V aw recipe cfg es : forall s, safe any (en_run eps eg V aw recipe cfg s es).
Proof. induction es as [|e es IH]; intros s; cbn [en_run]; sff. apply en_step_safe. Qed.
Lemma en_adjust_safe cfg bids : ec_order_prefs cfg = false \/ all_comparable bids = true -> safe any (en_adjust cfg bids).
Proof.
  intros H. unfold en_adjust. destruct (ec_order_prefs cfg); [|exact I]. destruct H as [H|H]; [discriminate|].
  unfold sort_bids. rewrite H. sff.
Qed.
End Enrichment.

(** ** Sink *)
Section Sink.
Import SinkModel.
Lemma sk_enter_safe cfg g t s : safe (fun s' => List.length (ks_prefs s') = List.length (kc_commods cfg)) (sk_enter cfg g t s).
Proof.
  unfold sk_enter. eapply (safe_bind (fun p : list Q => List.length p = List.length (kc_commods cfg))).
  - destruct (ks_prefs s); [cbn; apply map_length|]. destruct (Nat.eqb _ _) eqn:E; [|exact I]. apply Nat.eqb_eq in E. exact E.
  - intros p L. exact L.
Qed.
Lemma sk_accept_safe eps cfg rs : forall s, safe (fun s' => ks_prefs s' = ks_prefs s) (sk_accept eps cfg rs s).
Proof.
  induction rs as [|r rs IH]; intros s; cbn [sk_accept]; [reflexivity|]. destruct (Qltb _ _); [exact I|]. eapply safe_weaken; [apply IH|]. auto.
Qed.
Lemma sk_step_safe eps eg recipe cfg t s e : kc_commods cfg <> [] -> List.length (ks_prefs s) = List.length (kc_commods cfg) ->
  safe (fun r => List.length (ks_prefs (fst r)) = List.length (kc_commods cfg)) (sk_step eps eg recipe cfg t s e).
Proof.
  intros N L. unfold sk_step. eapply (safe_bind (fun r : sk_state * list (string * Q) => ks_prefs (fst r) = ks_prefs s)).
  { unfold sk_tick. cbv zeta. destruct (Qltb _ _); cbn.
    - eapply (safe_bind any); [apply safe_at; destruct (kc_commods cfg); [congruence|cbn; lia]|]. intros _ _. cbn.
      destruct (Z.eqb _ _); [|destruct (Z.eqb _ _)]; reflexivity.
    - destruct (Z.eqb _ _); [|destruct (Z.eqb _ _)]; reflexivity. }
  intros [s1 d] E1. cbn [fst] in E1. eapply (safe_bind (fun r : sk_state * option sk_mreq => ks_prefs (fst r) = ks_prefs s)).
  { unfold sk_mat_requests. cbv zeta. eapply (safe_bind any); [sff|]. intros c _. destruct (Qltb eg _).
    - eapply (safe_bind any).
      + apply (safe_loop any); [exact I|]. intros acc i Hi _. apply in_seq in Hi. eapply (safe_bind any); [apply safe_at; lia|]. intros cm _.
        eapply (safe_bind any); [|intros p _; exact I]. apply safe_at. destruct (Qltb _ _); cbn [ks_prefs]; rewrite E1, L; lia.
      + intros items _. cbn. destruct (Qltb _ _); exact E1.
    - cbn. destruct (Qltb _ _); exact E1. }
  intros [s2 mr] E2. cbn [fst] in E2. eapply safe_bind; [apply sk_accept_safe|]. intros s3 E3. cbv zeta. eapply safe_bind; [apply sk_accept_safe|]. intros s4 E4.
  cbn. rewrite E4, E3, E2. exact L.
Qed.
Lemma sk_run_safe eps eg recipe cfg es : forall t s, kc_commods cfg <> [] -> List.length (ks_prefs s) = List.length (kc_commods cfg) ->
  safe any (sk_run eps eg recipe cfg t s es).
Proof.
  induction es as [|e es IH]; intros t s N L; cbn [sk_run]; [exact I|]. eapply safe_bind; [apply sk_step_safe; assumption|].
  intros [s1 o] L1. cbn [fst] in L1. sff.
Qed.
Lemma sk_life_safe eps eg recipe cfg g t s es t' : kc_commods cfg <> [] -> sk_enter cfg g t (sk_new cfg) = Ok s ->
  safe any (sk_run eps eg recipe cfg t' s es).
Proof. intros N E. apply sk_run_safe; [exact N|]. pose proof (sk_enter_safe cfg g t (sk_new cfg)) as H. rewrite E in H. exact H. Qed.
End Sink.

(** ** Source *)
Section Source.
Import SourceModel.
Lemma sr_bids_for_safe recipe cfg j m fs : safe any (sr_bids_for recipe cfg j m fs).
Proof. induction fs as [|f fs IH]; cbn [sr_bids_for]; sff. Qed.
Hint Resolve sr_bids_for_safe : sfdb.
Lemma sr_bids_loop_safe recipe cfg fill ship q ts : forall j, safe any (sr_bids_loop recipe cfg fill ship q j ts).
Proof. induction ts as [|t ts IH]; intros; cbn [sr_bids_loop]; sff. Qed.
Lemma sr_split_safe fs : forall m, safe any (split_packages fs m).
Proof. induction fs as [|f fs IH]; intros; cbn [split_packages]; sff. Qed.
Hint Resolve sr_bids_loop_safe sr_split_safe : sfdb.
Lemma sr_loop_safe eps eg cfg fill ts : forall i k b, safe any (sr_trade_loop eps eg cfg fill i k ts b).
Proof. induction ts as [|[q m] ts IH]; intros; cbn [sr_trade_loop]; sff. Qed.
Hint Resolve sr_loop_safe : sfdb.
Lemma sr_step_safe eps eg recipe cfg s e : safe any (sr_step eps eg recipe cfg s e).
Proof. unfold sr_step, sr_get_bids, sr_get_trades. sff. Qed.
Lemma sr_run_safe eps eg recipe cfg es : forall s, safe any (sr_run eps eg recipe cfg s es).
Proof. induction es as [|e es IH]; intros s; cbn [sr_run]; sff. apply sr_step_safe. Qed.
Lemma sr_build_safe eps recipe cfg : safe any (sr_build eps recipe cfg). Proof. unfold sr_build. sff. Qed.
End Source.

(** ** Institutions and region *)
Section Inst.
Import InstModel.
Lemma create_safe reg n : safe any (create reg n). Proof. unfold create. sff. Qed.
Hint Resolve create_safe : sfdb.
Lemma di_enter_ok cfg : di_enter cfg = Ok tt -> List.length (di_times cfg) = List.length (di_protos cfg) /\
  List.length (di_nbuild cfg) = List.length (di_protos cfg).
Proof.
  unfold di_enter. destruct (Nat.eqb_spec (List.length (di_times cfg)) (List.length (di_protos cfg))); [|discriminate]. cbn [negb].
  destruct (Nat.eqb_spec (List.length (di_nbuild cfg)) (List.length (di_protos cfg))); [|discriminate]. auto.
Qed.
Lemma di_build_safe strict now cfg reg : safe any (di_build strict now cfg reg).
Proof.
  unfold di_build. destruct (di_enter cfg) as [[]|e| |] eqn:E; cbn [bind]; [|exact I| |].
  - destruct (di_enter_ok cfg E) as [L1 L2]. eapply (safe_bind any); [|intros ? _; exact I]. apply (safe_loop any); [exact I|].
    intros st i Hi _. apply in_seq in Hi. unfold di_entry. eapply (safe_bind any).
    + unfold di_name, add_proto. eapply (safe_bind any); [apply safe_at; lia|]. intros p _. destruct (Nat.eqb_spec (List.length (di_lifes cfg)) (List.length (di_protos cfg))) as [L|L]; [|exact I].
      eapply (safe_bind any); [apply create_safe|]. intros a _. eapply (safe_bind any); [apply safe_at; lia|]. intros l _. sff.
    + intros [nm st1] _. eapply (safe_bind any); [apply safe_at; lia|]. intros t _. eapply (safe_bind any); [apply safe_at; lia|]. intros n _. sff.
      apply (safe_loop any); [exact I|]. intros. unfold sched_time. sff.
  - exfalso. unfold di_enter in E. repeat match type of E with context [if ?b then _ else _] => destruct b end; discriminate.
  - exfalso. unfold di_enter in E. repeat match type of E with context [if ?b then _ else _] => destruct b end; discriminate.
Qed.
Lemma di_all_safe strict now cfgs reg : safe any (di_build_all strict now cfgs reg).
Proof. unfold di_build_all. apply (safe_loop any); [exact I|]. intros. sff. apply di_build_safe. Qed.
Lemma deployed_safe reg sched t : safe any (deployed reg sched t).
Proof. unfold deployed. apply (safe_loop any); [exact I|]. intros. sff. Qed.
Lemma in_start_safe reg protos k cs : safe any (in_start reg protos k cs).
Proof. unfold in_start, in_enter, mi_builder. sff. apply (safe_loop any); [exact I|]. intros. sff. Qed.
Lemma in_run_safe reg protos es : forall s, safe any (in_run reg protos s es).
Proof. intro s. unfold in_run. apply (safe_loop any); [exact I|]. intros. unfold in_step. sff. apply in_start_safe. Qed.
End Inst.
Section Region.
Import InstModel RegionModel.
Lemma rg_start_safe (bff : basic) cfg cs : (forall a b, safe any (bff a b)) -> safe any (rg_start bff cfg cs).
Proof.
  intro B. unfold rg_start. cbv zeta. eapply (safe_bind any); [|intros ? _; exact I]. apply (safe_loop any); [exact I|].
  intros acc e _ _. eapply (safe_bind any); [|intros ? _; exact I]. unfold rg_demand_fun. eapply (safe_bind any); [|intros [? ?] _; exact I].
  apply (safe_loop any); [exact I|]. intros [p c] e' _ _. eapply (safe_bind any); [apply B|]. intros f _. unfold pw_add. sff.
Qed.
Lemma rg_run_safe (bff : basic) cfg es : (forall a b, safe any (bff a b)) -> forall s, safe any (rg_run bff cfg s es).
Proof. intros B s. unfold rg_run. apply (safe_loop any); [exact I|]. intros. unfold rg_step. sff. apply rg_start_safe. exact B. Qed.
Lemma rg_life_safe reg cfg s es : forall now st, safe any (rg_life reg cfg s now st es).
Proof.
  induction es as [|e es IH]; intros now st; cbn [rg_life]; [exact I|]. sff. unfold rg_time, rg_tick, build_all. eapply (safe_bind any).
  - apply (safe_loop any); [exact I|]. intros acc x _ _. unfold demand_at, order_builds. sff. apply (safe_loop any); [exact I|]. intros. sff.
  - intros sched _. apply (safe_loop any); [exact I|]. intros [w n] b _ _. sff. apply create_safe.
Qed.
End Region.
