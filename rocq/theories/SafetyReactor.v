(** Proofs for C110: the Reactor. *)
From Coq Require Import List ZArith Lia.
From Verif Require KernelBuf StorageModel MixerModel.
From Verif Require Import Outcome KernelMaterial KernelResBuf ReactorModel ReactorSpec ReactorTradeProofs KernelBufFacts SafetySpec SafetyProofs.
Local Open Scope Z_scope.

Lemma r_pushv eps b ms : safe any (rb_pushv eps b ms). Proof. unfold rb_pushv. sff. Qed.
Lemma r_push eps b m : safe any (rb_push eps b m). Proof. unfold rb_push. sff. Qed.
Lemma r_popn b n : safe (fun r => rb_items (snd r) = skipn (Z.to_nat n) (rb_items b) /\ 0 <= n <= rb_count b) (rb_popn b n).
Proof. unfold rb_popn. destruct (n <? 0) eqn:E1; [exact I|]. destruct (rb_count b <? n) eqn:E2; [exact I|]. cbn. split; [reflexivity|lia]. Qed.
Lemma r_popn' b n : safe any (rb_popn b n). Proof. eapply safe_weaken; [apply r_popn|]. intros; exact I. Qed.
Lemma r_pop b : safe (fun r => S (List.length (rb_items (snd r))) = List.length (rb_items b)) (rb_pop b).
Proof. unfold rb_pop. destruct (rb_items b); [exact I|reflexivity]. Qed.
#[global] Hint Resolve r_pushv r_push r_popn' : sfdb.

Section Reactor.
Variable (eps : Q) (recipe : string -> option comp) (cfg : rx_cfg).

(** Tables untouched. *)
Definition same (s s' : rx_state) : Prop := prefs s' = prefs s /\ inrecipes s' = inrecipes s /\ outrecipes s' = outrecipes s.
Lemma same_refl s : same s s. Proof. repeat split. Qed.
Lemma same_trans a b c : same a b -> same b c -> same a c. Proof. intros (A & B & C) (D & E & F). repeat split; congruence. Qed.
Lemma same_tables s s' : same s s' -> tables_complete cfg s -> tables_complete cfg s'.
Proof. intros (A & B & C) []. constructor; congruence || assumption. Qed.

Lemma get_recipe_safe r : safe any (get_recipe recipe r). Proof. unfold get_recipe. sff. Qed.
Lemma outrecipe_safe s m : safe any (fuel_outrecipe s m). Proof. unfold fuel_outrecipe. sff. Qed.
Lemma outcommod_safe s m : safe any (fuel_outcommod cfg s m). Proof. unfold fuel_outcommod. sff. Qed.
Hint Resolve get_recipe_safe outrecipe_safe outcommod_safe : sfdb.

Lemma transmute_safe n s : safe (fun r => same s (fst r)) (transmute_core eps recipe n s).
Proof.
  unfold transmute_core. eapply (safe_bind any); [apply r_popn'|]. intros [old c1] _. eapply (safe_bind any); [apply r_pushv|]. intros c2 _.
  eapply (safe_bind any); [sff|]. intros c3 _. eapply (safe_bind any); [apply (safe_loop any); [exact I|]; intros; sff|]. intros items _. cbn. repeat split.
Qed.
Lemma peek_safe s : safe (fun r => same s (snd r) /\ core (snd r) = core s) (peek_spent eps cfg s).
Proof.
  unfold peek_spent. eapply (safe_bind any); [apply r_popn'|]. intros [mats b1] _. eapply (safe_bind any); [apply r_pushv|]. intros b2 _. cbv zeta.
  eapply (safe_bind any); [apply (safe_loop any); [exact I|]; intros; sff|]. intros mp _. cbn. repeat split.
Qed.
Lemma discharge_safe s : safe (fun r => same s (fst (fst r)) /\
  (snd r = true -> 1 <= n_batch cfg -> 0 < rb_count (core s) -> (List.length (rb_items (core (fst (fst r)))) < List.length (rb_items (core s)))%nat))
  (discharge eps cfg s).
Proof.
  unfold discharge. cbv zeta. destruct (_ <? _); [split; [apply same_refl|discriminate]|].
  eapply safe_bind; [apply r_popn|]. intros [ms c1] [E R]. cbn [snd] in E. eapply (safe_bind any); [apply r_pushv|]. intros sp _.
  eapply (safe_bind (fun r : rx_state * list event => same s (fst r) /\ core (fst r) = c1)).
  - apply safe_loop; [cbn; repeat split|]. intros [s1 ev] c _ [H1 H2]. cbn [fst snd] in *. eapply safe_bind; [apply peek_safe|].
    intros [mp s'] [H3 H4]. cbn in *. split; [eapply same_trans; eassumption|congruence].
  - intros [s2 evs] [H1 H2]. cbn [fst snd] in *. split; [exact H1|]. cbn [fst snd]. intros _ B C. rewrite H2, E, skipn_length. unfold rb_count, zlen in *. lia.
Qed.
Lemma load_safe s : safe (fun r => same s (fst r)) (load eps cfg s).
Proof.
  unfold load. cbv zeta. destruct (_ =? 0); [apply same_refl|]. eapply (safe_bind any); [apply r_popn'|]. intros [ms f1] _.
  eapply (safe_bind any); [apply r_pushv|]. intros c1 _. cbn. repeat split.
Qed.
Lemma drain_core_safe k : forall s, 1 <= n_batch cfg -> (List.length (rb_items (core s)) < k)%nat -> safe (fun r => same s (fst r)) (drain_core eps cfg k s).
Proof.
  induction k as [|k IH]; intros s B L; [lia|]. cbn [drain_core]. destruct (Z.ltb_spec 0 (rb_count (core s))) as [P|P]; [|apply same_refl].
  eapply safe_bind; [apply discharge_safe|]. intros [[s1 ev] ok] [H1 H2]. cbn [fst snd] in *. destruct ok; [|exact H1].
  specialize (H2 eq_refl B P). eapply safe_bind; [apply IH; [exact B|lia]|]. intros [s2 ev2] H3. cbn in *. eapply same_trans; eassumption.
Qed.
Lemma drain_fresh_safe k : forall s, (List.length (rb_items (fresh s)) < k)%nat -> safe (same s) (drain_fresh eps cfg k s).
Proof.
  induction k as [|k IH]; intros s L; [lia|]. cbn [drain_fresh]. destruct (_ && _)%bool; [|apply same_refl].
  eapply safe_bind; [apply r_pop|]. intros [m f1] E. cbn [snd] in E. eapply (safe_bind any); [apply r_push|]. intros sp _.
  eapply safe_weaken; [apply IH; cbn; lia|]. intros s' H. exact H.
Qed.
Lemma changes_safe t s : tables_complete cfg s -> safe (tables_complete cfg) (apply_changes cfg t s).
Proof.
  intro H. unfold apply_changes. assert (FC : forall c j i, find_commod c (incommods cfg) i = Some j -> (i <= j < i + List.length (incommods cfg))%nat).
  { induction (incommods cfg) as [|c' l IH]; cbn [find_commod]; intros c j i E; [discriminate|]. destruct (String.eqb c' c); [injection E as <-; cbn; lia|].
    apply IH in E. cbn [List.length]. lia. }
  eapply safe_bind.
  - apply (safe_loop (tables_complete cfg)); [exact H|]. intros s' i Hi T. pose proof T as T'. destruct T as [t1 t2 t3 t4 t5 (c1 & c2 & c3 & c4 & c5) t7 t8].
    apply in_seq in Hi. unfold pref_change. eapply (safe_bind any); [apply safe_at; lia|]. intros ct _. destruct (negb _); [exact T'|].
    eapply (safe_bind any); [apply safe_at; lia|]. intros c _. destruct (find_commod _ _ _) as [j|] eqn:F; [|exact T'].
    apply FC in F. eapply (safe_bind any); [apply safe_at; lia|]. intros v _. eapply safe_bind; [apply safe_set; lia|].
    intros p L. cbn. constructor; cbn; try assumption; try congruence. repeat split; assumption.
  - intros s1 H1. apply (safe_loop (tables_complete cfg)); [exact H1|]. intros s' i Hi T. pose proof T as T'. destruct T as [t1 t2 t3 t4 t5 (c1 & c2 & c3 & c4 & c5) t7 t8].
    apply in_seq in Hi. unfold recipe_change. eapply (safe_bind any); [apply safe_at; lia|]. intros ct _. destruct (negb _); [exact T'|].
    eapply (safe_bind any); [apply safe_at; lia|]. intros c _. destruct (find_commod _ _ _) as [j|] eqn:F; [|exact T'].
    apply FC in F. eapply (safe_bind any); [apply safe_at; lia|]. intros v _. eapply safe_bind; [apply safe_set; lia|]. intros p L.
    eapply (safe_bind any); [apply safe_at; lia|]. intros v' _. eapply safe_bind; [apply safe_set; lia|].
    intros p' L'. cbn. constructor; cbn; try assumption; try congruence. repeat split; assumption.
Qed.
Lemma tick_safe t s : tables_complete cfg s -> safe (fun r => tables_complete cfg (fst r)) (tick eps recipe cfg t s).
Proof.
  intro H. unfold tick. destruct (retired cfg t).
  - unfold tick_retired. eapply (safe_bind (fun r : rx_state * list event => same s (fst r))); [destruct (_ =? _); [apply transmute_safe|apply same_refl]|].
    intros [s1 e1] H1. cbn [fst] in H1. eapply safe_bind; [apply drain_core_safe; [apply H|lia]|]. intros [s2 e2] H2. cbn [fst] in H2.
    eapply safe_bind; [apply drain_fresh_safe; lia|]. intros s3 H3. cbn. eapply same_tables; [|exact H]. eapply same_trans; [eapply same_trans|]; eassumption.
  - eapply (safe_bind (fun r : rx_state * list event => same s (fst r))).
    { destruct (_ =? _); [|apply same_refl]. eapply safe_bind; [apply transmute_safe|]. intros [s' e] H'. exact H'. }
    intros [s1 e1] H1. cbn [fst] in H1. eapply (safe_bind (fun r : rx_state * list event => same s (fst r))).
    { destruct (_ && _)%bool; [|exact H1]. eapply safe_bind; [apply discharge_safe|]. intros [[s' e] ok] [H' _]. cbn in *. eapply same_trans; [exact H1|]. exact H'. }
    intros [s2 e2] H2. cbn [fst] in H2. eapply (safe_bind (fun r : rx_state * list event => same s (fst r))).
    { destruct (_ <=? _); [|exact H2]. eapply safe_weaken; [apply load_safe|]. intros r Hr. eapply same_trans; eassumption. }
    intros [s3 e3] H3. cbn [fst] in H3. eapply safe_bind; [apply changes_safe; eapply same_tables; eassumption|]. intros s4 H4. exact H4.
Qed.
Lemma requests_safe t s : tables_complete cfg s -> safe any (get_requests recipe cfg t s).
Proof.
  intros [t1 t2 t3 t4 t5 t6 t7 t8]. unfold get_requests. cbv zeta. eapply (safe_bind any).
  - destruct (exit_t cfg =? -1) eqn:E; [exact I|]. eapply (safe_bind any); [|intros; exact I]. unfold n_need. cbv zeta.
    destruct t8 as [t8|t8]; [lia|]. destruct (Z.eqb_spec (cycle_t cfg + refuel_t cfg) 0); [lia|exact I].
  - intros order _. destruct (_ =? 0); [exact I|]. destruct (retired cfg t); [exact I|]. apply (safe_loop any); [exact I|]. intros st i _ _.
    eapply (safe_bind any).
    + unfold portfolio. apply (safe_loop any); [exact I|]. intros acc j Hj _. apply in_seq in Hj.
      eapply (safe_bind any); [apply safe_at; lia|]. intros c _. eapply (safe_bind any); [apply safe_at; lia|]. intros p _.
      eapply (safe_bind any); [apply safe_at; lia|]. intros rn _. eapply (safe_bind any); [apply get_recipe_safe|]. intros; exact I.
    + intros p _. eapply (safe_bind any); [|intros; exact I]. apply safe_at. rewrite <- t2. apply max_index_bound.
      intro E. rewrite E in t2. destruct (incommods cfg); [congruence|discriminate].
Qed.
Lemma bids_safe s reqs : safe any (get_bids eps cfg s reqs).
Proof.
  unfold get_bids. apply (safe_loop any); [exact I|]. intros acc c _ _. eapply (safe_bind any); [|intros; exact I]. unfold bids_for.
  destruct (reqs c); [exact I|]. eapply safe_bind; [apply peek_safe|]. intros [mp s'] _. destruct (smap_get c mp); exact I.
Qed.

Definition wait (s : rx_state) (c : string) (ms : list mat) : list mat :=
  filter (fun m => match leaves_on cfg s m with Some c' => String.eqb c' c | None => false end) ms.
Lemma classify_safe s ms : forall mp0, safe (fun mp => forall c, List.length (smap_get c mp) = (List.length (smap_get c mp0) + List.length (wait s c ms))%nat)
  (loop (fun mp m => let* c := fuel_outcommod cfg s m in Ok (smap_push c m mp)) ms mp0).
Proof.
  induction ms as [|m ms IH]; intro mp0; cbn [loop]; [intro c; cbn; lia|].
  unfold fuel_outcommod at 1. unfold wait. cbn [filter]. unfold leaves_on at 1. destruct (nth_error (outcommods cfg) _) as [c0|]; [|exact I]. cbn [bind].
  eapply safe_weaken; [apply IH|]. cbn beta. intros mp H c. rewrite H, get_push. destruct (String.eqb c0 c); [rewrite app_length; cbn; unfold wait; lia|reflexivity].
Qed.
Lemma pop_spent_safe s : safe (fun r => same s (snd r) /\ forall c, zlen (smap_get c (fst r)) = zlen (waiting cfg s c)) (pop_spent cfg s).
Proof.
  unfold pop_spent. assert (rb_popn (spent s) (rb_count (spent s)) = Ok (rb_items (spent s), {| rb_cap := rb_cap (spent s); rb_items := skipn (List.length (rb_items (spent s))) (rb_items (spent s)) |})) as E.
  { unfold rb_popn, rb_count, zlen. rewrite Z.ltb_irrefl. destruct (Z.ltb_spec (Z.of_nat (List.length (rb_items (spent s)))) 0); [lia|]. cbn [orb].
    rewrite Nat2Z.id, firstn_all. reflexivity. }
  rewrite E. cbn [bind]. cbv zeta. eapply safe_bind; [apply classify_safe|]. intros mp H. cbn. split; [repeat split|]. intro c.
  rewrite (get_map _ _ _ eq_refl). unfold zlen. rewrite rev_length, H. reflexivity.
Qed.
Lemma count_cons c d l : count_commod c (d :: l) = (if String.eqb c d then 1 else 0) + count_commod c l.
Proof. unfold count_commod. cbn [filter]. destruct (String.eqb c d); unfold zlen; cbn [List.length]; lia. Qed.
Lemma serve_safe ts : forall mp s resp, (forall c, In c ts -> count_commod c ts <= zlen (smap_get c mp)) ->
  safe (fun r => same s (snd (fst r))) (loop serve_trade ts (mp, s, resp)).
Proof.
  induction ts as [|c ts IH]; intros mp s resp H; [apply same_refl|]. cbn [loop]. unfold serve_trade at 1.
  pose proof (H c (or_introl eq_refl)) as Hc. rewrite count_cons, String.eqb_refl in Hc. 
  assert (0 <= count_commod c ts) by (unfold count_commod, zlen; lia).
  destruct (rev (smap_get c mp)) as [|m r] eqn:E.
  - apply (f_equal (@List.length _)) in E. rewrite rev_length in E. unfold zlen in Hc. cbn in E. lia.
  - cbn [bind]. eapply safe_weaken; [apply IH|]; [|intros x Hx; exact Hx]. intros d Hd. specialize (H d (or_intror Hd)). rewrite count_cons in H.
    assert (smap_get c mp <> []) as NE by (intro Z0; rewrite Z0 in E; discriminate). destruct (smap_get c mp) as [|x y] eqn:G; [congruence|].
    rewrite get_set by (eapply get_nonempty_key; exact G). destruct (String.eqb c d) eqn:CD.
    + apply String.eqb_eq in CD. subst d. rewrite String.eqb_refl in H. apply (f_equal (@List.length _)) in E. rewrite rev_length in E. rewrite G in H. unfold zlen in *.
      rewrite rev_length. cbn [List.length] in *. lia.
    + assert (String.eqb d c = false) as DC by (rewrite String.eqb_sym; exact CD). rewrite DC in H. lia.
Qed.
Lemma trades_safe ts s : (forall c, In c ts -> count_commod c ts <= zlen (waiting cfg s c)) -> safe (fun r => same s (fst r)) (get_trades eps cfg ts s).
Proof.
  intro H. unfold get_trades. eapply safe_bind; [apply pop_spent_safe|]. intros [mp s1] [H1 H2]. cbn [fst snd] in *.
  eapply safe_bind; [apply serve_safe; intros c Hc; rewrite H2; apply H; exact Hc|]. intros [[mp2 s2] resp] H3. cbn [fst snd] in H3.
  eapply (safe_bind (same s)); [|intros s3 H4; exact H4]. unfold push_spent. apply safe_loop; [eapply same_trans; eassumption|].
  intros s' e _ H'. eapply (safe_bind any); [apply r_pushv|]. intros b _. exact H'.
Qed.
Lemma accept_safe ds s : safe (fun r => same s (fst r)) (accept_trades eps cfg ds s).
Proof.
  unfold accept_trades. cbv zeta. eapply (safe_bind (same s)); [|intros s' H; exact H]. apply safe_loop; [apply same_refl|]. intros s' d _ H.
  unfold accept_one, index_res. destruct (find_commod _ _ _); [|exact I]. cbn [bind]. destruct (_ <? _); (eapply (safe_bind any); [apply r_push|]); intros b _; exact H.
Qed.
Lemma tock_safe t s : tables_complete cfg s -> safe (fun r => same s (fst r)) (tock cfg t s).
Proof.
  intro H. unfold tock. destruct (retired cfg t); [apply same_refl|]. cbv zeta. eapply (safe_bind any).
  - unfold record_side. destruct (hybrid _); [|exact I]. apply (safe_loop any); [exact I|]. intros acc i Hi _. apply in_seq in Hi. destruct H.
    eapply (safe_bind any); [destruct (_ && _)%bool; [apply safe_at; lia|exact I]|]. intros v _. eapply (safe_bind any); [apply safe_at; lia|]. intros; exact I.
  - intros e2 _. cbn. repeat match goal with |- context [if ?b then _ else _] => destruct b end; repeat split.
Qed.
Lemma step_safe t s e : tables_complete cfg s -> (forall s1 ev c, tick eps recipe cfg t s = Ok (s1, ev) -> In c (e_pick e) ->
    count_commod c (e_pick e) <= zlen (waiting cfg s1 c)) ->
  safe (fun o => tables_complete cfg (o_state o)) (rx_step eps recipe cfg t s e).
Proof.
  intros H A. unfold rx_step. pose proof (tick_safe t s H) as T. destruct (tick eps recipe cfg t s) as [[s1 ev1]|er|u|] eqn:E; cbn [bind]; try exact T; try exact I.
  cbn [safe fst] in T. eapply (safe_bind any); [apply requests_safe; exact T|]. intros [reqs ev2] _. eapply (safe_bind any); [apply bids_safe|]. intros bids _.
  eapply (safe_bind (fun r : rx_state * list (string * mat) => same s1 (fst r))).
  { unfold trade_phase. destruct (e_pick e) as [|c l] eqn:P; [apply same_refl|]. apply trades_safe. intros c' Hc. exact (A s1 ev1 c' eq_refl Hc). }
  intros [s2 sh] H2. cbn [fst] in H2. eapply (safe_bind (fun r : rx_state * list event => same s1 (fst r))).
  { unfold deliver_phase. destruct (e_deliv e); [exact H2|]. eapply safe_weaken; [apply accept_safe|]. intros r Hr. eapply same_trans; eassumption. }
  intros [s3 ev3] H3. cbn [fst] in H3. eapply safe_bind; [apply tock_safe; eapply same_tables; eassumption|]. intros [s4 ev4] H4. cbn in *.
  eapply same_tables; [|exact T]. eapply same_trans; eassumption.
Qed.
Lemma run_safe es : forall t s, tables_complete cfg s -> awards_waiting eps recipe cfg t s es -> safe any (rx_run eps recipe cfg t s es).
Proof.
  induction es as [|e es IH]; intros t s H A; cbn [rx_run]; [exact I|]. destruct A as [A1 A2]. pose proof (step_safe t s e H A1) as S.
  destruct (rx_step eps recipe cfg t s e) as [o|er|u|] eqn:E; cbn [bind]; try exact S; try exact I. cbn in S.
  eapply (safe_bind any); [apply IH; [exact S|apply A2; reflexivity]|]. intros; exact I.
Qed.
Lemma enter_safe s : safe any (enter_notify cfg s). Proof. unfold enter_notify. sff. Qed.
Lemma enter_complete inr outr pf c s : enter_notify cfg (rx_new cfg inr outr pf c) = Ok s -> input_complete cfg inr outr pf -> tables_complete cfg s.
Proof.
  intros E [i1 i2 i3 i4 i5 i6 i7]. assert (A : change_tables_agree cfg).
  { unfold enter_notify in E. destruct (_ && _)%bool eqn:B in E; [|discriminate]. rewrite !Bool.andb_true_iff, !Nat.eqb_eq in B. unfold change_tables_agree. tauto. }
  unfold enter_notify in E. destruct (_ && _)%bool in E; [|discriminate]. injection E as <-. cbn [prefs rx_new].
  constructor; auto; destruct (side_products cfg) as [|x l] eqn:SP; destruct pf as [|y l']; cbn; auto; try (rewrite map_length);
    destruct i2 as [i2|[i2 i2']]; auto; try discriminate; cbn in i2; try (destruct (incommods cfg); [congruence|discriminate]).
Qed.
Lemma life_safe inr outr pf c s t es : input_complete cfg inr outr pf -> enter_notify cfg (rx_new cfg inr outr pf c) = Ok s ->
  awards_waiting eps recipe cfg t s es -> safe any (rx_run eps recipe cfg t s es).
Proof. intros I E A. apply run_safe; [|exact A]. eapply enter_complete; eassumption. Qed.
(** A computable sufficient check of [awards_waiting], for examples. *)
Fixpoint awards_waitingb (t : Z) (s : rx_state) (es : list rx_env) : bool :=
  match es with
  | [] => true
  | e :: es' =>
      (match tick eps recipe cfg t s with
       | Ok (s1, _) => forallb (fun c => count_commod c (e_pick e) <=? zlen (waiting cfg s1 c)) (e_pick e)
       | _ => true
       end && match rx_step eps recipe cfg t s e with Ok o => awards_waitingb (t + 1) (o_state o) es' | _ => true end)%bool
  end.
Lemma awards_waitingb_sound es : forall t s, awards_waitingb t s es = true -> awards_waiting eps recipe cfg t s es.
Proof.
  induction es as [|e es IH]; intros t s H; [exact I|]. cbn [awards_waitingb] in H. apply andb_prop in H. destruct H as [H1 H2]. cbn [awards_waiting]. split.
  - intros s1 ev c E Hc. rewrite E in H1. rewrite forallb_forall in H1. apply H1 in Hc. lia.
  - intros o E. rewrite E in H2. apply IH. exact H2.
Qed.
End Reactor.
Lemma rb_all_safe eps b m ms n : safe any (rb_push eps b m) /\ safe any (rb_pushv eps b ms) /\ safe any (rb_pop b) /\ safe any (rb_popn b n).
Proof. split; [apply r_push|]. split; [apply r_pushv|]. split; [eapply safe_weaken; [apply r_pop|intros; exact I]|apply r_popn']. Qed.
Lemma bufs_reported eps b m ms n q tol b' :
  (reported (rb_push eps b m) /\ reported (rb_pushv eps b ms) /\ reported (rb_pop b) /\ reported (rb_popn b n)) /\
  (reported (KernelBuf.b_push eps b' m) /\ reported (KernelBuf.b_pushv eps b' ms) /\ reported (KernelBuf.b_pop_qty b' q) /\ reported (KernelBuf.b_pop_tol b' q tol)).
Proof.
  destruct (rb_all_safe eps b m ms n) as (A & B & C & D).
  repeat split; eapply safe_reported; eauto; try apply s_push; try apply s_pushv; try apply s_bpop; try apply s_bpop_tol.
Qed.
Lemma st_life_safe recipe package unit eps cfg en s es : StorageModel.sc_in_commods cfg <> [] ->
  StorageModel.st_enter recipe package unit cfg = Ok en -> safe any (StorageModel.st_run eps cfg s es).
Proof.
  intros N E. apply st_run_safe.
  - unfold StorageModel.st_enter in E. revert E. match goal with |- bind ?p _ = _ -> _ => destruct p; cbn [bind]; try discriminate end.
    match goal with |- bind ?p _ = _ -> _ => destruct p; cbn [bind]; try discriminate end.
    destruct (Nat.eqb_spec (List.length (StorageModel.sc_in_prefs cfg)) 0) as [Z0|NZ].
    + intros _. destruct (StorageModel.sc_in_prefs cfg); [|discriminate]. cbn. destruct (StorageModel.sc_in_commods cfg); [congruence|cbn; lia].
    + destruct (Nat.eqb_spec (List.length (StorageModel.sc_in_prefs cfg)) (List.length (StorageModel.sc_in_commods cfg))) as [L|]; [|discriminate].
      intros _. rewrite <- L. apply max_index_bound. intro Z0. rewrite Z0 in NZ. now apply NZ.
  - intro Z0. unfold StorageModel.st_enter in E. rewrite Z0 in E. revert E.
    match goal with |- bind ?p _ = _ -> _ => destruct p; cbn [bind]; try discriminate end.
    match goal with |- bind ?p _ = _ -> _ => destruct p; cbn [bind]; try discriminate end.
    match goal with |- bind ?p _ = _ -> _ => destruct p; cbn [bind]; try discriminate end.
    repeat match goal with |- context [if ?b then _ else _] => destruct b end; discriminate.
Qed.
Lemma mx_start_safe eps cfg : safe any (MixerModel.mx_enter eps cfg (MixerModel.mx_new cfg)).
Proof. eapply safe_weaken; [apply mx_enter_safe; cbn; apply map_length|intros; exact I]. Qed.
