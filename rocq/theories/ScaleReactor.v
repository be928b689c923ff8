(** Reactor on two scales (C126). *)
From Coq Require Import Lia Lqa.
From Verif Require Import Outcome KernelMaterial KernelResBuf KernelBuf KernelFacts ReactorModel ScaleSpec ScaleProofs ScaleSimple.
Local Open Scope Q_scope.

Section Scale.
Variable k : Q.
Hypothesis K : 0 < k.
Variable recipe : string -> option comp.
Hypothesis Rc : forall n c, recipe n = Some c -> ~ csum c == 0.
Variables eps eps' : Q.
Hypothesis E : times k eps eps'.
Variables cfg cfg' : rx_cfg.
Hypothesis C : rx_cfg_more k cfg cfg'.
Notation assem2 := (more_assem k).
Notation items2 := (Forall2 (more_assem k)).
Notation buf2 := (more_resbuf k).

Lemma as_more ms ms' : items2 ms ms' -> Forall2 (more k) ms ms'. Proof. intro F. eapply forall2_weak; [exact F|]. intros a b [_ H]. exact H. Qed.
Lemma as_qty ms ms' : items2 ms ms' -> times k (qty_of ms) (qty_of ms'). Proof. intro F. apply more_qty, as_more, F. Qed.
Lemma rb_count_more b b' : buf2 b b' -> rb_count b = rb_count b'. Proof. intros [_ F]. unfold rb_count, zlen. rewrite (forall2_len _ _ _ F). reflexivity. Qed.
Lemma rb_space_more b b' : buf2 b b' -> times k (rb_space b) (rb_space b').
Proof. intros [Cp F]. unfold rb_space. apply t_max; auto; [apply t_0|]. apply t_minus; auto. apply as_qty, F. Qed.
Lemma rb_push_more b b' m m' : buf2 b b' -> assem2 m m' -> likewise buf2 (rb_push eps b m) (rb_push eps' b' m').
Proof.
  intros B M. unfold rb_push. rewrite (t_ltb k K _ _ _ _ E (t_minus k _ _ _ _ (proj1 (proj2 M)) (rb_space_more _ _ B))). destruct (Qltb eps _); [reflexivity|]. destruct B as [Cp F]. split; cbn; [exact Cp|]. apply Forall2_app; auto.
Qed.
Lemma rb_pushv_more b b' ms ms' : buf2 b b' -> items2 ms ms' -> likewise buf2 (rb_pushv eps b ms) (rb_pushv eps' b' ms').
Proof.
  intros B M. unfold rb_pushv. rewrite (t_ltb k K _ _ _ _ E (t_minus k _ _ _ _ (as_qty _ _ M) (rb_space_more _ _ B))). destruct (Qltb eps _); [reflexivity|]. destruct B as [Cp F]. split; cbn; [exact Cp|]. apply Forall2_app; auto.
Qed.
Definition pop2 (x y : list mat * resbuf) : Prop := items2 (fst x) (fst y) /\ buf2 (snd x) (snd y).
Lemma rb_popn_more b b' n : buf2 b b' -> likewise pop2 (rb_popn b n) (rb_popn b' n).
Proof.
  intro B. unfold rb_popn. rewrite (rb_count_more _ _ B). destruct (_ || _)%bool; [reflexivity|]. destruct B as [Cp F]. split; cbn; [apply forall2_firstn, F|]. split; cbn; [exact Cp|apply forall2_skipn, F].
Qed.
Lemma rb_pop_more b b' : buf2 b b' -> likewise (fun x y => assem2 (fst x) (fst y) /\ buf2 (snd x) (snd y)) (rb_pop b) (rb_pop b').
Proof. intros [Cp F]. unfold rb_pop. destruct F as [|m m' l l' M F]; [reflexivity|]. split; cbn; [exact M|]. split; auto. Qed.

Ltac cfgs := destruct C as [Ca Ce]; rewrite Ce; cbn [n_batch n_core n_fresh n_spent cycle_t refuel_t power_cap incommods outcommods side_products side_qty decom_all pc_times pc_commods pc_vals rc_times rc_commods rc_in rc_out exit_t].
Lemma c_batch : n_batch cfg' = n_batch cfg. Proof. cfgs. reflexivity. Qed.
Lemma c_core : n_core cfg' = n_core cfg. Proof. cfgs. reflexivity. Qed.
Lemma c_fresh : n_fresh cfg' = n_fresh cfg. Proof. cfgs. reflexivity. Qed.
Lemma c_spent : n_spent cfg' = n_spent cfg. Proof. cfgs. reflexivity. Qed.
Lemma c_out : outcommods cfg' = outcommods cfg. Proof. cfgs. reflexivity. Qed.
Lemma c_in : incommods cfg' = incommods cfg. Proof. cfgs. reflexivity. Qed.
Lemma c_cycle : cycle_t cfg' = cycle_t cfg. Proof. cfgs. reflexivity. Qed.
Lemma c_refuel : refuel_t cfg' = refuel_t cfg. Proof. cfgs. reflexivity. Qed.
Lemma c_exit : exit_t cfg' = exit_t cfg. Proof. cfgs. reflexivity. Qed.
Lemma c_decom : decom_all cfg' = decom_all cfg. Proof. cfgs. reflexivity. Qed.
Lemma c_ret t : retired cfg' t = retired cfg t. Proof. unfold retired. rewrite c_exit. reflexivity. Qed.
Lemma c_power : power_cap cfg' = power_cap cfg. Proof. cfgs. reflexivity. Qed.

Ltac rel := match goal with H : rx_more k ?s ?s' |- _ => let A := fresh "Hf" in destruct H as (A & ?Hco & ?Hsp & ?Hin & ?Hou & ?Hpr & ?Hcy & ?Hdi & ?Hid & ?Hhy) end.
Lemma up_fresh s s' b b' : rx_more k s s' -> buf2 b b' -> rx_more k (upd_fresh s b) (upd_fresh s' b').
Proof. intros (A1 & A2 & A3 & A4 & A5 & A6 & A7 & A8 & A9 & A10) B. repeat split; cbn; auto; try apply B; try apply A2; try apply A3. Qed.
Lemma up_core s s' b b' : rx_more k s s' -> buf2 b b' -> rx_more k (upd_core s b) (upd_core s' b').
Proof. intros (A1 & A2 & A3 & A4 & A5 & A6 & A7 & A8 & A9 & A10) B. repeat split; cbn; auto; try apply B; try apply A1; try apply A3. Qed.
Lemma up_spent s s' b b' : rx_more k s s' -> buf2 b b' -> rx_more k (upd_spent s b) (upd_spent s' b').
Proof. intros (A1 & A2 & A3 & A4 & A5 & A6 & A7 & A8 & A9 & A10) B. repeat split; cbn; auto; try apply B; try apply A1; try apply A2. Qed.
Lemma up_cyc s s' c d : rx_more k s s' -> rx_more k (upd_cyc s c d) (upd_cyc s' c d).
Proof. intros (A1 & A2 & A3 & A4 & A5 & A6 & A7 & A8 & A9 & A10). repeat split; cbn; auto; try apply A1; try apply A2; try apply A3. Qed.
Lemma up_idx s s' i : rx_more k s s' -> rx_more k (upd_idx s i) (upd_idx s' i).
Proof. intros (A1 & A2 & A3 & A4 & A5 & A6 & A7 & A8 & A9 & A10). repeat split; cbn; auto; try apply A1; try apply A2; try apply A3. Qed.
Lemma up_prefs s s' p : rx_more k s s' -> rx_more k (upd_prefs s p) (upd_prefs s' p).
Proof. intros (A1 & A2 & A3 & A4 & A5 & A6 & A7 & A8 & A9 & A10). repeat split; cbn; auto; try apply A1; try apply A2; try apply A3. Qed.
Lemma up_recipes s s' p q : rx_more k s s' -> rx_more k (upd_recipes s p q) (upd_recipes s' p q).
Proof. intros (A1 & A2 & A3 & A4 & A5 & A6 & A7 & A8 & A9 & A10). repeat split; cbn; auto; try apply A1; try apply A2; try apply A3. Qed.
Lemma up_hybrid s s' p : rx_more k s s' -> rx_more k (upd_hybrid s p) (upd_hybrid s' p).
Proof. intros (A1 & A2 & A3 & A4 & A5 & A6 & A7 & A8 & A9 & A10). repeat split; cbn; auto; try apply A1; try apply A2; try apply A3. Qed.
Definition ev2 := Forall2 (event_more k).
Definition sev (x y : rx_state * list event) : Prop := rx_more k (fst x) (fst y) /\ ev2 (snd x) (snd y).
Lemma ev_refl l : (forall c q, ~ In (EvSupply c q) l) -> (forall c q, ~ In (EvDemand c q) l) -> ev2 l l.
Proof.
  intros A B. induction l as [|x l IH]; [constructor|]. constructor; [|apply IH; intros c q I; [eapply A|eapply B]; right; exact I].
  destruct x; cbn; auto; [destruct (A commod q)|destruct (B commod q)]; left; reflexivity.
Qed.
Lemma rx_new_more inr outr pf st : rx_more k (rx_new cfg inr outr pf st) (rx_new cfg' inr outr pf st).
Proof.
  pose proof (proj1 C) as Ca. repeat split; cbn; auto; rewrite ?c_fresh, ?c_core, ?c_spent; apply t_mult; auto; reflexivity.
Qed.
Lemma enter_more s s' : rx_more k s s' -> likewise (rx_more k) (enter_notify cfg s) (enter_notify cfg' s').
Proof.
  intro H. unfold enter_notify. cbv zeta. pose proof H as (_ & _ & _ & _ & _ & P & _). rewrite <- P. cfgs.
  assert (H1 : rx_more k (match prefs s with [] => upd_prefs s (map (fun _ => default_pref) (outcommods cfg)) | _ => s end) (match prefs s with [] => upd_prefs s' (map (fun _ => default_pref) (outcommods cfg)) | _ => s' end)).
  { destruct (prefs s); [apply up_prefs, H|exact H]. }
  destruct (_ && _)%bool; [|reflexivity]. cbn [likewise]. destruct (side_products cfg); [apply up_hybrid, H1|exact H1].
Qed.
Lemma outcommod_more s s' m m' : rx_more k s s' -> assem2 m m' -> fuel_outcommod cfg s m = fuel_outcommod cfg' s' m'.
Proof. intros (_ & _ & _ & _ & _ & _ & _ & _ & I & _) [Id _]. unfold fuel_outcommod. rewrite c_out, Id, I. reflexivity. Qed.
Lemma outrecipe_more s s' m m' : rx_more k s s' -> assem2 m m' -> fuel_outrecipe s m = fuel_outrecipe s' m'.
Proof. intros (_ & _ & _ & _ & O & _ & _ & _ & I & _) [Id _]. unfold fuel_outrecipe. rewrite Id, I, O. reflexivity. Qed.
Lemma set_obj_more m m' l l' : assem2 m m' -> items2 l l' -> items2 (set_obj m l) (set_obj m' l').
Proof. intros M F. unfold set_obj. eapply forall2_map; [exact F|]. intros a b H. rewrite (proj1 M), (proj1 H). destruct (Z.eqb (m_id b) (m_id m')); auto. Qed.
Lemma transmute_more n s s' : rx_more k s s' -> likewise sev (transmute_core eps recipe n s) (transmute_core eps' recipe n s').
Proof.
  intro H. pose proof H as (_ & Hc & _). unfold transmute_core. rewrite <- (rb_count_more _ _ Hc). eapply like_bind; [apply rb_popn_more, Hc|]. intros [o c1] [o' c1'] [O C1]. cbn [fst snd] in *.
  eapply like_bind; [apply rb_pushv_more; eauto|]. intros c2 c2' C2. assert (Z : zlen o = zlen o') by (unfold zlen; rewrite (forall2_len _ _ _ O); reflexivity).
  rewrite <- (rb_count_more _ _ C2), <- Z. eapply (like_bind buf2).
  - destruct (Z.ltb (zlen o) (rb_count c2)); [|exact C2]. eapply like_bind; [apply rb_popn_more, C2|]. intros [r d] [r' d'] [R D]. cbn [fst snd] in *. apply rb_pushv_more; auto.
  - intros c3 c3' C3. eapply (like_bind items2).
    + eapply like_loop; [|exact O|apply C3]. intros l l' m m' L M. rewrite (outrecipe_more s s' m m' H M). eapply (like_bind eq); [apply like_eq; reflexivity|]. intros r ? <-. unfold get_recipe. destruct (recipe r) as [c|] eqn:X; [|reflexivity]. cbn [bind likewise].
      apply set_obj_more; [|exact L]. split; [exact (proj1 M)|]. split; [exact (proj1 (proj2 M))|]. cbn. apply mix_refl; eauto.
    + intros i i' I. cbn. split; cbn; [apply up_core; [exact H|]; split; [apply C3|exact I]|]. repeat constructor.
Qed.
Definition smap2 (x y : smap) : Prop := Forall2 (fun a b => fst a = fst b /\ items2 (snd a) (snd b)) x y.
Lemma smap_get_more c x y : smap2 x y -> items2 (smap_get c x) (smap_get c y).
Proof. induction 1 as [|[a v] [b w] l l' [A V] F IH]; cbn; [constructor|]. cbn in *. subst b. destruct (String.eqb a c); auto. Qed.
Lemma smap_append_more c m m' x y : smap2 x y -> assem2 m m' -> smap2 (smap_append c m x) (smap_append c m' y).
Proof. intros F M. induction F as [|[a v] [b w] l l' [A V] F IH]; cbn; [constructor|]. cbn in *. subst b. destruct (String.eqb a c); constructor; auto; split; cbn; auto. apply Forall2_app; auto. Qed.
Lemma smap_insert_more c m m' x y : smap2 x y -> assem2 m m' -> smap2 (smap_insert c m x) (smap_insert c m' y).
Proof.
  intros F M. induction F as [|[a v] [b w] l l' [A V] F IH]; cbn; [repeat constructor; auto; apply M|]. cbn in *. subst b. destruct (String.ltb c a).
  - constructor; [split; cbn; auto|]. constructor; [split; auto|exact F].
  - constructor; [split; auto|exact IH].
Qed.
Lemma smap_push_more c m m' x y : smap2 x y -> assem2 m m' -> smap2 (smap_push c m x) (smap_push c m' y).
Proof.
  intros F M. unfold smap_push. assert (X : existsb (fun e => String.eqb (fst e) c) x = existsb (fun e => String.eqb (fst e) c) y).
  { clear M. induction F as [|a b l l' [A _] F IH]; cbn; [reflexivity|]. rewrite A, IH. reflexivity. }
  rewrite <- X. destruct (existsb _ x); [apply smap_append_more|apply smap_insert_more]; auto.
Qed.
Lemma smap_set_more c v w x y : smap2 x y -> items2 v w -> smap2 (smap_set c v x) (smap_set c w y).
Proof. intros F V. induction F as [|[a p] [b q] l l' [A P] F IH]; cbn; [constructor|]. cbn in *. subst b. destruct (String.eqb a c); constructor; auto; split; auto. Qed.
Lemma forall2_rev {A B} (R : A -> B -> Prop) l l' : Forall2 R l l' -> Forall2 R (rev l) (rev l').
Proof. induction 1; cbn; [constructor|]. apply Forall2_app; auto. Qed.
Lemma sort_more s s' ms ms' : rx_more k s s' -> items2 ms ms' ->
  likewise smap2 (loop (fun mp m => let* c := fuel_outcommod cfg s m in Ok (smap_push c m mp)) ms []) (loop (fun mp m => let* c := fuel_outcommod cfg' s' m in Ok (smap_push c m mp)) ms' []).
Proof.
  intros H M. eapply like_loop; [|exact M|constructor]. intros x y m m' X Hm. rewrite (outcommod_more s s' m m' H Hm). eapply (like_bind eq); [apply like_eq; reflexivity|]. intros c ? <-. apply smap_push_more; auto.
Qed.
Definition smst (x y : smap * rx_state) : Prop := smap2 (fst x) (fst y) /\ rx_more k (snd x) (snd y).
Lemma peek_more s s' : rx_more k s s' -> likewise smst (peek_spent eps cfg s) (peek_spent eps' cfg' s').
Proof.
  intro H. pose proof H as (_ & _ & Hs & _). unfold peek_spent. rewrite <- (rb_count_more _ _ Hs). eapply like_bind; [apply rb_popn_more, Hs|]. intros [m b] [m' b'] [M B]. cbn [fst snd] in *.
  eapply like_bind; [apply rb_pushv_more; eauto|]. intros b2 b2' B2. cbv zeta. pose proof (up_spent _ _ _ _ H B2) as H2. eapply like_bind; [apply sort_more; eauto|]. intros x y X. split; auto.
Qed.
Lemma pop_more s s' : rx_more k s s' -> likewise smst (pop_spent cfg s) (pop_spent cfg' s').
Proof.
  intro H. pose proof H as (_ & _ & Hs & _). unfold pop_spent. rewrite <- (rb_count_more _ _ Hs). eapply like_bind; [apply rb_popn_more, Hs|]. intros [m b] [m' b'] [M B]. cbn [fst snd] in *. cbv zeta.
  pose proof (up_spent _ _ _ _ H B) as H2. eapply like_bind; [apply sort_more; eauto|]. intros x y X. split; cbn; [|exact H2]. eapply forall2_map; [exact X|]. intros [a v] [a' v'] [A V]. cbn in *. split; [exact A|]. apply forall2_rev, V.
Qed.
Definition dis2 (x y : rx_state * list event * bool) : Prop := sev (fst x) (fst y) /\ snd x = snd y.
Lemma discharge_more s s' : rx_more k s s' -> likewise dis2 (discharge eps cfg s) (discharge eps' cfg' s').
Proof.
  intro H. pose proof H as (_ & Hc & Hs & _). unfold discharge. cbv zeta. rewrite c_batch, c_spent, c_out, <- (rb_count_more _ _ Hs), <- (rb_count_more _ _ Hc).
  destruct (Z.ltb _ _); [split; [split; [exact H|repeat constructor]|reflexivity]|].
  eapply like_bind; [apply rb_popn_more, Hc|]. intros [m c1] [m' c1'] [M C1]. cbn [fst snd] in *. eapply like_bind; [apply rb_pushv_more; eauto|]. intros sp sp' Sp. pose proof (up_spent _ _ _ _ (up_core _ _ _ _ H C1) Sp) as H1.
  eapply (like_bind sev).
  - eapply (like_loop eq); [|apply forall2_same; reflexivity|split; [exact H1|constructor]]. intros [a e] [a' e'] c ? [A Ee] <-. cbn [fst snd] in *. eapply like_bind; [apply peek_more, A|]. intros [mp b] [mp' b'] [Mp B]. cbn [fst snd] in *.
    split; cbn; [exact B|]. apply Forall2_app; [exact Ee|]. constructor; [|constructor]. split; [reflexivity|]. apply as_qty, smap_get_more, Mp.
  - intros [s2 e] [s2' e'] [H2 Ee]. cbn in *. split; [split; cbn; [exact H2|]|reflexivity]. constructor; [reflexivity|exact Ee].
Qed.
Lemma load_more s s' : rx_more k s s' -> likewise sev (load eps cfg s) (load eps' cfg' s').
Proof.
  intro H. pose proof H as (Hf & Hc & _). unfold load. cbv zeta. rewrite c_core, <- (rb_count_more _ _ Hf), <- (rb_count_more _ _ Hc). destruct (Z.eqb _ 0); [split; [exact H|constructor]|].
  eapply like_bind; [apply rb_popn_more, Hf|]. intros [m f1] [m' f1'] [M F1]. cbn [fst snd] in *. eapply like_bind; [apply rb_pushv_more; eauto|]. intros c1 c1' C1. split; cbn; [apply up_fresh; [apply up_core; auto|exact F1]|]. repeat constructor.
Qed.
Lemma drain_core_more n : forall s s', rx_more k s s' -> likewise sev (drain_core eps cfg n s) (drain_core eps' cfg' n s').
Proof.
  induction n as [|n IH]; intros s s' H; pose proof H as (_ & Hc & _); cbn [drain_core]; rewrite <- (rb_count_more _ _ Hc); (destruct (Z.ltb 0 (rb_count (core s))); [|split; [exact H|constructor]]); [exact I|].
  eapply like_bind; [apply discharge_more, H|]. intros [[s1 e] ok] [[s1' e'] ok'] [[H1 Ee] Eo]. cbn [fst snd] in *. subst ok'. destruct ok; [|split; auto]. eapply like_bind; [apply IH, H1|]. intros [s2 e2] [s2' e2'] [H2 E2]. cbn in *. split; cbn; [exact H2|]. apply Forall2_app; auto.
Qed.
Lemma drain_fresh_more n : forall s s', rx_more k s s' -> likewise (rx_more k) (drain_fresh eps cfg n s) (drain_fresh eps' cfg' n s').
Proof.
  induction n as [|n IH]; intros s s' H; pose proof H as (Hf & _ & Hs & _); cbn [drain_fresh]; rewrite <- (rb_count_more _ _ Hf), (t_leb k K _ _ _ _ (proj1 C) (rb_space_more _ _ Hs)); (destruct (_ && _)%bool; [|exact H]); [exact I|].
  eapply like_bind; [apply rb_pop_more, Hf|]. intros [m f] [m' f'] [M F]. cbn [fst snd] in *. eapply like_bind; [apply rb_push_more; eauto|]. intros sp sp' Sp. apply IH. apply up_spent; [apply up_fresh; auto|exact Sp].
Qed.
Lemma check_more s s' : rx_more k s s' -> check_decom s = check_decom s'.
Proof. intros (_ & Hc & Hs & _). unfold check_decom. rewrite (rb_count_more _ _ Hc), (rb_count_more _ _ Hs). reflexivity. Qed.
Lemma retired_more t s s' : rx_more k s s' -> likewise sev (tick_retired eps recipe cfg t s) (tick_retired eps' recipe cfg' t s').
Proof.
  intro H. unfold tick_retired. rewrite c_exit, c_decom, c_core. eapply (like_bind sev).
  - destruct (Z.eqb t _); [apply transmute_more, H|split; [exact H|constructor]].
  - intros [s1 e1] [s1' e1'] [H1 E1]. cbn [fst snd] in *. rewrite <- (forall2_len _ _ _ (proj2 (proj1 (proj2 H1)))). eapply like_bind; [apply drain_core_more, H1|]. intros [s2 e2] [s2' e2'] [H2 E2]. cbn [fst snd] in *.
    rewrite <- (forall2_len _ _ _ (proj2 (proj1 H2))). eapply like_bind; [apply drain_fresh_more, H2|]. intros s3 s3' H3. split; cbn; [exact H3|]. constructor; [reflexivity|]. apply Forall2_app; [exact E1|]. apply Forall2_app; [exact E2|]. rewrite <- (check_more _ _ H3). destruct (check_decom s3); repeat constructor.
Qed.
Lemma pref_more t i s s' : rx_more k s s' -> likewise (rx_more k) (pref_change cfg t s i) (pref_change cfg' t s' i).
Proof.
  intro H. pose proof H as (_ & _ & _ & _ & _ & P & _). unfold pref_change. cfgs. eapply (like_bind eq); [apply like_eq; reflexivity|]. intros ct ? <-. destruct (negb _); [exact H|].
  eapply (like_bind eq); [apply like_eq; reflexivity|]. intros c ? <-. destruct (find_commod c (incommods cfg) 0); [|exact H]. eapply (like_bind eq); [apply like_eq; reflexivity|]. intros v ? <-. rewrite <- P. eapply (like_bind eq); [apply like_eq; reflexivity|]. intros p ? <-. apply up_prefs, H.
Qed.
Lemma recipe_change_more t i s s' : rx_more k s s' -> likewise (rx_more k) (recipe_change cfg t s i) (recipe_change cfg' t s' i).
Proof.
  intro H. pose proof H as (_ & _ & _ & Ii & Io & _). unfold recipe_change. cfgs. eapply (like_bind eq); [apply like_eq; reflexivity|]. intros ct ? <-. destruct (negb _); [exact H|].
  eapply (like_bind eq); [apply like_eq; reflexivity|]. intros c ? <-. destruct (find_commod c (incommods cfg) 0); [|exact H]. rewrite <- Ii, <- Io. repeat (eapply (like_bind eq); [apply like_eq; reflexivity|]; intros ? ? <-). apply up_recipes, H.
Qed.
Lemma changes_more t s s' : rx_more k s s' -> likewise (rx_more k) (apply_changes cfg t s) (apply_changes cfg' t s').
Proof.
  intro H. unfold apply_changes. replace (pc_times cfg') with (pc_times cfg) by (cfgs; reflexivity). replace (rc_times cfg') with (rc_times cfg) by (cfgs; reflexivity). eapply (like_bind (rx_more k)).
  - eapply (like_loop eq); [|apply forall2_same; reflexivity|exact H]. intros a b i ? A <-. apply pref_more, A.
  - intros s1 s1' H1. eapply (like_loop eq); [|apply forall2_same; reflexivity|exact H1]. intros a b i ? A <-. apply recipe_change_more, A.
Qed.
Lemma tick_more t s s' : rx_more k s s' -> likewise sev (tick eps recipe cfg t s) (tick eps' recipe cfg' t s').
Proof.
  intro H. unfold tick. rewrite c_ret. destruct (retired cfg t); [apply retired_more, H|]. rewrite c_cycle, c_batch. pose proof H as (_ & _ & _ & _ & _ & _ & Cy & _). rewrite <- Cy. eapply (like_bind sev).
  - destruct (Z.eqb (cyc s) (cycle_t cfg)); [|split; [exact H|constructor]]. eapply like_bind; [apply transmute_more, H|]. intros [s1 e] [s1' e'] [H1 Ee]. cbn in *. split; cbn; [exact H1|]. apply Forall2_app; [exact Ee|]. repeat constructor.
  - intros [s1 e1] [s1' e1'] [H1 E1]. cbn [fst snd] in *. pose proof H1 as (_ & _ & _ & _ & _ & _ & Cy1 & Di1 & _). rewrite <- Cy1, <- Di1. eapply (like_bind sev).
    + destruct (_ && _)%bool; [|split; [exact H1|constructor]]. eapply like_bind; [apply discharge_more, H1|]. intros [[s2 e] ok] [[s2' e'] ok'] [[H2 Ee] Eo]. cbn [fst snd] in *. subst ok'. split; cbn; [|exact Ee]. pose proof H2 as (_ & _ & _ & _ & _ & _ & Cy2 & _). rewrite <- Cy2. apply up_cyc, H2.
    + intros [s2 e2] [s2' e2'] [H2 E2]. cbn [fst snd] in *. pose proof H2 as (_ & _ & _ & _ & _ & _ & Cy2 & _). rewrite <- Cy2. eapply (like_bind sev).
      * destruct (Z.leb (cycle_t cfg) (cyc s2)); [apply load_more, H2|split; [exact H2|constructor]].
      * intros [s3 e3] [s3' e3'] [H3 E3]. cbn [fst snd] in *. eapply like_bind; [apply changes_more, H3|]. intros s4 s4' H4. split; cbn; [exact H4|]. apply Forall2_app; [exact E1|]. apply Forall2_app; auto.
Qed.
Lemma need_more t s s' : rx_more k s s' -> n_need cfg t s = n_need cfg' t s'.
Proof. intros (_ & Hc & _ & _ & _ & _ & Cy & _). unfold n_need. rewrite c_exit, c_cycle, c_refuel, c_batch, c_fresh, c_core, Cy, (rb_count_more _ _ Hc). reflexivity. Qed.
Lemma portfolio_more s s' : rx_more k s s' -> likewise (Forall2 (request_more k)) (portfolio recipe cfg s) (portfolio recipe cfg' s').
Proof.
  intros (_ & _ & _ & Ii & _ & P & _). unfold portfolio. rewrite c_in, <- Ii, <- P. eapply (like_loop eq); [|apply forall2_same; reflexivity|constructor]. intros a b i ? A <-.
  repeat (eapply (like_bind eq); [apply like_eq; reflexivity|]; intros ? ? <-). cbn. apply Forall2_app; [exact A|]. constructor; [|constructor]. repeat split. apply C.
Qed.
Lemma requests_more t s s' : rx_more k s s' -> likewise (fun x y => Forall2 (Forall2 (request_more k)) (fst x) (fst y) /\ ev2 (snd x) (snd y)) (get_requests recipe cfg t s) (get_requests recipe cfg' t s').
Proof.
  intro H. pose proof H as (Hf & Hc & _ & _ & _ & P & _). unfold get_requests. cbv zeta. rewrite c_core, c_fresh, c_exit, c_ret, c_in, <- (need_more t _ _ H), <- (rb_count_more _ _ Hf), <- (rb_count_more _ _ Hc), <- P.
  eapply (like_bind eq); [apply like_eq; reflexivity|]. intros o ? <-. destruct (Z.eqb o 0); [split; constructor|]. destruct (retired cfg t); [split; constructor|].
  eapply (like_loop eq); [|apply forall2_same; reflexivity|split; constructor]. intros [a x] [b y] i ? [A X] <-. cbn [fst snd] in *. eapply like_bind; [apply portfolio_more, H|]. intros p p' Hp. eapply (like_bind eq); [apply like_eq; reflexivity|]. intros mc ? <-. cbn.
  split; apply Forall2_app; auto. constructor; [|constructor]. split; [reflexivity|apply C].
Qed.
Lemma push_spent_more x y s s' : smap2 x y -> rx_more k s s' -> likewise (rx_more k) (push_spent eps x s) (push_spent eps' y s').
Proof.
  intros X H. unfold push_spent. eapply like_loop; [|exact X|exact H]. intros a b [c v] [c' v'] A [_ V]. cbn [fst snd] in *. pose proof A as (_ & _ & As & _). eapply like_bind; [apply rb_pushv_more; [exact As|apply forall2_rev, V]|]. intros z z' Z. apply up_spent; auto.
Qed.
Definition srv2 (x y : smap * rx_state * list (string * mat)) : Prop := smap2 (fst (fst x)) (fst (fst y)) /\ rx_more k (snd (fst x)) (snd (fst y)) /\ Forall2 (more_sent k) (snd x) (snd y).
Lemma serve_more c x y : srv2 x y -> likewise srv2 (serve_trade x c) (serve_trade y c).
Proof.
  destruct x as [[mp s] r], y as [[mp' s'] r']. intros (M & H & R). cbn [fst snd] in *. unfold serve_trade. pose proof (forall2_rev _ _ _ (smap_get_more c _ _ M)) as G. destruct G as [|m m' l l' Hm G]; [reflexivity|].
  pose proof H as (_ & _ & _ & _ & _ & _ & _ & _ & Ix & _). cbn. split; cbn; [apply smap_set_more; [exact M|apply forall2_rev, G]|]. split; cbn; [rewrite (proj1 Hm), Ix; apply up_idx, H|]. apply Forall2_app; [exact R|]. repeat constructor; apply Hm.
Qed.
Definition sent2 (x y : rx_state * list (string * mat)) : Prop := rx_more k (fst x) (fst y) /\ Forall2 (more_sent k) (snd x) (snd y).
Lemma trades_more ts s s' : rx_more k s s' -> likewise sent2 (get_trades eps cfg ts s) (get_trades eps' cfg' ts s').
Proof.
  intro H. unfold get_trades. eapply like_bind; [apply pop_more, H|]. intros [mp s1] [mp' s1'] [M H1]. cbn [fst snd] in *. eapply (like_bind srv2).
  - eapply (like_loop eq); [|apply forall2_same; reflexivity|split; [exact M|split; [exact H1|constructor]]]. intros a b c ? A <-. apply serve_more, A.
  - intros [[m2 s2] r] [[m2' s2'] r'] (M2 & H2 & R). cbn [fst snd] in *. eapply like_bind; [apply push_spent_more; eauto|]. intros s3 s3' H3. split; auto.
Qed.
Lemma accept_one_more s s' d d' : rx_more k s s' -> more_sent k d d' -> likewise (rx_more k) (accept_one eps cfg s d) (accept_one eps' cfg' s' d').
Proof.
  intros H [Dn Dm]. unfold accept_one, index_res. rewrite c_in, c_core, <- Dn, <- (proj1 Dm). pose proof H as (_ & _ & _ & _ & _ & _ & _ & _ & Ix & _). rewrite <- Ix.
  destruct (find_commod (fst d) (incommods cfg) 0); [|reflexivity]. cbn [bind]. set (i := idx_set _ _ _). pose proof (up_idx _ _ i H) as H1. pose proof H1 as (Hf & Hc & _). rewrite <- (rb_count_more _ _ Hc).
  destruct (Z.ltb _ _); (eapply like_bind; [apply rb_push_more; eauto|]); intros b b' B; [apply up_core|apply up_fresh]; auto.
Qed.
Lemma accept_more ds ds' s s' : rx_more k s s' -> Forall2 (more_sent k) ds ds' -> likewise sev (accept_trades eps cfg ds s) (accept_trades eps' cfg' ds' s').
Proof.
  intros H D. pose proof H as (_ & Hc & _). unfold accept_trades. cbv zeta. assert (Z : zlen ds = zlen ds') by (unfold zlen; rewrite (forall2_len _ _ _ D); reflexivity). rewrite c_core, <- Z, <- (rb_count_more _ _ Hc).
  eapply (like_bind (rx_more k)); [eapply like_loop; [|exact D|exact H]; intros; apply accept_one_more; auto|]. intros s1 s1' H1. split; cbn; [exact H1|]. destruct (Z.ltb 0 _); repeat constructor.
Qed.
Lemma until_more q q' j : times k q q' -> forall ms ms', items2 ms ms' -> forall t t', times k t t' -> Forall2 (fun a b => fst a = fst b /\ assem2 (snd a) (snd b)) (offer_until q t j ms) (offer_until q' t' j ms').
Proof.
  intros Hq ms ms' F. induction F as [|m m' l l' M F IH]; intros t t' T; cbn [offer_until]; [constructor|]. cbv zeta. pose proof (t_plus k _ _ _ _ T (proj1 (proj2 M))) as T1. rewrite (t_leb k K _ _ _ _ Hq T1). constructor; [split; auto|]. destruct (Qle_bool q _); [constructor|apply IH, T1].
Qed.
Lemma bids_for_more s s' c rs rs' : rx_more k s s' -> Forall2 (times k) rs rs' -> likewise (agree (bidport_more k)) (bids_for eps cfg s c rs) (bids_for eps' cfg' s' c rs').
Proof.
  intros H R. unfold bids_for. pose proof (forall2_combine (times k) rs rs' R 0) as Rc1. destruct R as [|r r' rs rs' Hr R]; [exact I|]. eapply like_bind; [apply peek_more, H|]. intros [mp s1] [mp' s1'] [M _]. cbn [fst snd] in *.
  pose proof (smap_get_more c _ _ M) as G. destruct (smap_get c mp) as [|m l], (smap_get c mp') as [|m' l']; [exact I|inversion G|inversion G|]. cbn [likewise agree]. split; [reflexivity|]. split; [|apply as_qty, G]. cbn [bp_bids].
  rewrite <- !flat_map_concat_map. eapply forall2_flat; [exact Rc1|]. intros [i q] [i' q'] [Ei Eq]. cbn [fst snd] in *. subst i'. apply until_more; auto. apply t_0.
Qed.
Lemma get_bids_more s s' f f' : rx_more k s s' -> (forall c, Forall2 (times k) (f c) (f' c)) -> likewise (Forall2 (bidport_more k)) (get_bids eps cfg s f) (get_bids eps' cfg' s' f').
Proof.
  intros H F. unfold get_bids. rewrite c_out. eapply (like_loop eq); [|apply forall2_same; reflexivity|constructor]. intros a b c ? A <-. eapply like_bind; [apply bids_for_more; eauto|]. intros x y X. destruct x, y; cbn in *; try contradiction; [|exact A]. apply Forall2_app; auto.
Qed.
Lemma side_more s s' p : rx_more k s s' -> likewise ev2 (record_side cfg s p) (record_side cfg' s' p).
Proof.
  intros (_ & _ & _ & _ & _ & _ & _ & _ & _ & Hy). unfold record_side. rewrite <- Hy. replace (side_qty cfg') with (side_qty cfg) by (cfgs; reflexivity). replace (side_products cfg') with (side_products cfg) by (cfgs; reflexivity). destruct (hybrid s); [|constructor].
  eapply (like_loop eq); [|apply forall2_same; reflexivity|constructor]. intros a b i ? A <-. repeat (eapply (like_bind eq); [apply like_eq; reflexivity|]; intros ? ? <-). cbn. apply Forall2_app; [exact A|]. repeat constructor.
Qed.
Lemma tock_more t s s' : rx_more k s s' -> likewise sev (tock cfg t s) (tock cfg' t s').
Proof.
  intro H. unfold tock. rewrite c_ret. destruct (retired cfg t); [split; [exact H|constructor]|]. cbv zeta. pose proof H as (_ & Hc & _ & _ & _ & _ & Cy & Di & _). rewrite c_core, c_cycle, c_refuel, c_power, <- (rb_count_more _ _ Hc), <- Cy, <- Di.
  set (full := Z.eqb (rb_count (core s)) (n_core cfg)). destruct (Z.leb (cycle_t cfg + refuel_t cfg) (cyc s) && full && disch s)%bool.
  - pose proof (up_cyc _ _ 0%Z false H) as H1. eapply like_bind; [apply side_more, H1|]. intros e e' Ee. cbn [cyc disch upd_cyc]. split; cbn [fst snd].
    + destruct (_ || _)%bool; [|exact H1]. apply up_cyc, H1.
    + apply Forall2_app; [destruct (_ && _)%bool; repeat constructor|]. constructor; [reflexivity|exact Ee].
  - rewrite <- Cy, <- Di. eapply like_bind; [apply side_more, H|]. intros e e' Ee. split; cbn [fst snd].
    + destruct (_ || _)%bool; [|exact H]. apply up_cyc, H.
    + apply Forall2_app; [destruct (_ && _)%bool; repeat constructor|]. constructor; [reflexivity|exact Ee].
Qed.
Lemma rx_step_more t s s' e e' : rx_more k s s' -> rx_env_more k e e' -> likewise (rx_out_more k) (rx_step eps recipe cfg t s e) (rx_step eps' recipe cfg' t s' e').
Proof.
  intros H (Rq & Pk & Dv). unfold rx_step. eapply like_bind; [apply tick_more, H|]. intros [s1 e1] [s1' e1'] [H1 E1]. cbn [fst snd] in *. eapply like_bind; [apply requests_more, H1|]. intros [r e2] [r' e2'] [R E2]. cbn [fst snd] in *.
  eapply like_bind; [apply get_bids_more; eauto|]. intros b b' B. eapply (like_bind sent2).
  { unfold trade_phase. rewrite <- Pk. destruct (e_pick e); [split; [exact H1|constructor]|apply trades_more, H1]. }
  intros [s2 sh] [s2' sh'] [H2 Sh]. cbn [fst snd] in *. eapply (like_bind sev).
  { unfold deliver_phase. destruct Dv as [|d d' l l' D Dv]; [split; [exact H2|constructor]|]. apply accept_more; [exact H2|]. constructor; auto. }
  intros [s3 e3] [s3' e3'] [H3 E3]. cbn [fst snd] in *. eapply like_bind; [apply tock_more, H3|]. intros [s4 e4] [s4' e4'] [H4 E4]. cbn in *.
  split; [exact H1|]. split; [exact R|]. split; [exact B|]. split; [exact Sh|]. split; [|exact H4]. cbn. repeat apply Forall2_app; auto.
Qed.
Lemma rx_run_more : forall es es', Forall2 (rx_env_more k) es es' -> forall t s s', rx_more k s s' -> likewise (Forall2 (rx_out_more k)) (rx_run eps recipe cfg t s es) (rx_run eps' recipe cfg' t s' es').
Proof.
  intros es es' F. induction F as [|e e' l l' He F IH]; intros t s s' H; cbn [rx_run]; [constructor|]. eapply like_bind; [apply rx_step_more; eauto|]. intros o o' O. eapply like_bind; [apply IH, O|]. intros r r' R. cbn. constructor; auto.
Qed.
End Scale.
