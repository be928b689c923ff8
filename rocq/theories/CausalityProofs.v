(** C127: what a facility shows of a time step does not depend on what is delivered in it. *)
From Coq Require Import Lia.
From Verif Require Import Outcome KernelMaterial KernelResBuf KernelBuf KernelFacts CausalitySpec.
From Verif Require ReactorModel StorageModel ConversionModel SeparationsModel MixerModel FuelFabModel EnrichmentModel SinkModel.
Local Open Scope Q_scope.

Section Generic.
  Context {S E O V : Type} (step : S -> E -> outcome (S * O)) (run : S -> list E -> outcome (S * list O)) (obs : O -> V) (same : E -> E -> Prop).
  Hypothesis run_cons : forall s e es, run s (e :: es) = (let* '(s1, o) := step s e in let* '(s2, os) := run s1 es in Ok (s2, o :: os)).
  Hypothesis alike : forall s e e' s1 o s2 o', same e e' -> step s e = Ok (s1, o) -> step s e' = Ok (s2, o') -> obs o = obs o'.
  Lemma causal es : forall s e e' r r' s1 os s2 os', same e e' -> run s (es ++ e :: r) = Ok (s1, os) -> run s (es ++ e' :: r') = Ok (s2, os') ->
    agree_until (Datatypes.S (List.length es)) (map obs os) (map obs os').
  Proof.
    induction es as [|a es IH]; intros s e e' r r' s1 os s2 os' A H H'; cbn [app] in H, H'; rewrite run_cons in H, H'.
    - apply bind_ok in H as ([x o] & T & H). apply bind_ok in H as ([y os1] & _ & H). injection H as <- <-.
      apply bind_ok in H' as ([x' o'] & T' & H'). apply bind_ok in H' as ([y' os1'] & _ & H'). injection H' as <- <-.
      unfold agree_until. cbn. f_equal. eapply alike; eauto.
    - apply bind_ok in H as ([x o] & T & H). apply bind_ok in H as ([y os1] & R & H). injection H as <- <-.
      rewrite T in H'. cbn [bind] in H'. apply bind_ok in H' as ([y' os1'] & R' & H'). injection H' as <- <-.
      unfold agree_until. cbn [List.length map firstn]. f_equal. eapply IH; eauto.
  Qed.
End Generic.

Lemma cv_causal eps c s es e e' r r' s1 os s2 os' : cv_same e e' ->
  ConversionModel.cv_run eps c s (es ++ e :: r) = Ok (s1, os) -> ConversionModel.cv_run eps c s (es ++ e' :: r') = Ok (s2, os') ->
  agree_until (S (List.length es)) os os'.
Proof.
  intros A H H'. rewrite <- (map_id os), <- (map_id os').
  refine (causal (ConversionModel.cv_step eps c) (ConversionModel.cv_run eps c) (fun o => o) cv_same (fun _ _ _ => eq_refl) _ es s e e' r r' s1 os s2 os' A H H').
  clear. intros s e e' s1 o s2 o' (E1 & E2) H H'. unfold ConversionModel.cv_step in H, H'. rewrite <- E1, <- E2 in H'.
  apply bind_ok in H as (x & T & H). rewrite T in H'. cbn [bind] in H'.
  apply bind_ok in H as (b & Bd & H). rewrite Bd in H'. cbn [bind] in H'.
  apply bind_ok in H as ([out sh] & Tr & H). rewrite Tr in H'. cbn [bind] in H'.
  apply bind_ok in H as (i & _ & H). apply bind_ok in H' as (i' & _ & H'). congruence.
Qed.
Lemma st_causal eps c s es e e' r r' s1 os s2 os' : st_same e e' ->
  StorageModel.st_run eps c s (es ++ e :: r) = Ok (s1, os) -> StorageModel.st_run eps c s (es ++ e' :: r') = Ok (s2, os') ->
  agree_until (S (List.length es)) (map StorageModel.so_sold os) (map StorageModel.so_sold os').
Proof.
  intros A H H'.
  refine (causal (StorageModel.st_step eps c) (StorageModel.st_run eps c) StorageModel.so_sold st_same (fun _ _ _ => eq_refl) _ es s e e' r r' s1 os s2 os' A H H').
  clear. intros s e e' s1 o s2 o' A H H'. unfold StorageModel.st_step, StorageModel.st_trade in H, H'. unfold st_same in A. rewrite <- A in H'.
  apply bind_ok in H as ([x sold] & T & H). apply bind_ok in T as ([y sold2] & T & T2). rewrite T in H'. cbn [bind] in H'.
  injection T2 as T3 T4. subst sold2. apply bind_ok in H as ([z oo] & _ & H). apply bind_ok in H' as ([z' oo'] & _ & H'). injection H as <- <-. injection H' as <- <-. reflexivity.
Qed.
Lemma mx_causal eps c s es e e' r r' s1 os s2 os' : mx_same e e' ->
  MixerModel.mx_run eps c s (es ++ e :: r) = Ok (s1, os) -> MixerModel.mx_run eps c s (es ++ e' :: r') = Ok (s2, os') ->
  agree_until (S (List.length es)) os os'.
Proof.
  intros A H H'. rewrite <- (map_id os), <- (map_id os').
  refine (causal (MixerModel.mx_step eps c) (MixerModel.mx_run eps c) (fun o => o) mx_same (fun _ _ _ => eq_refl) _ es s e e' r r' s1 os s2 os' A H H').
  clear. intros s e e' s1 o s2 o' A H H'. unfold MixerModel.mx_step in H, H'. unfold mx_same in A. rewrite <- A in H'.
  apply bind_ok in H as ([x sup] & T & H). rewrite T in H'. cbn [bind] in H'.
  apply bind_ok in H as ([y sh] & Bd & H). rewrite Bd in H'. cbn [bind] in H'. cbv zeta in H, H'.
  apply bind_ok in H as (i & _ & H). apply bind_ok in H' as (i' & _ & H'). congruence.
Qed.
Lemma sp_causal eps rc c pf s es e e' r r' s1 os s2 os' : sp_same e e' ->
  SeparationsModel.sp_run eps rc c pf s (es ++ e :: r) = Ok (s1, os) -> SeparationsModel.sp_run eps rc c pf s (es ++ e' :: r') = Ok (s2, os') ->
  agree_until (S (List.length es)) os os'.
Proof.
  intros A H H'. rewrite <- (map_id os), <- (map_id os').
  refine (causal (SeparationsModel.sp_step eps rc c pf) (SeparationsModel.sp_run eps rc c pf) (fun o => o) sp_same (fun _ _ _ => eq_refl) _ es s e e' r r' s1 os s2 os' A H H').
  clear. intros s e e' s1 o s2 o' (A1 & A2 & A3) H H'. unfold SeparationsModel.sp_step in H, H'. rewrite <- A1, <- A2, <- A3 in H'.
  apply bind_ok in H as ([x lg] & T & H). rewrite T in H'. cbn [bind] in H'.
  apply bind_ok in H as ([dm rq] & Rq & H). rewrite Rq in H'. cbn [bind] in H'.
  apply bind_ok in H as ([y sh] & Bd & H). rewrite Bd in H'. cbn [bind] in H'.
  apply bind_ok in H as (i & _ & H). apply bind_ok in H' as (i' & _ & H'). congruence.
Qed.
Lemma ff_causal eps nz D rc c pf s es e e' r r' s1 os s2 os' : ff_same e e' ->
  FuelFabModel.ff_run eps nz D rc c pf s (es ++ e :: r) = Ok (s1, os) -> FuelFabModel.ff_run eps nz D rc c pf s (es ++ e' :: r') = Ok (s2, os') ->
  agree_until (S (List.length es)) os os'.
Proof.
  intros A H H'. rewrite <- (map_id os), <- (map_id os').
  refine (causal (FuelFabModel.ff_step eps nz D rc c pf) (FuelFabModel.ff_run eps nz D rc c pf) (fun o => o) ff_same (fun _ _ _ => eq_refl) _ es s e e' r r' s1 os s2 os' A H H').
  clear. intros s e e' s1 o s2 o' (A1 & A2) H H'. unfold FuelFabModel.ff_step in H, H'. rewrite <- A1, <- A2 in H'.
  apply bind_ok in H as (rq & T & H). rewrite T in H'. cbn [bind] in H'.
  apply bind_ok in H as (bd & Rq & H). rewrite Rq in H'. cbn [bind] in H'.
  apply bind_ok in H as ([y sh] & Bd & H). rewrite Bd in H'. cbn [bind] in H'.
  apply bind_ok in H as (i & _ & H). apply bind_ok in H' as (i' & _ & H'). congruence.
Qed.
Lemma en_accept_tock eps ms s s' : EnrichmentModel.en_accept eps ms s = Ok s' -> EnrichmentModel.en_tock s' = EnrichmentModel.en_tock s.
Proof.
  unfold EnrichmentModel.en_accept. intro H. apply bind_ok in H as (b & _ & H). injection H as <-. reflexivity.
Qed.
Lemma en_causal eps eg V aw rc c s es e e' r r' s1 os s2 os' : en_same e e' ->
  EnrichmentModel.en_run eps eg V aw rc c s (es ++ e :: r) = Ok (s1, os) -> EnrichmentModel.en_run eps eg V aw rc c s (es ++ e' :: r') = Ok (s2, os') ->
  agree_until (S (List.length es)) os os'.
Proof.
  intros A H H'. rewrite <- (map_id os), <- (map_id os').
  refine (causal (EnrichmentModel.en_step eps eg V aw rc c) (EnrichmentModel.en_run eps eg V aw rc c) (fun o => o) en_same (fun _ _ _ => eq_refl) _ es s e e' r r' s1 os s2 os' A H H').
  clear. intros s e e' s1 o s2 o' (A1 & A2 & A3) H H'. unfold EnrichmentModel.en_step in H, H'. rewrite <- A1, <- A2, <- A3 in H'. cbv zeta in H, H'.
  apply bind_ok in H as (rq & T & H). rewrite T in H'. cbn [bind] in H'.
  apply bind_ok in H as ([y bd] & Rq & H). rewrite Rq in H'. cbn [bind] in H'.
  apply bind_ok in H as ([[z sh] rs] & Bd & H). rewrite Bd in H'. cbn [bind] in H'.
  apply bind_ok in H as (i & I1 & H). apply bind_ok in H' as (i' & I2 & H').
  rewrite (en_accept_tock _ _ _ _ I1) in H. rewrite (en_accept_tock _ _ _ _ I2) in H'. congruence.
Qed.
Lemma sk_accept_amt eps c rs : forall s s', SinkModel.sk_accept eps c rs s = Ok s' -> SinkModel.ks_amt s' = SinkModel.ks_amt s.
Proof.
  induction rs as [|r rs IH]; intros s s' H; cbn [SinkModel.sk_accept] in H; [injection H as <-; reflexivity|].
  destruct (Qltb eps _); [discriminate|]. rewrite (IH _ _ H). reflexivity.
Qed.
Lemma sk_causal eps eg rc c es : forall t s e e' r r' s1 os s2 os', sk_same e e' ->
  SinkModel.sk_run eps eg rc c t s (es ++ e :: r) = Ok (s1, os) -> SinkModel.sk_run eps eg rc c t s (es ++ e' :: r') = Ok (s2, os') ->
  agree_until (S (List.length es)) os os'.
Proof.
  induction es as [|a es IH]; intros t s e e' r r' s1 os s2 os' A H H'; cbn [app SinkModel.sk_run] in H, H'.
  - apply bind_ok in H as ([x o] & T & H). apply bind_ok in H as ([y os1] & _ & H). injection H as <- <-.
    apply bind_ok in H' as ([x' o'] & T' & H'). apply bind_ok in H' as ([y' os1'] & _ & H'). injection H' as <- <-.
    unfold agree_until. cbn. f_equal. destruct A as (A1 & A2). unfold SinkModel.sk_step in T, T'. rewrite <- A1, <- A2 in T'.
    apply bind_ok in T as ([u d] & Tk & T). rewrite Tk in T'. cbn [bind] in T'.
    apply bind_ok in T as ([v mr] & Mr & T). rewrite Mr in T'. cbn [bind] in T'. cbv zeta in T, T'.
    apply bind_ok in T as (i & I1 & T). apply bind_ok in T as (j & _ & T). apply bind_ok in T' as (i' & I2 & T'). apply bind_ok in T' as (j' & _ & T').
    injection T as <- <-. injection T' as <- <-. f_equal. unfold SinkModel.sk_gen_requests. rewrite (sk_accept_amt _ _ _ _ _ I1), (sk_accept_amt _ _ _ _ _ I2). reflexivity.
  - apply bind_ok in H as ([x o] & T & H). apply bind_ok in H as ([y os1] & R & H). injection H as <- <-.
    rewrite T in H'. cbn [bind] in H'. apply bind_ok in H' as ([y' os1'] & R' & H'). injection H' as <- <-.
    unfold agree_until. cbn [List.length firstn]. f_equal. eapply IH; eauto.
Qed.
Lemma rx_causal eps rc c es : forall t s e e' r r' os os', rx_same e e' ->
  ReactorModel.rx_run eps rc c t s (es ++ e :: r) = Ok os -> ReactorModel.rx_run eps rc c t s (es ++ e' :: r') = Ok os' ->
  agree_until (S (List.length es)) (map rx_shown os) (map rx_shown os').
Proof.
  induction es as [|a es IH]; intros t s e e' r r' os os' A H H'; cbn [app ReactorModel.rx_run] in H, H'.
  - apply bind_ok in H as (o & T & H). apply bind_ok in H as (os1 & _ & H). injection H as <-.
    apply bind_ok in H' as (o' & T' & H'). apply bind_ok in H' as (os1' & _ & H'). injection H' as <-.
    unfold agree_until. cbn. f_equal. destruct A as (A1 & A2). unfold ReactorModel.rx_step in T, T'. rewrite <- A1, <- A2 in T'.
    apply bind_ok in T as ([u d] & Tk & T). rewrite Tk in T'. cbn [bind] in T'.
    apply bind_ok in T as ([v mr] & Mr & T). rewrite Mr in T'. cbn [bind] in T'.
    apply bind_ok in T as (bd & Bd & T). rewrite Bd in T'. cbn [bind] in T'.
    apply bind_ok in T as ([w sh] & Sh & T). rewrite Sh in T'. cbn [bind] in T'.
    apply bind_ok in T as ([i i2] & _ & T). apply bind_ok in T as ([j j2] & _ & T). apply bind_ok in T' as ([i' i2'] & _ & T'). apply bind_ok in T' as ([j' j2'] & _ & T').
    injection T as <-. injection T' as <-. reflexivity.
  - apply bind_ok in H as (o & T & H). apply bind_ok in H as (os1 & R & H). injection H as <-.
    rewrite T in H'. cbn [bind] in H'. apply bind_ok in H' as (os1' & R' & H'). injection H' as <-.
    unfold agree_until. cbn [List.length map firstn]. f_equal. eapply IH; eauto.
Qed.
