(** Simulations in which masses are counted in another unit (C138): the proofs. *)
From Coq Require Import Lia Lqa.
From Verif Require Import Outcome KernelMaterial KernelResBuf KernelBuf KernelFacts KernelMass NetworkSpec SimulationSpec SimulationProofs SimulationNetwork ScaleSpec ScaleProofs UnitSpec IdProofs.
From Verif Require ReactorModel ReactorSpec StorageModel ConversionModel MixerModel MixerSpec SinkModel SinkSpec SourceModel ScaleSimple ScaleFlow ScaleReactor EnrichmentSpec.
Local Open Scope Q_scope.

Section Unit.
Variable k : Q.
Hypothesis K : 0 < k.
Variables w w' : world.
Hypothesis W : world_ok w.
Hypothesis WM : world_more k w w'.

Lemma recipes_real n c : w_recipe w n = Some c -> ~ csum c == 0.
Proof. intro H. destruct W as (_ & _ & R). destruct (R n c H) as [_ P]. lra. Qed.
Lemma world_ok' : world_ok w'.
Proof. destruct W as (A & B & R), WM as (E1 & E2 & E3). unfold times in *. split; [|split]. 1-2: rewrite ?E1, ?E2; apply Qmult_le_0_compat; lra. rewrite E3. exact R. Qed.

(** ** What the facilities tell the exchange *)
Definition offer_more (x y : offer) : Prop := of_commod x = of_commod y /\ times k (of_limit x) (of_limit y) /\ agree (times k) (of_unit x) (of_unit y).
Definition ask_more (x y : ask) : Prop := ak_commods x = ak_commods y /\ agree (times k) (ak_limit x) (ak_limit y) /\ agree (times k) (ak_unit x) (ak_unit y).
Definition notice_more (n n' : notice) : Prop := Forall2 offer_more (n_offers n) (n_offers n') /\ Forall2 ask_more (n_asks n) (n_asks n').

Lemma fsts_same {A B} (l l' : list (string * A)) (R : string * A -> string * B -> Prop) (m : list (string * B)) : Forall2 R l m -> (forall a b, R a b -> fst a = fst b) -> map fst l = map fst m.
Proof. intros F H. induction F as [|a b l0 m0 X F IH]; [reflexivity|]. cbn. rewrite (H _ _ X), IH. reflexivity. Qed.
Lemma whole_more : fill_more k whole whole.
Proof. intros j q q' H. repeat constructor. exact H. Qed.
Lemma publish_more t g g' f f' : signal_more k g g' -> scaled k f f' -> likewise notice_more (publish w t g f) (publish w' t g' f').
Proof.
  destruct WM as (E & Eg & Er). intros (G1 & G2 & G3 & G4) S.
  destruct f as [c s|c s|c s|c s|c s|c s], f' as [c' s'|c' s'|c' s'|c' s'|c' s'|c' s']; try contradiction; destruct S as [C H]; cbn [publish].
  - eapply like_bind; [apply (ScaleSimple.cv_tick_more k K _ _ _ _ C H)|]. intros s1 s1' H1. pose proof C as (_ & Co & _). rewrite <- Co.
    eapply like_bind; [apply (ScaleSimple.cv_bids_more k K _ _ _ _ H1 (G1 _))|]. intros b b' B. cbn [likewise]. split; cbn [n_offers n_asks].
    + destruct b as [[x q]|], b' as [[x' q']|]; try contradiction; [|constructor]. destruct B as [_ B]. repeat constructor. exact B.
    + pose proof (ScaleSimple.cv_requests_more k K _ _ _ _ C H1) as R. destruct (ConversionModel.cv_requests c s1) as [[x q]|], (ConversionModel.cv_requests c' s1') as [[x' q']|]; try contradiction; [|constructor].
      destruct R as [R1 R2]. repeat constructor; cbn; [|exact R2]. cbn in R1. apply (fsts_same x x _ _ R1). intros y z [X _]. exact X.
  - cbn [likewise]. pose proof C as (Ci & _ & Co & _ & _ & _ & Cm & _). split; cbn [n_offers n_asks].
    + rewrite <- Co. eapply forall2_map; [apply (forall2_same eq); reflexivity|]. intros a ? <-. repeat split; cbn; auto. apply more_qty, H.
    + repeat constructor; cbn; [exact Ci|]. unfold StorageModel.st_capacity. apply t_max; auto; [apply t_0|]. apply t_minus; [exact Cm|]. apply (ScaleSimple.total_more k _ _ H).
  - eapply like_bind; [apply (ScaleFlow.mx_tick_more k K _ _ _ _ _ _ E C H)|]. intros [s1 u] [s1' u'] [H1 _]. cbn [fst snd] in *. cbn [likewise]. pose proof C as (Cs & Co & _). split; cbn [n_offers n_asks].
    + repeat constructor; cbn; [exact Co|]. destruct H1 as (_ & _ & [_ O] & _). unfold b_qty. apply more_qty, O.
    + unfold MixerModel.mx_requests. eapply forall2_map; [apply (ScaleFlow.mx_reqs_more k K _ _ E _ _ Cs); apply H1|]. intros a b (_ & X & Y). split; cbn; [rewrite Y; reflexivity|]. split; auto.
  - rewrite Er. eapply like_bind; [apply (ScaleFlow.get_bids_more k K _ recipes_real _ _ _ _ _ _ _ _ _ _ _ _ Eg C whole_more (fun n => eq_refl) G2 H)|].
    intros [q p] [q' p'] [_ P]. cbn [fst snd] in *. cbn [likewise]. split; cbn [n_offers n_asks]; [|constructor]. destruct p as [p|], p' as [p'|]; try contradiction; [|constructor].
    destruct P as [_ P]. repeat constructor; cbn; [apply C|exact P].
  - rewrite Er. eapply like_bind; [apply (ScaleSimple.sk_tick_more k K _ _ _ _ _ _ t _ _ Eg C G3 H)|]. intros [s1 u] [s1' u'] [H1 _]. cbn [fst snd] in *.
    eapply like_bind; [apply (ScaleSimple.sk_mat_more k K _ _ _ _ _ _ _ _ _ Eg C G4 H1)|]. intros [s2 m] [s2' m'] [_ M]. cbn [fst snd] in *. cbn [likewise]. split; cbn [n_offers n_asks]; [constructor|].
    destruct m as [m|], m' as [m'|]; try contradiction; [|constructor]. destruct M as (M1 & _ & M2). repeat constructor; cbn; [rewrite M2; reflexivity|exact M1].
  - rewrite Er. pose proof C as [Ca _]. eapply like_bind; [apply (ScaleReactor.tick_more k K _ recipes_real _ _ E _ _ C t _ _ H)|]. intros [s1 u] [s1' u'] [H1 _]. cbn [fst snd] in *.
    eapply like_bind; [apply (ScaleReactor.requests_more k _ _ _ C t _ _ H1)|]. intros [r v] [r' v'] [R _]. cbn [fst snd] in *.
    eapply like_bind; [apply (ScaleReactor.get_bids_more k K _ _ E _ _ C _ _ _ _ H1 G1)|]. intros b b' B. cbn [likewise]. split; cbn [n_offers n_asks].
    + eapply forall2_map; [exact B|]. intros x y (X & _ & Y). repeat split; cbn; auto.
    + eapply forall2_map; [exact R|]. intros x y X. split; [|split; exact Ca]. cbn. clear - X. induction X as [|a b l l' (Y & _) X IH]; [reflexivity|]. cbn. rewrite Y, IH. reflexivity.
Qed.

(** ** The time step of a facility *)
Definition got_more (x y : trade * mat) : Prop := trade_more k (fst x) (fst y) /\ more_assem k (snd x) (snd y).
Definition step_more (p p' : fac * list mat) : Prop := scaled k (fst p) (fst p') /\ Forall2 (more k) (snd p) (snd p').
Lemma fstep_more t g g' f f' S S' R R' : signal_more k g g' -> scaled k f f' -> Forall2 (trade_more k) S S' -> Forall (fun d => 0 < csum (t_want d)) S -> Forall2 got_more R R' ->
  likewise step_more (fstep w t g f S R) (fstep w' t g' f' S' R').
Proof.
  destruct WM as (E & Eg & Er). intros (G1 & G2 & G3 & G4) SC TS PS TR.
  assert (AM : Forall2 (times k) (map t_amt S) (map t_amt S')) by (eapply forall2_map; [exact TS|]; intros a b H; apply H).
  assert (RM : Forall2 (more k) (map snd R) (map snd R')) by (eapply forall2_map; [exact TR|]; intros a b H; apply H).
  destruct f as [c s|c s|c s|c s|c s|c s], f' as [c' s'|c' s'|c' s'|c' s'|c' s'|c' s']; try contradiction; destruct SC as [C H]; cbn [fstep]; rewrite ?Er.
  - pose proof C as (_ & Co & _). rewrite <- Co. eapply like_bind; [apply (ScaleSimple.cv_step_more k K _ _ _ _ _ _ _ _ E C H); repeat split; cbn; auto|].
    intros [s1 o] [s1' o'] [H1 O]. cbn [fst snd] in *. cbn [likewise]. split; [split; [exact C|exact H1]|apply O].
  - eapply like_bind; [apply (ScaleSimple.st_step_more k K _ _ _ _ _ _ _ _ E C H); repeat split; cbn; auto|].
    intros [s1 o] [s1' o'] [H1 O]. cbn [fst snd] in *. cbn [likewise]. split; [split; [exact C|exact H1]|apply O].
  - eapply like_bind; [apply (ScaleFlow.mx_step_more k K _ _ _ _ _ _ _ _ E C H); split; cbn; [exact AM|]|].
    { eapply forall2_map; [exact TR|]. intros a b [(_ & _ & _ & X & _) [_ Y]]. split; [exact X|exact Y]. }
    intros [s1 o] [s1' o'] [H1 O]. cbn [fst snd] in *. cbn [likewise]. split; [split; [exact C|exact H1]|apply O].
  - eapply like_bind; [apply (ScaleFlow.sr_step_more k K _ recipes_real _ _ _ _ _ _ _ _ _ _ E Eg C H)|].
    { repeat split; cbn; [apply whole_more|apply whole_more|exact G2|]. clear - TS PS K. induction TS as [|a b l l' (_ & _ & _ & _ & X & Y) F IH]; [constructor|]. inversion PS; subst. cbn. constructor; [|auto].
      cbn. split; [exact Y|]. split; cbn; [exact Y|]. rewrite <- X. apply mix_refl; auto. lra. }
    intros [s1 o] [s1' o'] [H1 O]. cbn [fst snd] in *. cbn [likewise]. split; [split; [exact C|exact H1]|]. cbn. eapply forall2_map; [apply O|]. intros a b X. apply X.
  - eapply like_bind; [apply (ScaleSimple.sk_step_more k K _ _ _ _ _ _ _ t _ _ _ _ E Eg C H); repeat split; cbn; auto; try apply G3; try apply G4|].
    intros [s1 o] [s1' o'] [H1 O]. cbn [fst snd] in *. cbn [likewise]. split; [split; [exact C|exact H1]|constructor].
  - eapply like_bind; [apply (ScaleReactor.rx_step_more k K _ recipes_real _ _ E _ _ C t _ _ _ _ H)|].
    { repeat split; cbn; [exact G1| |].
      - clear - TS. induction TS as [|a b l l' (_ & _ & X & _) F IH]; [reflexivity|]. cbn. rewrite X, IH. reflexivity.
      - eapply forall2_map; [exact TR|]. intros a b [(_ & _ & X & _) Y]. split; [exact X|exact Y]. }
    intros o o' O. destruct O as (_ & _ & _ & O1 & _ & O2). cbn [likewise]. split; [split; [exact C|exact O2]|]. cbn. eapply forall2_map; [exact O1|]. intros a b [_ [_ X]]. exact X.
Qed.

(** ** The exchange *)
Lemma filter2 {A B} (R : A -> B -> Prop) p q l l' : Forall2 R l l' -> (forall a b, R a b -> p a = q b) -> Forall2 R (filter p l) (filter q l').
Proof. intros F H. induction F as [|a b l l' X F IH]; [constructor|]. cbn. rewrite <- (H _ _ X). destruct (p a); [constructor; auto|auto]. Qed.
Lemma total_more l l' : Forall2 (trade_more k) l l' -> times k (total l) (total l').
Proof. unfold total. induction 1 as [|a b l l' (_ & _ & _ & _ & _ & X) F IH]; [apply t_0|]. cbn. apply t_plus; assumption. Qed.
Lemma fits_more u u' q q' : agree (times k) u u' -> times k q q' -> fits u q -> fits u' q'.
Proof. destruct u, u'; cbn; try contradiction; auto. unfold times. intros -> -> ->. reflexivity. Qed.
Lemma le_more a a' b b' : times k a a' -> times k b b' -> a <= b -> a' <= b'.
Proof. unfold times. intros -> -> H. apply Qmult_le_l; auto. Qed.
Lemma Forall2_in {A B} (R : A -> B -> Prop) l l' x : Forall2 R l l' -> In x l -> exists y, In y l' /\ R x y.
Proof. induction 1 as [|a b l l' X F IH]; [intros []|]. intros [<-|I]; [exists b; split; [left; reflexivity|exact X]|]. destruct (IH I) as (y & Y1 & Y2). exists y. split; [right; exact Y1|exact Y2]. Qed.
Lemma Forall2_in_r {A B} (R : A -> B -> Prop) l l' y : Forall2 R l l' -> In y l' -> exists x, In x l /\ R x y.
Proof. induction 1 as [|a b l l' X F IH]; [intros []|]. intros [<-|I]; [exists a; split; [left; reflexivity|exact X]|]. destruct (IH I) as (x & Y1 & Y2). exists x. split; [right; exact Y1|exact Y2]. Qed.
Lemma sales_more n n' S S' : notice_more n n' -> Forall2 (trade_more k) S S' -> sales_ok n S -> sales_ok n' S'.
Proof.
  intros [No _] T [A B]. split.
  - clear B. induction T as [|d d' l l' (_ & _ & X1 & _ & X2 & X3) F IH]; [constructor|]. inversion A as [|? ? (A1 & A2 & A3 & o & A4 & A5 & A6) A7]; subst. constructor; [|auto].
    split; [unfold times in X3; rewrite X3; apply Qmult_lt_0_compat; assumption|]. rewrite <- X2. split; [exact A2|]. split; [exact A3|].
    destruct (Forall2_in _ _ _ _ No A4) as (o' & I & Y1 & _ & Y3). exists o'. split; [exact I|]. split; [congruence|]. exact (fits_more _ _ _ _ Y3 X3 A6).
  - intros o' I. destruct (Forall2_in_r _ _ _ _ No I) as (o & I' & Y1 & Y2 & _). eapply le_more; [apply total_more, (filter2 _ (fun d => String.eqb (t_commod d) (of_commod o)) _ _ _ T)|exact Y2|exact (B o I')].
    intros a b (_ & _ & X & _). rewrite X, Y1. reflexivity.
Qed.
Lemma commods_more l l' : Forall2 ask_more l l' -> flat_map ak_commods l = flat_map ak_commods l'.
Proof. induction 1 as [|a b l l' (X & _) F IH]; [reflexivity|]. cbn. rewrite X, IH. reflexivity. Qed.
Lemma slots_more l l' : Forall2 ask_more l l' -> forall p, slots p l = slots p l'.
Proof. induction 1 as [|a b l l' (X & _) F IH]; intro p; [reflexivity|]. cbn. rewrite X, IH. reflexivity. Qed.
Lemma buys_more n n' S S' : notice_more n n' -> Forall2 (trade_more k) S S' -> buys_ok n S -> buys_ok n' S'.
Proof.
  intros [_ Na] T [A B]. split.
  - rewrite <- (commods_more _ _ Na). clear B. induction T as [|d d' l l' (_ & _ & X1 & X2 & _) F IH]; [constructor|]. inversion A; subst. constructor; [|auto]. rewrite <- X1, <- X2. assumption.
  - intros p a' P. cbv zeta. pose proof (forall2_nth _ _ _ Na p) as N. rewrite P in N. destruct (nth_error (n_asks n) p) as [a|] eqn:Pa; [|contradiction]. destruct N as (_ & N2 & N3).
    specialize (B p a Pa). cbv zeta in B. rewrite <- (slots_more _ _ Na).
    set (p1 := fun d : trade => match nth_error (slots 0 (n_asks n)) (t_slot d) with Some p' => Nat.eqb p' p | None => false end) in *.
    assert (M : Forall2 (trade_more k) (filter p1 S) (filter p1 S')) by (apply filter2; [exact T|]; intros x y (_ & _ & _ & X & _); unfold p1; rewrite X; reflexivity).
    destruct B as [B1 B2]. split.
    + clear B2. induction M as [|d d' l l' (_ & _ & _ & _ & _ & X) F IH]; [constructor|]. inversion B1; subst. constructor; [|auto]. eapply fits_more; eauto.
    + intros q' Lq Ne. rewrite Lq in N2. destruct (ak_limit a) as [q|]; [|contradiction]. eapply le_more; [apply total_more, M|exact N2|]. apply B2; [reflexivity|].
      intro Z. rewrite Z in M. apply Ne. inversion M. reflexivity.
Qed.
Lemma sold_more i ds ds' : Forall2 (trade_more k) ds ds' -> Forall2 (trade_more k) (sold_by i ds) (sold_by i ds').
Proof. intro F. apply filter2; [exact F|]. intros a b (X & _). rewrite X. reflexivity. Qed.
Lemma bought_more i ds ds' : Forall2 (trade_more k) ds ds' -> Forall2 (trade_more k) (bought_by i ds) (bought_by i ds').
Proof. intro F. apply filter2; [exact F|]. intros a b (_ & X & _). rewrite X. reflexivity. Qed.
Lemma orderly_more t gs gs' fs fs' ds ds' : (forall i, signal_more k (gs i) (gs' i)) -> Forall2 (scaled k) fs fs' -> Forall2 (trade_more k) ds ds' -> orderly w t gs fs ds -> orderly w' t gs' fs' ds'.
Proof.
  intros G A T [O1 O2]. split.
  - rewrite <- (forall2_len _ _ _ A). clear O2. induction T as [|d d' l l' (X & Y & _) F IH]; [constructor|]. inversion O1; subst. constructor; [|auto]. rewrite <- X, <- Y. assumption.
  - intros i f' n' N' P'. pose proof (forall2_nth _ _ _ A i) as N. rewrite N' in N. destruct (nth_error fs i) as [f|] eqn:Nf; [|contradiction].
    pose proof (publish_more t _ _ _ _ (G i) N) as P. rewrite P' in P. destruct (publish w t (gs i) f) as [n| | |] eqn:Pn; try contradiction. destruct (O2 i f n Nf Pn) as [O3 O4].
    split; [eapply sales_more|eapply buys_more]; eauto using sold_more, bought_more.
Qed.
Lemma rng_ok_more g g' : rng_more k g g' -> SinkSpec.rng_ok g -> SinkSpec.rng_ok g'.
Proof.
  assert (D : forall x, times k (x / k) x) by (intro x; unfold times; field; lra).
  assert (L : forall a b, a <= b -> a / k <= b / k) by (intros a b H; apply Qmult_le_compat_r; [exact H|]; apply Qlt_le_weak, Qinv_lt_0_compat, K).
  intros (R1 & R2 & R3 & R4) (O1 & O2 & O3 & O4). split; [|split; [|split]].
  - intros lo hi H. destruct (O1 _ _ (L _ _ H)) as [X Y]. pose proof (R1 _ _ _ _ (D lo) (D hi)) as Z. split; eapply le_more; [apply D|exact Z|exact X|exact Z|apply D|exact Y].
  - intros m d lo hi H. destruct (O2 (m / k) (d / k) _ _ (L _ _ H)) as [X Y]. pose proof (R2 _ _ _ _ _ _ _ _ (D m) (D d) (D lo) (D hi)) as Z. split; eapply le_more; [apply D|exact Z|exact X|exact Z|apply D|exact Y].
  - intros lo hi H. rewrite <- R3. auto.
  - intros m d lo hi H. rewrite <- R4. auto.
Qed.
Lemma signal_ok_more g g' : signal_more k g g' -> signal_ok g -> signal_ok g'.
Proof. intros (_ & _ & A & B) [X Y]. split; eapply rng_ok_more; eauto. Qed.

(** ** The parcels *)
Lemma sent_more N ds ds' : Forall2 (trade_more k) ds ds' -> Forall (fun d => (t_from d < N)%nat) ds -> forall s s', List.length s = List.length ds -> List.length s' = List.length ds' ->
  (forall i, (i < N)%nat -> Forall2 (more k) (shipped_by i ds s) (shipped_by i ds' s')) -> Forall2 (more k) s s'.
Proof.
  induction 1 as [|d d' ds ds' (X & _) F IH]; intros P [|m s] [|m' s'] L L' H; try discriminate; [constructor|]. inversion P as [|? ? P1 P2]; subst.
  pose proof (H _ P1) as H0. unfold shipped_by in H0. cbn in H0. rewrite <- X, !Nat.eqb_refl in H0. cbn in H0. inversion H0 as [|? ? ? ? H1 H2]; subst. constructor; [exact H1|].
  apply IH; [exact P2|cbn in L; congruence|cbn in L'; congruence|]. intros i I. specialize (H i I). unfold shipped_by in H. cbn in H. rewrite <- X in H. destruct (Nat.eqb (t_from d) i); [inversion H; assumption|exact H].
Qed.
Lemma renumber_more : forall s s', Forall2 (more k) s s' -> forall id, Forall2 (more_assem k) (renumber id s) (renumber id s').
Proof. induction 1 as [|m m' s s' X F IH]; intro id; [constructor|]. cbn. constructor; [split; [reflexivity|exact X]|apply IH]. Qed.
Lemma combine_more {A B C D} (R : A -> B -> Prop) (T : C -> D -> Prop) : forall a b, Forall2 R a b -> forall c d, Forall2 T c d -> Forall2 (fun x y => R (fst x) (fst y) /\ T (snd x) (snd y)) (combine a c) (combine b d).
Proof. induction 1 as [|x y a b X F IH]; intros c d G; [constructor|]. destruct G; [constructor|]. cbn. constructor; auto. Qed.

(** ** A time step *)
Lemma wants_real n S : sales_ok n S -> Forall (fun d => 0 < csum (t_want d)) S.
Proof. intros [A _]. eapply Forall_impl; [|exact A]. intros d (_ & _ & X & _). exact X. Qed.
Lemma nstep_more t id gs gs' fs fs' ds ds' fs1 sent : (0 <= t)%Z -> all_good w t id fs -> all_good w' t id fs' -> (forall i, signal_ok (gs i)) ->
  (forall i, signal_more k (gs i) (gs' i)) -> Forall2 (scaled k) fs fs' -> Forall2 (trade_more k) ds ds' -> orderly w t gs fs ds -> nstep w t id gs fs ds fs1 sent ->
  exists fs1' sent', nstep w' t id gs' fs' ds' fs1' sent' /\ Forall2 (scaled k) fs1 fs1' /\ Forall2 (more k) sent sent'.
Proof.
  intros T0 AG AG' SO G A T O (L1 & L2 & H). pose proof (orderly_more t gs gs' fs fs' ds ds' G A T O) as O'. assert (SO' : forall i, signal_ok (gs' i)) by (intro i; eapply signal_ok_more; eauto).
  destruct (nstep_exists w' t id gs' fs' ds' world_ok' T0 SO' AG' O') as (fs1' & sent' & (L1' & L2' & H') & _). pose proof (forall2_len _ _ _ A) as LA.
  assert (AT : forall i f1 f1', nth_error fs1 i = Some f1 -> nth_error fs1' i = Some f1' -> exists f f', nth_error fs i = Some f /\ nth_error fs' i = Some f' /\ scaled k f f' /\ Forall (fun d => 0 < csum (t_want d)) (sold_by i ds) /\
     exists n n', publish w t (gs i) f = Ok n /\ publish w' t (gs' i) f' = Ok n' /\ sales_ok n (sold_by i ds) /\ sales_ok n' (sold_by i ds')).
  { intros i f1 f1' N1 N1'. assert (I : (i < List.length fs)%nat) by (rewrite <- L2; apply nth_error_Some; congruence). destruct (nth_error fs i) as [f|] eqn:N; [|apply nth_error_None in N; lia].
    pose proof (forall2_nth _ _ _ A i) as M. rewrite N in M. destruct (nth_error fs' i) as [f'|] eqn:N'; [|contradiction]. exists f, f'. split; [reflexivity|]. split; [reflexivity|]. split; [exact M|].
    pose proof (proj1 (Forall_forall _ _) AG f (nth_error_In _ _ N)) as GD. destruct (good_works w t id id (gs i) f W T0 (Z.le_refl _) (SO i) GD) as (n & P & _).
    pose proof (proj1 (Forall_forall _ _) AG' f' (nth_error_In _ _ N')) as GD'. destruct (good_works w' t id id (gs' i) f' world_ok' T0 (Z.le_refl _) (SO' i) GD') as (n' & P' & _).
    destruct O as [_ O], O' as [_ O']. destruct (O i f n N P) as [O1 _], (O' i f' n' N' P') as [O1' _]. split; [eapply wants_real; exact O1|]. exists n, n'. auto. }
  assert (SM : Forall2 (more k) sent sent').
  { apply (sent_more (List.length fs) ds ds' T); [destruct O as [O _]; eapply Forall_impl; [|exact O]; intros d [X _]; exact X|exact L1|exact L1'|]. intros i I.
    destruct (nth_error fs1 i) as [f1|] eqn:N1; [|apply nth_error_None in N1; lia]. destruct (nth_error fs1' i) as [f1'|] eqn:N1'; [|apply nth_error_None in N1'; lia].
    destruct (AT i f1 f1' N1 N1') as (f & f' & N & N' & SC & PW & n & n' & P & P' & S1 & S1').
    pose proof (proj1 (Forall_forall _ _) AG f (nth_error_In _ _ N)) as GD. destruct (good_works w t id id (gs i) f W T0 (Z.le_refl _) (SO i) GD) as (n0 & P0 & WK). rewrite P in P0. injection P0 as <-.
    destruct (WK (sold_by i ds) [] S1 (buys_nothing n) (Forall_nil _) (NoDup_nil _)) as (f2 & ms & FS & _).
    pose proof (fstep_more t _ _ _ _ _ _ [] [] (G i) SC (sold_more i _ _ T) PW (Forall2_nil _)) as X. rewrite FS in X. destruct (fstep w' t (gs' i) f' (sold_by i ds') []) as [[f2' ms']| | |] eqn:FS'; try contradiction.
    destruct X as [_ X]. cbn in X. pose proof (ships_same _ _ _ _ _ _ _ _ _ _ _ FS (H i f f1 N N1)) as E1. pose proof (ships_same _ _ _ _ _ _ _ _ _ _ _ FS' (H' i f' f1' N' N1')) as E1'.
    unfold shipped_by. rewrite <- E1, <- E1'. exact X. }
  exists fs1', sent'. split; [split; [exact L1'|split; [exact L2'|exact H']]|]. split; [|exact SM].
  apply nth_Forall2; [congruence|]. intros i f1 f1' N1 N1'. destruct (AT i f1 f1' N1 N1') as (f & f' & N & N' & SC & PW & _).
  assert (RG : Forall2 got_more (filter (fun x => Nat.eqb (t_to (fst x)) i) (combine ds (renumber id sent))) (filter (fun x => Nat.eqb (t_to (fst x)) i) (combine ds' (renumber id sent')))).
  { apply filter2; [apply combine_more; [exact T|apply renumber_more, SM]|]. intros a b [(_ & X & _) _]. rewrite X. reflexivity. }
  pose proof (fstep_more t _ _ _ _ _ _ _ _ (G i) SC (sold_more i _ _ T) PW RG) as X. rewrite (H i f f1 N N1), (H' i f' f1' N' N1') in X. destruct X as [X _]. exact X.
Qed.

(** ** Scenarios *)
Lemma plays_reached v id0 ms t id fs : plays v id0 ms t id fs -> reached v t id fs.
Proof. induction 1; [constructor|constructor; assumption|eapply retiring; eassumption|eapply stepping; eassumption]. Qed.
Lemma reached_plays v t id fs : reached v t id fs -> exists id0 ms, plays v id0 ms t id fs.
Proof.
  induction 1 as [id|t id fs f _ (i0 & ms & P) D|t id a f b _ (i0 & ms & P)|t id fs gs ds fs' sent _ (i0 & ms & P) G O N]; [exists id, []; constructor|exists i0; eexists..].
  - apply pl_deploy; eassumption.
  - eapply pl_retire; eassumption.
  - eapply pl_trade; eassumption.
Qed.
Lemma snoc_more {A B} (R : A -> B -> Prop) l x l' : Forall2 R (l ++ [x]) l' -> exists m y, l' = m ++ [y] /\ Forall2 R l m /\ R x y.
Proof. intro F. apply Forall2_app_inv_l in F as (m & n & F1 & F2 & ->). inversion F2 as [|? y ? n' X F3]; subst. inversion F3; subst. exists m, y. auto. Qed.
Lemma plays_more id0 ms t id fs : plays w id0 ms t id fs -> forall ms', Forall2 (move_more k w') ms ms' -> exists fs', plays w' id0 ms' t id fs' /\ Forall2 (scaled k) fs fs'.
Proof.
  induction 1 as [|ms t id fs f P IH D|ms t id a f b P IH|ms t id fs gs ds fs1 sent P IH G O N]; intros ms' M.
  - inversion M. exists []. split; constructor.
  - apply snoc_more in M as (m & y & -> & M & X). destruct (IH m M) as (fs' & P' & A). destruct y; try contradiction. destruct X as (<- & X1 & X2). exists (fs' ++ [f0]). split; [apply pl_deploy; assumption|].
    apply Forall2_app; [exact A|]. constructor; [exact X1|constructor].
  - apply snoc_more in M as (m & y & -> & M & X). destruct (IH m M) as (fs' & P' & A). destruct y; try contradiction. cbn in X. subst i. apply Forall2_app_inv_l in A as (a' & fb & A1 & A2 & ->). inversion A2 as [|? f' ? b' A3 A4]; subst.
    exists (a' ++ b'). split; [|apply Forall2_app; assumption]. rewrite (forall2_len _ _ _ A1). eapply pl_retire. exact P'.
  - apply snoc_more in M as (m & y & -> & M & X). destruct (IH m M) as (fs' & P' & A). destruct y as [| |gs' ds']; try contradiction. destruct X as [X1 X2].
    destruct (reached_good w W _ _ _ (plays_reached _ _ _ _ _ _ P)) as [T0 AG]. destruct (reached_good w' world_ok' _ _ _ (plays_reached _ _ _ _ _ _ P')) as [_ AG'].
    destruct (nstep_more t id gs gs' fs fs' ds ds' fs1 sent T0 AG AG' G X1 A X2 O N) as (fs1' & sent' & N' & A' & _). exists fs1'. split; [|exact A'].
    replace (zlen ds) with (zlen ds') by (unfold zlen; rewrite (forall2_len _ _ _ X2); reflexivity). eapply pl_trade; [exact P'| |eapply orderly_more; eauto|exact N'].
    intro i. eapply signal_ok_more; eauto.
Qed.
Lemma inside_more f f' : scaled k f f' -> Forall2 (more k) (inside f) (inside f').
Proof.
  destruct f as [c s|c s|c s|c s|c s|c s], f' as [c' s'|c' s'|c' s'|c' s'|c' s'|c' s']; try contradiction; intros [_ H]; cbn [inside].
  - destruct H. apply Forall2_app; assumption.
  - destruct H as (A & B & _ & C & D). repeat apply Forall2_app; assumption.
  - destruct H as (_ & A & [_ B] & _). unfold MixerSpec.mx_held. apply Forall2_app; [|exact B]. eapply forall2_flat; [exact A|]. intros x y [_ X]. exact X.
  - apply H.
  - destruct H as (_ & A & _). unfold sunk. eapply forall2_flat; [exact A|]. intros x y [X Y]. destruct (SinkModel.r_comp x), (SinkModel.r_comp y); try contradiction; [|constructor].
    repeat constructor; [exact X|exact Y].
  - destruct H as ((_ & A) & (_ & B) & (_ & C) & _). unfold ReactorSpec.assemblies. apply (ScaleReactor.as_more k). repeat apply Forall2_app; assumption.
Qed.
Lemma stock_more fs fs' : Forall2 (scaled k) fs fs' -> Forall2 (more k) (stock fs) (stock fs').
Proof. intro F. unfold stock. eapply forall2_flat; [exact F|]. exact inside_more. Qed.
End Unit.

Lemma scenario k w w' id0 ms ms' t id fs : 0 < k -> world_ok w -> world_more k w w' -> plays w id0 ms t id fs -> Forall2 (move_more k w') ms ms' ->
  exists fs', plays w' id0 ms' t id fs' /\ Forall2 (scaled k) fs fs' /\ Forall2 (more k) (stock fs) (stock fs').
Proof. intros K W M P F. destruct (plays_more k K w w' W M id0 ms t id fs P ms' F) as (fs' & P' & A). exists fs'. split; [exact P'|]. split; [exact A|apply stock_more, A]. Qed.
Lemma scenarios w t id fs : reached w t id fs <-> exists id0 ms, plays w id0 ms t id fs.
Proof. split; [apply reached_plays|]. intros (i & ms & P). eapply plays_reached, P. Qed.
