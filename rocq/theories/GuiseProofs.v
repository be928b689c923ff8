(** Proofs for C148. *)
From Coq Require Import Lia Lqa List.
From Verif Require Import Outcome KernelMaterial KernelResBuf KernelBuf KernelFacts NetworkSpec SimulationSpec SimulationProofs SimulationNetwork BareSpec BareReactor BareProofs GuiseSpec.
From Verif Require ReactorModel ReactorSpec StorageModel SinkModel SourceModel ConversionModel MixerModel.
Import ListNotations.
Local Open Scope Q_scope.

(** ** One facility *)
Section F.
Variables (w w0 : world).
Hypothesis E1 : w_eps w0 = w_eps w.
Hypothesis E2 : w_eg w0 = w_eg w.
Hypothesis R0 : forall r, w_recipe w0 r = match w_recipe w r with Some _ => Some [] | None => None end.
Lemma fstep_blank t g f sales got : fstep w0 t (bare_signal g) (bare_fac f) (map bare_trade sales) (map bare_parcel got) = on bare_result (fstep w t g f sales got).
Proof.
  destruct f as [c s|c s|c s|c s|c s|c s]; cbn [fstep bare_fac]; rewrite ?E1, ?E2; rewrite ?map_map.
  - match goal with |- bind ?X _ = on _ (bind ?Y _) => assert (E : X = on bcv_step Y) end; [rewrite <- cv_step_bare; unfold bare_conversion_step; cbn; rewrite map_map; reflexivity|]. rewrite E. apply bind_on. intros [s1 o]. reflexivity.
  - match goal with |- bind ?X _ = on _ (bind ?Y _) => assert (E : X = on bst_step Y) end; [rewrite <- st_step_bare; unfold bare_storage_step; cbn; rewrite map_map; reflexivity|]. rewrite E. apply bind_on. intros [s1 o]. reflexivity.
  - match goal with |- bind ?X _ = on _ (bind ?Y _) => assert (E : X = on bmx_step Y) end; [rewrite <- mx_step_bare; unfold bare_mixer_step; cbn; rewrite map_map; reflexivity|]. rewrite E. apply bind_on. intros [s1 o]. reflexivity.
  - match goal with |- bind ?X _ = on _ (bind ?Y _) => assert (E : X = on bsr_step Y) end; [rewrite <- (sr_step_bare _ _ _ (w_recipe w0) _ R0); unfold bare_source_step; cbn; rewrite !map_map; reflexivity|]. rewrite E. apply bind_on. intros [s1 o].
    cbn. unfold bare_result. cbn. rewrite !map_map. reflexivity.
  - match goal with |- bind ?X _ = on _ (bind ?Y _) => assert (E : X = on bsk_step Y) end; [rewrite <- (sk_step_bare _ _ _ (w_recipe w0) _ R0); unfold bare_sink_step; cbn; rewrite map_map; reflexivity|]. rewrite E. apply bind_on. intros [s1 o]. reflexivity.
  - match goal with |- bind ?X _ = on _ (bind ?Y _) => assert (E : X = on bare_reactor_out Y) end; [rewrite <- (step_bare _ _ (w_recipe w0) _ R0); unfold bare_reactor_step; cbn; rewrite !map_map; reflexivity|]. rewrite E. apply bind_on. intros o.
    cbn. unfold bare_result. cbn. rewrite !map_map. reflexivity.
Qed.
Lemma bind_idem {A A' B} (f : A -> A') (o : outcome A) (k : A -> outcome B) (k' : A' -> outcome B) : (forall a, k' (f a) = k a) -> bind (on f o) k' = bind o k.
Proof. intro H. destruct o; cbn; auto. Qed.
Lemma publish_blank t g f : publish w0 t (bare_signal g) (bare_fac f) = publish w t g f.
Proof.
  destruct f as [c s|c s|c s|c s|c s|c s]; cbn [publish bare_fac]; rewrite ?E1, ?E2.
  - rewrite cv_tick_bare. apply bind_idem. intro s1. cbn [bare_signal g_reqs]. rewrite cv_bids_bare. apply bind_idem. intros [[b q]|]; cbn [option_map fst snd];
      replace (ConversionModel.cv_requests c (bare_conversion s1)) with (ConversionModel.cv_requests c s1) by (unfold ConversionModel.cv_requests, ConversionModel.cv_available; change (ConversionModel.vs_input (bare_conversion s1)) with (map bare (ConversionModel.vs_input s1)); rewrite qty_bare; reflexivity); reflexivity.
  - rewrite cap_bare. change (StorageModel.ss_stocks (bare_storage s)) with (map bare (StorageModel.ss_stocks s)). rewrite qty_bare. reflexivity.
  - rewrite mx_tick_bare. apply bind_idem. intros [s1 x]. cbn [btick fst snd]. unfold MixerModel.mx_requests. cbn [bare_mixer MixerModel.xs_output MixerModel.xs_bufs]. rewrite b_qty_bare, reqs_bare. reflexivity.
  - cbn [bare_signal g_wants]. rewrite (sr_bids_bare _ _ (w_recipe w0) _ R0). apply bind_idem. intros [q [p|]]; reflexivity.
  - cbn [bare_signal g_rng g_rng2]. rewrite sk_tick_bare. apply bind_idem. intros [s1 x]. cbn [bkt fst snd]. rewrite (sk_mat_bare _ _ (w_recipe w0) _ R0). apply bind_idem. intros [s2 [r|]]; reflexivity.
  - rewrite (tick_bare _ _ (w_recipe w0) _ R0). apply bind_idem. intros [s1 x]. cbn [bev fst snd]. rewrite (requests_bare _ (w_recipe w0) _ R0). apply bind_idem. intros [rs y]. cbn [bre fst snd].
    cbn [bare_signal g_reqs]. rewrite bids_bare. apply bind_idem. intro bs. rewrite !map_map. f_equal. f_equal. apply map_ext. intro p. rewrite map_map. reflexivity.
Qed.
End F.

(** ** Two worlds *)
Definition blank_world (w : world) : world :=
  {| w_eps := w_eps w; w_eg := w_eg w; w_nz := w_nz w; w_D := w_D w; w_V := w_V w; w_aw := w_aw w; w_recipe := blank (w_recipe w) |}.
Lemma guise_facility w w' t g g' f f' : other_materials w w' -> bare_fac f' = bare_fac f -> bare_signal g' = bare_signal g ->
  publish w' t g' f' = publish w t g f /\
  forall sales sales' got got', map bare_trade sales' = map bare_trade sales -> map bare_parcel got' = map bare_parcel got ->
    on bare_result (fstep w' t g' f' sales' got') = on bare_result (fstep w t g f sales got).
Proof.
  intros (A & B & C) F G. pose proof (blank_same _ _ C) as RR. split.
  - rewrite <- (publish_blank w (blank_world w) eq_refl eq_refl (fun r => eq_refl) t g f). rewrite <- (publish_blank w' (blank_world w) (eq_sym A) (eq_sym B) RR t g' f'). rewrite F, G. reflexivity.
  - intros S S' D D' ES ED. rewrite <- (fstep_blank w (blank_world w) eq_refl eq_refl (fun r => eq_refl)), <- (fstep_blank w' (blank_world w) (eq_sym A) (eq_sym B) RR). rewrite F, G, ES, ED. reflexivity.
Qed.

(** ** A time step *)
Lemma bare_filter (k : trade -> bool) : (forall d, k (bare_trade d) = k d) -> forall l l', map bare_trade l' = map bare_trade l -> map bare_trade (filter k l') = map bare_trade (filter k l).
Proof.
  intros K. induction l as [|d l IH]; intros [|d' l'] E; try discriminate E; [reflexivity|]. cbn [map] in E. assert (E1 : bare_trade d' = bare_trade d) by congruence. assert (E2 : map bare_trade l' = map bare_trade l) by congruence.
  cbn [filter]. rewrite <- (K d), <- (K d'), E1. destruct (k (bare_trade d)); cbn [map]; [rewrite E1, (IH l' E2); reflexivity|exact (IH l' E2)].
Qed.
Lemma bare_filter1 (k : trade -> bool) : (forall d, k (bare_trade d) = k d) -> forall (l l' : list (trade * mat)), map bare_parcel l' = map bare_parcel l ->
  map bare_parcel (filter (fun x => k (fst x)) l') = map bare_parcel (filter (fun x => k (fst x)) l).
Proof.
  intros K. induction l as [|d l IH]; intros [|d' l'] E; try discriminate E; [reflexivity|]. cbn [map] in E. assert (E1 : bare_parcel d' = bare_parcel d) by congruence. assert (E2 : map bare_parcel l' = map bare_parcel l) by congruence.
  assert (EK : k (fst d') = k (fst d)) by (rewrite <- (K (fst d)), <- (K (fst d')); f_equal; exact (f_equal fst E1)).
  cbn [filter]. rewrite EK. destruct (k (fst d)); cbn [map]; [rewrite E1, (IH l' E2); reflexivity|exact (IH l' E2)].
Qed.
Lemma bare_combine : forall (a a' : list trade) (b b' : list mat), map bare_trade a' = map bare_trade a -> map bare b' = map bare b -> map bare_parcel (combine a' b') = map bare_parcel (combine a b).
Proof.
  induction a as [|x a IH]; intros [|x' a'] b b' A B; try discriminate A; [reflexivity|]. cbn [map] in A. assert (A1 : bare_trade x' = bare_trade x) by congruence. assert (A2 : map bare_trade a' = map bare_trade a) by congruence.
  destruct b as [|y b], b' as [|y' b']; try discriminate B; [reflexivity|]. cbn [map] in B. assert (B1 : bare y' = bare y) by congruence. assert (B2 : map bare b' = map bare b) by congruence.
  cbn [combine map]. rewrite (IH a' b b' A2 B2). f_equal. unfold bare_parcel. cbn [fst snd]. rewrite A1, B1. reflexivity.
Qed.
Lemma bare_renumber : forall (l l' : list mat) k, map bare l' = map bare l -> map bare (renumber k l') = map bare (renumber k l).
Proof.
  induction l as [|x l IH]; intros [|x' l'] k E; try discriminate E; [reflexivity|]. cbn [map] in E. assert (E1 : bare x' = bare x) by congruence. assert (E2 : map bare l' = map bare l) by congruence.
  cbn [renumber map]. rewrite (IH l' (k + 1)%Z E2). f_equal. unfold bare in *. cbn. injection E1 as _ ->. reflexivity.
Qed.
Lemma total_bare l l' : map bare_trade l' = map bare_trade l -> total l' = total l.
Proof. intro E. unfold total. f_equal. apply (f_equal (map t_amt)) in E. rewrite !map_map in E. exact E. Qed.
Lemma in_bare (d' : trade) l l' : map bare_trade l' = map bare_trade l -> In d' l' -> exists d, In d l /\ bare_trade d' = bare_trade d.
Proof. intros E I. apply (in_map bare_trade) in I. rewrite E in I. apply in_map_iff in I as (d & X & Y). exists d. split; [exact Y|congruence]. Qed.
Lemma sales_bare n l l' : map bare_trade l' = map bare_trade l -> Forall proper_want l' -> sales_ok n l -> sales_ok n l'.
Proof.
  intros E P [A B]. split.
  - rewrite Forall_forall in *. intros d' D. destruct (P d' D) as [P1 P2]. destruct (in_bare _ _ _ E D) as (d & I & X). destruct (A d I) as (A1 & _ & _ & o & O1 & O2 & O3).
    split; [apply (f_equal t_amt) in X; cbn in X; rewrite X; exact A1|]. split; [exact P1|]. split; [exact P2|]. exists o. split; [exact O1|]. split; [apply (f_equal t_commod) in X; cbn in X; congruence|]. apply (f_equal t_amt) in X. cbn in X. rewrite X. exact O3.
  - intros o O. specialize (B o O). rewrite (total_bare _ _ (bare_filter (fun d => String.eqb (t_commod d) (of_commod o)) (fun d => eq_refl) _ _ E)). exact B.
Qed.
Lemma buys_bare n l l' : map bare_trade l' = map bare_trade l -> buys_ok n l -> buys_ok n l'.
Proof.
  intros E [A B]. split.
  - rewrite Forall_forall in *. intros d' D. destruct (in_bare _ _ _ E D) as (d & I & X). pose proof (f_equal t_slot X) as X1. pose proof (f_equal t_commod X) as X2. cbn in X1, X2. rewrite X1, X2. exact (A d I).
  - intros p a N. specialize (B p a N). cbv zeta in *. set (k := fun d : trade => match nth_error (slots 0 (n_asks n)) (t_slot d) with Some p' => Nat.eqb p' p | None => false end) in *.
    pose proof (bare_filter k (fun d => eq_refl) _ _ E) as EK. destruct B as [B1 B2]. split.
    + rewrite Forall_forall in *. intros d' D. destruct (in_bare _ _ _ EK D) as (d & I & X). pose proof (f_equal t_amt X) as X1. cbn in X1. rewrite X1. exact (B1 d I).
    + intros q Q X. rewrite (total_bare _ _ EK). apply B2; [exact Q|]. intro Z. rewrite Z in EK. apply X. destruct (filter k l'); [reflexivity|discriminate EK].
Qed.
Lemma nth_bare fs fs' i f' : map bare_fac fs' = map bare_fac fs -> nth_error fs' i = Some f' -> exists f, nth_error fs i = Some f /\ bare_fac f' = bare_fac f.
Proof.
  intros E N. assert (X : nth_error (map bare_fac fs') i = Some (bare_fac f')) by (rewrite nth_error_map, N; reflexivity). rewrite E, nth_error_map in X.
  destruct (nth_error fs i) as [f|]; [|discriminate X]. exists f. split; [reflexivity|]. cbn in X. congruence.
Qed.
Lemma Forall_filter {A} (P : A -> Prop) k l : Forall P l -> Forall P (filter k l).
Proof. intro F. rewrite Forall_forall in *. intros x X. apply filter_In in X as [X _]. exact (F x X). Qed.
Lemma orderly_guise w w' t gs gs' fs fs' ds ds' : other_materials w w' -> map bare_fac fs' = map bare_fac fs -> (forall i, bare_signal (gs' i) = bare_signal (gs i)) -> map bare_trade ds' = map bare_trade ds -> Forall proper_want ds' ->
  orderly w t gs fs ds -> orderly w' t gs' fs' ds'.
Proof.
  intros W F G D P (RG & OR). assert (L : List.length fs' = List.length fs) by (rewrite <- (map_length bare_fac fs'), F, map_length; reflexivity). split.
  - rewrite Forall_forall in *. intros d' I. destruct (in_bare _ _ _ D I) as (d & J & X). rewrite L. pose proof (f_equal t_from X) as X1. pose proof (f_equal t_to X) as X2. cbn in X1, X2. rewrite X1, X2. exact (RG d J).
  - intros i f' n N PB. destruct (nth_bare _ _ _ _ F N) as (f & N0 & E). destruct (guise_facility w w' t (gs i) (gs' i) f f' W E (G i)) as [PE _]. rewrite PE in PB. destruct (OR i f n N0 PB) as [S B]. split.
    + eapply sales_bare; [|apply Forall_filter, P|exact S]. apply bare_filter; [reflexivity|exact D].
    + eapply buys_bare; [|exact B]. apply bare_filter; [reflexivity|exact D].
Qed.
Lemma shipped_bare i ds sent : map bare (shipped_by i ds sent) = shipped_by i ds (map bare sent).
Proof. unfold shipped_by. revert sent. induction ds as [|d ds IH]; intros [|m sent]; try reflexivity. cbn [combine map filter fst]. destruct (Nat.eqb (t_from d) i); cbn [map snd]; rewrite IH; reflexivity. Qed.
Lemma shipped_want i : forall ds ds' sent, map bare_trade ds' = map bare_trade ds -> shipped_by i ds' sent = shipped_by i ds sent.
Proof.
  unfold shipped_by. induction ds as [|d ds IH]; intros [|d' ds'] sent E; try discriminate E; [reflexivity|]. cbn [map] in E. assert (X : t_from d' = t_from d) by (apply (f_equal t_from (x := bare_trade d') (y := bare_trade d)); congruence). assert (E2 : map bare_trade ds' = map bare_trade ds) by congruence.
  destruct sent as [|m sent]; [reflexivity|]. cbn [combine filter fst]. rewrite X. destruct (Nat.eqb (t_from d) i); cbn [map snd]; rewrite (IH ds' sent E2); reflexivity.
Qed.
Lemma step_guise w w' t id gs gs' fs fs' ds ds' fs1 sent : other_materials w w' -> world_ok w' -> reached w' t id fs' -> map bare_fac fs' = map bare_fac fs ->
  (forall i, bare_signal (gs' i) = bare_signal (gs i)) -> (forall i, signal_ok (gs' i)) -> map bare_trade ds' = map bare_trade ds -> Forall proper_want ds' -> orderly w t gs fs ds -> nstep w t id gs fs ds fs1 sent ->
  orderly w' t gs' fs' ds' /\ exists fs1' sent', nstep w' t id gs' fs' ds' fs1' sent' /\ map bare_fac fs1' = map bare_fac fs1 /\ map bare sent' = map bare sent.
Proof.
  intros W OK RE F G SG D P O (SL & FL & ST). pose proof (orderly_guise _ _ _ _ _ _ _ _ _ W F G D P O) as O'. split; [exact O'|].
  destruct (proj2 (never_stuck w' t id fs' gs' OK RE SG) ds' O') as (fs1' & sent' & N' & _ & _). exists fs1', sent'. split; [exact N'|]. destruct N' as (SL' & FL' & ST').
  assert (L : List.length fs' = List.length fs) by (rewrite <- (map_length bare_fac fs'), F, map_length; reflexivity).
  assert (LD : List.length ds' = List.length ds) by (rewrite <- (map_length bare_trade ds'), D, map_length; reflexivity).
  assert (EQ : map bare sent' = map bare sent).
  { apply (same_sent (List.length fs') ds'); [eapply Forall_impl; [|exact (proj1 O')]; cbn; tauto|rewrite map_length; congruence|rewrite map_length; congruence|].
    intros i I. rewrite <- !shipped_bare, (shipped_want i ds ds' sent D).
    destruct (nth_error fs' i) as [f'|] eqn:N'; [|apply nth_error_None in N'; lia]. destruct (nth_bare _ _ _ _ F N') as (f & N & E).
    destruct (nth_error fs1 i) as [f1|] eqn:N1; [|apply nth_error_None in N1; lia]. destruct (nth_error fs1' i) as [f1'|] eqn:N1'; [|apply nth_error_None in N1'; lia].
    specialize (ST i f f1 N N1). specialize (ST' i f' f1' N' N1').
    destruct (guise_facility w w' t (gs i) (gs' i) f f' W E (G i)) as [_ FE].
    specialize (FE (sold_by i ds) (sold_by i ds') (filter (fun x => Nat.eqb (t_to (fst x)) i) (combine ds (renumber id sent))) (filter (fun x => Nat.eqb (t_to (fst x)) i) (combine ds (renumber id sent)))
      (bare_filter (fun d => Nat.eqb (t_from d) i) (fun d => eq_refl) _ _ D) eq_refl). rewrite ST in FE.
    destruct (fstep w' t (gs' i) f' (sold_by i ds') (filter (fun x => Nat.eqb (t_to (fst x)) i) (combine ds (renumber id sent)))) as [[g ms]| | |] eqn:X; try discriminate FE.
    pose proof (ships_same _ _ _ _ _ _ _ _ _ _ _ X ST') as ->. cbn in FE. injection FE as _ FE. exact FE. }
  split; [|exact EQ]. apply nth_error_ext'. intro i. rewrite !nth_error_map.
  destruct (nth_error fs1' i) as [f1'|] eqn:N1'.
  - assert (I : (i < List.length fs1')%nat) by (apply nth_error_Some; congruence). destruct (nth_error fs' i) as [f'|] eqn:N'; [|apply nth_error_None in N'; lia]. destruct (nth_bare _ _ _ _ F N') as (f & N & E).
    destruct (nth_error fs1 i) as [f1|] eqn:N1; [|apply nth_error_None in N1; lia]. specialize (ST i f f1 N N1). specialize (ST' i f' f1' N' N1').
    destruct (guise_facility w w' t (gs i) (gs' i) f f' W E (G i)) as [_ FE].
    specialize (FE (sold_by i ds) (sold_by i ds') (filter (fun x => Nat.eqb (t_to (fst x)) i) (combine ds (renumber id sent))) (filter (fun x => Nat.eqb (t_to (fst x)) i) (combine ds' (renumber id sent')))
      (bare_filter (fun d => Nat.eqb (t_from d) i) (fun d => eq_refl) _ _ D)
      (bare_filter1 (fun d => Nat.eqb (t_to d) i) (fun d => eq_refl) _ _ (bare_combine _ _ _ _ D (bare_renumber _ _ id EQ)))). rewrite ST, ST' in FE. cbn in FE. injection FE as FE _. cbn. rewrite FE. reflexivity.
  - apply nth_error_None in N1'. rewrite (proj2 (nth_error_None fs1 i)) by lia. reflexivity.
Qed.

(** ** Whole simulations *)
Lemma deployed_guise w w' t f : other_materials w w' -> deployed w t f -> exists f', deployed w' t f' /\ bare_fac f' = bare_fac f.
Proof.
  intros (A & B & C) D. destruct f as [c s|c s|c s|c s|c s|c s]; cbn [deployed] in D.
  - exists (Conv c s). split; [exact D|reflexivity].
  - exists (Stor c s). split; [exact D|reflexivity].
  - exists (Mixr c s). split; [cbn [deployed]; rewrite A; exact D|reflexivity].
  - destruct D as [D1 D2]. pose proof (sr_build_bare (w_eps w) (w_recipe w) (blank (w_recipe w)) c (fun r => eq_refl)) as X. pose proof (sr_build_bare (w_eps w) (w_recipe w') (blank (w_recipe w)) c (blank_same _ _ C)) as Y.
    rewrite D2 in X. rewrite X in Y. destruct (SourceModel.sr_build (w_eps w) (w_recipe w') c) as [s'| | |] eqn:E; try discriminate Y. assert (Y' : bare_source s' = bare_source s) by (unfold on in Y; congruence).
    exists (Srce c s'). split; [split; [exact D1|rewrite A; exact E]|]. cbn [bare_fac]. rewrite Y'. reflexivity.
  - exists (Snk c s). split; [|reflexivity]. destruct D as (D1 & D2 & D3 & D4 & D5). split; [exact D1|]. split; [exact D2|]. split; [exact D3|]. split; [|exact D5]. destruct D4 as [D4|D4]; [left; exact D4|right]. intro Z. apply D4, C, Z.
  - exists (Reac c s). split; [|reflexivity]. destruct D as (D1 & D2 & D3 & D4). split; [exact D1|]. split; [|split; [|exact D4]].
    + unfold ReactorSpec.recipes_known in *. eapply Forall_impl; [|exact D2]. cbn. intros r N Z. apply N, C, Z.
    + destruct D3 as [O1 O2 O3 O4 O5 O6 O7]. split; try assumption. eapply Forall_impl; [|exact O6]. cbn. intros r N Z. apply N, C, Z.
Qed.
Lemma map_split {A B} (f : A -> B) : forall l a b, map f l = a ++ b -> exists x y, l = x ++ y /\ map f x = a /\ map f y = b.
Proof.
  induction l as [|z l IH]; intros [|u a] b E.
  - exists [], []. auto.
  - discriminate E.
  - exists [], (z :: l). auto.
  - cbn in E. injection E as E1 E2. destruct (IH a b E2) as (x & y & -> & <- & <-). exists (z :: x), y. cbn. rewrite E1. auto.
Qed.
Lemma good_wants w t id gs fs ds : world_ok w -> reached w t id fs -> (forall i, signal_ok (gs i)) -> orderly w t gs fs ds -> Forall proper_want ds.
Proof.
  intros OK R SG (RG & OR). pose proof (proj1 (never_stuck w t id fs gs OK R SG)) as PB. rewrite Forall_forall in *. intros d I. destruct (RG d I) as [A _].
  destruct (nth_error fs (t_from d)) as [f|] eqn:N; [|apply nth_error_None in N; lia]. destruct (PB _ f N) as (n & P). destruct (OR _ f n N P) as [[S _] _].
  rewrite Forall_forall in S. destruct (S d) as (_ & X & Y & _); [apply filter_In; split; [exact I|apply PeanoNat.Nat.eqb_refl]|]. split; assumption.
Qed.
Lemma network_guise w w' : other_materials w w' -> world_ok w -> world_ok w' -> forall t id fs, reached w t id fs -> exists fs', reached w' t id fs' /\ map bare_fac fs' = map bare_fac fs.
Proof.
  intros W OKW OK t id fs R. induction R as [id|t id fs f R (fs' & R' & E) D|t id a f b R (fs' & R' & E)|t id fs gs ds fs1 sent R (fs' & R' & E) SG O N].
  - exists []. split; [apply at_start|reflexivity].
  - destruct (deployed_guise w w' t f W D) as (f' & D' & E'). exists (fs' ++ [f']). split; [exact (deploying w' t id fs' f' R' D')|]. rewrite !map_app. cbn. rewrite E, E'. reflexivity.
  - rewrite map_app in E. destruct (map_split _ _ _ _ E) as (x & y & -> & X & Y). destruct y as [|g y]; [discriminate Y|]. cbn in Y. assert (Y2 : map bare_fac y = map bare_fac b) by congruence.
    exists (x ++ y). split; [exact (retiring w' t id x g y R')|]. rewrite !map_app, X, Y2. reflexivity.
  - pose proof (good_wants w t id gs fs ds OKW R SG O) as PW.
    destruct (step_guise w w' t id gs gs fs fs' ds ds fs1 sent W OK R' E (fun i => eq_refl) SG eq_refl PW O N) as (O' & fs1' & sent' & N' & E1 & _).
    exists fs1'. split; [exact (stepping w' t id fs' gs ds fs1' sent' R' SG O' N')|exact E1].
Qed.
