(** Mass in closed networks of facilities. *)
From Coq Require Import Lia Lqa Permutation.
From Verif Require Import Outcome KernelMaterial KernelResBuf KernelFacts KernelMass KernelBuf NetworkSpec.
From Verif Require ReactorModel ReactorSpec ReactorGlue StorageModel StorageSpec StorageProofs ConversionModel ConversionSpec ConversionProofs
  SeparationsModel SeparationsSpec SeparationsRun MixerModel MixerSpec MixerProofs MixerRun FuelFabModel FuelFabSpec FuelFabRun
  EnrichmentModel EnrichmentSpec EnrichmentRun EnrichmentBids SinkModel SinkSpec SinkProofs SourceModel SourceSpec SourceProofs.
From Verif Require ReactorProps StorageProps ConversionProps SeparationsProps EnrichmentProps SinkProps SourceProps.
Local Open Scope Q_scope.

(** ** Measures of parcels *)
Record measure (f : list mat -> Q) : Prop := {
  f_nil : f [] == 0; f_app : forall a b, f (a ++ b) == f a + f b;
  f_perm : forall a b, Permutation (map parcel a) (map parcel b) -> f a == f b }.
Lemma qsum_perm a b : Permutation a b -> qsum a == qsum b.
Proof.
  induction 1; cbn [qsum fold_right]; fold (@qsum); try lra.
  - unfold qsum in *. rewrite IHPermutation. lra.
Qed.
Lemma qty_measure : measure qty_of.
Proof.
  split; [reflexivity|intros; apply qty_of_app|]. intros a b H.
  assert (E : forall l, qty_of l = qsum (map fst (map parcel l))) by (intro l; unfold qty_of; rewrite map_map; reflexivity).
  rewrite !E. apply qsum_perm, Permutation_map, H.
Qed.
Lemma mass_measure n : measure (mass_in n).
Proof.
  split; [reflexivity|intros; apply mass_in_app|]. intros a b H.
  assert (E : forall l, mass_in n l = qsum (map (fun p => mass_of (Mat 0 (fst p) (snd p)) n) (map parcel l)))
    by (intro l; unfold mass_in; rewrite map_map; reflexivity).
  rewrite !E. apply qsum_perm, Permutation_map, H.
Qed.

Section Net.
  Context (f : list mat -> Q) (M : measure f).
  Lemma f_flat {A} (g : A -> list mat) l : f (flat_map g l) == qsum (map (fun x => f (g x)) l).
  Proof. induction l as [|x l IH]; simpl; [apply M|]. rewrite (f_app f M), IH. reflexivity. Qed.
  Lemma f_concat l : f (List.concat l) == qsum (map f l).
  Proof. induction l as [|x l IH]; simpl; [apply M|]. rewrite (f_app f M), IH. reflexivity. Qed.

  (** Sum over the steps of a simulation long enough for the facility. *)
  Lemma during_sum steps : forall N born, (born + List.length steps <= N)%nat ->
    qsum (map (fun k => f (during k born steps)) (seq 0 N)) == f (List.concat steps).
  Proof.
    assert (Z : forall (g : nat -> list mat) ks, (forall k, In k ks -> g k = []) -> qsum (map (fun k => f (g k)) ks) == 0).
    { intros g ks; induction ks as [|k ks IH]; intro E; [reflexivity|]. cbn [map qsum fold_right].
      rewrite (E k) by (left; auto). unfold qsum in IH. rewrite IH by (intros; apply E; right; auto). rewrite (f_nil f M). ring. }
    assert (A : forall N steps start, (List.length steps <= N)%nat ->
      qsum (map (fun k => f (nth (k - start) steps [])) (seq start N)) == f (List.concat steps)).
    { induction N as [|N IH]; intros st start L.
      - destruct st; [cbn; symmetry; apply M|simpl in L; lia].
      - cbn [seq map qsum fold_right]. rewrite Nat.sub_diag. destruct st as [|x st].
        + cbn [nth]. fold (qsum (map (fun k => f (nth (k - start) [] [])) (seq (S start) N))).
          rewrite Z; [cbn [List.concat]; rewrite (f_nil f M); ring|]. intros k _. destruct (k - start)%nat; reflexivity.
        + cbn [nth List.concat]. rewrite (f_app f M). simpl in L. rewrite <- (IH st (S start)) by lia.
          assert (E : forall a b, a == b -> f x + a == f x + b) by (intros; lra). apply E.
          change (qsum (map (fun k => f (nth (k - start) (x :: st) [])) (seq (S start) N)) ==
                  qsum (map (fun k => f (nth (k - S start) st [])) (seq (S start) N))).
          apply qsum_map_ext. intros k I. apply in_seq in I. replace (k - start)%nat with (S (k - S start)) by lia. reflexivity. }
    intros N born L. replace N with (born + (N - born))%nat by lia. rewrite seq_app, map_app, qsum_app. simpl.
    rewrite (Z (fun k => during k born steps) (seq 0 born)).
    - rewrite <- (A (N - born)%nat steps born) by lia.
      assert (E : forall a b, a == b -> 0 + a == b) by (intros; lra). apply E.
      apply qsum_map_ext. intros k I. apply in_seq in I. unfold during.
      destruct (Nat.ltb_spec k born); [lia|reflexivity].
    - intros k I. apply in_seq in I. unfold during. destruct (Nat.ltb_spec k born); [reflexivity|lia].
  Qed.

  (** A facility accounts for its material. *)
  Definition balanced (l : life) : Prop :=
    f (l_final l) + f (List.concat (l_out l)) == f (l_initial l) + f (List.concat (l_in l)).

  Definition span (l : life) : nat := (l_born l + List.length (l_in l) + List.length (l_out l))%nat.
  Lemma span_bound net : exists N, forall l, In l net -> (span l <= N)%nat.
  Proof.
    induction net as [|x net (N & H)]; [exists 0%nat; intros l []|].
    exists (Nat.max (span x) N). intros l [<-|I]; [lia|]. specialize (H l I). lia.
  Qed.
  Lemma sum_swap (h : nat -> life -> Q) net ks :
    qsum (map (fun k => qsum (map (h k) net)) ks) == qsum (map (fun l => qsum (map (fun k => h k l) ks)) net).
  Proof.
    induction net as [|x net IH].
    - simpl. induction ks; simpl; [reflexivity|]. rewrite IHks. reflexivity.
    - cbn [map qsum fold_right]. fold (qsum (map (fun l => qsum (map (fun k => h k l) ks)) net)).
      rewrite <- IH, <- qsum_map_plus. apply qsum_map_ext. intros k _. reflexivity.
  Qed.
  Lemma net_balance net : Forall balanced net -> closed net -> f (present net) == f (brought net).
  Proof.
    intros B C. destruct (span_bound net) as (N & SP).
    assert (IO : qsum (map (fun l => f (List.concat (l_in l))) net) == qsum (map (fun l => f (List.concat (l_out l))) net)).
    { rewrite <- (qsum_map_ext (fun l => qsum (map (fun k => f (received_at k l)) (seq 0 N))) (fun l => f (List.concat (l_in l)))).
      2:{ intros l I. apply during_sum. specialize (SP l I). unfold span in SP. lia. }
      rewrite <- (qsum_map_ext (fun l => qsum (map (fun k => f (shipped_at k l)) (seq 0 N))) (fun l => f (List.concat (l_out l)))).
      2:{ intros l I. apply during_sum. specialize (SP l I). unfold span in SP. lia. }
      rewrite <- !(sum_swap (fun k l => f (_ k l))). apply qsum_map_ext. intros k _.
      rewrite <- !f_flat. apply (f_perm f M), C. }
    unfold present, brought. rewrite !f_flat.
    assert (S : qsum (map (fun l => f (l_final l)) net) + qsum (map (fun l => f (List.concat (l_out l))) net) ==
                qsum (map (fun l => f (l_initial l)) net) + qsum (map (fun l => f (List.concat (l_in l))) net)).
    { rewrite <- !qsum_map_plus. apply qsum_map_ext. intros l I. rewrite Forall_forall in B. apply B, I. }
    lra.
  Qed.
End Net.

(** ** From nuclides to total mass *)
Definition all_nuclides (ms : list mat) : list Z := nodup Z.eq_dec (flat_map (fun m => map fst (m_comp m)) ms).
Lemma cnorm_keys q c : map fst (cnorm q c) = map fst c.
Proof. unfold cnorm, cscale. destruct (Qeq_bool (csum c) 0); [reflexivity|]. rewrite map_map. apply map_ext. intros [k v]; reflexivity. Qed.
Lemma mass_total L ms : NoDup L -> (forall m n, In m ms -> In n (map fst (m_comp m)) -> In n L) -> mats_ok ms ->
  qsum (map (fun n => mass_in n ms) L) == qty_of ms.
Proof.
  intros ND IN O. induction O as [|m ms Om _ IH].
  - unfold qty_of; simpl. clear. induction L; simpl; [reflexivity|]. unfold mass_in at 1; simpl. rewrite IHL. ring.
  - rewrite (qsum_map_ext _ (fun n => mass_of m n + mass_in n ms)) by (intros; reflexivity).
    rewrite qsum_map_plus, IH by (intros; eapply IN; eauto; right; auto). rewrite qty_of_cons.
    assert (E : qsum (map (mass_of m) L) == m_qty m); [|rewrite E; reflexivity].
    rewrite <- (ok_csum m Om). unfold mass_of. apply sum_over_keys; auto.
    intros n I. rewrite cnorm_keys in I. apply (IN m n); [left; auto|auto].
Qed.
Lemma nuclides_total a b : mats_ok a -> mats_ok b -> (forall n, mass_in n a == mass_in n b) -> qty_of a == qty_of b.
Proof.
  intros OA OB H. set (L := all_nuclides (a ++ b)).
  assert (IN : forall m n, In m (a ++ b) -> In n (map fst (m_comp m)) -> In n L).
  { intros m n I J. unfold L, all_nuclides. apply nodup_In, in_flat_map. eauto. }
  assert (ND : NoDup L) by apply NoDup_nodup.
  rewrite <- (mass_total L a ND), <- (mass_total L b ND); auto.
  - apply qsum_map_ext. intros; apply H.
  - intros m n I. apply IN, in_or_app; auto.
  - intros m n I. apply IN, in_or_app; auto.
Qed.

(** ** The archetypes *)
Lemma concat_flat {A} (g : A -> list mat) l : List.concat (map g l) = flat_map g l.
Proof. symmetry. apply flat_map_concat_map. Qed.
Lemma flat_nil {A} (l : list A) : flat_map (fun _ => @nil mat) l = [].
Proof. induction l; auto. Qed.
Lemma tags_qty ms : qty_of ms = qsum (map snd (map ReactorSpec.tag ms)).
Proof. unfold qty_of. rewrite map_map. reflexivity. Qed.

Lemma reactor_mass eps recipe cfg t0 s0 es os : ReactorSpec.rx_history eps recipe cfg t0 s0 es os ->
  qty_of (ReactorSpec.assemblies (ReactorSpec.end_state s0 os)) + qty_of (List.concat (map (fun o => map snd (ReactorModel.o_shipped o)) os)) ==
  qty_of (ReactorSpec.assemblies s0) + qty_of (List.concat (map (fun e => map snd (ReactorModel.e_deliv e)) es)).
Proof.
  intro H. destruct (ReactorGlue.accounting t0 s0 es os H (List.length os) (le_n _)) as [P _].
  assert (LE : List.length es = List.length os).
  { destruct H as [_ _ _ _ _ R]. revert R. generalize s0, t0, os. clear. induction es as [|e es IH]; intros s t os R; simpl in R.
    - injection R as <-. reflexivity.
    - apply bind_ok in R as (o & A & R). apply bind_ok in R as (os' & B & R). injection R as <-. simpl. f_equal. eapply IH; eauto. }
  rewrite <- (ReactorGlue.end_state_firstn) in P by lia. rewrite firstn_all in P. rewrite <- LE, firstn_all in P.
  apply (Permutation_map snd), qsum_perm in P. rewrite !map_app, !qsum_app in P.
  rewrite !tags_qty.
  assert (C : forall {A} (g : A -> list (string * mat)) l,
    map ReactorSpec.tag (List.concat (map (fun e => map snd (g e)) l)) = map (fun d => ReactorSpec.tag (snd d)) (List.concat (map g l))).
  { intros A g l. induction l as [|x l IH]; simpl; [reflexivity|]. rewrite !map_app, IH, map_map. reflexivity. }
  rewrite !C. lra.
Qed.

Lemma mixer_ok eps cfg es s os : 0 <= eps -> MixerSpec.mx_sane es -> MixerSpec.mx_lived eps cfg es s os ->
  mats_ok (MixerSpec.mx_held s ++ MixerSpec.mx_shipped os) /\ mats_ok (MixerSpec.mx_received es).
Proof.
  intros EP SA LV. split.
  - destruct (MixerRun.lived_inv _ _ _ _ _ EP SA LV) as ((_ & _ & B & O & _) & _).
    apply Forall_app. split.
    + unfold MixerSpec.mx_held. apply Forall_app. split; [|exact O]. apply Forall_flat_map. exact B.
    + destruct LV as (s0 & E & R). rewrite MixerRun.enter_new in E by auto. injection E as <-.
      assert (I : MixerProofs.mx_inv cfg (MixerRun.mx_started cfg) /\ MixerRun.caps_ok cfg (MixerRun.mx_started cfg)).
      { destruct (MixerRun.lived_inv eps cfg [] (MixerRun.mx_started cfg) [] EP) as (A1 & A2 & _); [constructor| |auto].
        eexists. split; [apply MixerRun.enter_new; auto|reflexivity]. }
      destruct I as [IV CO]. clear B O. revert IV CO R. generalize (MixerRun.mx_started cfg). revert os s SA.
      induction es as [|e es IH]; intros os s SA s0 IV CO R; simpl in R.
      * injection R as <- <-. constructor.
      * apply bind_ok in R as ([s1 o] & A & R). apply bind_ok in R as ([s2 os'] & C & R). injection R as <- <-.
        inversion SA as [|? ? [H1 H2] H3]; subst.
        destruct (MixerRun.step_facts _ _ _ _ _ _ IV CO H1 H2 A) as (IV' & CO' & _ & OK & _).
        unfold MixerSpec.mx_shipped. cbn [flat_map]. apply Forall_app. split; [exact OK|]. exact (IH _ _ H3 _ IV' CO' C).
  - unfold MixerSpec.mx_received. apply Forall_flat_map. eapply Forall_impl; [|exact SA]. intros e [A _]. apply Forall_map. exact A.
Qed.
Lemma mixer_mass eps cfg es s os : 0 <= eps -> MixerSpec.mx_sane es -> MixerSpec.mx_lived eps cfg es s os ->
  qty_of (MixerSpec.mx_held s) + qty_of (MixerSpec.mx_shipped os) == qty_of (MixerSpec.mx_received es).
Proof.
  intros EP SA LV. destruct (mixer_ok _ _ _ _ _ EP SA LV) as [A B]. rewrite <- qty_of_app. apply nuclides_total; auto.
  intro n. rewrite mass_in_app. apply (MixerRun.conserved_final _ _ _ _ _ EP SA LV).
Qed.

Lemma fuelfab_ok eps nz D recipe cfg es s os : 0 <= eps -> FuelFabSpec.ff_sane es -> FuelFabSpec.ff_lived eps nz D recipe cfg es s os ->
  mats_ok (FuelFabSpec.ff_held s ++ FuelFabSpec.ff_shipped os) /\ mats_ok (FuelFabSpec.ff_received es).
Proof.
  intros EP SA LV.
  assert (RE : forall ms, Forall (fun m => 0 < m_qty m /\ FuelFabSpec.real_comp (m_comp m)) ms -> mats_ok ms).
  { intros ms H. eapply Forall_impl; [|exact H]. intros m [P R]. apply FuelFabRun.real_mat_ok; auto. }
  split.
  - apply Forall_app. split.
    + destruct (FuelFabRun.live_final _ _ _ _ _ _ _ _ EP SA LV) as ((A & B & C) & _). unfold FuelFabSpec.ff_held.
      apply Forall_app; split; [|apply Forall_app; split]; apply RE; apply FuelFabRun.homogeneous_reals; assumption.
    + destruct LV as (prefs & _ & R). pose proof (FuelFabRun.live_new eps cfg EP) as L. revert L R.
      generalize (FuelFabModel.ff_new cfg). revert os s SA.
      induction es as [|e es IH]; intros os s SA s0 L R; simpl in R.
      * injection R as <- <-. constructor.
      * apply bind_ok in R as ([s1 o] & A & R). apply bind_ok in R as ([s2 os'] & C & R). injection R as <- <-.
        apply FuelFabRun.sane_cons in SA as [PR SA].
        destruct (FuelFabRun.step_parts _ _ _ _ _ _ _ _ _ _ EP (proj1 L) PR A) as (s3 & _ & _ & _ & _ & _ & MV).
        unfold FuelFabSpec.ff_shipped. cbn [flat_map]. apply Forall_app. split; [apply RE, MV|].
        exact (IH _ _ SA _ (FuelFabRun.live_step _ _ _ _ _ _ _ _ _ _ EP L PR A) C).
  - unfold FuelFabSpec.ff_received. apply Forall_flat_map. eapply Forall_impl; [|exact SA]. intros e [A _]. apply RE, Forall_map. exact A.
Qed.
Lemma fuelfab_mass eps nz D recipe cfg es s os : 0 <= eps -> FuelFabSpec.ff_sane es -> FuelFabSpec.ff_lived eps nz D recipe cfg es s os ->
  qty_of (FuelFabSpec.ff_held s) + qty_of (FuelFabSpec.ff_shipped os) == qty_of (FuelFabSpec.ff_received es).
Proof.
  intros EP SA LV. destruct (fuelfab_ok _ _ _ _ _ _ _ _ EP SA LV) as [A B]. rewrite <- qty_of_app. apply nuclides_total; auto.
  intro n. rewrite mass_in_app. apply (FuelFabRun.conserved_final _ _ _ _ _ _ _ _ EP SA LV).
Qed.

Lemma arrivals_flat es : map snd (StorageSpec.arrivals es) = flat_map StorageModel.se_receipts es.
Proof.
  unfold StorageSpec.arrivals. induction es as [|e es IH]; simpl; [reflexivity|]. rewrite map_app, IH, map_map. cbn [snd]. rewrite map_id. reflexivity.
Qed.
Lemma sunk_app a b : sunk (a ++ b) = sunk a ++ sunk b.
Proof. apply flat_map_app. Qed.
Lemma sunk_arrivals f : (forall m i, f [m] == f [Mat i (m_qty m) (m_comp m)]) -> measure f -> forall es,
  f (sunk (flat_map SinkSpec.arrivals es)) == f (flat_map SinkModel.ke_mats es).
Proof.
  intros FI M es. induction es as [|e es IH]; simpl; [reflexivity|]. rewrite sunk_app, !(f_app f M), IH.
  assert (E : f (sunk (SinkSpec.arrivals e)) == f (SinkModel.ke_mats e)); [|rewrite E; reflexivity].
  unfold SinkSpec.arrivals. rewrite sunk_app, (f_app f M).
  assert (Z : sunk (map (fun q => {| SinkModel.r_qty := q; SinkModel.r_comp := None |}) (SinkModel.ke_prods e)) = []).
  { induction (SinkModel.ke_prods e); simpl; auto. }
  rewrite Z, (f_nil f M). clear - FI M. induction (SinkModel.ke_mats e) as [|m ms IH]; simpl; [rewrite (f_nil f M); ring|].
  change (f ([Mat 0 (m_qty m) (m_comp m)] ++ sunk (map (fun m0 => {| SinkModel.r_qty := m_qty m0; SinkModel.r_comp := Some (m_comp m0) |}) ms)) + 0 == f ([m] ++ ms)).
  rewrite !(f_app f M), <- (FI m). rewrite <- IH. ring.
Qed.

Lemma lives_mass w l : world_ok w -> lives w l -> balanced qty_of l.
Proof.
  intros (EP & EG & RO) L. unfold balanced.
  destruct L; cbn [l_initial l_final l_in l_out l_born l_kind]; rewrite ?concat_flat.
  - rewrite <- !concat_flat. eapply reactor_mass; eauto.
  - destruct (StorageGlue.conserved _ _ _ _ _ H H0) as [Q _]. rewrite arrivals_flat in Q. rewrite !qty_of_app, qty_of_nil.
    unfold StorageSpec.all_sold in Q. lra.
  - assert (O : mats_ok (ConversionSpec.cv_received es)) by (apply Forall_flat_map; exact H0).
    destruct (ConversionProofs.conv_conserved _ _ _ _ _ H O H1) as [Q _]. rewrite qty_of_app, qty_of_nil.
    unfold ConversionSpec.cv_shipped, ConversionSpec.cv_received in Q. lra.
  - pose proof (SeparationsRun.history_total _ _ _ _ _ _ _ _ H H0 H1 H2 H3) as Q. rewrite qty_of_nil.
    unfold SeparationsSpec.shipped, SeparationsSpec.received in Q. lra.
  - pose proof (mixer_mass _ _ _ _ _ EP H H0) as Q. rewrite qty_of_nil.
    unfold MixerSpec.mx_shipped, MixerSpec.mx_received in Q. lra.
  - pose proof (fuelfab_mass _ _ _ _ _ _ _ _ EP H H0) as Q. rewrite qty_of_nil.
    unfold FuelFabSpec.ff_shipped, FuelFabSpec.ff_received in Q. lra.
  - destruct (EnrichmentRun.life_total _ _ _ _ _ _ EP RO _ _ _ _ H H0) as [_ Q].
    unfold EnrichmentSpec.en_shipped, EnrichmentSpec.en_received in Q. lra.
  - rewrite (SinkProofs.kept_final _ _ _ _ H _ _ _ _ _ H0 H1). rewrite flat_nil, qty_of_nil.
    rewrite (sunk_arrivals qty_of); [ring|reflexivity|apply qty_measure].
  - assert (LV : SourceSpec.sr_lived (w_eps w) (w_eg w) (w_recipe w) cfg es s os) by (exists s0; auto).
    assert (LV0 : SourceSpec.sr_lived (w_eps w) (w_eg w) (w_recipe w) cfg [] s0 []) by (exists s0; auto).
    pose proof (SourceProofs.conserved_final _ _ _ _ EG _ _ _ H H0 H1 LV) as Q.
    pose proof (SourceProofs.conserved_final _ _ _ _ EG _ _ _ H (Forall_nil _) (Forall_nil _) LV0) as Q0.
    rewrite flat_nil, qty_of_nil. unfold SourceSpec.held, SourceSpec.sent_all, SourceSpec.sent in Q, Q0. cbn [map qsum fold_right] in Q0.
    rewrite (f_flat _ qty_measure). lra.
Qed.
Theorem network_mass w net : world_ok w -> Forall (lives w) net -> closed net -> qty_of (present net) == qty_of (brought net).
Proof.
  intros W L C. apply (net_balance qty_of qty_measure); auto. eapply Forall_impl; [|exact L]. intros l. apply lives_mass; auto.
Qed.

(** ** Nuclides *)
Lemma lives_nuclide w l n : world_ok w -> lives w l -> keeps_nuclides w (l_kind l) -> balanced (mass_in n) l.
Proof.
  intros (EP & EG & RO) L. unfold balanced.
  destruct L; cbn [l_initial l_final l_in l_out l_born l_kind keeps_nuclides]; rewrite ?concat_flat; intro KN.
  - destruct KN.
  - destruct (StorageGlue.conserved _ _ _ _ _ H H0) as [_ Q]. specialize (Q n). rewrite arrivals_flat in Q. rewrite !mass_in_app, mass_in_nil.
    unfold StorageSpec.all_sold in Q. lra.
  - assert (O : mats_ok (ConversionSpec.cv_received es)) by (apply Forall_flat_map; exact H0).
    destruct (ConversionProofs.conv_conserved _ _ _ _ _ H O H1) as [_ Q]. specialize (Q n). rewrite mass_in_app, mass_in_nil.
    unfold ConversionSpec.cv_shipped, ConversionSpec.cv_received in Q. lra.
  - rewrite KN in H2, H3. pose proof (SeparationsRun.history_mass0 _ _ _ _ _ _ _ H H0 H1 H2 H3 n) as Q. rewrite mass_in_nil.
    unfold SeparationsSpec.shipped, SeparationsSpec.received in Q. lra.
  - pose proof (MixerRun.conserved_final _ _ _ _ _ EP H H0 n) as Q. rewrite mass_in_nil.
    unfold MixerSpec.mx_shipped, MixerSpec.mx_received in Q. lra.
  - pose proof (FuelFabRun.conserved_final _ _ _ _ _ _ _ _ EP H H0 n) as Q. rewrite mass_in_nil.
    unfold FuelFabSpec.ff_shipped, FuelFabSpec.ff_received in Q. lra.
  - pose proof (EnrichmentRun.life_nuclides _ _ _ _ _ _ EP RO _ _ _ _ KN H H0 n) as Q.
    unfold EnrichmentSpec.en_shipped, EnrichmentSpec.en_received in Q. lra.
  - rewrite (SinkProofs.kept_final _ _ _ _ H _ _ _ _ _ H0 H1). rewrite flat_nil, mass_in_nil.
    rewrite (sunk_arrivals (mass_in n)); [ring|reflexivity|apply mass_measure].
  - assert (BA : balanced qty_of {| l_kind := ASource (SourceModel.sc_recipe cfg); l_born := b; l_initial := b_items (SourceModel.ss_inv s0);
      l_final := b_items (SourceModel.ss_inv s); l_in := map (fun _ => []) es; l_out := map (fun o => map snd (SourceModel.so_sent o)) os |}).
    { apply (lives_mass w); [split; auto|]. econstructor; eauto. }
    unfold balanced in BA. cbn [l_initial l_final l_in l_out] in BA. rewrite !concat_flat, flat_nil in BA.
    destruct (SourceProofs.build_facts _ _ _ _ H2) as (c & E & _ & E2). specialize (E2 KN).
    destruct (RO _ _ E2) as [OC OS].
    assert (X : mat_ok (Mat 0 (SourceModel.sc_inv_size cfg) c)) by (split; [exact H|]; split; [exact OC|left; exact OS]).
    assert (M0 : Forall (SourceSpec.made_of c) (b_items (SourceModel.ss_inv s0))).
    { rewrite E. constructor; [|constructor]. intro k. unfold mass_of. cbn [m_qty m_comp]. apply cget_cnorm. exact OS. }
    destruct (SourceProofs.run_made (w_eps w) (w_eg w) (w_recipe w) cfg c es KN s0 s os H0) as (_ & M1 & M2); auto.
    { rewrite E. constructor; [exact X|constructor]. }
    assert (M3 : Forall (SourceSpec.made_of c) (flat_map (fun o => map snd (SourceModel.so_sent o)) os)).
    { apply Forall_flat_map. eapply Forall_impl; [|exact M2]. intros o Ho. apply Forall_map. exact Ho. }
    rewrite flat_nil, mass_in_nil, (SourceProofs.mass_in_made c _ n M0), (SourceProofs.mass_in_made c _ n M1), (SourceProofs.mass_in_made c _ n M3).
    rewrite qty_of_nil in BA. set (k := cget n c / csum c). rewrite <- Qmult_plus_distr_l, BA. ring.
Qed.
Theorem network_nuclides w net : world_ok w -> Forall (lives w) net -> Forall (fun l => keeps_nuclides w (l_kind l)) net -> closed net ->
  forall n, mass_in n (present net) == mass_in n (brought net).
Proof.
  intros W L K C n. apply (net_balance (mass_in n) (mass_measure n)); auto. rewrite Forall_forall in *.
  intros l I. apply (lives_nuclide w); auto.
Qed.

(** ** Checking closedness *)
Lemma closed_check net N : Forall (fun l => (span l <= N)%nat) net ->
  Forall (fun k => map parcel (flat_map (received_at k) net) = map parcel (flat_map (shipped_at k) net)) (seq 0 N) -> closed net.
Proof.
  intros SP H k. rewrite Forall_forall in *. destruct (Nat.lt_ge_cases k N) as [L|L].
  - rewrite H; [apply Permutation_refl|]. apply in_seq. lia.
  - assert (Z : forall g, (forall l, In l net -> g l = []) -> flat_map g net = (@nil mat)).
    { intros g. clear. induction net as [|x net IH]; intro E; [reflexivity|]. cbn [flat_map]. rewrite (E x) by (left; auto).
      apply IH. intros; apply E; right; auto. }
    rewrite !Z; [apply Permutation_refl| |]; intros l I; specialize (SP l I); unfold span in SP;
      unfold shipped_at, received_at, during; (destruct (Nat.ltb k (l_born l)); [reflexivity|apply nth_overflow; lia]).
Qed.
