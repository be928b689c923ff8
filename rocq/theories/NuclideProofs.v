(** C133: a nuclide that is in no recipe in use never appears. *)
From Coq Require Import Lia Lqa.
From Verif Require Import Outcome KernelMaterial KernelResBuf KernelBuf KernelFacts KernelMass NetworkSpec SimulationSpec SimulationProofs SimulationNetwork LedgerSpec LedgerProofs CareerSpec CareerProofs.
From Verif Require Import NuclideSpec NuclideReactor.
From Verif Require ReactorModel ReactorSpec SourceModel.
Local Open Scope Q_scope.

Definition none_of (n : Z) (m : mat) : Prop := mass_of m n == 0.
Lemma none_sum n l : Forall (none_of n) l -> mass_in n l == 0.
Proof. induction 1 as [|m l E _ IH]; [reflexivity|]. rewrite mass_in_cons, IH. unfold none_of in E. rewrite E. reflexivity. Qed.
Lemma none_each n l : mats_ok l -> mass_in n l == 0 -> Forall (none_of n) l.
Proof.
  induction 1 as [|m l O F IH]; intro E; [constructor|]. rewrite mass_in_cons in E. pose proof (mass_nonneg m n O). pose proof (mass_in_nonneg n l F). constructor; [unfold none_of; lra|apply IH; lra].
Qed.
Lemma burns_none w n : world_ok w -> burns_to (w_recipe w) (none_of n) (without w n).
Proof.
  intros (_ & _ & RO) nm r m F R. destruct (RO _ _ R) as [_ RS]. unfold none_of, mass_of, transmute. cbn [m_qty m_comp]. rewrite cget_cnorm by exact RS. rewrite (F r R). unfold Qdiv. ring.
Qed.
Definition pure (w : world) (n : Z) (f : fac) : Prop := has_recipe f /\ Forall (none_of n) (inside f) /\ Forall (without w n) (makes_by f).

Lemma deployed_pure w t n f : world_ok w -> deployed w t f -> has_recipe f -> Forall (without w n) (makes_by f) -> pure w n f.
Proof.
  intros W D H F. split; [exact H|]. split; [|exact F]. pose proof (deployed_good _ _ 0%Z _ W D) as GD. destruct f as [c s|c s|c s|c s|c s|c s].
  1,2,3,5: apply none_each; [exact (good_sound _ _ _ _ GD I)|]; apply (brought_none _ _ _ _ W D I I).
  - assert (IN : inert (Srce c s)) by exact H. apply none_each; [exact (good_sound _ _ _ _ GD IN)|]. refine (brought_none _ _ _ _ W D _ IN).
    destruct D as (A & D). destruct (SourceProofs.build_facts _ _ _ _ D) as (k & S & _ & K). exists k. split; [exact (K H)|]. inversion F as [|? ? X _]. exact (X k (K H)).
  - destruct D as (_ & _ & _ & D). cbn [inside]. rewrite D. constructor.
Qed.

Lemma inert_or_reac f : has_recipe f -> inert f \/ exists c s, f = Reac c s.
Proof. destruct f; cbn; eauto. Qed.
Lemma makes_kept w t g f S R f' ms : fstep w t g f S R = Ok (f', ms) -> inert f -> has_recipe f' /\ makes_by f' = makes_by f.
Proof.
  intros H I. destruct f as [c s|c s|c s|c s|c s|c s]; cbn [fstep inert] in *; try contradiction;
    try (apply bind_ok in H as ([s' o] & _ & H); injection H as <- _; split; [exact I|reflexivity]).
Qed.
(** One facility: what it ships, and what it holds afterwards. *)
Lemma stays_pure w t id id' g f nt S R f' ms n : world_ok w -> good w t id f -> good w (t + 1) id' f' -> publish w t g f = Ok nt -> sales_ok nt S -> buys_ok nt (map fst R) ->
  Forall (as_agreed id id') R -> NoDup (map (fun x => m_id (snd x)) R) -> fstep w t g f S R = Ok (f', ms) -> Forall2 as_sold S ms -> balanced f f' ms R ->
  pure w n f -> Forall (none_of n) (map snd R) -> pure w n f' /\ Forall (none_of n) ms.
Proof.
  intros W GF GF' PB SO BO AG ND ST SS (I1 & _ & BL) (H & N & F) RN. destruct (inert_or_reac f H) as [I|(c & s & ->)].
  - destruct (makes_kept _ _ _ _ _ _ _ _ ST I) as [H' E]. specialize (BL I n). rewrite (none_sum _ _ N), (none_sum _ _ RN) in BL.
    assert (OM : mats_ok ms) by (clear -SS; induction SS as [|d m S ms [_ O] _ IH]; constructor; assumption).
    pose proof (good_sound _ _ _ _ GF' (proj1 I1 I)) as OI. pose proof (mass_in_nonneg n _ OM). pose proof (mass_in_nonneg n _ OI).
    split; [split; [exact H'|split; [apply none_each; [exact OI|lra]|rewrite E; exact F]]|apply none_each; [exact OM|lra]].
  - destruct (reac_origin w t id id' g c s nt S R f' ms (without w n) W GF PB SO BO AG ND ST (none_of n) (burns_none w n W) F N RN) as (s' & -> & A & B & C).
    split; [split; [exact I|split; [exact A|exact C]]|exact B].
Qed.
Lemma none_renumber n : forall l k, Forall (none_of n) l -> Forall (none_of n) (renumber k l).
Proof. induction l as [|m l IH]; intros k H; [constructor|]. inversion H; subst. cbn [renumber]. constructor; [assumption|apply IH; assumption]. Qed.

Lemma step_pure w t id gs fs ds fs' sent n : world_ok w -> reached w t id fs -> (forall j, signal_ok (gs j)) -> orderly w t gs fs ds -> nstep w t id gs fs ds fs' sent ->
  Forall (pure w n) fs -> Forall (pure w n) fs' /\ Forall (none_of n) sent.
Proof.
  intros W H G O N P. destruct (reached_good w W _ _ _ H) as [T0 A]. pose proof (zlen_nonneg ds) as ZN.
  destruct (reached_good w W _ _ _ (stepping _ _ _ _ _ _ _ _ H G O N)) as [_ A']. unfold all_good in A'.
  assert (SN : Forall (none_of n) sent).
  { assert (SB : forall i, Forall (none_of n) (shipped_by i ds sent)).
    { intro i. destruct (nth_error fs i) as [f|] eqn:Nf.
      - destruct (step_each _ _ _ _ _ _ _ _ _ _ W H G O N Nf) as (nt & f' & R & _ & PB & SO & BO & _ & AG & _ & ST & SS & GF & _).
        destruct (good_works w t id (id + zlen ds) (gs i) f W T0 ltac:(lia) (G i) GF) as (n2 & PB2 & K). rewrite PB in PB2. injection PB2 as <-.
        destruct (K (sold_by i ds) [] SO) as (f2 & ms2 & F2 & S2 & G2 & B2); [split; [constructor|intros p a _; split; [constructor|intros q _ X; destruct (X eq_refl)]]|constructor|constructor|].
        rewrite (ships_same _ _ _ _ _ _ _ _ _ _ _ ST F2). rewrite Forall_forall in P.
        refine (proj2 (stays_pure w t id (id + zlen ds) (gs i) f nt (sold_by i ds) [] f2 ms2 n W GF G2 PB SO _ _ _ F2 S2 B2 (P f (nth_error_In _ _ Nf)) _)); try constructor.
        + constructor.
        + intros p a _. split; [constructor|intros q _ X; destruct (X eq_refl)].
      - apply nth_error_None in Nf. assert (X : shipped_by i ds sent = []); [|rewrite X; constructor]. unfold shipped_by.
        assert (Y : filter (fun x : trade * mat => Nat.eqb (t_from (fst x)) i) (combine ds sent) = []); [|rewrite Y; reflexivity].
        destruct (filter _ _) as [|x l] eqn:E; [reflexivity|]. assert (Z : In x (filter (fun x : trade * mat => Nat.eqb (t_from (fst x)) i) (combine ds sent))) by (rewrite E; left; reflexivity).
        apply filter_In in Z as [Z1 Z2]. apply Nat.eqb_eq in Z2. destruct x as [d m]. apply in_combine_l in Z1. destruct O as [RG _]. rewrite Forall_forall in RG. destruct (RG d Z1) as [L _]. cbn in Z2. lia. }
    destruct N as (SL & _). apply Forall_forall. intros m M. apply In_nth_error in M as (j & M). destruct (nth_error ds j) as [d|] eqn:D.
    - specialize (SB (t_from d)). rewrite Forall_forall in SB. apply SB. unfold shipped_by. apply in_map_iff. exists (d, m). split; [reflexivity|]. apply filter_In. split; [|apply Nat.eqb_refl].
      clear -D M. revert ds sent D M. induction j as [|j IH]; intros [|d0 ds] [|m0 sent] D M; try discriminate; cbn in *; [injection D as ->; injection M as ->; left; reflexivity|right; eapply IH; eassumption].
    - apply nth_error_None in D. assert (X : nth_error sent j <> None) by congruence. apply nth_error_Some in X. lia. }
  split; [|exact SN]. apply Forall_forall. intros f' F'. apply In_nth_error in F' as (i & Nf'). destruct (nth_error fs i) as [f|] eqn:Nf.
  - destruct (step_each _ _ _ _ _ _ _ _ _ _ W H G O N Nf) as (nt & f2 & R & Nf2 & PB & SO & BO & _ & AG & [ND IC] & ST & SS & GF & BL). rewrite Nf' in Nf2. injection Nf2 as <-.
    rewrite Forall_forall in P, A'. refine (proj1 (stays_pure w t id (id + zlen ds) (gs i) f nt (sold_by i ds) R f' _ n W GF (A' f' (nth_error_In _ _ Nf')) PB SO BO AG ND ST SS BL (P f (nth_error_In _ _ Nf)) _)).
    apply Forall_map, Forall_forall. intros [d m] X. apply IC, in_combine_r in X. pose proof (none_renumber n sent id SN) as RN. rewrite Forall_forall in RN. apply RN, X.
  - destruct N as (_ & FL & _). apply nth_error_None in Nf. assert (X : nth_error fs' i <> None) by congruence. apply nth_error_Some in X. lia.
Qed.

Lemma all_pure w n t id fs ever gone : world_ok w -> chronicle w t id fs ever gone -> Forall has_recipe ever -> Forall (without w n) (flat_map makes_by ever) ->
  Forall (pure w n) fs /\ Forall (pure w n) gone.
Proof.
  intros W H. induction H as [id|t id fs ever gone f H IH D|t id a f b ever gone H IH|t id fs ever gone gs ds fs' sent H IH G O N]; intros HR F.
  - split; constructor.
  - apply Forall_app in HR as [HR HF]. rewrite flat_map_app in F. apply Forall_app in F as [F FF]. destruct (IH HR F) as [A B]. split; [|exact B]. apply Forall_app. split; [exact A|]. constructor; [|constructor].
    cbn [flat_map] in FF. rewrite app_nil_r in FF. inversion HF; subst. eapply deployed_pure; eassumption.
  - destruct (IH HR F) as [A B]. apply Forall_app in A as [A1 A2]. inversion A2; subst. split; apply Forall_app; (split; [assumption|]); [assumption|constructor; [assumption|constructor]].
  - destruct (IH HR F) as [A B]. split; [|exact B]. exact (proj1 (step_pure _ _ _ _ _ _ _ _ _ W (chronicle_reached _ _ _ _ _ _ H) G O N A)).
Qed.
Lemma never_appears w n t id fs ever gone : world_ok w -> chronicle w t id fs ever gone -> Forall has_recipe ever -> Forall (without w n) (flat_map makes_by ever) ->
  Forall (fun m => mass_of m n == 0) (stock fs ++ stock gone).
Proof.
  intros W H HR F. destruct (all_pure w n t id fs ever gone W H HR F) as [A B]. apply Forall_app. split; apply Forall_flat_map; (eapply Forall_impl; [|eassumption]); intros f (_ & X & _); exact X.
Qed.
Lemma never_shipped w n t id fs ever gone gs ds fs' sent : world_ok w -> chronicle w t id fs ever gone -> Forall has_recipe ever -> Forall (without w n) (flat_map makes_by ever) ->
  (forall j, signal_ok (gs j)) -> orderly w t gs fs ds -> nstep w t id gs fs ds fs' sent -> Forall (fun m => mass_of m n == 0) sent.
Proof.
  intros W H HR F G O N. destruct (all_pure w n t id fs ever gone W H HR F) as [A _]. exact (proj2 (step_pure _ _ _ _ _ _ _ _ _ W (chronicle_reached _ _ _ _ _ _ H) G O N A)).
Qed.
(** The contrapositive: what is there was in a recipe of a facility deployed before. *)
Lemma comes_from w n t id fs ever gone m : world_ok w -> chronicle w t id fs ever gone -> Forall has_recipe ever -> In m (stock fs ++ stock gone) -> ~ mass_of m n == 0 ->
  exists f nm r, In f ever /\ In nm (makes_by f) /\ w_recipe w nm = Some r /\ ~ cget n r == 0.
Proof.
  intros W H HR M X. 
  assert (D : forall l, (exists nm r, In nm l /\ w_recipe w nm = Some r /\ ~ cget n r == 0) \/ Forall (without w n) l).
  { induction l as [|k l [(nm & r & A & B)|IH]]; [right; constructor|left; exists nm, r; split; [right; exact A|exact B]|].
    destruct (w_recipe w k) as [r|] eqn:E; [|right; constructor; [intros r E2; congruence|exact IH]].
    destruct (Qeq_dec (cget n r) 0) as [Y|Y]; [right; constructor; [intros r2 E2; rewrite E in E2; injection E2 as <-; exact Y|exact IH]|left; exists k, r; split; [left; reflexivity|split; assumption]]. }
  destruct (D (flat_map makes_by ever)) as [(nm & r & A & B)|F].
  - apply in_flat_map in A as (f & A1 & A2). exists f, nm, r. tauto.
  - pose proof (never_appears w n t id fs ever gone W H HR F) as Z. rewrite Forall_forall in Z. destruct (X (Z m M)).
Qed.
