(** Proofs for C137. *)
From Coq Require Import Lia.
From Verif Require Import Outcome KernelMaterial KernelResBuf KernelBuf NetworkSpec SimulationSpec SimulationNetwork IdSpec BareReactor IdReactor IdProofs ApartSpec ApartProofs TogetherSpec.
From Verif Require ReactorModel ReactorSpec StorageModel SinkModel SourceModel ConversionModel MixerModel.
Local Open Scope Q_scope.

(** ** Trades put in their places *)
Definition placed (ps : list nat) (d : trade) : trade :=
  {| t_from := nth (t_from d) ps 0%nat; t_to := nth (t_to d) ps 0%nat; t_commod := t_commod d; t_slot := t_slot d; t_amt := t_amt d; t_want := t_want d |}.
Definition placed1 (ps : list nat) (x : trade * mat) : trade * mat := (placed ps (fst x), snd x).
Lemma filter_placed0 ps (p : trade -> bool) : (forall d, p (placed ps d) = p d) -> forall l, filter p (map (placed ps) l) = map (placed ps) (filter p l).
Proof. intros H. induction l as [|d l IH]; [reflexivity|]. cbn. rewrite H. destruct (p d); cbn; congruence. Qed.
Lemma total_placed ps l : total (map (placed ps) l) = total l.
Proof. unfold total. rewrite map_map. reflexivity. Qed.
Lemma sales_placed ps n l : sales_ok n l -> sales_ok n (map (placed ps) l).
Proof.
  intros [A B]. split; [apply Forall_map; exact A|]. intros o O. rewrite filter_placed0 by reflexivity. rewrite total_placed. exact (B o O).
Qed.
Lemma buys_placed ps n l : buys_ok n l -> buys_ok n (map (placed ps) l).
Proof.
  intros [A B]. split; [apply Forall_map; exact A|]. intros p a N. specialize (B p a N). cbv zeta in *. rewrite filter_placed0 by reflexivity. destruct B as [B1 B2].
  split; [apply Forall_map; exact B1|]. intros q Q X. rewrite total_placed. apply B2; [exact Q|]. intro Z. apply X. rewrite Z. reflexivity.
Qed.
Lemma fstep_placed ps w t g f sales got : fstep w t g f (map (placed ps) sales) (map (placed1 ps) got) = fstep w t g f sales got.
Proof. destruct f; cbn [fstep]; rewrite ?map_map; reflexivity. Qed.

Lemma place_eqb ps i j x : NoDup ps -> nth_error ps j = Some i -> (x < List.length ps)%nat -> Nat.eqb (nth x ps 0%nat) i = Nat.eqb x j.
Proof.
  intros N E L. assert (X : nth_error ps x = Some (nth x ps 0%nat)) by (apply nth_error_nth'; exact L).
  destruct (Nat.eqb_spec x j) as [->|D].
  - rewrite X in E. injection E as ->. apply Nat.eqb_refl.
  - apply Nat.eqb_neq. intro Y. apply D. rewrite Y in X. rewrite NoDup_nth_error in N. apply N; [exact L|congruence].
Qed.
Lemma filter_placed {X Y} ps (h : X -> Y) (k : X -> nat) (k' : Y -> nat) i j L : NoDup ps -> nth_error ps j = Some i -> (forall x, k' (h x) = nth (k x) ps 0%nat) ->
  Forall (fun x => (k x < List.length ps)%nat) L -> filter (fun y => Nat.eqb (k' y) i) (map h L) = map h (filter (fun x => Nat.eqb (k x) j) L).
Proof.
  intros N E K F. induction F as [|x L Hx _ IH]; [reflexivity|]. cbn [map filter]. rewrite K, (place_eqb ps i j (k x) N E Hx), IH. destruct (Nat.eqb (k x) j); reflexivity.
Qed.
Lemma filter_elsewhere {X Y} ps (h : X -> Y) (k : X -> nat) (k' : Y -> nat) i L : ~ In i ps -> (forall x, k' (h x) = nth (k x) ps 0%nat) ->
  Forall (fun x => (k x < List.length ps)%nat) L -> filter (fun y => Nat.eqb (k' y) i) (map h L) = [].
Proof.
  intros N K F. induction F as [|x L Hx _ IH]; [reflexivity|]. cbn [map filter]. rewrite K, IH.
  destruct (Nat.eqb_spec (nth (k x) ps 0%nat) i) as [E|_]; [|reflexivity]. exfalso. apply N. rewrite <- E. apply nth_In. exact Hx.
Qed.
Lemma combine_app {A B} : forall (a a' : list A) (b b' : list B), List.length a = List.length b -> combine (a ++ a') (b ++ b') = combine a b ++ combine a' b'.
Proof. induction a as [|x a IH]; intros a' [|y b] b' L; try discriminate L; [reflexivity|]. cbn. f_equal. apply IH. cbn in L. lia. Qed.
Lemma renumber_app : forall a b k, renumber k (a ++ b) = renumber k a ++ renumber (k + zlen a) b.
Proof.
  induction a as [|m a IH]; intros b k; cbn [app renumber].
  - f_equal. unfold zlen. cbn. lia.
  - rewrite IH. cbn [app]. do 2 f_equal. f_equal. unfold zlen. cbn [List.length]. lia.
Qed.
Lemma renumber_again : forall l k k', renumber k (renumber k' l) = renumber k l.
Proof. induction l as [|m l IH]; intros k k'; [reflexivity|]. cbn. rewrite IH. reflexivity. Qed.
Lemma combine_map_l {A B C} (f : A -> C) : forall (a : list A) (b : list B), combine (map f a) b = map (fun x => (f (fst x), snd x)) (combine a b).
Proof. induction a as [|x a IH]; intros [|y b]; try reflexivity. cbn. f_equal. apply IH. Qed.

Lemma combine_fsts {A B} : forall (a : list A) (b : list B), List.length a = List.length b -> map fst (combine a b) = a.
Proof. induction a as [|x a IH]; intros [|y b] L; try discriminate L; [reflexivity|]. cbn. f_equal. apply IH. cbn in L. lia. Qed.
Lemma combine_snds {A B} : forall (a : list A) (b : list B), List.length a = List.length b -> map snd (combine a b) = b.
Proof. induction a as [|x a IH]; intros [|y b] L; try discriminate L; [reflexivity|]. cbn. f_equal. apply IH. cbn in L. lia. Qed.

(** ** One time step of both *)
Section Both.
Variables (w : world) (t id : Z) (m : marked).
Variables (G : bool -> nat -> signal) (D : bool -> list trade) (FS FS' : bool -> list fac) (SE : bool -> list mat) (ID : bool -> Z) (RHO : bool -> Z -> Z).
Hypothesis SG : forall b j, signal_ok (G b j).
Hypothesis OD : forall b, orderly w t (G b) (FS b) (D b).
Hypothesis ST : forall b, nstep w t (ID b) (G b) (FS b) (D b) (FS' b) (SE b).
Hypothesis INJ : forall b, one_to_one (RHO b).
Hypothesis BD : forall b x, (x < ID b)%Z -> (RHO b x < id)%Z.
Hypothesis AL : forall b, Forall2 (alike (RHO b)) (FS b) (part b m).
Hypothesis BL : forall b, Forall (below (ID b)) (FS b).

Let ps b := places b 0 m.
Let ds := map (placed (ps true)) (D true) ++ map (placed (ps false)) (D false).
Let sent0 := SE true ++ SE false.
Let off (b : bool) := if b then 0%Z else zlen (D true).
Let gs i := match side m i with Some b => G b (rank i (ps b)) | None => G true 0%nat end.
Let rho' b := spread (RHO b) (ID b) (map m_id (renumber (id + off b) (SE b))) (id + zlen ds)%Z.

Lemma b_len b : List.length (FS b) = List.length (ps b).
Proof. unfold ps. rewrite places_len. exact (Forall2_len _ _ _ (AL b)). Qed.
Lemma b_range b : Forall (fun d => (t_from d < List.length (ps b))%nat /\ (t_to d < List.length (ps b))%nat) (D b).
Proof. rewrite <- b_len. apply (OD b). Qed.
Lemma b_side b j i : nth_error (ps b) j = Some i -> side m i = Some b /\ ~ In i (ps (negb b)).
Proof.
  intro E. apply nth_error_In, places_in in E as [_ E]. rewrite Nat.sub_0_r in E. split; [exact E|]. intro X. apply places_in in X as [_ X]. rewrite Nat.sub_0_r in X. rewrite E in X. destruct b; discriminate X.
Qed.
Lemma b_pick {X Y} (h : bool -> X -> Y) (k : X -> nat) (k' : Y -> nat) (L : bool -> list X) b i j : nth_error (ps b) j = Some i -> (forall c x, k' (h c x) = nth (k x) (ps c) 0%nat) ->
  (forall c, Forall (fun x => (k x < List.length (ps c))%nat) (L c)) ->
  filter (fun y => Nat.eqb (k' y) i) (map (h true) (L true) ++ map (h false) (L false)) = map (h b) (filter (fun x => Nat.eqb (k x) j) (L b)).
Proof.
  intros E K F. destruct (b_side b j i E) as [_ NO]. rewrite filter_app. destruct b; cbn [negb] in NO.
  - rewrite (filter_placed (ps true) (h true) k k' i j _ (places_NoDup true m 0) E (K true) (F true)). rewrite (filter_elsewhere (ps false) (h false) k k' i _ NO (K false) (F false)). apply app_nil_r.
  - rewrite (filter_elsewhere (ps true) (h true) k k' i _ NO (K true) (F true)). apply (filter_placed (ps false) (h false) k k' i j _ (places_NoDup false m 0) E (K false) (F false)).
Qed.
Lemma b_sold b i j : nth_error (ps b) j = Some i -> sold_by i ds = map (placed (ps b)) (sold_by j (D b)).
Proof.
  intro E. unfold sold_by, ds. apply (b_pick (fun c => placed (ps c)) t_from t_from D b i j E); [reflexivity|]. intro c. eapply Forall_impl; [|apply b_range]. intros d [X _]. exact X.
Qed.
Lemma b_bought b i j : nth_error (ps b) j = Some i -> bought_by i ds = map (placed (ps b)) (bought_by j (D b)).
Proof.
  intro E. unfold bought_by, ds. apply (b_pick (fun c => placed (ps c)) t_to t_to D b i j E); [reflexivity|]. intro c. eapply Forall_impl; [|apply b_range]. intros d [_ X]. exact X.
Qed.
Lemma b_sent b : List.length (SE b) = List.length (D b).
Proof. apply (ST b). Qed.
Lemma b_combined l : (forall b : bool, List.length (l b) = List.length (D b)) ->
  combine ds (l true ++ l false) = map (placed1 (ps true)) (combine (D true) (l true)) ++ map (placed1 (ps false)) (combine (D false) (l false)).
Proof.
  intro L. unfold ds. rewrite combine_app by (rewrite map_length; symmetry; apply L). rewrite !combine_map_l. reflexivity.
Qed.
Lemma b_got b i j : nth_error (ps b) j = Some i ->
  filter (fun x => Nat.eqb (t_to (fst x)) i) (combine ds (renumber id sent0)) = map (placed1 (ps b)) (filter (fun x => Nat.eqb (t_to (fst x)) j) (combine (D b) (renumber (id + off b) (SE b)))).
Proof.
  intro E. unfold sent0. rewrite renumber_app.
  assert (Z : zlen (SE true) = zlen (D true)) by (unfold zlen; rewrite b_sent; reflexivity). rewrite Z.
  assert (X : combine ds (renumber id (SE true) ++ renumber (id + zlen (D true)) (SE false)) =
    map (placed1 (ps true)) (combine (D true) (renumber (id + off true) (SE true))) ++ map (placed1 (ps false)) (combine (D false) (renumber (id + off false) (SE false)))).
  { pose proof (b_combined (fun b => renumber (id + off b) (SE b))) as X. cbv beta in X. rewrite <- X.
    - unfold off. rewrite Z.add_0_r. reflexivity.
    - intro c. rewrite renumber_length. apply b_sent. }
  rewrite X.
  rewrite (b_pick (fun c => placed1 (ps c)) (fun x => t_to (fst x)) (fun x => t_to (fst x)) (fun c => combine (D c) (renumber (id + off c) (SE c))) b i j E).
  - reflexivity.
  - reflexivity.
  - intro c. apply (Forall_combine_l (fun d => (t_to d < List.length (ps c))%nat)). eapply Forall_impl; [|apply b_range]. intros d [_ Y]. exact Y.
Qed.
Lemma b_shipped b i j : nth_error (ps b) j = Some i -> shipped_by i ds sent0 = shipped_by j (D b) (SE b).
Proof.
  intro E. unfold shipped_by, sent0. rewrite (b_combined SE b_sent).
  rewrite (b_pick (fun c => placed1 (ps c)) (fun x => t_from (fst x)) (fun x => t_from (fst x)) (fun c => combine (D c) (SE c)) b i j E).
  - rewrite map_map. reflexivity.
  - reflexivity.
  - intro c. apply (Forall_combine_l (fun d => (t_from d < List.length (ps c))%nat)). eapply Forall_impl; [|apply b_range]. intros d [Y _]. exact Y.
Qed.
Lemma b_zlen : zlen ds = (zlen (D true) + zlen (D false))%Z.
Proof. unfold zlen, ds. rewrite app_length, !map_length. lia. Qed.
Lemma b_ids b : Forall (fun i => (id <= i < id + zlen ds)%Z) (map m_id (renumber (id + off b) (SE b))).
Proof.
  apply Forall_map. eapply Forall_impl; [|apply numbers]. cbn. intros x X. rewrite b_zlen. pose proof (b_sent b) as L. unfold zlen, off in *. destruct b; unfold zlen in *; lia.
Qed.
Lemma b_one b : one_to_one (rho' b).
Proof.
  apply (spread_one (RHO b) (ID b) _ id); [apply INJ|apply BD| |apply b_ids|unfold zlen; lia].
  rewrite renumber_ids. apply FinFun.Injective_map_NoDup; [intros x y X; lia|apply seq_NoDup].
Qed.
Lemma b_alike b j f f0 : nth_error (FS b) j = Some f -> nth_error (part b m) j = Some f0 -> alike (rho' b) f f0.
Proof.
  intros N N0. destruct (Forall2_nth _ _ _ (AL b) j f N) as (f2 & N2 & A). rewrite N0 in N2. injection N2 as <-.
  apply (alike_ext (RHO b) (rho' b) (ID b) f f0); [intros x X; apply spread_old, X| |exact A]. specialize (BL b). rewrite Forall_forall in BL. apply BL, (nth_error_In _ _ N).
Qed.
Lemma b_redelivered b : map (ren (rho' b)) (renumber (ID b) (SE b)) = renumber (id + off b) (SE b).
Proof. unfold rho'. pose proof (spread_new (RHO b) (ID b) (id + zlen ds)%Z (renumber (id + off b) (SE b))) as X. rewrite renumber_again in X. exact X. Qed.
(** A facility of the whole network belongs to one of the two. *)
Lemma b_where i c f : nth_error m i = Some (c, f) -> exists j g, nth_error (ps c) j = Some i /\ nth_error (FS c) j = Some g /\ nth_error (part c m) j = Some f /\ alike (rho' c) g f /\ gs i = G c j.
Proof.
  intro N. assert (S : side m i = Some c) by (unfold side; rewrite N; reflexivity). pose proof (in_places c m 0 i S) as I. cbn [Nat.add] in I. fold (ps c) in I.
  pose proof (rank_is _ _ I) as R. set (j := rank i (ps c)) in *. assert (L : (j < List.length (ps c))%nat) by (apply nth_error_Some; congruence).
  destruct (nth_error (FS c) j) as [g|] eqn:Ng; [|apply nth_error_None in Ng; rewrite b_len in Ng; lia].
  destruct (nth_error (part c m) j) as [f0|] eqn:Nf; [|apply nth_error_None in Nf; unfold ps in L; rewrite places_len in L; lia].
  destruct (places_part c m 0 j f0 Nf) as (i2 & P1 & P2). fold (ps c) in P1. cbn [Nat.add] in P1. rewrite R in P1. injection P1 as <-. rewrite N in P2. injection P2 as <-.
  exists j, g. split; [exact R|]. split; [exact Ng|]. split; [exact Nf|]. split; [exact (b_alike c j g f Ng Nf)|]. unfold gs. rewrite S. reflexivity.
Qed.
Lemma b_orderly : orderly w t gs (map snd m) ds.
Proof.
  assert (K : forall b x, In x (ps b) -> (x < List.length (map snd m))%nat).
  { intros b x X. apply places_in in X as [_ X]. rewrite Nat.sub_0_r in X. unfold side in X. rewrite map_length. apply nth_error_Some. destruct (nth_error m x); [discriminate|discriminate X]. }
  split.
  - assert (R : forall b, Forall (fun d => (t_from d < List.length (map snd m))%nat /\ (t_to d < List.length (map snd m))%nat) (map (placed (ps b)) (D b))).
    { intro b. apply Forall_map. eapply Forall_impl; [|apply b_range]. intros d [A B]. cbn [placed t_from t_to]. split; apply (K b), nth_In; assumption. }
    unfold ds. apply Forall_app. split; apply R.
  - intros i f n N P. rewrite nth_error_map in N. destruct (nth_error m i) as [[c f0]|] eqn:E; [|discriminate N]. cbn in N. injection N as ->.
    destruct (b_where i c f E) as (j & g & R & Ng & _ & A & GS). rewrite GS in P. rewrite (publish_same w (rho' c) (b_one c) t (G c j) g f A) in P.
    destruct (proj2 (OD c) j g n Ng P) as [S B]. rewrite (b_sold c i j R), (b_bought c i j R). split; [apply sales_placed, S|apply buys_placed, B].
Qed.
Lemma b_kept : kept_apart m ds.
Proof.
  unfold kept_apart, ds. apply Forall_app. split; apply Forall_map; (eapply Forall_impl; [|apply b_range]); intros d [A B]; cbn [placed t_from t_to];
    apply (nth_error_nth' _ 0%nat) in A; apply (nth_error_nth' _ 0%nat) in B; apply b_side in A as [A _]; apply b_side in B as [B _]; congruence.
Qed.
Lemma both_step : exists gs0 ds0 m' sent rho0, (forall i, signal_ok (gs0 i)) /\ orderly w t gs0 (map snd m) ds0 /\ kept_apart m ds0 /\ map fst m' = map fst m /\
  nstep w t id gs0 (map snd m) ds0 (map snd m') sent /\ (forall b, one_to_one (rho0 b)) /\ (forall b x, (x < ID b + zlen (D b))%Z -> (rho0 b x < id + zlen ds0)%Z) /\
  (forall b, Forall2 (alike (rho0 b)) (FS' b) (part b m')) /\ (forall b, Forall (below (ID b + zlen (D b))) (FS' b)).
Proof.
  destruct (assemble w t id gs (map snd m) ds sent0 (fun i f1 => forall c j f2, nth_error (ps c) j = Some i -> nth_error (FS' c) j = Some f2 -> alike (rho' c) f2 f1) (proj1 b_orderly)) as (fs1 & sent & N1 & _ & P1).
  { unfold sent0, ds. rewrite !app_length, !map_length, !b_sent. reflexivity. }
  { intros i f N. rewrite nth_error_map in N. destruct (nth_error m i) as [[c f0]|] eqn:E; [|discriminate N]. cbn in N. injection N as ->.
    destruct (b_where i c f E) as (j & g & R & Ng & _ & A & GS). destruct (ST c) as (_ & LF & STC).
    assert (J : (j < List.length (FS' c))%nat) by (rewrite LF; apply nth_error_Some; congruence). destruct (nth_error (FS' c) j) as [g'|] eqn:Ng'; [|apply nth_error_None in Ng'; lia].
    pose proof (STC j g g' Ng Ng') as X.
    pose proof (fstep_same w (rho' c) (b_one c) t (G c j) g f (sold_by j (D c)) (filter (fun x => Nat.eqb (t_to (fst x)) j) (combine (D c) (renumber (ID c) (SE c)))) A) as Y.
    rewrite X in Y. rewrite GS, (b_sold c i j R), (b_got c i j R), fstep_placed.
    replace (map (redelivered (rho' c)) (filter (fun x => Nat.eqb (t_to (fst x)) j) (combine (D c) (renumber (ID c) (SE c)))))
      with (filter (fun x => Nat.eqb (t_to (fst x)) j) (combine (D c) (renumber (id + off c) (SE c)))) in Y.
    2: { rewrite <- b_redelivered, combine_map_r. apply filter_map_comm. reflexivity. }
    destruct (fstep w t (G c j) f (sold_by j (D c)) _) as [p| | |] eqn:FT; cbn in Y; try contradiction. exists p. split; [reflexivity|]. destruct Y as [Y1 Y2]. cbn [fst snd] in Y1, Y2.
    split; [rewrite (b_shipped c i j R); exact Y2|]. intros c2 j2 f2 R2 N2. destruct (b_side c j i R) as [S1 _]. destruct (b_side c2 j2 i R2) as [S2 _]. rewrite S1 in S2. injection S2 as <-.
    assert (j2 = j) by (pose proof (places_NoDup c m 0) as ND; rewrite NoDup_nth_error in ND; apply ND; [apply nth_error_Some; unfold ps in R2; congruence|unfold ps in *; congruence]). subst j2.
    rewrite Ng' in N2. injection N2 as <-. exact Y1. }
  assert (LF : List.length fs1 = List.length m) by (destruct N1 as (_ & X & _); rewrite map_length in X; exact X).
  set (m' := combine (map fst m) fs1). assert (MF : map fst m' = map fst m) by (unfold m'; apply combine_fsts; rewrite map_length; congruence).
  assert (MS : map snd m' = fs1) by (unfold m'; apply combine_snds; rewrite map_length; congruence).
  exists gs, ds, m', sent, rho'. split; [intro i; unfold gs; destruct (side m i); apply SG|]. split; [exact b_orderly|]. split; [exact b_kept|]. split; [exact MF|]. rewrite MS. split; [exact N1|].
  split; [exact b_one|]. split.
  { intros b x X. unfold rho', spread. destruct (Z.ltb_spec x (ID b)); [pose proof (BD b x ltac:(assumption)); unfold zlen; lia|].
    assert (ZL : zlen (map m_id (renumber (id + off b) (SE b))) = zlen (D b)) by (unfold zlen; rewrite map_length, renumber_length, b_sent; reflexivity). rewrite ZL. rewrite (proj2 (Z.ltb_lt _ _)) by lia.
    pose proof (b_ids b) as F. rewrite Forall_forall in F. apply F, nth_In. unfold zlen in ZL, X. rewrite map_length, renumber_length, b_sent. lia. }
  split.
  - intro b. apply nth_Forall2.
    + destruct (ST b) as (_ & LFS & _). rewrite LFS, b_len. unfold ps. rewrite <- (places_marks b m m' 0 MF). apply places_len.
    + intros j f1 f2 Q1 Q2. destruct (places_part b m' 0 j f2 Q2) as (i & A & B). rewrite (places_marks b m m' 0 MF) in A. cbn [Nat.add] in A.
      apply (P1 i f2) with (j := j); [|exact A|exact Q1]. rewrite <- MS, nth_error_map, B. reflexivity.
  - intro b. destruct (ST b) as (_ & LFS & STC). apply Forall_forall. intros f1 F1. apply In_nth_error in F1 as (j & F1).
    assert (J : (j < List.length (FS b))%nat) by (rewrite <- LFS; apply nth_error_Some; congruence). destruct (nth_error (FS b) j) as [f|] eqn:N; [|apply nth_error_None in N; lia].
    eapply step_below; [| |exact (STC j f f1 N F1)].
    + apply (below_mono (ID b)); [unfold zlen; lia|]. specialize (BL b). rewrite Forall_forall in BL. apply BL, (nth_error_In _ _ N).
    + apply Forall_forall. intros x Hx. apply filter_In in Hx as [Hx _]. destruct x as [d p]. apply in_combine_r in Hx. pose proof (numbers (SE b) (ID b)) as NB. rewrite Forall_forall in NB.
      specialize (NB p Hx). cbn. pose proof (b_sent b) as L. unfold zlen in *. lia.
Qed.
End Both.

(** ** Whole simulations *)
Definition side_by_side (w : world) (t : Z) (ID : bool -> Z) (FS : bool -> list fac) : Prop := exists id m RHO, apart w t id m /\ (forall b, one_to_one (RHO b)) /\
  (forall b x, (x < ID b)%Z -> (RHO b x < id)%Z) /\ (forall b, Forall2 (alike (RHO b)) (FS b) (part b m)) /\ (forall b, Forall (below (ID b)) (FS b)).
Definition two {A} (x y : A) (b : bool) : A := if b then x else y.

Lemma part_split b : forall m p f q, part b m = p ++ f :: q -> exists m1 m2, m = m1 ++ (b, f) :: m2 /\ part b m1 = p /\ part b m2 = q.
Proof.
  induction m as [|[c g] m IH]; intros p f q E.
  - destruct p; discriminate E.
  - unfold part in E. cbn [filter fst] in E. destruct (Bool.eqb c b) eqn:C.
    + cbn [map snd] in E. apply Bool.eqb_prop in C. subst c. destruct p as [|h p].
      * cbn in E. injection E as <- E. exists [], m. repeat split. exact E.
      * cbn in E. injection E as <- E. destruct (IH p f q E) as (m1 & m2 & -> & P1 & P2). exists ((b, g) :: m1), m2. split; [reflexivity|]. split; [|exact P2].
        unfold part. cbn [filter fst]. rewrite Bool.eqb_reflx. cbn [map snd]. f_equal. exact P1.
    + destruct (IH p f q E) as (m1 & m2 & -> & P1 & P2). exists ((c, g) :: m1), m2. split; [reflexivity|]. split; [|exact P2]. unfold part. cbn [filter fst]. rewrite C. exact P1.
Qed.
Lemma sbs_deploy w t ID FS FS' b f : side_by_side w t ID FS -> deployed w t f -> blank_table f -> FS' b = FS b ++ [f] -> FS' (negb b) = FS (negb b) -> side_by_side w t ID FS'.
Proof.
  intros (id & m & RHO & A & I & B & L & W) D E E1 E2. exists id, (m ++ [(b, f)]), RHO. split; [constructor; assumption|]. split; [exact I|]. split; [exact B|].
  assert (K : forall c, c = b \/ c = negb b) by (intros []; destruct b; auto).
  destruct (blank_alike (RHO b) f w t D E) as [A1 A2].
  split; intro c; destruct (K c) as [-> | ->]; rewrite ?E1, ?E2, ?part_app.
  - apply Forall2_app; [apply L|]. unfold part. cbn. rewrite Bool.eqb_reflx. constructor; [exact A1|constructor].
  - unfold part at 2. cbn. replace (Bool.eqb b (negb b)) with false by (destruct b; reflexivity). cbn. rewrite app_nil_r. apply L.
  - apply Forall_app. split; [apply W|]. constructor; [apply A2|constructor].
  - apply W.
Qed.
Lemma sbs_retire w t ID FS FS' b a f r : side_by_side w t ID FS -> FS b = a ++ f :: r -> FS' b = a ++ r -> FS' (negb b) = FS (negb b) -> side_by_side w t ID FS'.
Proof.
  intros (id & m & RHO & A & I & B & L & W) E0 E1 E2. pose proof (L b) as Lb. rewrite E0 in Lb. apply Forall2_app_inv_l in Lb as (p & q0 & A1 & A2 & Ep).
  inversion A2 as [|x y l q A3 A4 X Y]; subst x l q0. destruct (part_split b m p y q Ep) as (m1 & m2 & Em & P1 & P2). subst m.
  exists id, (m1 ++ m2), RHO. split; [eapply apart_retiring; exact A|]. split; [exact I|]. split; [exact B|].
  assert (K : forall c, c = b \/ c = negb b) by (intros []; destruct b; auto).
  split; intro c; destruct (K c) as [-> | ->]; rewrite ?E1, ?E2, ?part_app.
  - apply Forall2_app; [rewrite P1; exact A1|rewrite P2; exact A4].
  - pose proof (L (negb b)) as Ln. change ((b, y) :: m2) with ([(b, y)] ++ m2) in Ln. rewrite !part_app in Ln. unfold part at 2 in Ln. cbn [filter fst] in Ln.
    replace (Bool.eqb b (negb b)) with false in Ln by (destruct b; reflexivity). exact Ln.
  - pose proof (W b) as Wb. rewrite E0 in Wb. apply Forall_app in Wb as [W1 W2]. inversion W2; subst. apply Forall_app. split; assumption.
  - apply W.
Qed.
Lemma simulated_time w t id fs : simulated w t id fs -> (0 <= t)%Z.
Proof. induction 1; lia. Qed.
Lemma sbs_step w t i1 i2 fs1 fs2 gs1 gs2 ds1 ds2 fs1' fs2' sent1 sent2 : side_by_side w t (two i1 i2) (two fs1 fs2) ->
  (forall i, signal_ok (gs1 i)) -> orderly w t gs1 fs1 ds1 -> nstep w t i1 gs1 fs1 ds1 fs1' sent1 ->
  (forall i, signal_ok (gs2 i)) -> orderly w t gs2 fs2 ds2 -> nstep w t i2 gs2 fs2 ds2 fs2' sent2 ->
  side_by_side w (t + 1) (two (i1 + zlen ds1) (i2 + zlen ds2))%Z (two fs1' fs2').
Proof.
  intros (id & m & RHO & A & I & B & L & W) G1 O1 N1 G2 O2 N2.
  destruct (both_step w t id m (two gs1 gs2) (two ds1 ds2) (two fs1 fs2) (two fs1' fs2') (two sent1 sent2) (two i1 i2) RHO) as (gs & ds & m' & sent & rho & G & O & K & M & N & I' & B' & L' & W');
    try assumption; try (intros []; assumption).
  exists (id + zlen ds)%Z, m', rho. split; [exact (apart_stepping w t id m gs ds m' sent A G O K M N)|]. split; [exact I'|].
  assert (E : forall b, two (i1 + zlen ds1)%Z (i2 + zlen ds2)%Z b = (two i1 i2 b + zlen (two ds1 ds2 b))%Z) by (intros []; reflexivity).
  split; [intros b x; rewrite E; apply B'|]. split; [exact L'|]. intro b. rewrite E. apply W'.
Qed.
Lemma together_sbs w t i1 fs1 : simulated w t i1 fs1 -> forall i2 fs2, simulated w t i2 fs2 -> side_by_side w t (two i1 i2) (two fs1 fs2).
Proof.
  induction 1 as [i1|t i1 fs1 f S1 IH D E|t i1 a f b S1 IH|t i1 fs1 gs1 ds1 fs1' sent1 S1 IH G1 O1 N1]; intros i2 fs2 S2.
  - remember 0%Z as t eqn:T. induction S2 as [i2|t i2 fs2 f S2 IH2 D E|t i2 a f b S2 IH2|t i2 fs2 gs ds fs2' sent S2 IH2 G O N].
    + exists (Z.max i1 i2), [], (fun _ x => x). split; [constructor|]. split; [intros b x y E; exact E|]. split; [intros []; cbn; intros; lia|]. split; intros []; constructor.
    + specialize (IH2 T). eapply (sbs_deploy w t _ _ _ false f IH2 D E); reflexivity.
    + specialize (IH2 T). eapply (sbs_retire w t _ _ _ false a f b IH2); reflexivity.
    + apply simulated_time in S2. lia.
  - eapply (sbs_deploy w t _ _ _ true f (IH i2 fs2 S2) D E); reflexivity.
  - eapply (sbs_retire w t _ _ _ true a f b (IH i2 fs2 S2)); reflexivity.
  - remember (t + 1)%Z as t1 eqn:T. induction S2 as [i2|t1 i2 fs2 f S2 IH2 D E|t1 i2 a f b S2 IH2|t2 i2 fs2 gs ds fs2' sent S2 IH2 G O N].
    + apply simulated_time in S1. lia.
    + specialize (IH2 T). eapply (sbs_deploy w t1 _ _ _ false f IH2 D E); reflexivity.
    + specialize (IH2 T). eapply (sbs_retire w t1 _ _ _ false a f b IH2); reflexivity.
    + assert (t2 = t) by lia. subst t2. clear T IH2. exact (sbs_step w t i1 i2 fs1 fs2 gs1 gs ds1 ds fs1' fs2' sent1 sent (IH i2 fs2 S2) G1 O1 N1 G O N).
Qed.
Lemma together w t i1 i2 fs1 fs2 : simulated w t i1 fs1 -> simulated w t i2 fs2 -> exists id m rho1 rho2, apart w t id m /\ one_to_one rho1 /\ one_to_one rho2 /\
  Forall2 (alike rho1) fs1 (part true m) /\ Forall2 (alike rho2) fs2 (part false m) /\ same_parcels (stock fs1) (stock (part true m)) /\ same_parcels (stock fs2) (stock (part false m)).
Proof.
  intros S1 S2. destruct (together_sbs w t i1 fs1 S1 i2 fs2 S2) as (id & m & RHO & A & I & _ & L & _). exists id, m, (RHO true), (RHO false). pose proof (L true) as L1. pose proof (L false) as L2. cbn [two] in L1, L2.
  split; [exact A|]. split; [apply I|]. split; [apply I|]. split; [exact L1|]. split; [exact L2|]. split; eapply stock_same; eassumption.
Qed.
Lemma simulated_reached w t id fs : simulated w t id fs -> reached w t id fs.
Proof.
  induction 1 as [id|t id fs f _ R D E|t id a f b _ R|t id fs gs ds fs' sent _ R G O N].
  - constructor.
  - constructor; assumption.
  - eapply retiring. exact R.
  - eapply stepping; eassumption.
Qed.
