(** Proofs for C135. *)
From Coq Require Import Lia.
From Verif Require Import Outcome KernelMaterial KernelResBuf KernelBuf NetworkSpec SimulationSpec SimulationNetwork IdSpec BareReactor IdReactor IdProofs ApartSpec.
From Verif Require ReactorModel ReactorSpec StorageModel SinkModel SourceModel ConversionModel MixerModel.
Local Open Scope Q_scope.

(** ** Places *)
Fixpoint places (b : bool) (k : nat) (m : marked) : list nat :=
  match m with [] => [] | (c, _) :: r => if Bool.eqb c b then k :: places b (S k) r else places b (S k) r end.
Fixpoint rank (i : nat) (l : list nat) : nat := match l with [] => 0%nat | x :: r => if Nat.eqb x i then 0%nat else S (rank i r) end.

Lemma places_part b : forall m k j f, nth_error (part b m) j = Some f -> exists i, nth_error (places b k m) j = Some (k + i)%nat /\ nth_error m i = Some (b, f).
Proof.
  induction m as [|[c g] m IH]; intros k j f N; [destruct j; discriminate N|]. unfold part in N. cbn [filter fst] in N. cbn [places]. destruct (Bool.eqb c b) eqn:E.
  - destruct j as [|j]; cbn in N.
    + injection N as <-. apply Bool.eqb_prop in E. subst c. exists 0%nat. rewrite Nat.add_0_r. split; reflexivity.
    + destruct (IH (S k) j f N) as (i & A & B). exists (S i). rewrite Nat.add_succ_r. split; assumption.
  - destruct (IH (S k) j f N) as (i & A & B). exists (S i). rewrite Nat.add_succ_r. split; assumption.
Qed.
Lemma places_len b : forall m k, List.length (places b k m) = List.length (part b m).
Proof. induction m as [|[c g] m IH]; intro k; [reflexivity|]. unfold part in *. cbn. destruct (Bool.eqb c b); cbn; [f_equal|]; apply IH. Qed.
Lemma places_in b : forall m k i, In i (places b k m) -> (k <= i)%nat /\ side m (i - k) = Some b.
Proof.
  induction m as [|[c g] m IH]; intros k i H; [contradiction H|]. cbn [places] in H. assert (R : In i (places b (S k) m) -> (k <= i)%nat /\ side ((c, g) :: m) (i - k) = Some b).
  { intro I. destruct (IH (S k) i I) as [A B]. split; [lia|]. replace (i - k)%nat with (S (i - S k)) by lia. exact B. }
  destruct (Bool.eqb c b) eqn:E; [|exact (R H)]. destruct H as [<-|H]; [|exact (R H)]. split; [lia|]. rewrite Nat.sub_diag. apply Bool.eqb_prop in E. subst c. reflexivity.
Qed.
Lemma in_places b : forall m k i, side m i = Some b -> In (k + i)%nat (places b k m).
Proof.
  induction m as [|[c g] m IH]; intros k [|i] H; try discriminate H; cbn [places].
  - injection H as ->. rewrite Bool.eqb_reflx. left. lia.
  - specialize (IH (S k) i H). rewrite Nat.add_succ_comm in IH. destruct (Bool.eqb c b); [right|]; exact IH.
Qed.
Lemma places_NoDup b : forall m k, NoDup (places b k m).
Proof.
  induction m as [|[c g] m IH]; intro k; [constructor|]. cbn [places]. destruct (Bool.eqb c b); [|apply IH]. constructor; [|apply IH]. intro H. apply places_in in H. lia.
Qed.
Lemma rank_nth : forall l j i, NoDup l -> nth_error l j = Some i -> rank i l = j.
Proof.
  induction l as [|x l IH]; intros [|j] i N E; try discriminate E; cbn in *; inversion N as [|? ? N1 N2]; subst.
  - injection E as ->. rewrite Nat.eqb_refl. reflexivity.
  - destruct (Nat.eqb_spec x i) as [->|D]; [exfalso; apply N1, (nth_error_In _ _ E)|]. f_equal. apply IH; assumption.
Qed.
Lemma rank_is l i : In i l -> nth_error l (rank i l) = Some i.
Proof.
  induction l as [|x l IH]; intro H; [contradiction H|]. cbn [rank]. destruct (Nat.eqb_spec x i) as [->|D]; [reflexivity|]. destruct H as [H|H]; [contradiction|]. exact (IH H).
Qed.
Lemma rank_eqb l i j x : NoDup l -> nth_error l j = Some i -> In x l -> Nat.eqb (rank x l) j = Nat.eqb x i.
Proof.
  intros N E I. destruct (Nat.eqb_spec x i) as [->|D]; [rewrite (rank_nth _ _ _ N E); apply Nat.eqb_refl|]. apply Nat.eqb_neq. intro R. apply D. apply rank_is in I. rewrite R in I. congruence.
Qed.
Lemma filter_rank {X Y} (ps : list nat) (h : X -> Y) (keep : X -> bool) (k : X -> nat) (k' : Y -> nat) i j L : NoDup ps -> nth_error ps j = Some i -> (forall x, k' (h x) = rank (k x) ps) ->
  Forall (fun x => keep x = true <-> In (k x) ps) L -> filter (fun y => Nat.eqb (k' y) j) (map h (filter keep L)) = map h (filter (fun x => Nat.eqb (k x) i) L).
Proof.
  intros ND E K F. induction F as [|x L Hx _ IH]; [reflexivity|]. cbn [filter]. destruct (keep x) eqn:KX.
  - cbn [map filter]. rewrite K, (rank_eqb ps i j (k x) ND E) by (apply Hx; reflexivity). destruct (Nat.eqb (k x) i); cbn [map]; congruence.
  - destruct (Nat.eqb_spec (k x) i) as [D|D]; [|exact IH]. exfalso. assert (I : In (k x) ps) by (rewrite D; exact (nth_error_In _ _ E)). apply Hx in I. discriminate I.
Qed.

(** ** Trades under new positions *)
Definition moved (ps : list nat) (d : trade) : trade :=
  {| t_from := rank (t_from d) ps; t_to := rank (t_to d) ps; t_commod := t_commod d; t_slot := t_slot d; t_amt := t_amt d; t_want := t_want d |}.
Definition moved1 (ps : list nat) (x : trade * mat) : trade * mat := (moved ps (fst x), snd x).
Lemma filter_moved ps (p : trade -> bool) : (forall d, p (moved ps d) = p d) -> forall l, filter p (map (moved ps) l) = map (moved ps) (filter p l).
Proof. intros H. induction l as [|d l IH]; [reflexivity|]. cbn. rewrite H. destruct (p d); cbn; congruence. Qed.
Lemma total_moved ps l : total (map (moved ps) l) = total l.
Proof. unfold total. rewrite map_map. reflexivity. Qed.
Lemma sales_moved ps n l : sales_ok n l -> sales_ok n (map (moved ps) l).
Proof.
  intros [A B]. split; [apply Forall_map; exact A|]. intros o O. rewrite filter_moved by reflexivity. rewrite total_moved. exact (B o O).
Qed.
Lemma buys_moved ps n l : buys_ok n l -> buys_ok n (map (moved ps) l).
Proof.
  intros [A B]. split; [apply Forall_map; exact A|]. intros p a N. specialize (B p a N). cbv zeta in *. rewrite filter_moved by reflexivity. destruct B as [B1 B2].
  split; [apply Forall_map; exact B1|]. intros q Q X. rewrite total_moved. apply B2; [exact Q|]. intro Z. apply X. rewrite Z. reflexivity.
Qed.
Lemma fstep_moved ps w t g f sales got : fstep w t g f (map (moved ps) sales) (map (moved1 ps) got) = fstep w t g f sales got.
Proof. destruct f; cbn [fstep]; rewrite ?map_map; reflexivity. Qed.

(** ** Putting a step together *)
Lemma renumber_parcels : forall a b k, same_parcels a b -> renumber k b = renumber k a.
Proof.
  unfold same_parcels. induction a as [|x a IH]; intros [|y b] k E; try discriminate E; [reflexivity|]. cbn in E. injection E as E1 E2 E3. cbn. rewrite E1, E2, (IH b _ E3). reflexivity.
Qed.
Lemma assemble w t id gs fs ds sent0 (P : nat -> fac -> Prop) : Forall (fun d => (t_from d < List.length fs)%nat /\ (t_to d < List.length fs)%nat) ds -> List.length sent0 = List.length ds ->
  (forall i f, nth_error fs i = Some f -> exists p, fstep w t (gs i) f (sold_by i ds) (filter (fun x => Nat.eqb (t_to (fst x)) i) (combine ds (renumber id sent0))) = Ok p /\
     map anon (snd p) = map anon (shipped_by i ds sent0) /\ P i (fst p)) ->
  exists fs1 sent, nstep w t id gs fs ds fs1 sent /\ same_parcels sent0 sent /\ forall i f1, nth_error fs1 i = Some f1 -> P i f1.
Proof.
  intros RG L0 ST.
  destruct (list_of_all (fun i f p => fstep w t (gs i) f (sold_by i ds) (filter (fun x => Nat.eqb (t_to (fst x)) i) (combine ds (renumber id sent0))) = Ok p /\
     map anon (snd p) = map anon (shipped_by i ds sent0) /\ P i (fst p)) fs 0 ST) as (ps & PL & PP). cbn [Nat.add] in PP.
  destruct (merge (fun _ _ => True) ds (fun i => match nth_error ps i with Some p => snd p | None => [] end)) as (sent & SL & _ & SM).
  { intro i. assert (LE : List.length (sold_by i ds) = List.length (match nth_error ps i with Some p => snd p | None => [] end)).
    { destruct (nth_error ps i) as [p|] eqn:N.
      - assert (I : (i < List.length ps)%nat) by (apply nth_error_Some; congruence). destruct (nth_error fs i) as [f|] eqn:N'; [|apply nth_error_None in N'; lia].
        destruct (PP i f p N' N) as (_ & E & _). rewrite <- (map_length anon (snd p)), E, map_length. unfold shipped_by. rewrite map_length.
        unfold sold_by. rewrite <- (map_length fst (filter _ (combine ds sent0))). rewrite (combine_filter_fst (fun d => Nat.eqb (t_from d) i)) by congruence. reflexivity.
      - apply nth_error_None in N. rewrite (nobody i ds _ RG) by lia. reflexivity. }
    revert LE. generalize (sold_by i ds) (match nth_error ps i with Some p => snd p | None => [] end). induction l as [|a l IH]; intros [|b l'] LE; try discriminate LE; constructor; auto. }
  assert (EQ : same_parcels sent0 sent).
  { unfold same_parcels. apply (same_sent (List.length fs) ds); [eapply Forall_impl; [|exact RG]; intros d [X _]; exact X|rewrite map_length; congruence|rewrite map_length; congruence|].
    intros i I. rewrite <- !shipped_anon. pose proof (SM i) as E. cbn beta in E. rewrite E. destruct (nth_error ps i) as [p|] eqn:N; [|apply nth_error_None in N; lia].
    destruct (nth_error fs i) as [f|] eqn:N'; [|apply nth_error_None in N'; lia]. exact (proj1 (proj2 (PP i f p N' N))). }
  exists (map fst ps), sent. split; [|split; [exact EQ|]].
  - split; [congruence|]. split; [rewrite map_length; congruence|]. intros i f f1 N' N1.
    destruct (nth_error ps i) as [p|] eqn:N; [|rewrite nth_error_map, N in N1; discriminate]. rewrite nth_error_map, N in N1. cbn in N1. injection N1 as <-.
    destruct (PP i f p N' N) as (F1 & _ & _). rewrite (renumber_parcels _ _ _ EQ), F1. destruct p as [f1 ms]. cbn [fst]. pose proof (SM i) as E. cbn beta in E. rewrite N in E. cbn [snd] in E. unfold shipped_by in E. rewrite E. reflexivity.
  - intros i f1 N1. destruct (nth_error ps i) as [p|] eqn:N; [|rewrite nth_error_map, N in N1; discriminate].
    rewrite nth_error_map, N in N1. cbn in N1. injection N1 as <-. assert (I : (i < List.length ps)%nat) by (apply nth_error_Some; congruence).
    destruct (nth_error fs i) as [f|] eqn:N'; [|apply nth_error_None in N'; lia]. exact (proj2 (proj2 (PP i f p N' N))).
Qed.

(** ** The numbers in a facility *)
Definition rb_below (B : Z) (b : resbuf) : Prop := Forall (fun m => (m_id m < B)%Z) (rb_items b).
Definition below (B : Z) (f : fac) : Prop :=
  match f with
  | Reac _ s => rb_below B (ReactorModel.fresh s) /\ rb_below B (ReactorModel.core s) /\ rb_below B (ReactorModel.spent s) /\ Forall (fun e => (fst e < B)%Z) (ReactorModel.idx s)
  | _ => True
  end.
Lemma ren_ext rho rho' B m : (forall x, (x < B)%Z -> rho x = rho' x) -> (m_id m < B)%Z -> ren rho m = ren rho' m.
Proof. intros H L. unfold ren. rewrite (H _ L). reflexivity. Qed.
Lemma rb_ext rho rho' B b : (forall x, (x < B)%Z -> rho x = rho' x) -> rb_below B b -> ren_rb rho b = ren_rb rho' b.
Proof. intros H L. unfold ren_rb. f_equal. apply map_ext_in. intros m M. unfold rb_below in L. rewrite Forall_forall in L. apply (ren_ext rho rho' B m H), L, M. Qed.
Lemma reactor_ext rho rho' B c s : (forall x, (x < B)%Z -> rho x = rho' x) -> below B (Reac c s) -> ren_reactor rho s = ren_reactor rho' s.
Proof.
  intros H (A1 & A2 & A3 & A4). unfold ren_reactor. rewrite (rb_ext rho rho' B _ H A1), (rb_ext rho rho' B _ H A2), (rb_ext rho rho' B _ H A3).
  replace (ren_idx rho' (ReactorModel.idx s)) with (ren_idx rho (ReactorModel.idx s)); [reflexivity|]. apply map_ext_in. intros e E. rewrite Forall_forall in A4. rewrite (H _ (A4 e E)). reflexivity.
Qed.
Lemma alike_ext rho rho' B f f' : (forall x, (x < B)%Z -> rho x = rho' x) -> below B f -> alike rho f f' -> alike rho' f f'.
Proof.
  intros H L A. destruct f, f'; cbn [alike] in *; try contradiction; try exact A. destruct A as [-> ->]. split; [reflexivity|]. exact (reactor_ext rho rho' B c s H L).
Qed.
Lemma below_mono B B' f : (B <= B')%Z -> below B f -> below B' f.
Proof.
  intros H. destruct f; try exact (fun x => x). intros (A1 & A2 & A3 & A4). unfold below, rb_below in *. repeat split; (eapply Forall_impl; [|eassumption]); cbn; intros; lia.
Qed.
(** The numbers a step leaves behind are those of the state and of the deliveries: a renumbering that leaves these alone leaves the result alone. *)
Definition bump (B : Z) (x : Z) : Z := if Z.ltb x B then x else (x + 1)%Z.
Lemma bump_one B : one_to_one (bump B).
Proof. intros x y E. unfold bump in E. destruct (Z.ltb_spec x B), (Z.ltb_spec y B); lia. Qed.
Lemma bump_id B x : bump B x = x -> (x < B)%Z.
Proof. unfold bump. destruct (Z.ltb_spec x B); lia. Qed.
Lemma id_reactor s : ren_reactor (fun x => x) s = s.
Proof.
  assert (M : forall l, map (ren (fun x => x)) l = l) by (induction l as [|[i q c] l IH]; [reflexivity|]; cbn [map]; rewrite IH; reflexivity).
  assert (R : forall b, ren_rb (fun x => x) b = b) by (intros [cap l]; unfold ren_rb; cbn; rewrite M; reflexivity).
  assert (I : forall l, ren_idx (fun x => x) l = l) by (induction l as [|[i n] l IH]; [reflexivity|]; unfold ren_idx in *; cbn [map]; rewrite IH; reflexivity).
  unfold ren_reactor. rewrite !R, I. destruct s; reflexivity.
Qed.
Lemma fixed_rb B b : ren_rb (bump B) b = b -> rb_below B b.
Proof.
  intro E. apply (f_equal rb_items) in E. cbn in E. unfold rb_below. induction (rb_items b) as [|m l IH]; constructor; cbn in E; injection E as E1 E2; [|exact (IH E2)].
  apply bump_id. apply (f_equal m_id) in E1. exact E1.
Qed.
Lemma fixed_below B c s : ren_reactor (bump B) s = s -> below B (Reac c s).
Proof.
  intro E. repeat split; try (apply fixed_rb).
  - exact (f_equal ReactorModel.fresh E).
  - exact (f_equal ReactorModel.core E).
  - exact (f_equal ReactorModel.spent E).
  - apply (f_equal ReactorModel.idx) in E. cbn in E. unfold ren_idx in E. induction (ReactorModel.idx s) as [|[x n] l IH]; constructor; cbn in E; injection E as E1 E2; [|exact (IH E2)]. apply bump_id, E1.
Qed.
Lemma step_below B w t g f sales got f1 ms : below B f -> Forall (fun x => (m_id (snd x) < B)%Z) got -> fstep w t g f sales got = Ok (f1, ms) -> below B f1.
Proof.
  intros L D E. destruct f as [c s|c s|c s|c s|c s|c s]; cbn [fstep] in E;
    try (match type of E with bind ?o _ = _ => destruct o as [[s1 o1]| | |]; try discriminate E; cbn in E; injection E as <- _; exact I end).
  set (e := {| ReactorModel.e_reqs := g_reqs g; ReactorModel.e_pick := map t_commod sales; ReactorModel.e_deliv := map (fun d => (t_commod (fst d), snd d)) got |}) in E.
  assert (FX : forall x, (x < B)%Z -> bump B x = x) by (intros x X; unfold bump; rewrite (proj2 (Z.ltb_lt _ _) X); reflexivity).
  assert (S0 : ren_reactor (bump B) s = s) by (rewrite <- (id_reactor s) at 2; apply (reactor_ext _ _ B c s FX L)).
  assert (E0 : ren_reactor_step (bump B) e = e).
  { unfold ren_reactor_step, e. cbn. f_equal. rewrite map_map. apply map_ext_in. intros d DD. unfold ren_named. cbn. f_equal. rewrite Forall_forall in D. unfold ren. rewrite (FX _ (D d DD)). destruct (snd d); reflexivity. }
  pose proof (step_ren (w_eps w) (w_recipe w) c (bump B) (bump_one B) t s e) as X. rewrite S0, E0 in X.
  destruct (ReactorModel.rx_step (w_eps w) (w_recipe w) c t s e) as [o| | |]; try discriminate E. cbn in E. injection E as <- _. cbn in X. injection X as X. apply fixed_below.
  symmetry. exact (f_equal ReactorModel.o_state X).
Qed.

(** ** New numbers for the parcels of one part *)
Definition spread (rho : Z -> Z) (lo : Z) (ids : list Z) (fin : Z) (x : Z) : Z :=
  if Z.ltb x lo then rho x else if Z.ltb x (lo + zlen ids) then nth (Z.to_nat (x - lo)) ids 0%Z else (x - (lo + zlen ids) + fin)%Z.
Lemma spread_one rho lo ids id fin : one_to_one rho -> (forall x, (x < lo)%Z -> (rho x < id)%Z) -> NoDup ids -> Forall (fun i => (id <= i < fin)%Z) ids -> (id <= fin)%Z -> one_to_one (spread rho lo ids fin).
Proof.
  intros R B ND F LE x y E. unfold spread in E.
  assert (NT : forall z, (lo <= z)%Z -> (z < lo + zlen ids)%Z -> (Z.to_nat (z - lo) < List.length ids)%nat) by (intros z; unfold zlen; lia).
  assert (IN : forall z, (lo <= z)%Z -> (z < lo + zlen ids)%Z -> (id <= nth (Z.to_nat (z - lo)) ids 0 < fin)%Z).
  { intros z Z1 Z2. rewrite Forall_forall in F. apply F, nth_In, NT; assumption. }
  destruct (Z.ltb_spec x lo), (Z.ltb_spec y lo); [apply R, E| | |].
  - pose proof (B x ltac:(assumption)). destruct (Z.ltb_spec y (lo + zlen ids)); [pose proof (IN y ltac:(assumption) ltac:(assumption)); lia|lia].
  - pose proof (B y ltac:(assumption)). destruct (Z.ltb_spec x (lo + zlen ids)); [pose proof (IN x ltac:(assumption) ltac:(assumption)); lia|lia].
  - destruct (Z.ltb_spec x (lo + zlen ids)), (Z.ltb_spec y (lo + zlen ids)).
    + apply (proj1 (NoDup_nth ids 0%Z) ND) in E; [lia|apply NT; assumption|apply NT; assumption].
    + pose proof (IN x ltac:(assumption) ltac:(assumption)). lia.
    + pose proof (IN y ltac:(assumption) ltac:(assumption)). lia.
    + lia.
Qed.
Lemma spread_old rho lo ids fin x : (x < lo)%Z -> rho x = spread rho lo ids fin x.
Proof. intro L. unfold spread. rewrite (proj2 (Z.ltb_lt _ _) L). reflexivity. Qed.
Lemma renumber_with (r : Z -> Z) : forall l k, (forall j m, nth_error l j = Some m -> r (k + Z.of_nat j)%Z = m_id m) -> map (ren r) (renumber k l) = l.
Proof.
  induction l as [|m l IH]; intros k H; [reflexivity|]. cbn [renumber map]. rewrite IH.
  - f_equal. unfold ren. cbn. pose proof (H 0%nat m eq_refl) as H0. rewrite Z.add_0_r in H0. rewrite H0. destruct m; reflexivity.
  - intros j x X. specialize (H (S j) x X). rewrite <- H. f_equal. lia.
Qed.
Lemma spread_new rho lo fin l : map (ren (spread rho lo (map m_id l) fin)) (renumber lo l) = l.
Proof.
  apply renumber_with. intros j m N. assert (J : (j < List.length l)%nat) by (apply nth_error_Some; congruence). unfold spread. rewrite (proj2 (Z.ltb_ge _ _)) by lia.
  unfold zlen. rewrite map_length, (proj2 (Z.ltb_lt _ _)) by lia. replace (Z.to_nat (lo + Z.of_nat j - lo)) with j by lia.
  apply nth_error_nth. rewrite nth_error_map, N. reflexivity.
Qed.
Lemma numbers : forall ms k, Forall (fun m => (k <= m_id m < k + zlen ms)%Z) (renumber k ms).
Proof.
  induction ms as [|m ms IH]; intro k; constructor; cbn [m_id]; unfold zlen in *; cbn [List.length]; [lia|]. eapply Forall_impl; [|apply IH]. cbn. intros a. lia.
Qed.

(** ** One part takes its own time step *)
Lemma places_marks b : forall m m' k, map fst m' = map fst m -> places b k m' = places b k m.
Proof.
  induction m as [|[c f] m IH]; intros [|[c' f'] m'] k E; try discriminate E; [reflexivity|]. cbn in E. injection E as -> E. cbn [places]. rewrite (IH m' (S k) E). reflexivity.
Qed.
Lemma Forall_combine_l {A B} (P : A -> Prop) : forall (a : list A) (b : list B), Forall P a -> Forall (fun x => P (fst x)) (combine a b).
Proof. induction a as [|x a IH]; intros [|y b] F; cbn; constructor; inversion F; subst; cbn; auto. Qed.
Lemma combine_fst_snd {A B C D} (f : A -> C) (g : B -> D) : forall l : list (A * B), combine (map (fun x => f (fst x)) l) (map (fun x => g (snd x)) l) = map (fun x => (f (fst x), g (snd x))) l.
Proof. induction l as [|x l IH]; [reflexivity|]. cbn. f_equal. exact IH. Qed.
Lemma Forall2_sym_nth {A B} (R : A -> B -> Prop) l l' : Forall2 R l l' -> forall i y, nth_error l' i = Some y -> exists x, nth_error l i = Some x /\ R x y.
Proof. intros F i y N. exact (Forall2_nth _ _ _ (Forall2_flip _ _ _ F) i y N). Qed.

Lemma part_step w b t id gs m ds m' sent id' fs' rho :
  orderly w t gs (map snd m) ds -> kept_apart m ds -> map fst m' = map fst m -> nstep w t id gs (map snd m) ds (map snd m') sent ->
  one_to_one rho -> (forall x, (x < id')%Z -> (rho x < id)%Z) -> Forall2 (alike rho) fs' (part b m) -> Forall (below id') fs' ->
  exists ds' gs' fs1 sent' rho', (forall j, exists i, gs' j = gs i) /\ orderly w t gs' fs' ds' /\ nstep w t id' gs' fs' ds' fs1 sent' /\ one_to_one rho' /\
    (forall x, (x < id' + zlen ds')%Z -> (rho' x < id + zlen ds)%Z) /\ Forall2 (alike rho') fs1 (part b m') /\ Forall (below (id' + zlen ds')) fs1.
Proof.
  intros (RG & OR) KA MK (SL & FL & ST) INJ BD AL BL.
  set (ps := places b 0 m). assert (ND : NoDup ps) by apply places_NoDup.
  set (mine := fun d : trade => match side m (t_from d) with Some c => Bool.eqb c b | None => false end).
  assert (MI : forall d, mine d = true <-> In (t_from d) ps).
  { intro d. unfold mine, ps. split.
    - intro M. destruct (side m (t_from d)) as [c|] eqn:E; [|discriminate M]. apply Bool.eqb_prop in M. subst c. exact (in_places b m 0 _ E).
    - intro M. apply places_in in M as [_ M]. rewrite Nat.sub_0_r in M. rewrite M. apply Bool.eqb_reflx. }
  assert (MT : Forall (fun d => mine d = true <-> In (t_to d) ps) ds).
  { unfold kept_apart in KA. eapply Forall_impl; [|exact KA]. intros d E. unfold mine, ps. rewrite E. split.
    - intro M. destruct (side m (t_to d)) as [c|] eqn:E2; [|discriminate M]. apply Bool.eqb_prop in M. subst c. exact (in_places b m 0 _ E2).
    - intro M. apply places_in in M as [_ M]. rewrite Nat.sub_0_r in M. rewrite M. apply Bool.eqb_reflx. }
  set (L := combine ds (renumber id sent)). assert (LL : List.length ds = List.length (renumber id sent)) by (rewrite renumber_length; congruence).
  set (my := filter (fun x : trade * mat => mine (fst x)) L).
  set (ds' := map (fun x => moved ps (fst x)) my). set (sent0 := map (fun x : trade * mat => snd x) my).
  assert (DS : ds' = map (moved ps) (filter mine ds)).
  { unfold ds', my. rewrite <- (map_map fst (moved ps)). f_equal. unfold L. apply (combine_filter_fst mine). exact LL. }
  set (rho' := spread rho id' (map m_id sent0) (id + zlen ds)%Z).
  assert (ZL : zlen (map m_id sent0) = zlen ds') by (unfold zlen, sent0, ds'; rewrite !map_length; reflexivity).
  assert (IDS : Forall (fun i => (id <= i < id + zlen ds)%Z) (map m_id sent0)).
  { apply Forall_map. unfold sent0. apply Forall_map. apply Forall_forall. intros x X. unfold my in X. apply filter_In in X as [X _]. unfold L in X. destruct x as [d p]. apply in_combine_r in X.
    pose proof (numbers sent id) as NB. rewrite Forall_forall in NB. specialize (NB p X). cbn. unfold zlen in *. rewrite <- SL. exact NB. }
  assert (NDI : NoDup (map m_id sent0)).
  { unfold sent0. rewrite map_map. apply (NoDup_map_filter (fun x : trade * mat => m_id (snd x))). rewrite <- (map_map snd m_id). unfold L. rewrite combine_snd by exact LL. rewrite renumber_ids.
    apply FinFun.Injective_map_NoDup; [intros x y X; lia|apply seq_NoDup]. }
  assert (ZN : (0 <= zlen ds)%Z) by (unfold zlen; lia).
  assert (INJ' : one_to_one rho') by (apply (spread_one rho id' _ id); auto; lia).
  assert (AL' : Forall2 (alike rho') fs' (part b m)).
  { apply nth_Forall2; [exact (Forall2_len _ _ _ AL)|]. intros i f f' N N'. destruct (Forall2_nth _ _ _ AL i f N) as (f2 & N2 & A). rewrite N' in N2. injection N2 as <-.
    apply (alike_ext rho rho' id' f f'); [intros x X; unfold rho'; apply spread_old, X| |exact A]. rewrite Forall_forall in BL. apply BL, (nth_error_In _ _ N). }
  assert (LEN : List.length fs' = List.length ps) by (unfold ps; rewrite places_len; exact (Forall2_len _ _ _ AL)).
  set (gs' := fun j => match nth_error ps j with Some i => gs i | None => gs 0%nat end).
  (* where a facility of the part sits in the network *)
  assert (WH : forall j f, nth_error fs' j = Some f -> exists i f0, nth_error ps j = Some i /\ nth_error m i = Some (b, f0) /\ alike rho' f f0).
  { intros j f N. destruct (Forall2_nth _ _ _ AL' j f N) as (f0 & N0 & A). destruct (places_part b m 0 j f0 N0) as (i & P1 & P2). exists i, f0. auto. }
  assert (SO : forall i j, nth_error ps j = Some i -> sold_by j ds' = map (moved ps) (sold_by i ds)).
  { intros i j E. rewrite DS. unfold sold_by. apply (filter_rank ps (moved ps) mine t_from t_from i j ds ND E); [reflexivity|]. apply Forall_forall. intros d _. apply MI. }
  assert (BO : forall i j, nth_error ps j = Some i -> bought_by j ds' = map (moved ps) (bought_by i ds)).
  { intros i j E. rewrite DS. unfold bought_by. apply (filter_rank ps (moved ps) mine t_to t_to i j ds ND E); [reflexivity|exact MT]. }
  assert (CB : combine ds' sent0 = map (moved1 ps) my).
  { unfold ds', sent0. apply (combine_fst_snd (moved ps) (fun x => x)). }
  assert (GO : forall i j, nth_error ps j = Some i -> filter (fun x => Nat.eqb (t_to (fst x)) j) (combine ds' sent0) = map (moved1 ps) (filter (fun x => Nat.eqb (t_to (fst x)) i) L)).
  { intros i j E. rewrite CB. unfold my. apply (filter_rank ps (moved1 ps) (fun x => mine (fst x)) (fun x => t_to (fst x)) (fun x => t_to (fst x)) i j L ND E); [reflexivity|].
    unfold L. apply (Forall_combine_l (fun d => mine d = true <-> In (t_to d) ps)). exact MT. }
  assert (SH : forall i j, nth_error ps j = Some i -> shipped_by j ds' sent0 = map snd (filter (fun x => Nat.eqb (t_from (fst x)) i) L)).
  { intros i j E. unfold shipped_by. rewrite CB. unfold my.
    rewrite (filter_rank ps (moved1 ps) (fun x => mine (fst x)) (fun x => t_from (fst x)) (fun x => t_from (fst x)) i j L ND E); [rewrite map_map; reflexivity|reflexivity|].
    apply Forall_forall. intros x _. apply MI. }
  assert (AN : forall i, map anon (map snd (filter (fun x => Nat.eqb (t_from (fst x)) i) L)) = map anon (map snd (filter (fun x => Nat.eqb (t_from (fst x)) i) (combine ds sent)))).
  { intro i. unfold L. clear. revert id sent. induction ds as [|d l IH]; intros id [|p sent]; try reflexivity. cbn. destruct (Nat.eqb (t_from d) i); cbn; [f_equal|]; apply IH. }
  assert (RD : combine ds' sent0 = map (redelivered rho') (combine ds' (renumber id' sent0))).
  { unfold redelivered. rewrite <- combine_map_r. unfold rho'. rewrite spread_new. reflexivity. }
  assert (RG' : Forall (fun d => (t_from d < List.length fs')%nat /\ (t_to d < List.length fs')%nat) ds').
  { rewrite LEN, DS. apply Forall_map. apply Forall_forall. intros d D. apply filter_In in D as [D M]. cbn [t_from t_to moved].
    assert (K : forall x, In x ps -> (rank x ps < List.length ps)%nat) by (intros x X; apply nth_error_Some; rewrite (rank_is _ _ X); discriminate).
    split; apply K; [apply MI, M|]. rewrite Forall_forall in MT. apply (MT d D), M. }
  assert (OR' : orderly w t gs' fs' ds').
  { split; [exact RG'|]. intros j f n N P. destruct (WH j f N) as (i & f0 & E1 & E2 & A). unfold gs' in P. rewrite E1 in P.
    assert (N0 : nth_error (map snd m) i = Some f0) by (rewrite nth_error_map, E2; reflexivity).
    destruct (OR i f0 n N0) as [S B]; [rewrite <- P; apply (publish_same w rho' INJ'), A|]. rewrite (SO i j E1), (BO i j E1). split; [apply sales_moved, S|apply buys_moved, B]. }
  destruct (assemble w t id' gs' fs' ds' sent0 (fun j f1 => below (id' + zlen ds') f1 /\ forall f2, nth_error (part b m') j = Some f2 -> alike rho' f1 f2) RG') as (fs1 & sent' & N1 & _ & P1).
  { unfold sent0, ds'. rewrite !map_length. reflexivity. }
  { intros j f N. destruct (WH j f N) as (i & f0 & E1 & E2 & A). assert (N0 : nth_error (map snd m) i = Some f0) by (rewrite nth_error_map, E2; reflexivity).
    assert (I : (i < List.length m)%nat) by (apply nth_error_Some; congruence). assert (LM : List.length m' = List.length m) by (rewrite <- (map_length fst m'), MK, map_length; reflexivity).
    destruct (nth_error m' i) as [[c f1]|] eqn:N1; [|apply nth_error_None in N1; lia].
    assert (C : c = b). { assert (X : nth_error (map fst m') i = nth_error (map fst m) i) by (rewrite MK; reflexivity). rewrite !nth_error_map, N1, E2 in X. cbn in X. congruence. } subst c.
    pose proof (ST i f0 f1 N0 ltac:(rewrite nth_error_map, N1; reflexivity)) as X. fold L in X.
    set (got := filter (fun x : trade * mat => Nat.eqb (t_to (fst x)) j) (combine ds' (renumber id' sent0))).
    assert (GT : map (redelivered rho') got = map (moved1 ps) (filter (fun x => Nat.eqb (t_to (fst x)) i) L)).
    { rewrite <- (GO i j E1), RD. unfold got. symmetry. apply filter_map_comm. reflexivity. }
    pose proof (fstep_same w rho' INJ' t (gs i) f f0 (sold_by j ds') got A) as Y. rewrite GT, (SO i j E1), fstep_moved, X in Y.
    assert (G : gs' j = gs i) by (unfold gs'; rewrite E1; reflexivity). rewrite G. fold got. rewrite (SO i j E1).
    destruct (fstep w t (gs i) f (map (moved ps) (sold_by i ds)) got) as [p| | |] eqn:FS; cbn in Y; try contradiction. exists p. split; [reflexivity|]. destruct Y as [Y1 Y2]. cbn [fst snd] in Y1, Y2.
    split; [rewrite (SH i j E1), AN; symmetry; exact Y2|]. split.
    - destruct p as [f1' ms]. eapply step_below; [| |exact FS].
      + apply (below_mono id'); [unfold zlen; lia|]. rewrite Forall_forall in BL. apply BL, (nth_error_In _ _ N).
      + apply Forall_forall. intros x Hx. unfold got in Hx. apply filter_In in Hx as [Hx _]. destruct x as [d p]. apply in_combine_r in Hx. pose proof (numbers sent0 id') as NB. rewrite Forall_forall in NB.
        specialize (NB p Hx). cbn. assert (Z2 : zlen sent0 = zlen ds') by (unfold zlen, sent0, ds'; rewrite !map_length; reflexivity). lia.
    - intros f2 N2. destruct (places_part b m' 0 j f2 N2) as (i2 & Q1 & Q2). rewrite (places_marks b m m' 0 MK) in Q1. fold ps in Q1. cbn [Nat.add] in Q1.
      rewrite E1 in Q1. injection Q1 as <-. rewrite N1 in Q2. injection Q2 as <-. exact Y1. }
  exists ds', gs', fs1, sent', rho'. split; [intro j; unfold gs'; destruct (nth_error ps j); eauto|]. split; [exact OR'|]. split; [exact N1|]. split; [exact INJ'|]. split.
  { intros x X. unfold rho', spread. destruct (Z.ltb_spec x id'); [specialize (BD x ltac:(assumption)); lia|]. rewrite ZL. rewrite (proj2 (Z.ltb_lt _ _)) by lia.
    rewrite Forall_forall in IDS. apply IDS, nth_In. unfold zlen in X. rewrite map_length. unfold sent0. rewrite map_length. unfold ds' in X. rewrite map_length in X. lia. }
  split.
  - apply nth_Forall2.
    + destruct N1 as (_ & LF & _). rewrite LF, LEN. unfold ps. rewrite <- (places_marks b m m' 0 MK). apply places_len.
    + intros j f1 f2 Q1 Q2. exact (proj2 (P1 j f1 Q1) f2 Q2).
  - apply Forall_forall. intros f1 F1. apply In_nth_error in F1 as (j & F1). exact (proj1 (P1 j f1 F1)).
Qed.

Lemma part_app b m m' : part b (m ++ m') = part b m ++ part b m'.
Proof. unfold part. rewrite filter_app, map_app. reflexivity. Qed.
Lemma blank_alike rho f w t : deployed w t f -> blank_table f -> alike rho f f /\ forall B, below B f.
Proof.
  intros D E. destruct f as [c s|c s|c s|c s|c s|c s]; try (split; [split; reflexivity|intro; exact I]). cbn in D, E. destruct D as (_ & _ & _ & A). unfold ReactorSpec.assemblies in A.
  apply app_eq_nil in A as [A1 A]. apply app_eq_nil in A as [A2 A3]. split.
  - split; [reflexivity|]. destruct s as [[cf fr] [cc co] [cs sp] i o p cy d x h]. cbn in *. subst. reflexivity.
  - intro B. unfold below, rb_below. rewrite E. 
    repeat split; try constructor; repeat match goal with H : rb_items _ = [] |- _ => rewrite H; clear H end; constructor.
Qed.
Lemma parts_alone w b t id m : apart w t id m -> exists id' fs' rho, reached w t id' fs' /\ one_to_one rho /\ (forall x, (x < id')%Z -> (rho x < id)%Z) /\
  Forall2 (alike rho) fs' (part b m) /\ Forall (below id') fs'.
Proof.
  induction 1 as [id|t id m c f _ (id' & fs' & rho & R & I & B & A & L) D E|t id a x r _ (id' & fs' & rho & R & I & B & A & L)|
    t id m gs ds m' sent _ (id' & fs' & rho & R & I & B & A & L) G O K M N].
  - exists id, [], (fun x => x). split; [constructor|]. split; [intros x y E; exact E|]. split; [auto|]. split; constructor.
  - rewrite part_app. destruct (blank_alike rho f w t D E) as [A1 A2]. destruct (Bool.eqb c b) eqn:C.
    + exists id', (fs' ++ [f]), rho. split; [constructor; assumption|]. split; [exact I|]. split; [exact B|]. split; [|apply Forall_app; split; [exact L|constructor; [apply A2|constructor]]].
      apply Forall2_app; [exact A|]. unfold part. cbn. rewrite C. constructor; [exact A1|constructor].
    + exists id', fs', rho. split; [exact R|]. split; [exact I|]. split; [exact B|]. split; [|exact L]. unfold part at 2. cbn. rewrite C. cbn. rewrite app_nil_r. exact A.
  - change (x :: r) with ([x] ++ r) in A. rewrite !part_app in A. rewrite part_app. destruct x as [c f]. unfold part at 2 in A. cbn [filter fst] in A. destruct (Bool.eqb c b).
    + cbn [map snd app] in A. apply Forall2_app_inv_r in A as (a' & r' & A1 & A2 & ->). inversion A2 as [|f' y r2 z A3 A4]; subst. exists id', (a' ++ r2), rho. split; [eapply retiring; exact R|].
      split; [exact I|]. split; [exact B|]. split; [apply Forall2_app; assumption|]. apply Forall_app in L as [L1 L2]. inversion L2; subst. apply Forall_app. split; assumption.
    + exists id', fs', rho. repeat split; assumption.
  - destruct (part_step w b t id gs m ds m' sent id' fs' rho O K M N I B A L) as (ds' & gs' & fs1 & sent' & rho' & GS & O' & N' & I' & B' & A' & L').
    exists (id' + zlen ds')%Z, fs1, rho'. split; [|repeat split; assumption]. eapply stepping; [exact R| |exact O'|exact N']. intro j. destruct (GS j) as (i & ->). apply G.
Qed.
Lemma alone w b t id m : apart w t id m -> exists id' fs' rho, reached w t id' fs' /\ one_to_one rho /\ Forall2 (alike rho) fs' (part b m) /\ same_parcels (stock fs') (stock (part b m)).
Proof.
  intro H. destruct (parts_alone w b t id m H) as (id' & fs' & rho & R & I & _ & A & _). exists id', fs', rho. split; [exact R|]. split; [exact I|]. split; [exact A|]. exact (stock_same rho fs' (part b m) A).
Qed.
Lemma apart_reached w t id m : apart w t id m -> reached w t id (map snd m).
Proof.
  induction 1 as [id|t id m c f _ R D E|t id a x r _ R|t id m gs ds m' sent _ R G O K M N].
  - constructor.
  - rewrite map_app. constructor; assumption.
  - rewrite map_app in *. cbn [map] in R. eapply retiring. exact R.
  - eapply stepping; eassumption.
Qed.
