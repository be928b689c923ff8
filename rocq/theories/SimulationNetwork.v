(** C128: the network as a whole. *)
From Coq Require Import Lia Lqa.
From Verif Require Import Outcome KernelMaterial KernelResBuf KernelBuf KernelFacts KernelMass NetworkSpec SimulationSpec SimulationProofs.
From Verif Require Import SimulationStorage SimulationMixer SimulationSource SimulationSink SimulationReactor.
From Verif Require ReactorModel ReactorSpec StorageModel StorageSpec ConversionModel ConversionSpec MixerModel MixerSpec MixerRun SinkModel SinkSpec SinkProofs SourceModel SourceSpec SourceProofs.
Local Open Scope Q_scope.

Lemma deployed_good w t id f : world_ok w -> deployed w t f -> good w t id f.
Proof.
  intros (EP & _ & RO). destruct f as [c s|c s|c s|c s|c s|c s]; cbn [deployed good].
  - intros [A ->]. split; [exact A|]. split; [auto|]. exists [], []. split; [constructor|reflexivity].
  - intros (A & B & ->). split; [exact A|]. split; [exact B|]. split; [auto|]. exists [], []. split; [|split; [constructor|reflexivity]].
    split; [constructor|]. split; constructor.
  - intros (A & B). split; [exact A|]. rewrite (MixerRun.enter_new _ _ EP) in B. injection B as <-.
    destruct (MixerRun.started_inv c) as (X & Y & U); [apply A|]. split; [exact X|]. split; assumption.
  - intros (A & B). destruct (SourceProofs.build_good _ _ _ _ A B) as [G _]. split; [exact G|].
    destruct (SourceProofs.build_facts _ _ _ _ B) as (k & E & _ & K). split; [cbn [inside]; rewrite E; cbn [b_items]; rewrite qty_of_cons, qty_of_nil; cbn [m_qty]; lra|].
    destruct (String.eqb_spec (SourceModel.sc_recipe c) "") as [Z|Z]; [left; exact Z|right]. exists k. specialize (K Z). split; [exact Z|]. split; [exact K|].
    destruct (RO _ _ K) as [R1 R2]. rewrite E. cbn [b_items]. split.
    + constructor; [|constructor]. split; [exact A|]. split; [exact R1|left; exact R2].
    + constructor; [|constructor]. intro n. unfold mass_of. cbn. apply cget_cnorm, R2.
  - intros (A & B & C & D & g & E). repeat (split; [assumption|]). destruct (SinkProofs.enter_facts _ _ _ _ E) as (P & I & _). split; [exact P|].
    split; [unfold SinkSpec.held; rewrite I; cbn; exact B|]. cbn [inside]. rewrite I. constructor.
  - intros (A & B & C & D). repeat (split; [assumption|]). rewrite D. split; constructor.
Qed.
Lemma good_works w t id id' g f : world_ok w -> (0 <= t)%Z -> (id <= id')%Z -> signal_ok g -> good w t id f -> works w t id id' g f.
Proof.
  intros W T L G H. destruct f as [c s|c s|c s|c s|c s|c s].
  - exact (conv_works _ _ _ _ _ _ _ W H).
  - exact (stor_works _ _ _ _ _ _ _ W T H).
  - exact (mix_works _ _ _ _ _ _ _ W H).
  - exact (src_works _ _ _ _ _ _ _ W H).
  - exact (sink_works _ _ _ _ _ _ _ W G H).
  - exact (reac_works _ _ _ _ _ _ _ W L H).
Qed.

(** ** Parcels along the plan *)
Definition shipped_by (i : nat) (ds : list trade) (sent : list mat) : list mat := map snd (filter (fun x => Nat.eqb (t_from (fst x)) i) (combine ds sent)).
Lemma merge (P : trade -> mat -> Prop) : forall ds (ms : nat -> list mat), (forall i, Forall2 P (sold_by i ds) (ms i)) ->
  exists sent, List.length sent = List.length ds /\ Forall2 P ds sent /\ forall i, shipped_by i ds sent = ms i.
Proof.
  induction ds as [|d ds IH]; intros ms H.
  - exists []. split; [reflexivity|]. split; [constructor|]. intro i. specialize (H i). cbn in H. inversion H. reflexivity.
  - pose proof (H (t_from d)) as H0. unfold sold_by in H0. cbn [filter] in H0. rewrite Nat.eqb_refl in H0. inversion H0 as [|? m ? rest A B E1 E2]; subst.
    destruct (IH (fun i => if Nat.eqb (t_from d) i then rest else ms i)) as (sent & L & F & M).
    { intro i. destruct (Nat.eqb_spec (t_from d) i) as [<-|N]; [exact B|]. specialize (H i). unfold sold_by in H. cbn [filter] in H.
      destruct (Nat.eqb_spec (t_from d) i); [contradiction|exact H]. }
    exists (m :: sent). split; [cbn; congruence|]. split; [constructor; assumption|]. intro i. specialize (M i). unfold shipped_by in *. cbn [combine filter fst].
    destruct (Nat.eqb (t_from d) i) eqn:X; [|exact M]. apply Nat.eqb_eq in X. subst i. cbn [map snd]. rewrite M. congruence.
Qed.
Lemma same_sent N ds : Forall (fun d => (t_from d < N)%nat) ds -> forall s1 s2, List.length s1 = List.length ds -> List.length s2 = List.length ds ->
  (forall i, (i < N)%nat -> shipped_by i ds s1 = shipped_by i ds s2) -> s1 = s2.
Proof.
  induction 1 as [|d ds F _ IH]; intros s1 s2 L1 L2 H.
  - destruct s1, s2; try discriminate; reflexivity.
  - destruct s1 as [|m1 s1], s2 as [|m2 s2]; try discriminate. unfold shipped_by in H. cbn [combine filter fst] in H.
    pose proof (H _ F) as H0. rewrite Nat.eqb_refl in H0. cbn [map snd] in H0. injection H0 as -> H0. f_equal. apply IH; [cbn in L1; congruence|cbn in L2; congruence|].
    intros i I. specialize (H i I). unfold shipped_by. destruct (Nat.eqb (t_from d) i) eqn:X; [|exact H]. apply Nat.eqb_eq in X. subst i. exact H0.
Qed.
Lemma renumber_length : forall ms k, List.length (renumber k ms) = List.length ms.
Proof. induction ms as [|m ms IH]; intro k; [reflexivity|]. cbn. rewrite IH. reflexivity. Qed.
Lemma renumber_ids : forall ms k, map m_id (renumber k ms) = map (fun i => (k + Z.of_nat i)%Z) (seq 0 (List.length ms)).
Proof.
  induction ms as [|m ms IH]; intro k; [reflexivity|]. cbn [renumber map List.length seq m_id]. f_equal; [lia|]. rewrite IH, <- seq_shift, map_map. apply map_ext. intro i. lia.
Qed.
Lemma renumber_qty : forall ms k, qty_of (renumber k ms) == qty_of ms.
Proof. induction ms as [|m ms IH]; intro k; [reflexivity|]. cbn [renumber]. rewrite !qty_of_cons, IH. reflexivity. Qed.
Lemma renumber_mass n : forall ms k, mass_in n (renumber k ms) == mass_in n ms.
Proof. induction ms as [|m ms IH]; intro k; [reflexivity|]. cbn [renumber]. rewrite !mass_in_cons, IH. reflexivity. Qed.
Lemma agreed ds : forall id id' sent, Forall (fun d => 0 < t_amt d) ds -> Forall2 as_sold ds sent -> (id + zlen ds <= id')%Z ->
  Forall (as_agreed id id') (combine ds (renumber id sent)).
Proof.
  induction ds as [|d ds IH]; intros id id' sent P F E; [constructor|]. inversion F as [|? m ? sent' [Q0 O] F']; subst. inversion P; subst.
  pose proof (zlen_nonneg ds). assert (E' : (id + 1 + zlen ds <= id')%Z) by (unfold zlen in *; cbn [List.length] in E; lia). cbn [renumber combine]. constructor.
  - split; [assumption|]. split; [exact Q0|]. cbn [snd m_id]. split; [exact O|]. lia.
  - eapply Forall_impl; [|apply (IH (id + 1)%Z id' sent'); [assumption|assumption|exact E']]. intros x (X1 & X2 & X3 & X4).
    split; [exact X1|]. split; [exact X2|]. split; [exact X3|]. lia.
Qed.
Lemma NoDup_map_filter {A} (f : A -> Z) (g : A -> bool) l : NoDup (map f l) -> NoDup (map f (filter g l)).
Proof.
  induction l as [|x l IH]; cbn; [auto|]. intro H. inversion H as [|? ? N H']; subst. destruct (g x); [|auto]. cbn. constructor; [|auto].
  intro I. apply N. apply in_map_iff in I as (y & E & Y). apply filter_In in Y as [Y _]. rewrite <- E. apply in_map, Y.
Qed.
Lemma combine_snd {A B} : forall (a : list A) (b : list B), List.length a = List.length b -> map snd (combine a b) = b.
Proof. induction a as [|x a IH]; intros [|y b] L; try discriminate; [reflexivity|]. cbn in *. rewrite IH by congruence. reflexivity. Qed.
Lemma combine_filter_fst {A B} (f : A -> bool) : forall (a : list A) (b : list B), List.length a = List.length b ->
  map fst (filter (fun x => f (fst x)) (combine a b)) = filter f a.
Proof. induction a as [|x a IH]; intros [|y b] L; try discriminate; [reflexivity|]. cbn in *. destruct (f x); cbn; rewrite IH by congruence; reflexivity. Qed.

(** ** Sums *)
Definition over (k N : nat) (h : nat -> Q) : Q := qsum (map h (seq k N)).
Lemma over_S k N h : over k (S N) h = h k + over (S k) N h. Proof. reflexivity. Qed.
Lemma over_ext k N h h' : (forall i, h i == h' i) -> over k N h == over k N h'.
Proof. intro E. revert k. induction N as [|N IH]; intro k; [reflexivity|]. rewrite !over_S, E, IH. reflexivity. Qed.
Lemma over_one k N h x q : (k <= x < k + N)%nat -> over k N (fun i => (if Nat.eqb x i then q else 0) + h i) == q + over k N h.
Proof.
  assert (Z : forall N k, (x < k)%nat -> over k N (fun i => (if Nat.eqb x i then q else 0) + h i) == over k N h).
  { induction N0 as [|N' IH']; intros k' L; [reflexivity|]. rewrite !over_S, IH' by lia. destruct (Nat.eqb_spec x k'); [lia|]. ring. }
  revert k. induction N as [|N IH]; intros k L; [lia|]. rewrite !over_S. destruct (Nat.eqb_spec x k) as [->|E].
  - rewrite Z by lia. ring.
  - rewrite IH by lia. ring.
Qed.
Lemma over_parts (meas : list mat -> Q) (meas_nil : meas [] == 0) (meas_cons : forall m l, meas (m :: l) == meas [m] + meas l)
  (key : trade -> nat) N : forall l : list (trade * mat), Forall (fun x => (key (fst x) < N)%nat) l ->
  over 0 N (fun i => meas (map snd (filter (fun x => Nat.eqb (key (fst x)) i) l))) == meas (map snd l).
Proof.
  induction 1 as [|x l H _ IH].
  - cbn [filter map]. rewrite meas_nil. clear -meas_nil. unfold over. generalize 0%nat. induction N as [|N IH]; intro k; [reflexivity|].
    cbn [seq map]. change (meas [] + qsum (map (fun _ => meas []) (seq (S k) N)) == 0). rewrite meas_nil, IH. ring.
  - rewrite (over_ext 0 N _ (fun i => (if Nat.eqb (key (fst x)) i then meas [snd x] else 0) + meas (map snd (filter (fun x => Nat.eqb (key (fst x)) i) l)))).
    + rewrite over_one by lia. rewrite IH. cbn [map]. rewrite (meas_cons _ (map snd l)). reflexivity.
    + intro i. cbn [filter]. destruct (Nat.eqb (key (fst x)) i); [cbn [map]; rewrite meas_cons; reflexivity|ring].
Qed.
Lemma over_stock (meas : list mat -> Q) (meas_nil : meas [] == 0) (meas_app : forall a b, meas (a ++ b) == meas a + meas b) (a b : nat -> Q) :
  forall fs fs' k, List.length fs' = List.length fs ->
  (forall i f f', nth_error fs i = Some f -> nth_error fs' i = Some f' -> meas (inside f') + a (k + i)%nat == meas (inside f) + b (k + i)%nat) ->
  meas (stock fs') + over k (List.length fs) a == meas (stock fs) + over k (List.length fs) b.
Proof.
  induction fs as [|f fs IH]; intros [|f' fs'] k L H; try discriminate; [reflexivity|].
  cbn [List.length]. rewrite !over_S. unfold stock. cbn [flat_map]. fold (stock fs) (stock fs'). rewrite !meas_app.
  pose proof (H 0%nat f f' eq_refl eq_refl) as H0. rewrite Nat.add_0_r in H0.
  assert (H1 : meas (stock fs') + over (S k) (List.length fs) a == meas (stock fs) + over (S k) (List.length fs) b).
  { apply IH; [cbn in L; congruence|]. intros i g g' G G'. specialize (H (S i) g g' G G'). rewrite Nat.add_succ_r in H. exact H. }
  lra.
Qed.
Lemma qty_cons m l : qty_of (m :: l) == qty_of [m] + qty_of l. Proof. rewrite !qty_of_cons, qty_of_nil. ring. Qed.
Lemma mass_cons n m l : mass_in n (m :: l) == mass_in n [m] + mass_in n l. Proof. rewrite !mass_in_cons, mass_in_nil. ring. Qed.

(** ** One time step *)
Definition all_good (w : world) (t id : Z) (fs : list fac) : Prop := Forall (good w t id) fs.
Lemma list_of_all {A B} (P : nat -> A -> B -> Prop) : forall (l : list A) k, (forall i x, nth_error l i = Some x -> exists y, P (k + i)%nat x y) ->
  exists l', List.length l' = List.length l /\ forall i x y, nth_error l i = Some x -> nth_error l' i = Some y -> P (k + i)%nat x y.
Proof.
  induction l as [|x l IH]; intros k H.
  - exists []. split; [reflexivity|]. intros [|i]; discriminate.
  - destruct (H 0%nat x eq_refl) as (y & Y). rewrite Nat.add_0_r in Y. destruct (IH (S k)) as (l' & L & Q').
    { intros i z Z. destruct (H (S i) z Z) as (u & U). rewrite Nat.add_succ_r in U. eauto. }
    exists (y :: l'). split; [cbn; congruence|]. intros [|i] a b A1 B1; cbn in A1, B1.
    + injection A1 as <-. injection B1 as <-. rewrite Nat.add_0_r. exact Y.
    + rewrite Nat.add_succ_r. exact (Q' _ _ _ A1 B1).
Qed.
Lemma nobody i ds N : Forall (fun d => (t_from d < N)%nat /\ (t_to d < N)%nat) ds -> (N <= i)%nat -> sold_by i ds = [].
Proof.
  intros F L. unfold sold_by. induction F as [|d ds [A _] _ IH]; [reflexivity|]. cbn. destruct (Nat.eqb_spec (t_from d) i); [lia|]. exact IH.
Qed.
Lemma buys_nothing n : buys_ok n [].
Proof. split; [constructor|]. intros p a _. cbn. split; [constructor|]. intros q _ N. contradiction N. reflexivity. Qed.

Lemma nth_error_ext' {A} : forall (a b : list A), (forall i, nth_error a i = nth_error b i) -> a = b.
Proof.
  induction a as [|x a IH]; intros [|y b] H; [reflexivity|specialize (H 0%nat); discriminate|specialize (H 0%nat); discriminate|].
  pose proof (H 0%nat) as H0. cbn in H0. injection H0 as ->. f_equal. apply IH. intro i. exact (H (S i)).
Qed.
Lemma nstep_functional w t id gs fs ds fs1 s1 fs2 s2 : Forall (fun d => (t_from d < List.length fs)%nat /\ (t_to d < List.length fs)%nat) ds ->
  nstep w t id gs fs ds fs1 s1 -> nstep w t id gs fs ds fs2 s2 -> fs1 = fs2 /\ s1 = s2.
Proof.
  intros F (L1 & K1 & H1) (L2 & K2 & H2).
  assert (E : s1 = s2).
  { apply (same_sent (List.length fs) ds); [eapply Forall_impl; [|exact F]; intros d [A _]; exact A|exact L1|exact L2|].
    intros i I. destruct (nth_error fs i) as [f|] eqn:N; [|apply nth_error_None in N; lia].
    destruct (nth_error fs1 i) as [f1|] eqn:N1; [|apply nth_error_None in N1; lia]. destruct (nth_error fs2 i) as [f2|] eqn:N2; [|apply nth_error_None in N2; lia].
    apply (ships_same _ _ _ _ _ _ _ _ _ _ _ (H1 _ _ _ N N1) (H2 _ _ _ N N2)). }
  split; [|exact E]. subst s2. apply nth_error_ext'. intro i. destruct (nth_error fs i) as [f|] eqn:N.
  - assert (I : (i < List.length fs)%nat) by (apply nth_error_Some; congruence).
    destruct (nth_error fs1 i) as [f1|] eqn:N1; [|apply nth_error_None in N1; lia]. destruct (nth_error fs2 i) as [f2|] eqn:N2; [|apply nth_error_None in N2; lia].
    pose proof (H1 _ _ _ N N1) as X1. pose proof (H2 _ _ _ N N2) as X2. congruence.
  - apply nth_error_None in N. rewrite !(proj2 (nth_error_None _ _)) by lia. reflexivity.
Qed.

Lemma nstep_exists w t id gs fs ds : world_ok w -> (0 <= t)%Z -> (forall i, signal_ok (gs i)) -> all_good w t id fs -> orderly w t gs fs ds ->
  exists fs' sent, nstep w t id gs fs ds fs' sent /\ Forall2 as_sold ds sent /\ all_good w (t + 1) (id + zlen ds) fs' /\
    qty_of (stock fs') == qty_of (stock fs) /\
    (Forall inert fs -> Forall inert fs' /\ forall n, mass_in n (stock fs') == mass_in n (stock fs)).
Proof.
  intros W T G A (RG & OR). set (id' := (id + zlen ds)%Z). pose proof (zlen_nonneg ds) as ZN.
  assert (WK : forall i f, nth_error fs i = Some f -> works w t id id' (gs i) f).
  { intros i f N. apply good_works; auto; [unfold id'; lia|]. unfold all_good in A. rewrite Forall_forall in A. apply A, (nth_error_In _ _ N). }
  (* what is shipped *)
  assert (SH : forall i, exists ms, Forall2 as_sold (sold_by i ds) ms /\ (forall f, nth_error fs i = Some f -> exists f1, fstep w t (gs i) f (sold_by i ds) [] = Ok (f1, ms))).
  { intro i. destruct (nth_error fs i) as [f|] eqn:N.
    - destruct (WK i f N) as (n & PB & K). destruct (OR i f n N PB) as [S _]. destruct (K (sold_by i ds) [] S (buys_nothing n)) as (f1 & ms & F1 & F2 & _); [constructor|constructor|].
      exists ms. split; [exact F2|]. intros f' E. injection E as <-. exists f1. exact F1.
    - exists []. apply nth_error_None in N. rewrite (nobody i ds _ RG N). split; [constructor|]. intros f E. discriminate. }
  assert (CH : exists ms : nat -> list mat, forall i, Forall2 as_sold (sold_by i ds) (ms i) /\ (forall f, nth_error fs i = Some f -> exists f1, fstep w t (gs i) f (sold_by i ds) [] = Ok (f1, ms i))).
  { assert (X : forall i f, nth_error fs i = Some f -> exists ms, Forall2 as_sold (sold_by i ds) ms /\ exists f1, fstep w t (gs i) f (sold_by i ds) [] = Ok (f1, ms)).
    { intros i f N. destruct (SH i) as (ms & S1 & S2). exists ms. split; [exact S1|]. apply S2, N. }
    destruct (list_of_all (fun i f ms => Forall2 as_sold (sold_by i ds) ms /\ exists f1, fstep w t (gs i) f (sold_by i ds) [] = Ok (f1, ms)) fs 0 X) as (mss & ML & MP).
    exists (fun i => nth i mss []). intro i. destruct (nth_error fs i) as [f|] eqn:N.
    - destruct (nth_error mss i) as [ms|] eqn:NM; [|apply nth_error_None in NM; assert (nth_error fs i <> None) by congruence; apply nth_error_Some in H; lia].
      rewrite (nth_error_nth _ _ _ NM). destruct (MP i f ms N NM) as [M1 M2]. split; [exact M1|]. intros f' E. injection E as <-. exact M2.
    - apply nth_error_None in N. rewrite nth_overflow by lia. rewrite (nobody i ds _ RG N). split; [constructor|]. intros f E. discriminate. }
  destruct CH as (ms & MS).
  destruct (merge as_sold ds ms (fun i => proj1 (MS i))) as (sent & SL & SS & SM).
  assert (PO : Forall (fun d => 0 < t_amt d) ds).
  { apply Forall_forall. intros d D. rewrite Forall_forall in RG. destruct (RG d D) as [L _]. destruct (nth_error fs (t_from d)) as [f|] eqn:N; [|apply nth_error_None in N; lia].
    destruct (WK _ _ N) as (n & PB & _). destruct (OR _ _ _ N PB) as [[S _] _]. rewrite Forall_forall in S. apply (S d). unfold sold_by. apply filter_In. split; [exact D|apply Nat.eqb_refl]. }
  pose proof (agreed ds id id' sent PO SS (Z.le_refl _)) as AG.
  set (parcels := combine ds (renumber id sent)) in *.
  assert (PL : List.length ds = List.length (renumber id sent)) by (rewrite renumber_length; congruence).
  assert (ND : NoDup (map (fun x : trade * mat => m_id (snd x)) parcels)).
  { assert (E : map (fun x : trade * mat => m_id (snd x)) parcels = map m_id (map snd parcels)) by (rewrite map_map; reflexivity). rewrite E. unfold parcels. rewrite combine_snd by exact PL.
    rewrite renumber_ids. apply FinFun.Injective_map_NoDup; [intros a b X; lia|apply seq_NoDup]. }
  set (R := fun i => filter (fun x : trade * mat => Nat.eqb (t_to (fst x)) i) parcels).
  destruct (list_of_all (fun i f f' => fstep w t (gs i) f (sold_by i ds) (R i) = Ok (f', shipped_by i ds sent) /\ good w (t + 1) id' f' /\ balanced f f' (shipped_by i ds sent) (R i)) fs 0)
    as (fs' & FL & FP).
  { intros i f N. cbn [Nat.add]. destruct (WK i f N) as (n & PB & K). destruct (OR i f n N PB) as [S B].
    destruct (K (sold_by i ds) (R i) S) as (f' & ms' & F1 & F2 & F3 & F4).
    - unfold R, parcels. rewrite (combine_filter_fst (fun d => Nat.eqb (t_to d) i)) by exact PL. exact B.
    - unfold R. apply Forall_forall. intros x X. apply filter_In in X as [X _]. rewrite Forall_forall in AG. apply AG, X.
    - unfold R. apply (NoDup_map_filter (fun x : trade * mat => m_id (snd x))). exact ND.
    - exists f'. destruct (MS i) as [_ M]. destruct (M f N) as (f1 & E). pose proof (ships_same _ _ _ _ _ _ _ _ _ _ _ F1 E) as EM. rewrite SM, <- EM. auto. }
  cbn [Nat.add] in FP. exists fs', sent.
  assert (RF : Forall (fun x : trade * mat => (t_from (fst x) < List.length fs)%nat) (combine ds sent)).
  { apply Forall_forall. intros [d m] X. apply in_combine_l in X. rewrite Forall_forall in RG. apply (RG d X). }
  assert (RT : Forall (fun x : trade * mat => (t_to (fst x) < List.length fs)%nat) parcels).
  { apply Forall_forall. intros [d m] X. unfold parcels in X. apply in_combine_l in X. rewrite Forall_forall in RG. apply (RG d X). }
  split; [|split; [exact SS|split; [|split]]].
  - split; [exact SL|]. split; [exact FL|]. intros i f f' N N'. apply (FP i f f' N N').
  - apply Forall_forall. intros f' I. apply In_nth_error in I as (i & N'). destruct (nth_error fs i) as [f|] eqn:N.
    + apply (FP i f f' N N').
    + apply nth_error_None in N. assert (X : nth_error fs' i <> None) by congruence. apply nth_error_Some in X. lia.
  - pose proof (over_stock qty_of qty_of_nil qty_of_app (fun i => qty_of (shipped_by i ds sent)) (fun i => qty_of (map snd (R i))) fs fs' 0 FL) as OV.
    assert (OV' : qty_of (stock fs') + over 0 (List.length fs) (fun i => qty_of (shipped_by i ds sent)) == qty_of (stock fs) + over 0 (List.length fs) (fun i => qty_of (map snd (R i)))).
    { apply OV. intros i f f' N N'. destruct (FP i f f' N N') as (_ & _ & _ & Bq & _). exact Bq. }
    unfold shipped_by in OV'. rewrite (over_parts qty_of qty_of_nil qty_cons t_from _ _ RF) in OV'. unfold R in OV'. rewrite (over_parts qty_of qty_of_nil qty_cons t_to _ _ RT) in OV'.
    unfold parcels in OV'. rewrite !combine_snd in OV' by congruence. rewrite renumber_qty in OV'. lra.
  - intro IN. split.
    + apply Forall_forall. intros f' I. apply In_nth_error in I as (i & N'). destruct (nth_error fs i) as [f|] eqn:N.
      * destruct (FP i f f' N N') as (_ & _ & IF & _). apply IF. rewrite Forall_forall in IN. apply IN, (nth_error_In _ _ N).
      * apply nth_error_None in N. assert (X : nth_error fs' i <> None) by congruence. apply nth_error_Some in X. lia.
    + intro n. pose proof (over_stock (mass_in n) (mass_in_nil n) (mass_in_app n) (fun i => mass_in n (shipped_by i ds sent)) (fun i => mass_in n (map snd (R i))) fs fs' 0 FL) as OV.
      assert (OV' : mass_in n (stock fs') + over 0 (List.length fs) (fun i => mass_in n (shipped_by i ds sent)) == mass_in n (stock fs) + over 0 (List.length fs) (fun i => mass_in n (map snd (R i)))).
      { apply OV. intros i f f' N N'. destruct (FP i f f' N N') as (_ & _ & _ & _ & Bm). apply Bm. rewrite Forall_forall in IN. apply IN, (nth_error_In _ _ N). }
      unfold shipped_by in OV'. rewrite (over_parts (mass_in n) (mass_in_nil n) (mass_cons n) t_from _ _ RF) in OV'. unfold R in OV'. rewrite (over_parts (mass_in n) (mass_in_nil n) (mass_cons n) t_to _ _ RT) in OV'.
      unfold parcels in OV'. rewrite !combine_snd in OV' by congruence. rewrite renumber_mass in OV'. lra.
Qed.

(** ** The networks that arise *)
Lemma reached_good w : world_ok w -> forall t id fs, reached w t id fs -> (0 <= t)%Z /\ all_good w t id fs.
Proof.
  intros W t id fs H. induction H as [id|t id fs f H [T A] D|t id a f b H [T A]|t id fs gs ds fs' sent H [T A] G O N].
  - split; [lia|constructor].
  - split; [exact T|]. apply Forall_app. split; [exact A|]. constructor; [|constructor]. apply deployed_good; assumption.
  - split; [exact T|]. apply Forall_app in A as [A B]. inversion B; subst. apply Forall_app. split; assumption.
  - destruct (nstep_exists w t id gs fs ds W T G A O) as (fs2 & sent2 & N2 & _ & A2 & _). destruct (nstep_functional _ _ _ _ _ _ _ _ _ _ (proj1 O) N N2) as [-> _].
    split; [lia|exact A2].
Qed.

Lemma never_stuck w t id fs gs : world_ok w -> reached w t id fs -> (forall i, signal_ok (gs i)) ->
  (forall i f, nth_error fs i = Some f -> exists n, publish w t (gs i) f = Ok n) /\
  (forall ds, orderly w t gs fs ds ->
     exists fs' sent, nstep w t id gs fs ds fs' sent /\ Forall2 (fun d m => m_qty m == t_amt d) ds sent /\
       forall fs2 sent2, nstep w t id gs fs ds fs2 sent2 -> fs2 = fs' /\ sent2 = sent).
Proof.
  intros W H G. destruct (reached_good w W _ _ _ H) as [T A]. split.
  - intros i f N. destruct (good_works w t id id (gs i) f W T) as (n & P & _); [lia|apply G| |eauto].
    unfold all_good in A. rewrite Forall_forall in A. apply A, (nth_error_In _ _ N).
  - intros ds O. destruct (nstep_exists w t id gs fs ds W T G A O) as (fs' & sent & N & S & _). exists fs', sent. split; [exact N|]. split.
    + clear -S. induction S as [|d m ds sent [E _] _ IH]; constructor; assumption.
    + intros fs2 s2 N2. exact (nstep_functional _ _ _ _ _ _ _ _ _ _ (proj1 O) N2 N).
Qed.
Lemma conserved w t id fs gs ds fs' sent : world_ok w -> reached w t id fs -> (forall i, signal_ok (gs i)) -> orderly w t gs fs ds ->
  nstep w t id gs fs ds fs' sent ->
  qty_of (stock fs') == qty_of (stock fs) /\ (Forall inert fs -> forall n, mass_in n (stock fs') == mass_in n (stock fs)).
Proof.
  intros W H G O N. destruct (reached_good w W _ _ _ H) as [T A]. destruct (nstep_exists w t id gs fs ds W T G A O) as (fs2 & s2 & N2 & _ & _ & Q1 & Q2).
  destruct (nstep_functional _ _ _ _ _ _ _ _ _ _ (proj1 O) N N2) as [-> _]. split; [exact Q1|]. intro I. apply (Q2 I).
Qed.
