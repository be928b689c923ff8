(** Proofs for C145. *)
From Coq Require Import Lia List Permutation FinFun.
From Verif Require Import Outcome KernelMaterial KernelResBuf KernelBuf NetworkSpec SimulationSpec SimulationNetwork SeatSpec.
Import ListNotations.
Local Open Scope Q_scope.

(** ** Trades under new places *)
Definition reseat1 (p : nat -> nat) (x : trade * mat) : trade * mat := (reseat p (fst x), snd x).
Lemma filter_reseat p (k : trade -> bool) : (forall d, k (reseat p d) = k d) -> forall l, filter k (map (reseat p) l) = map (reseat p) (filter k l).
Proof. intros H. induction l as [|d l IH]; [reflexivity|]. cbn. rewrite H. destruct (k d); cbn; congruence. Qed.
Lemma total_reseat p l : total (map (reseat p) l) = total l.
Proof. unfold total. rewrite map_map. reflexivity. Qed.
Lemma sales_reseat p n l : sales_ok n l -> sales_ok n (map (reseat p) l).
Proof. intros [A B]. split; [apply Forall_map; exact A|]. intros o O. rewrite filter_reseat by reflexivity. rewrite total_reseat. exact (B o O). Qed.
Lemma buys_reseat p n l : buys_ok n l -> buys_ok n (map (reseat p) l).
Proof.
  intros [A B]. split; [apply Forall_map; exact A|]. intros k a N. specialize (B k a N). cbv zeta in *. rewrite filter_reseat by reflexivity. destruct B as [B1 B2].
  split; [apply Forall_map; exact B1|]. intros q Q X. rewrite total_reseat. apply B2; [exact Q|]. intro Z. apply X. rewrite Z. reflexivity.
Qed.
Lemma fstep_reseat p w t g f sales got : fstep w t g f (map (reseat p) sales) (map (reseat1 p) got) = fstep w t g f sales got.
Proof. destruct f; cbn [fstep]; rewrite ?map_map; reflexivity. Qed.
Lemma eqb_inj p (I : Injective p) a b : Nat.eqb (p a) (p b) = Nat.eqb a b.
Proof. destruct (Nat.eqb_spec a b) as [->|N]; [apply Nat.eqb_refl|]. apply Nat.eqb_neq. intro E. exact (N (I _ _ E)). Qed.
Lemma filter_at p (I : Injective p) (k : trade -> nat) (K : forall d, k (reseat p d) = p (k d)) i : forall l, filter (fun d => Nat.eqb (k d) (p i)) (map (reseat p) l) = map (reseat p) (filter (fun d => Nat.eqb (k d) i) l).
Proof. induction l as [|d l IH]; [reflexivity|]. cbn. rewrite K, (eqb_inj p I). destruct (Nat.eqb (k d) i); cbn; congruence. Qed.
Lemma filter_at1 p (I : Injective p) (k : trade -> nat) (K : forall d, k (reseat p d) = p (k d)) i : forall l,
  filter (fun x : trade * mat => Nat.eqb (k (fst x)) (p i)) (map (reseat1 p) l) = map (reseat1 p) (filter (fun x => Nat.eqb (k (fst x)) i) l).
Proof. induction l as [|d l IH]; [reflexivity|]. cbn. rewrite K, (eqb_inj p I). destruct (Nat.eqb (k (fst d)) i); cbn; congruence. Qed.
Lemma combine_reseat p : forall (ds : list trade) (ms : list mat), combine (map (reseat p) ds) ms = map (reseat1 p) (combine ds ms).
Proof. induction ds as [|d ds IH]; intros [|m ms]; try reflexivity. cbn. rewrite IH. reflexivity. Qed.

(** ** A time step under new places *)
Lemma seat_one {A B C} (fs fs2 : list A) (fs' : list B) (gs : nat -> C) p : Injective p -> List.length fs2 = List.length fs -> List.length fs' = List.length fs -> (forall i, nth_error fs i = nth_error fs2 (p i)) ->
  exists q fs2', (forall i, (i < List.length fs)%nat -> q (p i) = i) /\ List.length fs2' = List.length fs2 /\ (forall i, nth_error fs' i = nth_error fs2' (p i)).
Proof.
  intros I L2 L' E. set (n := List.length fs).
  assert (BF : bFun n p).
  { intros i Hi. unfold n in *. rewrite <- L2. apply nth_error_Some. rewrite <- E. apply nth_error_Some. exact Hi. }
  assert (BI : bInjective n p) by (intros x y _ _ X; exact (I _ _ X)).
  pose proof (proj1 (bInjective_bSurjective BF) BI) as BS. destruct (bSurjective_bBijective BF BS) as (q & QF & Q1).
  exists q. destruct (list_of_all (fun j _ y => exists i, p i = j /\ nth_error fs' i = Some y) fs2 0) as (l & L & P).
  { intros j x N. assert (J : (j < n)%nat) by (unfold n; rewrite <- L2; apply nth_error_Some; congruence). destruct (BS j J) as (i & Hi & Pi). destruct (nth_error fs' i) as [y|] eqn:Y; [|apply nth_error_None in Y; unfold n in Hi; lia].
    exists y, i. auto. }
  exists l. split; [intros i Hi; exact (proj1 (Q1 i Hi))|]. split; [exact L|]. intro i. destruct (nth_error l (p i)) as [y|] eqn:Y.
  - destruct (nth_error fs2 (p i)) as [x|] eqn:X.
    + destruct (P _ _ _ X Y) as (i' & EI & N). cbn in EI. apply I in EI. subst i'. exact N.
    + apply nth_error_None in X. assert ((p i < List.length l)%nat) by (apply nth_error_Some; congruence). lia.
  - apply nth_error_None in Y. apply nth_error_None. rewrite L'. apply nth_error_None. rewrite E. apply nth_error_None. lia.
Qed.
Lemma reseat_step w t id gs fs ds fs' sent fs2 : Permutation fs fs2 -> (forall i, signal_ok (gs i)) -> orderly w t gs fs ds -> nstep w t id gs fs ds fs' sent ->
  exists p gs2 fs2', Injective p /\ (forall i, nth_error fs2 (p i) = nth_error fs i) /\ (forall i, nth_error fs2' (p i) = nth_error fs' i) /\ List.length fs2' = List.length fs2 /\
    (forall i, (i < List.length fs)%nat -> gs2 (p i) = gs i) /\ (forall j, signal_ok (gs2 j)) /\
    orderly w t gs2 fs2 (map (reseat p) ds) /\ nstep w t id gs2 fs2 (map (reseat p) ds) fs2' sent.
Proof.
  intros PM SG (RG & OR) (SL & FL & ST). apply Permutation_sym in PM. apply Permutation_nth_error in PM as (L2 & p & I & E).
  destruct (seat_one fs fs2 fs' gs p I L2 FL E) as (q & fs2' & QP & L2' & E').
  exists p, (fun j => gs (q j)), fs2'. split; [exact I|]. split; [intro i; symmetry; apply E|]. split; [intro i; symmetry; apply E'|]. split; [exact L2'|].
  split; [intros i Hi; cbn; rewrite (QP i Hi); reflexivity|]. split; [intro j; apply SG|].
  assert (IN : forall i, (i < List.length fs)%nat -> (p i < List.length fs2)%nat) by (intros i Hi; apply nth_error_Some; rewrite <- E; apply nth_error_Some; exact Hi).
  assert (BACK : forall j f, nth_error fs2 j = Some f -> exists i, p i = j /\ (i < List.length fs)%nat /\ nth_error fs i = Some f).
  { intros j f N. assert (BF : bFun (List.length fs) p) by (intros i Hi; specialize (IN i Hi); lia).
    assert (BI : bInjective (List.length fs) p) by (intros x y _ _ X; exact (I _ _ X)). destruct (proj1 (bInjective_bSurjective BF) BI j) as (i & Hi & Pi).
    - rewrite <- L2. apply nth_error_Some. congruence.
    - exists i. subst j. rewrite E. auto. }
  split.
  - split.
    + apply Forall_map. eapply Forall_impl; [|exact RG]. cbn. intros d [A B]. split; apply IN; assumption.
    + intros j f n N P. destruct (BACK j f N) as (i & <- & Hi & Ni). rewrite (QP i Hi) in P. destruct (OR i f n Ni P) as [A B]. unfold sold_by, bought_by in *.
      rewrite (filter_at p I t_from) by reflexivity. rewrite (filter_at p I t_to) by reflexivity. split; [apply sales_reseat, A|apply buys_reseat, B].
  - split; [rewrite map_length; exact SL|]. split; [exact L2'|]. intros j f f' N N'. destruct (BACK j f N) as (i & <- & Hi & Ni). rewrite <- E' in N'. rewrite (QP i Hi). specialize (ST i f f' Ni N').
    unfold sold_by in *. rewrite !combine_reseat. rewrite (filter_at p I t_from) by reflexivity. rewrite (filter_at1 p I t_to), (filter_at1 p I t_from) by reflexivity. rewrite fstep_reseat, ST. rewrite map_map. reflexivity.
Qed.

(** ** Whole simulations *)
Lemma to_back w t id fs : seated w t id fs -> exists fs2, Permutation fs2 fs /\ reached w t id fs2.
Proof.
  induction 1 as [id|t id a b f _ (l & P & R) D|t id a f b _ (l & P & R)|t id fs gs ds fs' sent _ (l & P & R) SG OR ST].
  - exists []. split; [constructor|apply at_start].
  - exists (l ++ [f]). split; [|exact (deploying w t id l f R D)]. apply Permutation_trans with (f :: l); [apply Permutation_sym, Permutation_cons_append|]. apply Permutation_cons_app. exact P.
  - assert (IN : In f l) by (eapply Permutation_in; [apply Permutation_sym; exact P|]; apply in_or_app; right; left; reflexivity).
    apply in_split in IN as (x & y & ->). exists (x ++ y). split; [exact (Permutation_app_inv _ _ _ _ _ P)|exact (retiring w t id x f y R)].
  - apply Permutation_sym in P. destruct (reseat_step w t id gs fs ds fs' sent l P SG OR ST) as (p & gs2 & l' & I & _ & E' & L' & _ & SG2 & OR2 & ST2). exists l'. split.
    + apply Permutation_nth_error. destruct ST as (_ & FL & _). split; [rewrite L', FL; symmetry; exact (Permutation_length P)|]. exists p. split; [exact I|]. intro i. symmetry. apply E'.
    + pose proof (stepping w t id l gs2 (map (reseat p) ds) l' sent R SG2 OR2 ST2) as X. unfold zlen in *. rewrite map_length in X. exact X.
Qed.
Lemma reached_seated w t id fs : reached w t id fs -> seated w t id fs.
Proof.
  induction 1 as [id|t id fs f _ IH D|t id a f b _ IH|t id fs gs ds fs' sent _ IH SG OR ST].
  - apply seat_start.
  - apply (seat_new w t id fs [] f); [rewrite app_nil_r; exact IH|exact D].
  - exact (seat_gone w t id a f b IH).
  - exact (seat_step w t id fs gs ds fs' sent IH SG OR ST).
Qed.
(** So what holds of every network that can arise, whatever the order of its facilities, holds here too. *)
Lemma same_material a b : Permutation a b -> Permutation (stock a) (stock b).
Proof. intro P. unfold stock. apply Permutation_flat_map. exact P. Qed.
Lemma seated_good w t id fs : world_ok w -> seated w t id fs -> (0 <= t)%Z /\ all_good w t id fs.
Proof.
  intros W H. destruct (to_back w t id fs H) as (l & P & R). destruct (reached_good w W _ _ _ R) as [T A]. split; [exact T|]. unfold all_good in *. rewrite Forall_forall in *. intros f F. apply A. exact (Permutation_in _ (Permutation_sym P) F).
Qed.
Lemma seated_step w t id fs gs ds : world_ok w -> seated w t id fs -> (forall i, signal_ok (gs i)) -> orderly w t gs fs ds ->
  exists fs' sent, nstep w t id gs fs ds fs' sent /\ Forall2 (fun d m => m_qty m == t_amt d) ds sent /\ qty_of (stock fs') == qty_of (stock fs).
Proof.
  intros W H G O. destruct (seated_good w t id fs W H) as [T A]. destruct (nstep_exists w t id gs fs ds W T G A O) as (fs' & sent & N & S & _ & Q & _). exists fs', sent. split; [exact N|]. split; [|exact Q].
  clear -S. induction S as [|d m ds sent [E _] _ IH]; constructor; assumption.
Qed.
