(** Proofs for C150. *)
From Coq Require Import Lia Lqa List.
From Verif Require Import Outcome KernelMaterial KernelResBuf KernelBuf KernelFacts KernelMass NetworkSpec SimulationSpec SimulationProofs SimulationNetwork CareerSpec CareerProofs QueueProofs LotSpec.
Import ListNotations.
Local Open Scope Q_scope.

Definition cut (d : trade) (x y : Q) (l l2 : list trade) : Prop := (exists a b, l = a ++ d :: b /\ l2 = a ++ lot x d :: lot y d :: b) \/ l2 = l.
Lemma cut_filter k d x y l l2 : (forall q e, k (lot q e) = k e) -> cut d x y l l2 -> cut d x y (filter k l) (filter k l2).
Proof.
  intros K [(a & b & -> & ->)| ->]; [|right; reflexivity]. rewrite !filter_app. cbn [filter]. rewrite !K. destruct (k d); [left|right; reflexivity]. exists (filter k a), (filter k b). split; reflexivity.
Qed.
Lemma total_app a b : total (a ++ b) == total a + total b.
Proof. unfold total. rewrite map_app. induction a as [|e a IH]; cbn [map app]; [change (qsum []) with 0; lra|]. change (qsum (t_amt e :: map t_amt a ++ map t_amt b)) with (t_amt e + qsum (map t_amt a ++ map t_amt b)). change (qsum (t_amt e :: map t_amt a)) with (t_amt e + qsum (map t_amt a)). lra. Qed.
Lemma total_cons e l : total (e :: l) == t_amt e + total l.
Proof. reflexivity. Qed.
Lemma cut_total d x y l l2 : x + y == t_amt d -> cut d x y l l2 -> total l2 == total l.
Proof. intros E [(a & b & -> & ->)| ->]; [|reflexivity]. rewrite !total_app, !total_cons. cbn [lot t_amt]. lra. Qed.
Lemma cut_in d x y l l2 e : cut d x y l l2 -> In e l2 -> In e l \/ (In d l /\ (e = lot x d \/ e = lot y d)).
Proof.
  intros [(a & b & -> & ->)| ->] I; [|left; exact I]. apply in_app_or in I as [I|[I|[I|I]]].
  - left. apply in_or_app. left. exact I.
  - right. split; [apply in_or_app; right; left; reflexivity|left; symmetry; exact I].
  - right. split; [apply in_or_app; right; left; reflexivity|right; symmetry; exact I].
  - left. apply in_or_app. right. right. exact I.
Qed.
Lemma cut_back d x y l l2 e : cut d x y l l2 -> In e l -> In e l2 \/ (e = d /\ In (lot x d) l2).
Proof.
  intros [(a & b & -> & ->)| ->] I; [|left; exact I]. apply in_app_or in I as [I|[I|I]].
  - left. apply in_or_app. left. exact I.
  - right. split; [symmetry; exact I|apply in_or_app; right; left; reflexivity].
  - left. apply in_or_app. right. right. right. exact I.
Qed.
Lemma cut_nil d x y l l2 : cut d x y l l2 -> (l = [] <-> l2 = []).
Proof. intros [(a & b & -> & ->)| ->]; [|tauto]. split; intro E; destruct a; discriminate E. Qed.
Lemma unpackaged w t g f n : match f with Reac _ _ => False | _ => True end -> publish w t g f = Ok n -> (forall o, In o (n_offers n) -> of_unit o = None) /\ (forall a, In a (n_asks n) -> ak_unit a = None).
Proof.
  destruct f as [c s|c s|c s|c s|c s|c s]; intros B H; [| | | | |destruct B]; cbn [publish] in H.
  - apply bind_ok in H as (s1 & _ & H). apply bind_ok in H as (b & _ & H). injection H as <-. cbn [n_offers n_asks]. split; intros o I.
    + destruct b as [[? ?]|]; [destruct I as [<-|[]]; reflexivity|destruct I].
    + destruct (ConversionModel.cv_requests c s1) as [[? ?]|]; [destruct I as [<-|[]]; reflexivity|destruct I].
  - injection H as <-. cbn [n_offers n_asks]. split; intros o I; [apply in_map_iff in I as (k & <- & _); reflexivity|destruct I as [<-|[]]; reflexivity].
  - apply bind_ok in H as ([s1 z] & _ & H). injection H as <-. cbn [n_offers n_asks]. split; intros o I; [destruct I as [<-|[]]; reflexivity|apply in_map_iff in I as (k & <- & _); reflexivity].
  - apply bind_ok in H as ([s1 p] & _ & H). injection H as <-. cbn [n_offers n_asks]. split; intros o I; [destruct p; [destruct I as [<-|[]]; reflexivity|destruct I]|destruct I].
  - apply bind_ok in H as ([s1 z] & _ & H). apply bind_ok in H as ([s2 r] & _ & H). injection H as <-. cbn [n_offers n_asks]. split; intros o I; [destruct I|destruct r; [destruct I as [<-|[]]; reflexivity|destruct I]].
Qed.
Lemma from_sold i d ds : In d (sold_by i ds) -> t_from d = i.
Proof. intro I. apply filter_In in I as [_ I]. apply Nat.eqb_eq, I. Qed.
Lemma to_bought i d ds : In d (bought_by i ds) -> t_to d = i.
Proof. intro I. apply filter_In in I as [_ I]. apply Nat.eqb_eq, I. Qed.
Lemma orderly_cut w t gs fs ds ds2 d x y : 0 < x -> 0 < y -> x + y == t_amt d -> in_bulk fs d -> cut d x y ds ds2 -> orderly w t gs fs ds -> orderly w t gs fs ds2.
Proof.
  intros X Y E B C (RG & OR). split.
  - rewrite Forall_forall in *. intros e I. destruct (cut_in _ _ _ _ _ _ C I) as [J|(J & [->| ->])]; [exact (RG e J)|exact (RG d J)|exact (RG d J)].
  - intros i f n N P. destruct (OR i f n N P) as ([S1 S2] & [B1 B2]).
    pose proof (cut_filter (fun d => Nat.eqb (t_from d) i) d x y ds ds2 (fun q e => eq_refl) C) as CS. fold (sold_by i ds) (sold_by i ds2) in CS.
    pose proof (cut_filter (fun d => Nat.eqb (t_to d) i) d x y ds ds2 (fun q e => eq_refl) C) as CB. fold (bought_by i ds) (bought_by i ds2) in CB. rewrite Forall_forall in S1, B1. split; split.
    + apply Forall_forall. intros e I. destruct (cut_in _ _ _ _ _ _ CS I) as [J|(J & K)]; [exact (S1 e J)|]. destruct (S1 d J) as (_ & W1 & W2 & o & O1 & O2 & _).
      assert (BF : match f with Reac _ _ => False | _ => True end) by (apply B; left; rewrite (from_sold _ _ _ J); exact N). destruct (unpackaged _ _ _ _ _ BF P) as [U _].
      destruct K as [->| ->];
      (split; [assumption|]; split; [exact W1|]; split; [exact W2|]; exists o; split; [exact O1|]; split; [exact O2|]; rewrite (U o O1); exact Logic.I).
    + intros o O. rewrite (cut_total _ _ _ _ _ E (cut_filter (fun d => String.eqb (t_commod d) (of_commod o)) _ _ _ _ _ (fun q e => eq_refl) CS)). exact (S2 o O).
    + apply Forall_forall. intros e I. destruct (cut_in _ _ _ _ _ _ CB I) as [J|(J & [->| ->])]; [exact (B1 e J)|exact (B1 d J)|exact (B1 d J)].
    + intros p a A. specialize (B2 p a A). cbv zeta in *. destruct B2 as [B2 B3]. set (k := fun d : trade => match nth_error (slots 0 (n_asks n)) (t_slot d) with Some p' => Nat.eqb p' p | None => false end) in *.
      pose proof (cut_filter k _ _ _ _ _ (fun q e => eq_refl) CB) as CK. split.
      * rewrite Forall_forall in *. intros e I. destruct (cut_in _ _ _ _ _ _ CK I) as [J|(J & K)]; [exact (B2 e J)|]. apply filter_In in J as [J _].
        assert (BF : match f with Reac _ _ => False | _ => True end) by (apply B; right; rewrite (to_bought _ _ _ J); exact N). rewrite (proj2 (unpackaged _ _ _ _ _ BF P) a (nth_error_In _ _ A)). exact Logic.I.
      * intros q Q Z. rewrite (cut_total _ _ _ _ _ E CK). apply B3; [exact Q|]. intro Z2. apply Z. apply (proj1 (cut_nil _ _ _ _ _ CK)). exact Z2.
Qed.
Lemma orderly_join w t gs fs ds ds2 d x y : 0 < x -> 0 < y -> x + y == t_amt d -> in_bulk fs d -> cut d x y ds ds2 -> orderly w t gs fs ds2 -> orderly w t gs fs ds.
Proof.
  intros X Y E B C (RG & OR). split.
  - rewrite Forall_forall in *. intros e I. destruct (cut_back _ _ _ _ _ _ C I) as [J|(-> & J)]; [exact (RG e J)|exact (RG _ J)].
  - intros i f n N P. destruct (OR i f n N P) as ([S1 S2] & [B1 B2]).
    pose proof (cut_filter (fun d => Nat.eqb (t_from d) i) d x y ds ds2 (fun q e => eq_refl) C) as CS. fold (sold_by i ds) (sold_by i ds2) in CS.
    pose proof (cut_filter (fun d => Nat.eqb (t_to d) i) d x y ds ds2 (fun q e => eq_refl) C) as CB. fold (bought_by i ds) (bought_by i ds2) in CB. rewrite Forall_forall in S1, B1. split; split.
    + apply Forall_forall. intros e I. destruct (cut_back _ _ _ _ _ _ CS I) as [J|(-> & J)]; [exact (S1 e J)|]. destruct (S1 _ J) as (_ & W1 & W2 & o & O1 & O2 & _).
      assert (BF : match f with Reac _ _ => False | _ => True end) by (apply B; left; rewrite (from_sold _ _ _ I); exact N). destruct (unpackaged _ _ _ _ _ BF P) as [U _].
      split; [lra|]. split; [exact W1|]. split; [exact W2|]. exists o. split; [exact O1|]. split; [exact O2|]. rewrite (U o O1). exact Logic.I.
    + intros o O. rewrite <- (cut_total _ _ _ _ _ E (cut_filter (fun d => String.eqb (t_commod d) (of_commod o)) _ _ _ _ _ (fun q e => eq_refl) CS)). exact (S2 o O).
    + apply Forall_forall. intros e I. destruct (cut_back _ _ _ _ _ _ CB I) as [J|(-> & J)]; [exact (B1 e J)|exact (B1 _ J)].
    + intros p a A. specialize (B2 p a A). cbv zeta in *. destruct B2 as [B2 B3]. set (k := fun d : trade => match nth_error (slots 0 (n_asks n)) (t_slot d) with Some p' => Nat.eqb p' p | None => false end) in *.
      pose proof (cut_filter k _ _ _ _ _ (fun q e => eq_refl) CB) as CK. split.
      * rewrite Forall_forall in *. intros e I. destruct (cut_back _ _ _ _ _ _ CK I) as [J|(-> & J)]; [exact (B2 e J)|]. apply filter_In in I as [I _].
        assert (BF : match f with Reac _ _ => False | _ => True end) by (apply B; right; rewrite (to_bought _ _ _ I); exact N). rewrite (proj2 (unpackaged _ _ _ _ _ BF P) a (nth_error_In _ _ A)). exact Logic.I.
      * intros q Q Z. rewrite <- (cut_total _ _ _ _ _ E CK). apply B3; [exact Q|]. intro Z2. apply Z. apply (proj2 (cut_nil _ _ _ _ _ CK)). exact Z2.
Qed.
Lemma same_totals w t id gs fs ds ds2 fs' sent : world_ok w -> reached w t id fs -> (forall j, signal_ok (gs j)) -> orderly w t gs fs ds -> nstep w t id gs fs ds fs' sent -> orderly w t gs fs ds2 ->
  (forall i, total (bought_by i ds2) == total (bought_by i ds) /\ total (sold_by i ds2) == total (sold_by i ds)) ->
  exists fs2 sent2, nstep w t id gs fs ds2 fs2 sent2 /\ Forall2 (fun d m => m_qty m == t_amt d) ds2 sent2 /\ Forall2 (fun f f2 => qty_of (inside f2) == qty_of (inside f)) fs' fs2.
Proof.
  intros W H G O N O2 T. destruct (proj2 (never_stuck w t id fs gs W H G) ds2 O2) as (fs2 & sent2 & N2 & S2 & _).
  exists fs2, sent2. split; [exact N2|]. split; [exact S2|]. assert (L : List.length fs' = List.length fs2) by (destruct N as (_ & X & _), N2 as (_ & Y & _); congruence).
  assert (E : forall i f1 f2, nth_error fs' i = Some f1 -> nth_error fs2 i = Some f2 -> qty_of (inside f2) == qty_of (inside f1)).
  { intros i f1 f2 N1' N2'. destruct (nth_error fs i) as [f|] eqn:F.
    - destruct (step_balance _ _ _ _ _ _ _ _ _ _ W H G O N F) as (g1 & G1 & Q1). destruct (step_balance _ _ _ _ _ _ _ _ _ _ W H G O2 N2 F) as (g2 & G2 & Q2). rewrite N1' in G1. rewrite N2' in G2. injection G1 as <-. injection G2 as <-.
      destruct (T i) as [T1 T2]. rewrite Q1, Q2, T1, T2. reflexivity.
    - apply nth_error_None in F. assert ((i < List.length fs')%nat) by (apply nth_error_Some; congruence). destruct N as (_ & X & _). lia. }
  clear -L E. revert fs2 L E. induction fs' as [|a l IH]; intros [|b m] L E; try discriminate L; constructor.
  - apply (E 0%nat); reflexivity.
  - apply IH; [cbn in L; congruence|]. intro i. exact (E (S i)).
Qed.
Lemma two_lots w t id gs fs a d b x y fs' sent : world_ok w -> reached w t id fs -> (forall j, signal_ok (gs j)) -> 0 < x -> 0 < y -> x + y == t_amt d -> in_bulk fs d ->
  orderly w t gs fs (a ++ d :: b) -> nstep w t id gs fs (a ++ d :: b) fs' sent ->
  orderly w t gs fs (a ++ lot x d :: lot y d :: b) /\ exists fs2 sent2, nstep w t id gs fs (a ++ lot x d :: lot y d :: b) fs2 sent2 /\
    Forall2 (fun d m => m_qty m == t_amt d) (a ++ lot x d :: lot y d :: b) sent2 /\ Forall2 (fun f f2 => qty_of (inside f2) == qty_of (inside f)) fs' fs2.
Proof.
  intros W H G X Y E B O N. assert (C : cut d x y (a ++ d :: b) (a ++ lot x d :: lot y d :: b)) by (left; exists a, b; split; reflexivity). pose proof (orderly_cut _ _ _ _ _ _ _ _ _ X Y E B C O) as O2. split; [exact O2|].
  apply (same_totals w t id gs fs _ _ fs' sent W H G O N O2). intro i. split; apply (cut_total d x y); try exact E; apply cut_filter; (exact C || reflexivity).
Qed.
Lemma one_lot w t id gs fs a d b x y fs' sent : world_ok w -> reached w t id fs -> (forall j, signal_ok (gs j)) -> 0 < x -> 0 < y -> x + y == t_amt d -> in_bulk fs d ->
  orderly w t gs fs (a ++ lot x d :: lot y d :: b) -> nstep w t id gs fs (a ++ lot x d :: lot y d :: b) fs' sent ->
  orderly w t gs fs (a ++ d :: b) /\ exists fs2 sent2, nstep w t id gs fs (a ++ d :: b) fs2 sent2 /\
    Forall2 (fun d m => m_qty m == t_amt d) (a ++ d :: b) sent2 /\ Forall2 (fun f f2 => qty_of (inside f2) == qty_of (inside f)) fs' fs2.
Proof.
  intros W H G X Y E B O N. assert (C : cut d x y (a ++ d :: b) (a ++ lot x d :: lot y d :: b)) by (left; exists a, b; split; reflexivity). pose proof (orderly_join _ _ _ _ _ _ _ _ _ X Y E B C O) as O2. split; [exact O2|].
  apply (same_totals w t id gs fs _ _ fs' sent W H G O N O2). intro i. split; symmetry; apply (cut_total d x y); try exact E; apply cut_filter; (exact C || reflexivity).
Qed.
