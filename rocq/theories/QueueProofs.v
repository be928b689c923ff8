(** Proofs for C146. *)
From Coq Require Import Lia Lqa List Permutation.
From Verif Require Import Outcome KernelMaterial KernelResBuf KernelBuf KernelFacts KernelMass NetworkSpec SimulationSpec SimulationProofs SimulationNetwork CareerSpec CareerProofs.
Import ListNotations.
Local Open Scope Q_scope.

Lemma perm_filter {A} (p : A -> bool) a b : Permutation a b -> Permutation (filter p a) (filter p b).
Proof.
  induction 1 as [|x l l' _ IH|x y l|l l' l'' _ IH1 _ IH2]; cbn; [constructor| | |exact (Permutation_trans IH1 IH2)].
  - destruct (p x); [constructor; exact IH|exact IH].
  - destruct (p x), (p y); try reflexivity. apply perm_swap.
Qed.
Lemma perm_Forall {A} (P : A -> Prop) a b : Permutation a b -> Forall P a -> Forall P b.
Proof. intros E F. rewrite Forall_forall in *. intros x X. apply F. exact (Permutation_in _ (Permutation_sym E) X). Qed.
Lemma perm_total a b : Permutation a b -> total a == total b.
Proof. intro P. unfold total. apply qsum_perm, Permutation_map, P. Qed.
Lemma perm_orderly w t gs fs ds ds2 : Permutation ds ds2 -> orderly w t gs fs ds -> orderly w t gs fs ds2.
Proof.
  intros P (RG & OR). split; [exact (perm_Forall _ _ _ P RG)|]. intros i f n N PB. destruct (OR i f n N PB) as ([S1 S2] & [B1 B2]).
  pose proof (perm_filter (fun d => Nat.eqb (t_from d) i) _ _ P) as PS. pose proof (perm_filter (fun d => Nat.eqb (t_to d) i) _ _ P) as PT. split; split.
  - exact (perm_Forall _ _ _ PS S1).
  - intros o O. specialize (S2 o O). rewrite (perm_total _ _ (perm_filter _ _ _ PS)) in S2. exact S2.
  - exact (perm_Forall _ _ _ PT B1).
  - intros p a A. specialize (B2 p a A). cbv zeta in *. destruct B2 as [B2 B3]. set (k := fun d : trade => match nth_error (slots 0 (n_asks n)) (t_slot d) with Some p' => Nat.eqb p' p | None => false end) in *.
    pose proof (perm_filter k _ _ PT) as PK. split; [exact (perm_Forall _ _ _ PK B2)|]. intros q Q X. specialize (B3 q Q). rewrite (perm_total _ _ PK) in B3. apply B3. intro E. apply X.
    apply Permutation_nil. unfold bought_by in E. rewrite <- E. exact PK.
Qed.
Lemma step_balance w t id gs fs ds fs' sent i f : world_ok w -> reached w t id fs -> (forall j, signal_ok (gs j)) -> orderly w t gs fs ds -> nstep w t id gs fs ds fs' sent -> nth_error fs i = Some f ->
  exists f', nth_error fs' i = Some f' /\ qty_of (inside f') == qty_of (inside f) + total (bought_by i ds) - total (sold_by i ds).
Proof.
  intros W H G O N A. destruct (step_each w t id gs fs ds fs' sent i f W H G O N A) as (n & f' & R & A' & _ & _ & _ & RB & AG & _ & _ & AS & _ & (_ & BL & _)).
  exists f'. split; [exact A'|]. rewrite (sold_qty _ _ AS) in BL. rewrite (got_total _ _ _ AG), RB in BL. lra.
Qed.
Lemma queue w t id gs fs ds ds2 fs' sent : world_ok w -> reached w t id fs -> (forall j, signal_ok (gs j)) -> orderly w t gs fs ds -> nstep w t id gs fs ds fs' sent -> Permutation ds ds2 ->
  orderly w t gs fs ds2 /\ exists fs2 sent2, nstep w t id gs fs ds2 fs2 sent2 /\ Forall2 (fun d m => m_qty m == t_amt d) ds2 sent2 /\ Forall2 (fun f f2 => qty_of (inside f2) == qty_of (inside f)) fs' fs2.
Proof.
  intros W H G O N P. pose proof (perm_orderly _ _ _ _ _ _ P O) as O2. split; [exact O2|]. destruct (proj2 (never_stuck w t id fs gs W H G) ds2 O2) as (fs2 & sent2 & N2 & S2 & _).
  exists fs2, sent2. split; [exact N2|]. split; [exact S2|]. assert (L : List.length fs' = List.length fs2) by (destruct N as (_ & X & _), N2 as (_ & Y & _); congruence).
  assert (E : forall i f1 f2, nth_error fs' i = Some f1 -> nth_error fs2 i = Some f2 -> qty_of (inside f2) == qty_of (inside f1)).
  { intros i f1 f2 N1' N2'. destruct (nth_error fs i) as [f|] eqn:F.
    - destruct (step_balance _ _ _ _ _ _ _ _ _ _ W H G O N F) as (g1 & G1 & Q1). destruct (step_balance _ _ _ _ _ _ _ _ _ _ W H G O2 N2 F) as (g2 & G2 & Q2). rewrite N1' in G1. rewrite N2' in G2. injection G1 as <-. injection G2 as <-.
      rewrite Q1, Q2. unfold bought_by, sold_by. rewrite (perm_total _ _ (perm_filter (fun d => Nat.eqb (t_from d) i) _ _ P)), (perm_total _ _ (perm_filter (fun d => Nat.eqb (t_to d) i) _ _ P)). reflexivity.
    - apply nth_error_None in F. assert ((i < List.length fs')%nat) by (apply nth_error_Some; congruence). destruct N as (_ & X & _). lia. }
  clear -L E. revert fs2 L E. induction fs' as [|a l IH]; intros [|b m] L E; try discriminate L; constructor.
  - apply (E 0%nat); reflexivity.
  - apply IH; [cbn in L; congruence|]. intro i. exact (E (S i)).
Qed.
