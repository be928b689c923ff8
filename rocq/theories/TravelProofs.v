(** Proofs for C152. *)
From Coq Require Import Lia Lqa List ZArith.
From Verif Require Import Outcome KernelMaterial KernelResBuf KernelBuf KernelFacts KernelMass NetworkSpec SimulationSpec SimulationProofs SimulationNetwork LedgerSpec LedgerProofs CareerSpec CareerProofs PassProofs TravelSpec.
Import ListNotations.
Local Open Scope Q_scope.

Lemma each_none n ms : mats_ok ms -> mass_in n ms == 0 -> forall m, In m ms -> mass_of m n == 0.
Proof.
  induction ms as [|x ms IH]; intros O E m I; [destruct I|]. inversion O as [|? ? O1 O2]; subst. rewrite mass_in_cons in E. pose proof (mass_nonneg x n O1). pose proof (mass_in_nonneg n ms O2).
  destruct I as [<-|I]; [lra|]. apply IH; [exact O2|lra|exact I].
Qed.
Lemma none_each n (ms : list mat) : (forall m, In m ms -> mass_of m n == 0) -> mass_in n ms == 0.
Proof. induction ms as [|x ms IH]; intro H; [apply mass_in_nil|]. rewrite mass_in_cons, (H x (or_introl eq_refl)), IH; [ring|]. intros m I. apply H. right. exact I. Qed.
Lemma renumbered n (d : trade) (m' : mat) : forall ds sent id, In (d, m') (combine ds (renumber id sent)) -> exists m, In (d, m) (combine ds sent) /\ mass_of m' n = mass_of m n.
Proof.
  induction ds as [|e ds IH]; intros [|m sent] id I; try (destruct I; fail). cbn [renumber combine] in I. destruct I as [I|I].
  - injection I as <- <-. exists m. split; [left; reflexivity|reflexivity].
  - destruct (IH sent (id + 1)%Z I) as (x & A & B). exists x. split; [right; exact A|exact B].
Qed.
Lemma sold_ok S ms : Forall2 as_sold S ms -> mats_ok ms.
Proof. induction 1 as [|d m S ms [_ O] _ IH]; constructor; assumption. Qed.
Lemma ships_none w t id gs fs ds fs' sent i f n : world_ok w -> reached w t id fs -> (forall j, signal_ok (gs j)) -> orderly w t gs fs ds -> nstep w t id gs fs ds fs' sent ->
  nth_error fs i = Some f -> inert f -> mass_in n (inside f) == 0 -> forall m, In m (shipped_by i ds sent) -> mass_of m n == 0.
Proof.
  intros W H G O N Nf IN E. destruct (step_each w t id gs fs ds fs' sent i f W H G O N Nf) as (no & f' & R & A' & PB & SO & BO & RB & AG & ND & ST & AS & GD & _).
  destruct (reached_good w W _ _ _ H) as [T _]. destruct (good_works w t id id (gs i) f W T (Z.le_refl _) (G i) GD) as (n2 & P2 & K). rewrite PB in P2. injection P2 as <-.
  destruct (K (sold_by i ds) [] SO (buys_nothing no)) as (f1 & ms & F1 & AS1 & G1 & (IN1 & _ & BL)); [constructor|constructor|].
  pose proof (ships_same _ _ _ _ _ _ _ _ _ _ _ F1 ST) as ->. specialize (BL IN n). cbn [map] in BL. rewrite mass_in_nil in BL.
  pose proof (sold_ok _ _ AS) as OK. pose proof (mass_in_nonneg n _ OK) as P1. pose proof (mass_in_nonneg n _ (good_sound _ _ _ _ G1 (proj1 IN1 IN))) as P2. apply each_none; [exact OK|lra].
Qed.
Lemma in_shipped (d : trade) (m : mat) ds sent : In (d, m) (combine ds sent) -> In m (shipped_by (t_from d) ds sent).
Proof. intro I. unfold shipped_by. apply (in_map snd _ (d, m)). apply filter_In. split; [exact I|apply Nat.eqb_refl]. Qed.
Lemma one_hop w t id gs fs ds fs' sent i f n : world_ok w -> reached w t id fs -> (forall j, signal_ok (gs j)) -> orderly w t gs fs ds -> nstep w t id gs fs ds fs' sent ->
  nth_error fs i = Some f -> inert f -> mass_in n (inside f) == 0 ->
  (forall d, In d ds -> t_to d = i -> exists g, nth_error fs (t_from d) = Some g /\ inert g /\ mass_in n (inside g) == 0) ->
  exists f', nth_error fs' i = Some f' /\ inert f' /\ mass_in n (inside f') == 0.
Proof.
  intros W H G O N Nf IN E SE. destruct (step_each w t id gs fs ds fs' sent i f W H G O N Nf) as (no & f' & R & A' & PB & SO & BO & RB & AG & (_ & IC) & ST & AS & GD & (II & _ & BL)).
  exists f'. split; [exact A'|]. split; [exact (proj1 II IN)|]. specialize (BL IN n).
  assert (RZ : mass_in n (map snd R) == 0).
  { apply none_each. intros m I. apply in_map_iff in I as ([d x] & <- & I). cbn [snd]. destruct (renumbered n d x ds sent id (IC _ I)) as (m0 & I0 & ->).
    assert (TI : In d (bought_by i ds)) by (rewrite <- RB; apply (in_map fst _ (d, x)), I). apply filter_In in TI as [TI TT]. apply Nat.eqb_eq in TT.
    destruct (SE d TI TT) as (g & Ng & Ig & Eg). exact (ships_none w t id gs fs ds fs' sent _ g n W H G O N Ng Ig Eg m0 (in_shipped _ _ _ _ I0)). }
  pose proof (stepping w t id fs gs ds fs' sent H G O N) as H'. destruct (reached_good w W _ _ _ H') as [_ AG']. unfold all_good in AG'. rewrite Forall_forall in AG'.
  pose proof (mass_in_nonneg n _ (good_sound _ _ _ _ (AG' f' (nth_error_In _ _ A')) (proj1 II IN))) as P1. pose proof (mass_in_nonneg n _ (sold_ok _ _ AS)) as P2. lra.
Qed.
Lemma goes_reached w t id fs t' id' fs' dss : reached w t id fs -> goes w t id fs t' id' fs' dss -> reached w t' id' fs' /\ List.length fs' = List.length fs.
Proof.
  intros R. induction 1 as [|t1 id1 fs1 dss gs ds fs2 sent H [IH L] G O N]; [split; [exact R|reflexivity]|]. split; [exact (stepping w t1 id1 fs1 gs ds fs2 sent IH G O N)|]. destruct N as (_ & X & _). congruence.
Qed.
Lemma hops w t id fs t' id' fs' dss n rank : world_ok w -> reached w t id fs -> Forall inert fs -> (forall i f, nth_error fs i = Some f -> (0 < rank i)%nat -> mass_in n (inside f) == 0) ->
  (forall ds d, In ds dss -> In d ds -> (rank (t_to d) <= S (rank (t_from d)))%nat) -> goes w t id fs t' id' fs' dss ->
  Forall inert fs' /\ forall i f, nth_error fs' i = Some f -> (List.length dss < rank i)%nat -> mass_in n (inside f) == 0.
Proof.
  intros W R IN Z RK GO. induction GO as [|t1 id1 fs1 dss gs ds fs2 sent H IH G O N]; [split; [exact IN|exact Z]|].
  destruct IH as [IN1 Z1]; [intros x d X D; apply (RK x d); [apply in_or_app; left; exact X|exact D]|]. destruct (goes_reached _ _ _ _ _ _ _ _ R H) as [R1 _]. rewrite Forall_forall in IN1. split.
  - apply Forall_forall. intros f' I. apply In_nth_error in I as (i & Nf'). destruct (nth_error fs1 i) as [f|] eqn:Nf.
    + destruct (step_each w t1 id1 gs fs1 ds fs2 sent i f W R1 G O N Nf) as (no & f2 & Q & A' & _ & _ & _ & _ & _ & _ & _ & _ & _ & (II & _)). rewrite Nf' in A'. injection A' as <-. apply II, IN1, (nth_error_In _ _ Nf).
    + apply nth_error_None in Nf. assert ((i < List.length fs2)%nat) by (apply nth_error_Some; congruence). destruct N as (_ & X & _). lia.
  - intros i f' Nf' L. rewrite app_length in L. cbn [List.length] in L. destruct (nth_error fs1 i) as [f|] eqn:Nf.
    + destruct (one_hop w t1 id1 gs fs1 ds fs2 sent i f n W R1 G O N Nf (IN1 _ (nth_error_In _ _ Nf)) (Z1 i f Nf ltac:(lia))) as (f2 & A & _ & B).
      * intros d D E. destruct O as [RG _]. rewrite Forall_forall in RG. destruct (RG d D) as [LF _]. destruct (nth_error fs1 (t_from d)) as [g|] eqn:Ng; [|apply nth_error_None in Ng; lia].
        exists g. split; [reflexivity|]. split; [exact (IN1 _ (nth_error_In _ _ Ng))|]. apply (Z1 _ g Ng). pose proof (RK ds d ltac:(apply in_or_app; right; left; reflexivity) D) as X. rewrite E in X. lia.
      * rewrite Nf' in A. injection A as <-. exact B.
    + apply nth_error_None in Nf. assert ((i < List.length fs2)%nat) by (apply nth_error_Some; congruence). destruct N as (_ & X & _). lia.
Qed.
