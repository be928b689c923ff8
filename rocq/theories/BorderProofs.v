(** Proofs for C153. *)
From Coq Require Import Lia Lqa List ZArith Bool.
From Verif Require Import Outcome KernelMaterial KernelResBuf KernelBuf KernelFacts KernelMass NetworkSpec SimulationSpec SimulationProofs SimulationNetwork CareerSpec CareerProofs TravelSpec TravelProofs BorderSpec.
Import ListNotations.
Local Open Scope Q_scope.

Lemma total_in d ds : total (d :: ds) == t_amt d + total ds.
Proof. reflexivity. Qed.
Lemma over_ext (g h : nat -> Q) l : (forall i, In i l -> g i == h i) -> qsum (map g l) == qsum (map h l).
Proof. induction l as [|i l IH]; intro H; [reflexivity|]. change (g i + qsum (map g l) == h i + qsum (map h l)). rewrite (H i (or_introl eq_refl)), IH; [reflexivity|]. intros j J. apply H. right. exact J. Qed.
Lemma over_plus (g h : nat -> Q) l : qsum (map (fun i => g i + h i) l) == qsum (map g l) + qsum (map h l).
Proof. induction l as [|i l IH]; [reflexivity|]. change (g i + h i + qsum (map (fun i => g i + h i) l) == (g i + qsum (map g l)) + (h i + qsum (map h l))). rewrite IH. ring. Qed.
Lemma over_none (g : nat -> Q) l : (forall i, In i l -> g i == 0) -> qsum (map g l) == 0.
Proof. induction l as [|i l IH]; intro H; [reflexivity|]. change (g i + qsum (map g l) == 0). rewrite (H i (or_introl eq_refl)), IH; [reflexivity|]. intros j J. apply H. right. exact J. Qed.
Lemma over_one k (a : Q) l : NoDup l -> In k l -> qsum (map (fun i => if Nat.eqb k i then a else 0) l) == a.
Proof.
  induction l as [|i l IH]; intros ND I; [destruct I|]. inversion ND as [|? ? N1 N2]; subst.
  change ((if Nat.eqb k i then a else 0) + qsum (map (fun i => if Nat.eqb k i then a else 0) l) == a). destruct (Nat.eqb_spec k i) as [<-|NE].
  - rewrite over_none; [ring|]. intros j J. destruct (Nat.eqb_spec k j) as [<-|_]; [contradiction|reflexivity].
  - destruct I as [E|I]; [congruence|]. rewrite IH; [ring|exact N2|exact I].
Qed.
Lemma over_ends (e : trade -> nat) (P : nat -> bool) (l : list nat) ds : NoDup l -> Forall (fun d => In (e d) l) ds ->
  qsum (map (fun i => if P i then total (filter (fun d => Nat.eqb (e d) i) ds) else 0) l) == total (filter (fun d => P (e d)) ds).
Proof.
  intros ND. induction 1 as [|d ds I _ IH].
  - apply over_none. intros i _. destruct (P i); reflexivity.
  - rewrite (over_ext _ (fun i => (if Nat.eqb (e d) i then (if P (e d) then t_amt d else 0) else 0) + (if P i then total (filter (fun x => Nat.eqb (e x) i) ds) else 0))).
    + rewrite over_plus, IH, (over_one _ _ _ ND I). cbn [filter]. destruct (P (e d)); [rewrite total_in; reflexivity|ring].
    + intros i _. cbn [filter]. destruct (Nat.eqb_spec (e d) i) as [<-|_]; destruct (P _); try rewrite total_in; ring.
Qed.
Lemma crossing (P : nat -> bool) ds : total (filter (fun d => P (t_to d)) ds) - total (filter (fun d => P (t_from d)) ds) == total (into P ds) - total (out_of P ds).
Proof.
  induction ds as [|d ds IH]; [reflexivity|]. unfold into, out_of in *. cbn [filter]. destruct (P (t_to d)), (P (t_from d)); cbn [andb negb]; rewrite ?total_in; lra.
Qed.
Lemma border w t id gs fs ds fs' sent P : world_ok w -> reached w t id fs -> (forall j, signal_ok (gs j)) -> orderly w t gs fs ds -> nstep w t id gs fs ds fs' sent ->
  part_holds P fs' == part_holds P fs + total (into P ds) - total (out_of P ds).
Proof.
  intros W H G O N. assert (L : List.length fs' = List.length fs) by apply N. pose proof (crossing P ds) as C.
  assert (RG : forall e, e = t_from \/ e = t_to -> Forall (fun d => In (e d) (seq 0 (List.length fs))) ds).
  { intros e E. eapply Forall_impl; [|exact (proj1 O)]. intros d [A B]. apply in_seq. destruct E as [-> | ->]; lia. }
  pose proof (over_ends t_from P _ ds (seq_NoDup (List.length fs) 0) (RG _ (or_introl eq_refl))) as S1. pose proof (over_ends t_to P _ ds (seq_NoDup (List.length fs) 0) (RG _ (or_intror eq_refl))) as S2.
  enough (X : part_holds P fs' + total (filter (fun d => P (t_from d)) ds) == part_holds P fs + total (filter (fun d => P (t_to d)) ds)) by lra.
  rewrite <- S1, <- S2. unfold part_holds. rewrite L, <- !over_plus. apply over_ext. intros i I. apply in_seq in I. destruct (P i); [|reflexivity].
  destruct (nth_error fs i) as [f|] eqn:Nf; [|apply nth_error_None in Nf; lia].
  destruct (step_each w t id gs fs ds fs' sent i f W H G O N Nf) as (n & f' & R & A' & PB & SO & BO & RB & AG & ND & ST & AS & GD & (_ & BL & _)). rewrite A'.
  rewrite (sold_qty _ _ AS) in BL. rewrite (got_total _ _ _ AG), RB in BL. exact BL.
Qed.
Lemma total_both a b : total (a ++ b) == total a + total b.
Proof. induction a as [|d a IH]; [change (total b == 0 + total b); ring|]. cbn [app]. rewrite !total_in, IH. ring. Qed.
Lemma border_run w t id fs t' id' fs' dss P : world_ok w -> reached w t id fs -> goes w t id fs t' id' fs' dss ->
  part_holds P fs' == part_holds P fs + total (into P (List.concat dss)) - total (out_of P (List.concat dss)).
Proof.
  intros W R GO. induction GO as [|t1 id1 fs1 dss gs ds fs2 sent H IH G O N]; [change (part_holds P fs == part_holds P fs + 0 - 0); ring|].
  destruct (goes_reached _ _ _ _ _ _ _ _ R H) as [R1 _]. rewrite (border w t1 id1 gs fs1 ds fs2 sent P W R1 G O N), IH. rewrite concat_app. cbn [List.concat]. rewrite app_nil_r.
  unfold into, out_of. rewrite !filter_app, !total_both. ring.
Qed.
Lemma filter_nothing {A} (p : A -> bool) l : (forall x, In x l -> p x = false) -> filter p l = [].
Proof. induction l as [|x l IH]; intro H; [reflexivity|]. cbn [filter]. rewrite (H x (or_introl eq_refl)). apply IH. intros y I. apply H. right. exact I. Qed.
Lemma closed_part w t id fs t' id' fs' dss P : world_ok w -> reached w t id fs -> goes w t id fs t' id' fs' dss -> (forall ds d, In ds dss -> In d ds -> P (t_from d) = P (t_to d)) ->
  part_holds P fs' == part_holds P fs.
Proof.
  intros W R GO C. rewrite (border_run w t id fs t' id' fs' dss P W R GO). unfold into, out_of.
  assert (X : forall d, In d (List.concat dss) -> P (t_from d) = P (t_to d)) by (intros d I; apply in_concat in I as (ds & I & J); exact (C ds d I J)).
  rewrite !filter_nothing; [change (part_holds P fs + 0 - 0 == part_holds P fs); ring| |]; intros d I; rewrite (X d I); destruct (P (t_to d)); reflexivity.
Qed.
