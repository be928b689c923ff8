(** Deciding whether an exchange keeps to what the facilities tell it; used by the examples of SimulationProps.v. *)
From Coq Require Import Lia Lqa.
From Verif Require Import Outcome KernelMaterial KernelResBuf KernelBuf KernelFacts KernelMass NetworkSpec SimulationSpec.
Local Open Scope Q_scope.

Definition fitsb (u : option Q) (q : Q) : bool := match u with Some x => Qeq_bool q x | None => true end.
Lemma fitsb_sound u q : fitsb u q = true -> fits u q.
Proof. destruct u; cbn; [apply Qeq_bool_eq|auto]. Qed.
Definition sales_okb (n : notice) (ds : list trade) : bool :=
  (forallb (fun d => Qltb 0 (t_amt d) && forallb (fun x => Qle_bool 0 (snd x)) (t_want d) && Qltb 0 (csum (t_want d)) &&
                     existsb (fun o => String.eqb (of_commod o) (t_commod d) && fitsb (of_unit o) (t_amt d)) (n_offers n)) ds &&
   forallb (fun o => Qle_bool (total (filter (fun d => String.eqb (t_commod d) (of_commod o)) ds)) (of_limit o)) (n_offers n))%bool.
Lemma sales_okb_sound n ds : sales_okb n ds = true -> sales_ok n ds.
Proof.
  unfold sales_okb. intro H. apply andb_prop in H as [A B]. rewrite forallb_forall in A, B. split.
  - apply Forall_forall. intros d D. specialize (A d D). apply andb_prop in A as [A A4]. apply andb_prop in A as [A A3]. apply andb_prop in A as [A1 A2].
    split; [apply Qltb_true, A1|]. split; [rewrite forallb_forall in A2; apply Forall_forall; intros x X; apply Qle_bool_iff, A2, X|].
    split; [apply Qltb_true, A3|]. apply existsb_exists in A4 as (o & O & E). apply andb_prop in E as [E F]. exists o. split; [exact O|]. split; [apply String.eqb_eq, E|apply fitsb_sound, F].
  - intros o O. apply Qle_bool_iff, B, O.
Qed.
Definition buys_okb (n : notice) (ds : list trade) : bool :=
  (forallb (fun d => match nth_error (flat_map ak_commods (n_asks n)) (t_slot d) with Some c => String.eqb c (t_commod d) | None => false end) ds &&
   forallb (fun pa => let mine := filter (fun d => match nth_error (slots 0 (n_asks n)) (t_slot d) with Some p' => Nat.eqb p' (fst pa) | None => false end) ds in
      forallb (fun d => fitsb (ak_unit (snd pa)) (t_amt d)) mine &&
      match ak_limit (snd pa), mine with Some q, _ :: _ => Qle_bool (total mine) q | _, _ => true end)
     (combine (seq 0 (List.length (n_asks n))) (n_asks n)))%bool.
Lemma nth_combine {A} : forall (l : list A) k p a, nth_error l p = Some a -> In ((k + p)%nat, a) (combine (seq k (List.length l)) l).
Proof.
  induction l as [|x l IH]; intros k [|p] a H; try discriminate; cbn in *.
  - left. f_equal; [lia|congruence].
  - right. rewrite Nat.add_succ_r. apply (IH (S k)), H.
Qed.
Lemma buys_okb_sound n ds : buys_okb n ds = true -> buys_ok n ds.
Proof.
  unfold buys_okb. intro H. apply andb_prop in H as [A B]. rewrite forallb_forall in A, B. split.
  - apply Forall_forall. intros d D. specialize (A d D). destruct (nth_error _ (t_slot d)) as [c|]; [|discriminate]. apply String.eqb_eq in A. congruence.
  - intros p a N. cbv zeta. apply (nth_combine _ 0) in N. specialize (B _ N). cbv zeta in B. cbn [fst snd Nat.add] in B. apply andb_prop in B as [B1 B2].
    set (mine := filter _ ds) in *. split.
    + rewrite forallb_forall in B1. apply Forall_forall. intros d D. apply fitsb_sound, B1, D.
    + intros q E M. rewrite E in B2. destruct mine; [contradiction M; reflexivity|]. apply Qle_bool_iff, B2.
Qed.
Definition orderlyb (w : world) (t : Z) (gs : nat -> signal) (fs : list fac) (ds : list trade) : bool :=
  (forallb (fun d => Nat.ltb (t_from d) (List.length fs) && Nat.ltb (t_to d) (List.length fs)) ds &&
   forallb (fun f => match publish w t (gs (fst f)) (snd f) with
                     | Ok n => sales_okb n (sold_by (fst f) ds) && buys_okb n (bought_by (fst f) ds)
                     | _ => false end) (combine (seq 0 (List.length fs)) fs))%bool.
Lemma orderlyb_sound w t gs fs ds : orderlyb w t gs fs ds = true -> orderly w t gs fs ds.
Proof.
  unfold orderlyb. intro H. apply andb_prop in H as [A B]. rewrite forallb_forall in A, B. split.
  - apply Forall_forall. intros d D. specialize (A d D). apply andb_prop in A as [A1 A2]. split; apply Nat.ltb_lt; assumption.
  - intros i f n N P. apply (nth_combine _ 0) in N. specialize (B _ N). cbn [fst snd Nat.add] in B. rewrite P in B. apply andb_prop in B as [B1 B2].
    split; [apply sales_okb_sound, B1|apply buys_okb_sound, B2].
Qed.
