(** C105: the start-up check of the separation efficiencies in double precision.  The axioms
    below are those of the standard library's real numbers, which Flocq's proofs use. *)
From Coq Require Import ZArith Reals QArith Qreals List Lia Lra.
From Flocq Require Import Core.Core IEEE754.BinarySingleNaN.
From Verif Require Import Outcome DoubleModel DoubleFacts DoubleSpec SeparationsDoubleModel SeparationsDoubleProofs.
Import ListNotations.
Local Open Scope Q_scope.

(** ** C105.  Efficiencies that add up to at most one are accepted, if no nuclide or element is in
    more than two streams. *)
Theorem C105_two_streams_partial : forall entered stored, read_as entered stored ->
  (forall n, Forall (fun q => 0 <= q) (given n entered) /\ (List.length (given n entered) <= 2)%nat /\ qsum (given n entered) <= 1) ->
  sep_check_d stored = Ok tt.
Proof. exact few_final. Qed.
Print Assumptions C105_two_streams_partial.
(** For more streams if there is a margin of 2 ^ -53 for each. *)
Theorem C105_margin_partial : forall entered stored, read_as entered stored ->
  (forall n, Forall (fun q => 0 <= q) (given n entered) /\
     qsum (given n entered) + inject_Z (Z.of_nat (List.length (given n entered))) * (1 # 2 ^ 53) <= 1) ->
  sep_check_d stored = Ok tt.
Proof. exact accepts_final. Qed.
Print Assumptions C105_margin_partial.
(** Efficiencies that exceed one by more than 2 ^ -51 for each stream are rejected. *)
Theorem C105_rejects : forall entered stored n, read_as entered stored -> Forall (fun q => 0 <= q) (given n entered) ->
  1 + inject_Z (Z.of_nat (List.length (given n entered))) * (1 # 2 ^ 51) < qsum (given n entered) ->
  sep_check_d stored = Throw ValueError.
Proof. exact rejects_final. Qed.
Print Assumptions C105_rejects.

(** An input as it is read. *)
Definition dec (e : Z * Q) : Z * double := (fst e, ddiv (of_int (Qnum (snd e))) (of_int (Zpos (Qden (snd e))))).
Lemma dec_read l : forallb (forallb (fun e : Z * Q => Z.ltb (Z.abs (Qnum (snd e))) (2 ^ 53) && Z.ltb (Zpos (Qden (snd e))) (2 ^ 53))%bool) l = true ->
  read_as l (map (map dec) l).
Proof.
  intro H. unfold read_as. induction l as [|s l IH]; [constructor|]. cbn [forallb] in H. apply andb_prop in H. destruct H as [H1 H2].
  cbn [map]. constructor; [|apply IH, H2]. clear IH H2. induction s as [|[k q] s IH]; [constructor|]. cbn [forallb] in H1. apply andb_prop in H1. destruct H1 as [H1 H2].
  cbn [map]. constructor; [|apply IH, H2]. split; [reflexivity|]. apply andb_prop in H1. destruct H1 as [A B]. apply Z.ltb_lt in A, B. cbn [snd] in A, B.
  destruct q as [n d]. exact (read_decimal n d A B).
Qed.
Definition all_keys (l : list (list (Z * Q))) : list Z := map fst (List.concat l).
Lemma all_given l (P : list Q -> Prop) : P [] -> Forall (fun k => P (given k l)) (all_keys l) -> forall n, P (given n l).
Proof.
  intros E H n. destruct (in_dec Z.eq_dec n (all_keys l)) as [I|I].
  - rewrite Forall_forall in H. apply H, I.
  - replace (given n l) with (@nil Q); [exact E|]. clear H. unfold given, all_keys in *. induction (List.concat l) as [|e r IH]; [reflexivity|]. cbn [filter].
    destruct (Z.eqb_spec (fst e) n) as [X|X]; [exfalso; apply I; left; exact X|]. apply IH. intro J. apply I. right. exact J.
Qed.
(** Plutonium and uranium both go to two streams. *)
Definition sd_two : list (list (Z * Q)) := [[(94, 9 # 10); (92, 3 # 10)]; [(94, 1 # 10)]; [(92, 7 # 10)]]%Z.
Example C105_two_case : read_as sd_two (map (map dec) sd_two) /\
  (forall n, Forall (fun q => 0 <= q) (given n sd_two) /\ (List.length (given n sd_two) <= 2)%nat /\ qsum (given n sd_two) <= 1) /\
  qsum (given 94 sd_two) == 1 /\ qsum (given 92 sd_two) == 1.
Proof.
  split; [apply dec_read; vm_compute; reflexivity|]. split; [|split; vm_compute; reflexivity].
  apply (all_given sd_two (fun l => Forall (fun q => 0 <= q) l /\ (List.length l <= 2)%nat /\ qsum l <= 1)).
  - split; [constructor|]. split; [cbn; lia|discriminate].
  - repeat constructor; vm_compute; discriminate.
Qed.
(** Uranium goes to three streams, with a margin of a thousandth. *)
Definition sd_three : list (list (Z * Q)) := [[(92, 3 # 10)]; [(92, 35 # 100)]; [(92, 349 # 1000)]]%Z.
Example C105_margin_case : read_as sd_three (map (map dec) sd_three) /\
  (forall n, Forall (fun q => 0 <= q) (given n sd_three) /\
     qsum (given n sd_three) + inject_Z (Z.of_nat (List.length (given n sd_three))) * (1 # 2 ^ 53) <= 1).
Proof.
  split; [apply dec_read; vm_compute; reflexivity|].
  apply (all_given sd_three (fun l => Forall (fun q => 0 <= q) l /\ qsum l + inject_Z (Z.of_nat (List.length l)) * (1 # 2 ^ 53) <= 1)).
  - split; [constructor|]. discriminate.
  - repeat constructor; vm_compute; discriminate.
Qed.
(** A thousandth too much. *)
Definition sd_more : list (list (Z * Q)) := [[(92, 3 # 10)]; [(92, 35 # 100)]; [(92, 351 # 1000)]]%Z.
Example C105_rejects_case : read_as sd_more (map (map dec) sd_more) /\ Forall (fun q => 0 <= q) (given 92 sd_more) /\
  1 + inject_Z (Z.of_nat (List.length (given 92 sd_more))) * (1 # 2 ^ 51) < qsum (given 92 sd_more).
Proof. split; [apply dec_read; vm_compute; reflexivity|]. split; [repeat constructor; vm_compute; discriminate|vm_compute; reflexivity]. Qed.

(** False in general: 0.56 + 0.34 + 0.1 comes out larger than one, and so do 0.2 + 0.4 + 0.3 + 0.1. *)
Definition sd_over : list (list (Z * Q)) := [[(94, 56 # 100)]; [(94, 34 # 100)]; [(94, 1 # 10)]]%Z.
Definition sd_over4 : list (list (Z * Q)) := [[(94, 2 # 10)]; [(94, 4 # 10)]; [(94, 3 # 10)]; [(94, 1 # 10)]]%Z.
Theorem C105_exact_refuted : exists entered stored, read_as entered stored /\
  (forall n, Forall (fun q => 0 <= q) (given n entered) /\ qsum (given n entered) <= 1) /\ sep_check_d stored = Throw ValueError.
Proof.
  exists sd_over, (map (map dec) sd_over). split; [apply dec_read; vm_compute; reflexivity|]. split; [|vm_compute; reflexivity].
  apply (all_given sd_over (fun l => Forall (fun q => 0 <= q) l /\ qsum l <= 1)); [split; [constructor|discriminate]|].
  repeat constructor; vm_compute; discriminate.
Qed.
Print Assumptions C105_exact_refuted.
Example C105_tenths_case : read_as sd_over4 (map (map dec) sd_over4) /\ qsum (given 94 sd_over4) == 1 /\ sep_check_d (map (map dec) sd_over4) = Throw ValueError.
Proof. split; [apply dec_read; vm_compute; reflexivity|]. split; vm_compute; reflexivity. Qed.
