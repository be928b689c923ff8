(** Proofs about the advertised production capacities. *)
From Coq Require Import Lia.
From Verif Require Import Outcome KernelMaterial KernelFacts ReactorModel StorageModel ProducerModel ProducerSpec.
From Verif Require SourceModel.
Local Open Scope Q_scope.

Lemma find_app p q c : pd_find (p ++ q) c = match pd_find p c with Some i => Some i | None => pd_find q c end.
Proof. induction p as [|[k i] p IH]; cbn; [reflexivity|]. destruct (String.eqb k c); auto. Qed.
Lemma find_add p k i c : pd_find (pd_add p k i) c = match pd_find p c with Some x => Some x | None => if String.eqb k c then Some i else None end.
Proof.
  unfold pd_add. destruct (pd_find p k) as [x|] eqn:E.
  - destruct (String.eqb_spec k c) as [<-|]; [rewrite E; reflexivity|destruct (pd_find p c); reflexivity].
  - rewrite find_app. cbn. destruct (pd_find p c); [reflexivity|]. destruct (String.eqb k c); reflexivity.
Qed.
Lemma find_copy from : forall p c, pd_find (pd_copy from p) c = match pd_find p c with Some x => Some x | None => pd_find from c end.
Proof.
  induction from as [|[k i] from IH]; intros p c; cbn [pd_copy fold_left].
  - destruct (pd_find p c); reflexivity.
  - fold (pd_copy from (pd_add p (fst (k, i)) (snd (k, i)))). rewrite IH, find_add. cbn [fst snd pd_find].
    destruct (pd_find p c); [reflexivity|]. destruct (String.eqb k c); reflexivity.
Qed.
Lemma find_clone n p c : pd_find (clone n p) c = pd_find p c.
Proof. induction n; cbn; [reflexivity|]. rewrite find_copy. exact IHn. Qed.
Lemma advertises_clone n p l : advertises p l -> advertises (clone n p) l.
Proof. intros A c. rewrite find_clone. apply A. Qed.
Lemma side_loop cfg : forall n i p, (i + n <= List.length (side_products cfg))%nat ->
  (List.length (side_products cfg) <= List.length (side_qty cfg))%nat ->
  exists q, loop (fun p i =>
      let* c := vec_at (side_products cfg) i in
      let* q := vec_at (side_qty cfg) i in
      Ok (pd_add p c {| pi_capacity := q; pi_cost := q |})) (seq i n) p = Ok q /\
    forall c, option_map pi_capacity (pd_find q c) =
      match option_map pi_capacity (pd_find p c) with
      | Some x => Some x
      | None => quantity_of (firstn n (skipn i (combine (side_products cfg) (side_qty cfg)))) c
      end.
Proof.
  induction n as [|n IH]; intros i p L Q.
  - exists p. split; [reflexivity|]. intro c. cbn [firstn]. unfold quantity_of. cbn. destruct (pd_find p c); reflexivity.
  - cbn [seq loop].
    destruct (nth_error (side_products cfg) i) as [k|] eqn:E1; [|apply nth_error_None in E1; lia].
    destruct (nth_error (side_qty cfg) i) as [x|] eqn:E2; [|apply nth_error_None in E2; lia].
    unfold vec_at at 1. rewrite E1. cbn [bind]. unfold vec_at at 1. rewrite E2. cbn [bind].
    destruct (IH (S i) (pd_add p k {| pi_capacity := x; pi_cost := x |}) ltac:(lia) Q) as (q & A & B).
    exists q. split; [exact A|]. intro c. rewrite B, find_add.
    assert (S : skipn i (combine (side_products cfg) (side_qty cfg)) = (k, x) :: skipn (S i) (combine (side_products cfg) (side_qty cfg))).
    { clear -E1 E2. revert i E1 E2. generalize (side_qty cfg). induction (side_products cfg) as [|a l IH]; intros [|b m] [|i] E1 E2; try discriminate.
      - cbn in *. congruence.
      - cbn [combine skipn]. rewrite (IH m i E1 E2). reflexivity. }
    rewrite S. cbn [firstn]. unfold quantity_of at 2. cbn [find fst].
    destruct (pd_find p c); cbn [option_map]; [reflexivity|]. destruct (String.eqb k c); reflexivity.
Qed.
Lemma reactor_final power cfg n : (List.length (side_products cfg) <= List.length (side_qty cfg))%nat ->
  exists p, rx_advertise power cfg = Ok p /\
    advertises (clone n p) ((power, power_cap cfg) :: combine (side_products cfg) (side_qty cfg)).
Proof.
  intro L. unfold rx_advertise.
  destruct (side_loop cfg (List.length (side_products cfg)) 0 (pd_add [] power {| pi_capacity := power_cap cfg; pi_cost := power_cap cfg |}) ltac:(lia) L) as (p & A & B).
  exists p. split; [exact A|]. apply advertises_clone. intro c. rewrite B. cbn [skipn]. rewrite firstn_all2 by (rewrite combine_length; lia).
  unfold quantity_of. cbn. destruct (String.eqb power c); reflexivity.
Qed.
Lemma reactor_undefined power cfg : (List.length (side_qty cfg) < List.length (side_products cfg))%nat ->
  exists u, rx_advertise power cfg = UB u.
Proof.
  intro L. unfold rx_advertise. generalize (pd_add [] power {| pi_capacity := power_cap cfg; pi_cost := power_cap cfg |}).
  assert (G : forall n i p, (i + n = List.length (side_products cfg))%nat -> (i <= List.length (side_qty cfg))%nat -> exists u, loop (fun p i =>
      let* c := vec_at (side_products cfg) i in
      let* q := vec_at (side_qty cfg) i in
      Ok (pd_add p c {| pi_capacity := q; pi_cost := q |})) (seq i n) p = UB u).
  { induction n as [|n IH]; intros i p E I; [lia|]. cbn [seq loop]. unfold vec_at at 1.
    destruct (nth_error (side_products cfg) i) as [k|] eqn:E1; [|apply nth_error_None in E1; lia]. cbn [bind]. unfold vec_at at 1.
    destruct (nth_error (side_qty cfg) i) as [x|] eqn:E2; [|cbn; eauto]. cbn [bind]. apply IH; [lia|].
    assert (i < List.length (side_qty cfg))%nat by (apply nth_error_Some; congruence). lia. }
  intro p. apply G; lia.
Qed.
Lemma source_final cfg n : advertises (clone n (sr_advertise cfg)) [(SourceModel.sc_commod cfg, SourceModel.sc_throughput cfg)].
Proof. apply advertises_clone. intro c. unfold quantity_of. cbn. destruct (String.eqb (SourceModel.sc_commod cfg) c); reflexivity. Qed.
Lemma storage_final default cfg n : forall c r, sc_out_commods cfg = c :: r ->
  exists p, st_advertise default cfg = Ok p /\ advertises (clone n p) [(c, sc_throughput cfg)].
Proof.
  intros c r E. unfold st_advertise, st_init_from_db. rewrite E. cbn [bind]. eexists. split; [reflexivity|]. apply advertises_clone.
  intro k. unfold quantity_of. cbn. rewrite String.eqb_refl. cbn. destruct (String.eqb c k); reflexivity.
Qed.

