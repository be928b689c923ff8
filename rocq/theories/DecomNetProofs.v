(** Reactors that leave a network (C143): the proofs. *)
From Coq Require Import Lia.
From Verif Require Import Outcome KernelMaterial KernelResBuf KernelBuf NetworkSpec SimulationSpec LifeSpec LifeProofs LifeReactor DecomProofs.
From Verif Require ReactorModel ReactorSpec.
Local Open Scope Z_scope.

Lemma last_of {A B} (R : A -> B -> Prop) l m : Forall2 R l m -> List.length l = List.length m.
Proof. induction 1; cbn; congruence. Qed.
Lemma reactor_inside w t id fs i c s : world_ok w -> reached w t id fs -> nth_error fs i = Some (Reac c s) -> 1 <= ReactorModel.n_core c -> ReactorModel.retired c (t - 1) = false ->
  ReactorModel.check_decom s = true -> ReactorSpec.assemblies s = [].
Proof.
  intros W H N NC R K. destruct (has_diary _ _ _ _ W H _ _ N) as (t0 & f0 & ps & D). destruct f0 as [c0 s0|c0 s0|c0 s0|c0 s0|c0 s0|c0 s0].
  - destruct (conv_life _ _ _ _ _ _ _ _ _ W D) as (x & os & _ & _ & E & _). rewrite N in E. discriminate.
  - destruct (stor_life _ _ _ _ _ _ _ _ _ W D) as (x & os & _ & _ & _ & E & _). rewrite N in E. discriminate.
  - destruct (mixr_life _ _ _ _ _ _ _ _ _ W D) as (x & os & _ & _ & _ & _ & E & _). rewrite N in E. discriminate.
  - destruct (srce_life _ _ _ _ _ _ _ _ _ W D) as (x & os & _ & _ & E & _). rewrite N in E. discriminate.
  - destruct (snk_life _ _ _ _ _ _ _ _ _ W D) as (g & x & os & _ & _ & _ & E & _). rewrite N in E. discriminate.
  - destruct (reac_life _ _ _ _ _ _ _ _ _ W D) as (os & HH & E & F2 & T & Z). rewrite N in E. injection E as <- ->.
    destruct os as [|o os _] using rev_ind; [exact Z|]. pose proof (last_of _ _ _ F2) as L. rewrite app_length in L. cbn [List.length] in L.
    assert (E : ReactorSpec.end_state s0 (os ++ [o]) = ReactorModel.o_state o) by (unfold ReactorSpec.end_state; rewrite map_app; cbn [map]; apply last_last).
    rewrite E in *. refine (proj2 (operating_empty _ _ _ _ _ _ _ HH NC _ (List.length os) o _ _) K); [|rewrite nth_error_app2 by lia; rewrite Nat.sub_diag; reflexivity|].
    + intros _. unfold ReactorSpec.assemblies in Z. apply app_eq_nil in Z as [Z _]. exact Z.
    + replace (t0 + Z.of_nat (List.length os)) with (t - 1) by lia. exact R.
Qed.
Lemma nothing_goes w t id a c s b : world_ok w -> reached w t id (a ++ Reac c s :: b) -> 1 <= ReactorModel.n_core c -> ReactorModel.retired c (t - 1) = false -> ReactorModel.check_decom s = true ->
  reached w t id (a ++ b) /\ stock (a ++ b) = stock (a ++ Reac c s :: b).
Proof.
  intros W H NC R K. split; [exact (retiring _ _ _ _ _ _ H)|]. unfold stock. rewrite !flat_map_app. cbn [flat_map inside].
  assert (N : nth_error (a ++ Reac c s :: b) (List.length a) = Some (Reac c s)) by (rewrite nth_error_app2 by lia; rewrite Nat.sub_diag; reflexivity).
  rewrite (reactor_inside _ _ _ _ _ _ _ W H N NC R K). reflexivity.
Qed.
Lemma own_departure w t0 t id a f b c s0 ps os o : world_ok w -> diary w t0 t id (a ++ f :: b) (List.length a) (Reac c s0) ps ->
  ReactorModel.rx_run (w_eps w) (w_recipe w) c t0 s0 (map reac_day ps) = Ok (os ++ [o]) -> 1 <= ReactorModel.n_spent c -> ReactorModel.retired c (t - 1) = true -> ReactorSpec.has ReactorModel.EvSchedDecom o ->
  stock (a ++ b) = stock (a ++ f :: b).
Proof.
  intros W D RU NS R V. destruct (reac_life _ _ _ _ _ _ _ _ _ W D) as (os' & HH & E & F2 & T & Z). assert (os' = os ++ [o]) by (destruct HH; congruence). subst os'.
  rewrite nth_error_app2 in E by lia. rewrite Nat.sub_diag in E. injection E as ->. pose proof (last_of _ _ _ F2) as L. rewrite app_length in L. cbn [List.length] in L.
  assert (E : ReactorSpec.end_state s0 (os ++ [o]) = ReactorModel.o_state o) by (unfold ReactorSpec.end_state; rewrite map_app; cbn [map]; apply last_last). rewrite E.
  unfold stock. rewrite !flat_map_app. cbn [flat_map inside].
  assert (N : nth_error (os ++ [o]) (List.length os) = Some o) by (rewrite nth_error_app2 by lia; rewrite Nat.sub_diag; reflexivity).
  destruct (scheduled_empty _ _ _ _ _ _ _ HH NS _ _ N) as [_ ->]; [replace (t0 + Z.of_nat (List.length os)) with (t - 1) by lia; exact R|exact V|reflexivity].
Qed.
