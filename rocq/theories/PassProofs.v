(** Proofs for C147. *)
From Coq Require Import Lia Lqa List.
From Verif Require Import Outcome KernelMaterial KernelResBuf KernelBuf KernelFacts KernelMass NetworkSpec SimulationSpec SimulationProofs SimulationNetwork LedgerSpec LedgerProofs CareerSpec CareerProofs.
From Verif Require ReactorModel ReactorSpec SourceModel SourceProofs.
Import ListNotations.
Local Open Scope Q_scope.

Lemma all_nonneg ms : Forall (fun m => 0 <= m_qty m) ms -> 0 <= qty_of ms.
Proof. induction 1 as [|m ms H _ IH]; [rewrite qty_of_nil; lra|]. rewrite qty_of_cons. lra. Qed.
Lemma inside_nonneg w t id f : good w t id f -> 0 <= qty_of (inside f).
Proof.
  intro G. destruct f as [c s|c s|c s|c s|c s|c s]; try (apply mats_qty_nonneg; exact (good_sound _ _ _ _ G I)).
  - destruct G as ((O & _) & _). apply all_nonneg. exact O.
  - destruct G as (CC & _ & RO & _). apply all_nonneg. eapply Forall_impl; [|exact (ReactorSpec.ok_sizes _ _ _ RO)]. cbn beta. intros m ->. pose proof (ReactorSpec.cc_assem _ CC). lra.
Qed.
Lemma held_before w t id gs fs ds i f : world_ok w -> reached w t id fs -> (forall j, signal_ok (gs j)) -> orderly w t gs fs ds -> nth_error fs i = Some f ->
  total (sold_by i ds) <= qty_of (inside f).
Proof.
  intros W H G (_ & OR) N. destruct (reached_good w W _ _ _ H) as [T A]. unfold all_good in A. rewrite Forall_forall in A. pose proof (A f (nth_error_In _ _ N)) as GD.
  destruct (good_works w t id id (gs i) f W T (Z.le_refl _) (G i) GD) as (n & P & K). destruct (OR i f n N P) as [S _].
  destruct (K (sold_by i ds) [] S (buys_nothing n)) as (f1 & ms & _ & AS & G1 & (_ & BL & _)); [constructor|constructor|].
  pose proof (inside_nonneg _ _ _ _ G1) as NN. rewrite (sold_qty _ _ AS) in BL. cbn [map] in BL. rewrite qty_of_nil in BL. lra.
Qed.
Lemma total_parts N : forall ds, Forall (fun d => (t_from d < N)%nat) ds -> total ds == over 0 N (fun i => total (sold_by i ds)).
Proof.
  induction ds as [|d ds IH]; intro F.
  - clear F. change (total []) with 0. generalize 0%nat. induction N as [|N IH]; intro k; [reflexivity|]. rewrite over_S, <- IH. reflexivity.
  - inversion F as [|? ? F1 F2]; subst. rewrite (over_ext 0 N _ (fun i => (if Nat.eqb (t_from d) i then t_amt d else 0) + total (sold_by i ds))).
    + rewrite over_one by lia. rewrite <- (IH F2). unfold total. cbn [map]. reflexivity.
    + intro i. unfold sold_by. cbn [filter]. destruct (Nat.eqb (t_from d) i); unfold total; cbn [map]; [reflexivity|]. ring.
Qed.
Lemma over_below h : forall fs k, (forall i f, nth_error fs i = Some f -> h (k + i)%nat <= qty_of (inside f)) -> over k (List.length fs) h <= qty_of (stock fs).
Proof.
  induction fs as [|f fs IH]; intros k H; [cbv; discriminate|]. cbn [List.length]. rewrite over_S, stock_cons, qty_of_app.
  pose proof (H 0%nat f eq_refl) as H0. rewrite Nat.add_0_r in H0. pose proof (IH (S k)) as X. assert (over (S k) (List.length fs) h <= qty_of (stock fs)).
  { apply X. intros i g N. specialize (H (S i) g N). rewrite Nat.add_succ_r in H. exact H. }
  lra.
Qed.
Lemma turnover w t id gs fs ds : world_ok w -> reached w t id fs -> (forall j, signal_ok (gs j)) -> orderly w t gs fs ds -> total ds <= qty_of (stock fs).
Proof.
  intros W H G O. rewrite (total_parts (List.length fs)) by (eapply Forall_impl; [|exact (proj1 O)]; cbn; tauto). apply over_below. intros i f N. cbn [Nat.add]. exact (held_before w t id gs fs ds i f W H G O N).
Qed.
Lemma shipped_same w t id gs fs ds fs' sent ds2 fs2 sent2 i : nstep w t id gs fs ds fs' sent -> nstep w t id gs fs ds2 fs2 sent2 -> (i < List.length fs)%nat -> sold_by i ds = sold_by i ds2 ->
  map snd (filter (fun x => Nat.eqb (t_from (fst x)) i) (combine ds sent)) = map snd (filter (fun x => Nat.eqb (t_from (fst x)) i) (combine ds2 sent2)).
Proof.
  intros (_ & L1 & S1) (_ & L2 & S2) I E. destruct (nth_error fs i) as [f|] eqn:N; [|apply nth_error_None in N; lia].
  destruct (nth_error fs' i) as [f1|] eqn:N1; [|apply nth_error_None in N1; lia]. destruct (nth_error fs2 i) as [f2|] eqn:N2; [|apply nth_error_None in N2; lia].
  specialize (S1 i f f1 N N1). specialize (S2 i f f2 N N2). rewrite E in S1. exact (ships_same _ _ _ _ _ _ _ _ _ _ _ S1 S2).
Qed.
