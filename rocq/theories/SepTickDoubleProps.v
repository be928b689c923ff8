(** C108: the Tick of Separations in double precision.  The axioms below are those of the standard library's real
    numbers, which Flocq's proofs use. *)
From Coq Require Import ZArith Reals List Lia Lra.
From Flocq Require Import Core.Core IEEE754.BinarySingleNaN.
From Verif Require Import Outcome DoubleModel DoubleProofs DoubleFacts MixerDoubleSpec SepTickDoubleModel SepTickDoubleSpec SepTickDoubleProofs.
Import ListNotations.
Local Open Scope R_scope.

(** ** C108.  A tick separates the largest part f of the feed, at most all, for which every stream fits.  Each stream gets
    at most its part, what is staged for it and its space; 1 - f of the feed goes back, the rest to the leftover; the
    quantities add up to the feed; all up to a few units of 2 ^ -53 per stream.  Missing: the tick can fail, but
    only if there is not enough space for all the products and (almost) nothing for the leftover. *)
Theorem C108_tick_partial : forall eps feed_space leftover_space orig xs,
  sep_state (bpow radix2 33) eps feed_space leftover_space orig xs ->
  let f := B2R (sep_frac_d xs) in let n := INR (List.length xs) in let q := B2R orig in let u := bpow radix2 (-53) in
  0 <= f <= 1 /\ Forall (fits f) xs /\ (f = 1 \/ Exists (attains f) xs) /\
  ((exists ps back left, sep_tick_d eps feed_space leftover_space orig xs = Ok (ps, back, left) /\ Forall2 (pushed f) xs ps /\
      is_finite back = true /\ 0 <= B2R back <= q /\ Rabs (B2R back - (1 - f) * q) <= 3 * u * q /\
      is_finite left = true /\ 0 <= B2R left <= q /\ Rabs (sum_of ps + B2R back + B2R left - q) <= (n + 2) * u * q /\
      (forall k, 0 <= k -> sum_of (map snd xs) <= q * (1 + k * u) ->
         Forall2 (fun x p => Rabs (B2R p - f * B2R (snd x)) <= (n + k + 2) * u * q) xs ps)) \/
   (sep_tick_d eps feed_space leftover_space orig xs = Throw ValueError /\
    0 < f < 1 /\ f * (q - sum_of (map snd xs)) < (n + 8) * u * q)).
Proof. exact tick_spec. Qed.
Print Assumptions C108_tick_partial.

(** A worked case: of 10 kg feed, 5 kg and 4 kg are staged for streams with 3 kg and 100 kg of space: 3 kg and 2.4 kg are
    pushed, 4 kg go back and 0.6 kg are left over. *)
Definition td_eps : double := ddiv (of_int 1) (of_int 1000000).
Definition td_xs : list (double * double) := [(of_int 3, of_int 5); (of_int 100, of_int 4)].
Definition td_near (x : double) (a d : Z) : bool :=
  Bltb (ddiv (of_int (1000 * a - 1)) (of_int (1000 * d))) x && Bltb x (ddiv (of_int (1000 * a + 1)) (of_int (1000 * d))).
Lemma td_eps_ok : is_finite td_eps = true /\ bpow radix2 (-20) <= B2R td_eps <= 1.
Proof.
  split; [vm_compute; reflexivity|]. destruct (f_int 1 ltac:(reflexivity)) as [A1 A2]. destruct (f_int 1000000 ltac:(reflexivity)) as [B1 B2].
  destruct (f_div (of_int 1) (of_int 1000000) A1) as [_ V].
  - rewrite B2. lra.
  - rewrite A2, B2. apply Rle_trans with 1; [rewrite Rabs_pos_eq; lra|apply (bpow_le radix2 0); lia].
  - unfold td_eps. rewrite V, A2, B2. split; [apply rnd_ge_fmt; [apply fmt_pw; lia|change (bpow radix2 (-20)) with (/ 1048576); lra]|apply rnd_le_fmt; [apply fmt_1|lra]].
Qed.
Lemma td_quantity n : (0 <= n < 2 ^ 53)%Z -> quantity_d (of_int n) /\ B2R (of_int n) = IZR n.
Proof.
  intro H. destruct (f_int n) as [A1 A2]; [lia|]. split; [|exact A2]. split; [exact A1|].
  unfold of_int. destruct (Z.eq_dec n 0) as [->|N]; [reflexivity|]. pose proof (binary_normalize_correct 53 1024 double_prec double_emax mode_NE n 0 false) as C.
  unfold of_int in A1, A2. cbv zeta in C. destruct (Rlt_bool _ _).
  - destruct C as (_ & _ & C). rewrite C. replace (F2R {| Fnum := n; Fexp := 0 |}) with (IZR n) by (unfold F2R; cbn; ring). rewrite Rcompare_Gt; [reflexivity|apply IZR_lt; lia].
  - exfalso. rewrite <- is_finite_SF_B2SF, C in A1. discriminate.
Qed.
Lemma td_state cap a b (xs : list (Z * Z)) : (1 <= a <= b)%Z -> (b < 2 ^ 53)%Z -> (Z.of_nat (List.length xs) <= 2 ^ 20)%Z ->
  Forall (fun x => 0 <= fst x < 2 ^ 53 /\ 0 <= snd x < 2 ^ 53)%Z xs -> Forall (fun x => IZR (fst x) < cap) xs ->
  sep_state cap td_eps (of_int b) (of_int b) (of_int a) (map (fun x => (of_int (fst x), of_int (snd x))) xs).
Proof.
  intros A B L X C. destruct (td_quantity a) as [[A1 _] A2]; [lia|]. destruct (td_quantity b) as [[B1 _] B2]; [lia|].
  assert (1 <= IZR a <= IZR b) as AB by (split; apply IZR_le; lia).
  assert (IZR b <= bpow radix2 100) as BB by (apply Rle_trans with (IZR (2 ^ 53)); [apply IZR_le; lia|apply (bpow_le radix2 53 100); lia]).
  assert (bpow radix2 100 <= bpow radix2 1000) as C1 by (apply bpow_le; lia). assert (bpow radix2 (-900) <= 1) as C2 by (apply (bpow_le radix2 (-900) 0); lia).
  split; [exact td_eps_ok|]. rewrite A2, B2. split; [split; [exact A1|lra]|]. split; [split; [exact B1|lra]|]. split; [split; [exact B1|lra]|]. rewrite map_length. split; [exact L|].
  apply Forall_map. rewrite Forall_forall in *. intros x I. cbn [fst snd]. destruct (X x I) as [X1 X2]. destruct (td_quantity _ X1) as [Q1 V1]. destruct (td_quantity _ X2) as [Q2 V2].
  rewrite V1, V2. split; [exact Q1|]. split; [exact Q2|]. split; [exact (C x I)|]. apply Rle_trans with (IZR (2 ^ 53)); [apply IZR_le; lia|apply (bpow_le radix2 53 100); lia].
Qed.
Example C108_case : sep_state (bpow radix2 33) td_eps (of_int 1000) (of_int 1000) (of_int 10) td_xs /\
  match sep_tick_d td_eps (of_int 1000) (of_int 1000) (of_int 10) td_xs with
  | Ok ([p1; p2], b, l) => td_near p1 3 1 && td_near p2 24 10 && td_near b 4 1 && td_near l 6 10
  | _ => false
  end = true.
Proof.
  split; [|vm_compute; reflexivity]. apply (td_state _ 10 1000 [(3, 5); (100, 4)]%Z); [lia|lia|cbn; lia| |].
  - repeat constructor; cbn; lia.
  - change (bpow radix2 33) with 8589934592. repeat constructor; cbn; lra.
Qed.

(** The claim that no tick fails is false: all of 10 kg feed goes to one stream, which has 7 kg of space.  7 kg are pushed, and
    then slightly more than the remaining 3 kg are to be put back. *)
Theorem C108_never_fails_refuted : exists eps feed_space leftover_space orig xs,
  sep_state (bpow radix2 33) eps feed_space leftover_space orig xs /\ sum_of (map snd xs) = B2R orig /\
  sep_tick_d eps feed_space leftover_space orig xs = Throw ValueError.
Proof.
  exists td_eps, (of_int 1000), (of_int 1000), (of_int 10), [(of_int 7, of_int 10)].
  split; [|split; [cbn; lra|vm_compute; reflexivity]]. apply (td_state _ 10 1000 [(7, 10)]%Z); [lia|lia|cbn; lia| |].
  - repeat constructor; cbn; lia.
  - change (bpow radix2 33) with 8589934592. repeat constructor; cbn; lra.
Qed.
Print Assumptions C108_never_fails_refuted.

(** Nor can the bound on the free space be dropped: half of 5.8e10 kg feed goes to a stream with 1.5e10 kg of space. *)
Theorem C108_large_space_refuted : exists eps feed_space leftover_space orig xs,
  sep_state (bpow radix2 34) eps feed_space leftover_space orig xs /\ 2 * sum_of (map snd xs) = B2R orig /\
  sep_tick_d eps feed_space leftover_space orig xs = Throw ValueError.
Proof.
  exists td_eps, (of_int 100000000000), (of_int 100000000000), (of_int 58000000000), [(of_int 15000000000, of_int 29000000000)].
  split; [|split; [|vm_compute; reflexivity]]. 
  - apply (td_state _ 58000000000 100000000000 [(15000000000, 29000000000)]%Z); [lia|lia|cbn; lia| |].
    + repeat constructor; cbn; lia.
    + change (bpow radix2 34) with 17179869184. repeat constructor; cbn; lra.
  - cbn [map snd sum_of fold_right]. destruct (td_quantity 58000000000 ltac:(lia)) as [_ ->]. destruct (td_quantity 29000000000 ltac:(lia)) as [_ ->]. lra.
Qed.
Print Assumptions C108_large_space_refuted.
