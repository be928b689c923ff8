(** C106: the Mixer in double precision.  The axioms below are those of the standard library's real
    numbers, which Flocq's proofs use. *)
From Coq Require Import ZArith Reals List Lia Lra.
From Flocq Require Import Core.Core IEEE754.BinarySingleNaN.
From Verif Require Import Outcome DoubleModel DoubleFacts DoubleSpec MixerDoubleModel MixerDoubleSpec MixerDoubleProofs.
Import ListNotations.
Local Open Scope R_scope.

(** ** C106.  The ratios used are numbers from 0 to 2 that add up to one, up to 4 n + 4 units of 2 ^ -53 for n streams,
    and each is the share entered for its stream. *)
Theorem C106_ratios : forall entered, mixer_input entered ->
  List.length (ratios_d entered) = List.length entered /\ Forall share_ok (ratios_d entered) /\
  Rabs (sum_of (ratios_d entered) - 1) <= (4 * INR (List.length entered) + 4) * bpow radix2 (-53) /\
  Forall2 (fair_share entered) entered (ratios_d entered).
Proof. exact ratios_full. Qed.
Print Assumptions C106_ratios.
(** What is mixed is the largest quantity possible; from no stream more is taken than its stock; the parts have
    the ratios asked for, and the mixture is their sum, all up to rounding. *)
Theorem C106_mixture : forall entered eps space throughput stocks parts mixture,
  mixer_input entered -> mixer_state eps space throughput stocks -> List.length stocks = List.length entered ->
  mix_d eps space throughput stocks (ratios_d entered) = Ok (Some (parts, mixture)) ->
  exists t, mix_target space throughput stocks (ratios_d entered) t /\ Forall2 taken stocks parts /\ Forall2 (part t) (ratios_d entered) parts /\
    is_finite mixture = true /\
    Rabs (B2R mixture - t) <= (8 * INR (List.length entered) + 8) * bpow radix2 (-53) * t + bpow radix2 (-1000).
Proof. exact mix_full. Qed.
Print Assumptions C106_mixture.
(** Nothing is mixed only if there is no space, no throughput, or a stream that takes part has (as good as) no stock. *)
Theorem C106_idle : forall entered eps space throughput stocks,
  mixer_input entered -> mixer_state eps space throughput stocks -> List.length stocks = List.length entered ->
  mix_d eps space throughput stocks (ratios_d entered) = Ok None ->
  B2R space = 0 \/ B2R throughput <= 0 \/
  Exists (fun x => 0 < B2R (snd x) /\ B2R (fst x) / B2R (snd x) <= bpow radix2 (-1073)) (combine stocks (ratios_d entered)).
Proof. exact idle_full. Qed.
Print Assumptions C106_idle.
(** No tick fails because of rounding, with a tolerance of about a milligram, stocks below 2 ^ 34 kg, and a throughput or
    free space of at most 2 ^ 33 / (8 n + 8) kg, or a free space of at least 2 ^ 35 n kg. *)
Theorem C106_no_failure_partial : forall entered eps space throughput stocks,
  mixer_input entered -> mixer_state eps space throughput stocks -> List.length stocks = List.length entered ->
  96 / 100000000 <= B2R eps -> Forall (fun q => B2R q < bpow radix2 34) stocks ->
  (8 * INR (List.length entered) + 8) * B2R throughput <= bpow radix2 33 \/
  (8 * INR (List.length entered) + 8) * B2R space <= bpow radix2 33 \/ INR (List.length entered) * bpow radix2 35 <= B2R space ->
  exists r, mix_d eps space throughput stocks (ratios_d entered) = Ok r.
Proof. exact mix_ok_full. Qed.
Print Assumptions C106_no_failure_partial.

(** A worked case: ratios 0.3 and 0.7, stocks of 5000 and 8000 kg, space of 100000 kg, throughput of 10000 kg. *)
Definition md_dec (n d : Z) : double := ddiv (of_int n) (of_int d).
Definition md_eps : double := md_dec 1 1000000.
Definition md_in : list double := [md_dec 3 10; md_dec 7 10].
Definition md_qs : list double := [of_int 5000; of_int 8000].
Lemma in_range (x : double) (a b : Z) : (Z.abs a < 2 ^ 53)%Z -> (Z.abs b < 2 ^ 53)%Z -> is_finite x = true ->
  Bleb (of_int a) x = true -> Bleb x (of_int b) = true -> IZR a <= B2R x <= IZR b.
Proof.
  intros A B F P Q. destruct (f_int a A) as [A1 A2]. destruct (f_int b B) as [B1 B2]. rewrite Bleb_correct, A2 in P by assumption. rewrite Bleb_correct, B2 in Q by assumption.
  destruct (Rle_bool_spec (IZR a) (B2R x)) as [P'|]; [|discriminate]. destruct (Rle_bool_spec (B2R x) (IZR b)) as [Q'|]; [|discriminate]. split; assumption.
Qed.
Lemma above (x y : double) : is_finite x = true -> is_finite y = true -> Bleb x y = true -> B2R x <= B2R y.
Proof. intros X Y H. rewrite Bleb_correct in H by assumption. destruct (Rle_bool_spec (B2R x) (B2R y)) as [P|]; [exact P|discriminate]. Qed.
Ltac dec_range a b := apply (in_range _ a b); [reflexivity|reflexivity|vm_compute; reflexivity|vm_compute; reflexivity|vm_compute; reflexivity].
Lemma pw_ge_1 e : (0 <= e)%Z -> 1 <= bpow radix2 e. Proof. intro H. change 1 with (bpow radix2 0). apply bpow_le, H. Qed.
Lemma md_in_ok : mixer_input md_in.
Proof.
  assert (0 <= B2R (md_dec 3 10) <= 1) as A by dec_range 0%Z 1%Z. assert (0 <= B2R (md_dec 7 10) <= 1) as B by dec_range 0%Z 1%Z.
  assert (B2R (md_dec 1 4) <= B2R (md_dec 3 10)) as C by (apply above; vm_compute; reflexivity).
  assert (bpow radix2 (-500) <= B2R (md_dec 1 4)) as D.
  { apply Rle_trans with (bpow radix2 (-2)); [apply bpow_le; lia|]. destruct (f_int 1 ltac:(reflexivity)) as [O1 O2]. destruct (f_int 4 ltac:(reflexivity)) as [F1 F2].
    destruct (f_div (of_int 1) (of_int 4) O1) as [_ V].
    - rewrite F2. lra.
    - rewrite O2, F2. apply Rle_trans with 1; [rewrite Rabs_pos_eq; lra|apply pw_ge_1; lia].
    - unfold md_dec. rewrite V, O2, F2. apply rnd_ge_fmt; [apply fmt_pw; lia|]. change (bpow radix2 (-2)) with (/ 4). lra. }
  split; [|split; [cbn; lia|split]].
  - repeat constructor; vm_compute; reflexivity.
  - constructor; [|constructor; [|constructor]]; apply Rle_trans with 1; try apply pw_ge_1; lra || lia.
  - right. unfold md_in, sum_of, fold_right. lra.
Qed.
Lemma md_state : mixer_state md_eps (of_int 100000) (of_int 10000) md_qs.
Proof.
  assert (100000 <= bpow radix2 1000) as P by (apply Rle_trans with (bpow radix2 17); [change (bpow radix2 17) with 131072; lra|apply bpow_le; lia]).
  destruct (f_int 5000 ltac:(reflexivity)) as [A1 A2]. destruct (f_int 8000 ltac:(reflexivity)) as [B1 B2]. destruct (f_int 100000 ltac:(reflexivity)) as [C1 C2].
  split; [vm_compute; reflexivity|]. split; [dec_range 0%Z 1%Z|]. split; [exact C1|]. split; [rewrite C2; lra|]. split; [vm_compute; reflexivity|]. split.
  - repeat constructor; vm_compute; reflexivity.
  - constructor; [rewrite A2; lra|constructor; [rewrite B2; lra|constructor]].
Qed.
Definition md_mass (r : outcome (option (list double * double))) (lo hi : Z) : bool :=
  match r with Ok (Some (_, m)) => Bltb (of_int lo) m && Bltb m (of_int hi) | _ => false end.
Example C106_case : mixer_input md_in /\ mixer_state md_eps (of_int 100000) (of_int 10000) md_qs /\ List.length md_qs = List.length md_in /\
  96 / 100000000 <= B2R md_eps /\ Forall (fun q => B2R q < bpow radix2 34) md_qs /\
  (8 * INR (List.length md_in) + 8) * B2R (of_int 10000) <= bpow radix2 33 /\
  md_mass (mix_d md_eps (of_int 100000) (of_int 10000) md_qs (ratios_d md_in)) 9999 10001 = true.
Proof.
  split; [exact md_in_ok|]. split; [exact md_state|]. split; [reflexivity|].
  destruct (f_int 5000 ltac:(reflexivity)) as [A1 A2]. destruct (f_int 8000 ltac:(reflexivity)) as [B1 B2]. destruct (f_int 10000 ltac:(reflexivity)) as [C1 C2].
  assert (bpow radix2 33 = 8589934592) as P by reflexivity. assert (bpow radix2 34 = 17179869184) as P' by reflexivity. split; [|split; [|split]].
  - apply Rle_trans with (B2R (md_dec 63 65536000)); [|apply above; vm_compute; reflexivity].
    destruct (f_int 63 ltac:(reflexivity)) as [O1 O2]. destruct (f_int 65536000 ltac:(reflexivity)) as [F1 F2]. destruct (f_div (of_int 63) (of_int 65536000) O1) as [_ V].
    + rewrite F2. lra.
    + rewrite O2, F2. apply Rle_trans with 1; [rewrite Rabs_pos_eq; lra|apply pw_ge_1; lia].
    + unfold md_dec. rewrite V, O2, F2. pose proof (rel_any (63 / 65536000)) as X. rewrite (Rabs_pos_eq (63 / 65536000)) in X by lra. apply Rabs_le_inv in X.
      assert (bpow radix2 (-1074) <= bpow radix2 (-53)) by (apply bpow_le; lia). rewrite u_val in *. lra.
  - constructor; [rewrite A2, P'; lra|constructor; [rewrite B2, P'; lra|constructor]].
  - cbn [List.length md_in]. rewrite C2, P. cbn [INR]. lra.
  - vm_compute. reflexivity.
Qed.

(** Nothing is mixed if the second stream is empty. *)
Definition md_idle : list double := [of_int 5000; of_int 0].
Example C106_idle_case : mixer_input md_in /\ mixer_state md_eps (of_int 100000) (of_int 10000) md_idle /\ List.length md_idle = List.length md_in /\
  mix_d md_eps (of_int 100000) (of_int 10000) md_idle (ratios_d md_in) = Ok None.
Proof.
  split; [exact md_in_ok|]. split; [|split; [reflexivity|vm_compute; reflexivity]].
  destruct md_state as (A & B & C & D & E & _). split; [exact A|]. split; [exact B|]. split; [exact C|]. split; [exact D|]. split; [exact E|].
  destruct (f_int 5000 ltac:(reflexivity)) as [A1 A2]. destruct (f_int 0 ltac:(reflexivity)) as [B1 B2].
  assert (100000 <= bpow radix2 1000) as P by (apply Rle_trans with (bpow radix2 17); [change (bpow radix2 17) with 131072; lra|apply bpow_le; lia]).
  split; [repeat constructor; vm_compute; reflexivity|]. constructor; [rewrite A2; lra|constructor; [rewrite B2; lra|constructor]].
Qed.

(** False without the bound on the stocks: with ratios 0.3 and 0.7, a stock of 5e10 kg in the first stream and plenty
    in the second the tick throws, because 0.3 times the quotient of 5e10 and 0.3 exceeds 5e10. *)
Definition md_big : list double := [of_int 50000000000; of_int 200000000000].
Theorem C106_no_failure_refuted : exists entered eps space throughput stocks,
  mixer_input entered /\ mixer_state eps space throughput stocks /\ List.length stocks = List.length entered /\
  96 / 100000000 <= B2R eps /\ INR (List.length entered) * bpow radix2 35 <= B2R space /\
  mix_d eps space throughput stocks (ratios_d entered) = Throw ValueError.
Proof.
  exists md_in, md_eps, (of_int 1000000000000), (of_int 1000000000000), md_big.
  split; [exact md_in_ok|]. destruct (f_int 50000000000 ltac:(reflexivity)) as [A1 A2]. destruct (f_int 200000000000 ltac:(reflexivity)) as [B1 B2]. destruct (f_int 1000000000000 ltac:(reflexivity)) as [C1 C2].
  assert (1000000000000 <= bpow radix2 1000) as P by (apply Rle_trans with (bpow radix2 40); [change (bpow radix2 40) with 1099511627776; lra|apply bpow_le; lia]).
  split; [|split; [reflexivity|split; [apply C106_case|split]]].
  - split; [vm_compute; reflexivity|]. split; [dec_range 0%Z 1%Z|]. split; [exact C1|]. split; [rewrite C2; lra|]. split; [vm_compute; reflexivity|]. split.
    + repeat constructor; vm_compute; reflexivity.
    + constructor; [rewrite A2; lra|constructor; [rewrite B2; lra|constructor]].
  - rewrite C2. change (bpow radix2 35) with 34359738368. cbn [List.length md_in INR]. lra.
  - vm_compute. reflexivity.
Qed.
Print Assumptions C106_no_failure_refuted.
