(** C112: the trades of Source in double precision.  The axioms below are those of the standard library's real numbers, which
    Flocq's proofs use. *)
From Coq Require Import ZArith Reals QArith Qreals List Lia Lra.
From Flocq Require Import Core.Core IEEE754.BinarySingleNaN.
From Verif Require Import Outcome DoubleModel DoubleProofs DoubleFacts DoubleSpec MixerDoubleSpec SeparationsDoubleProofs StorageDoubleModel StorageDoubleSpec StorageDoubleProofs SourceDoubleModel SourceDoubleSpec SourceDoubleProofs.
Import ListNotations.
Local Open Scope R_scope.

(** ** C112.  Bids are not rounded: the quantity of a bid is the least of what is asked for, the throughput and the stock. *)
Theorem C112_bid : forall throughput stock target,
  is_finite throughput = true -> is_finite stock = true -> is_finite target = true ->
  B2R (bid_d throughput stock target) = Rmin (B2R target) (Rmin (B2R throughput) (B2R stock)).
Proof. exact bid_final. Qed.
Print Assumptions C112_bid.

(** Trades that leave the rounding of one unit of 2 ^ -53 of the stock for each of them are all filled, and what is left
    deviates by no more. *)
Theorem C112_fills_partial : forall stock amts, orderly stock amts ->
  sum_of amts + INR (List.length amts) * bpow radix2 (-53) * B2R stock <= B2R stock ->
  exists rest, trades_d amts stock = Ok rest /\ is_finite rest = true /\ 0 <= B2R rest /\
    Rabs (B2R rest - (B2R stock - sum_of amts)) <= INR (List.length amts) * bpow radix2 (-53) * B2R stock.
Proof. exact fills_final. Qed.
Print Assumptions C112_fills_partial.

(** Up to two trades within the stock are filled without such a margin. *)
Theorem C112_two : forall stock amts, orderly stock amts -> (List.length amts <= 2)%nat -> sum_of amts <= B2R stock ->
  exists rest, trades_d amts stock = Ok rest /\ is_finite rest = true /\ 0 <= B2R rest.
Proof. exact two_final. Qed.
Print Assumptions C112_two.

(** Without rounding, for a stock and trades that are multiples of a power of two, the stock at most 2 ^ 53 of it: a whole life
    whose trades stay within the throughput and what is left has no errors, and what is recorded as the supply of each step
    and what is left in the end are exact. *)
Theorem C112_exact : forall e throughput stock steps, is_finite throughput = true ->
  orderly stock (List.concat steps) -> on_grid e stock (List.concat steps) -> within_offers (B2R throughput) (B2R stock) steps ->
  exists offers rest, source_life_d throughput steps stock = Ok (offers, rest) /\ B2R rest = B2R stock - sum_of (List.concat steps) /\
    List.length offers = List.length steps /\
    forall before step after o, steps = before ++ step :: after -> nth_error offers (List.length before) = Some o ->
      B2R o = Rmin (B2R throughput) (B2R stock - sum_of (List.concat before)).
Proof. exact grid_final. Qed.
Print Assumptions C112_exact.

(** Whatever the trades of a life, what was shipped and what is left together differ from the initial stock by rounding only. *)
Theorem C112_conserved : forall throughput stock steps offers rest, orderly stock (List.concat steps) ->
  source_life_d throughput steps stock = Ok (offers, rest) ->
  is_finite rest = true /\ 0 <= B2R rest <= B2R stock /\
  Rabs (B2R rest + sum_of (List.concat steps) - B2R stock) <= INR (List.length (List.concat steps)) * bpow radix2 (-53) * B2R stock.
Proof. exact never_more_final. Qed.
Print Assumptions C112_conserved.

(** Worked case: 10 kg, at most 6 kg a step, trades of 3 and 2 kg, then of 4 kg, then of 1 kg. *)
Definition sd_steps : list (list double) := [[of_int 3; of_int 2]; [of_int 4]; [of_int 1]].
Lemma sd_int n : (0 < n < 2 ^ 53)%Z -> (match of_int n with B754_zero s | B754_finite s _ _ _ => s | _ => true end) = false -> amount_d (of_int n) /\ multiple 0 (of_int n).
Proof.
  intros H S. destruct (f_int n) as [A B]; [lia|]. split; [split; [split; [exact A|destruct (of_int n); try discriminate; exact S]|rewrite B; apply IZR_lt; lia]|].
  exists n. rewrite B. cbn. ring.
Qed.
Lemma sd_val n : (Z.abs n <? 2 ^ 53)%Z = true -> B2R (of_int n) = IZR n.
Proof. intro H. apply f_int. apply Z.ltb_lt, H. Qed.
Lemma sd_within (t s a b c d : double) : B2R t = 6 -> B2R s = 10 -> B2R a = 3 -> B2R b = 2 -> B2R c = 4 -> B2R d = 1 -> within_offers (B2R t) (B2R s) [[a; b]; [c]; [d]].
Proof.
  intros T S A B C D before step after E. rewrite T, S.
  destruct before as [|b1 [|b2 [|b3 before]]]; cbn [app] in E; [injection E as <- _|injection E as <- <- _|injection E as <- <- <- _|injection E as _ _ _ E; destruct before; discriminate];
    cbn [List.concat app]; unfold sum_of; cbn [fold_right]; apply Rmin_glb; lra.
Qed.
Example C112_case : is_finite (of_int 6) = true /\ orderly (of_int 10) (List.concat sd_steps) /\ on_grid 0 (of_int 10) (List.concat sd_steps) /\
  within_offers (B2R (of_int 6)) (B2R (of_int 10)) sd_steps /\
  sum_of [of_int 3; of_int 2] + INR 2 * bpow radix2 (-53) * B2R (of_int 10) <= B2R (of_int 10) /\
  (exists offers rest, source_life_d (of_int 6) sd_steps (of_int 10) = Ok (offers, rest)) /\
  match source_life_d (of_int 6) sd_steps (of_int 10) with
  | Ok ([o1; o2; o3], rest) => Beqb o1 (of_int 6) && Beqb o2 (of_int 5) && Beqb o3 (of_int 1) && Beqb rest (of_int 0)
  | _ => false
  end%bool = true.
Proof.
  assert (Forall (fun x => amount_d x /\ multiple 0 x) (List.concat sd_steps)) as H by (cbn [List.concat sd_steps app]; repeat (constructor; [apply sd_int; [lia|vm_compute; reflexivity]|]); constructor).
  destruct (sd_int 10 ltac:(lia) ltac:(vm_compute; reflexivity)) as [A1 A2].
  assert (P : bpow radix2 4 = 16) by reflexivity. assert (P1 : bpow radix2 4 <= bpow radix2 53) by (apply bpow_le; lia). assert (P2 : bpow radix2 4 <= bpow radix2 1022) by (apply bpow_le; lia).
  assert (P3 : bpow radix2 (-53) <= bpow radix2 (-4)) by (apply bpow_le; lia). assert (P4 : bpow radix2 (-4) = / 16) by reflexivity.
  pose proof (sd_val 10 eq_refl) as V. pose proof (sd_val 6 eq_refl) as V6.
  split; [apply f_int; lia|]. split; [split; [apply A1|split; [rewrite V; lra|eapply Forall_impl; [|exact H]; intros x X; apply X]]|].
  split; [split; [lia|split; [exact A2|split; [rewrite V; replace (0 + 53)%Z with 53%Z by lia; lra|eapply Forall_impl; [|exact H]; intros x X; apply X]]]|].
  split; [apply sd_within; [exact V6|exact V|apply (sd_val 3)|apply (sd_val 2)|apply (sd_val 4)|apply (sd_val 1)]; reflexivity|].
  split. { unfold sum_of. cbn [fold_right INR]. rewrite V, (sd_val 3 eq_refl), (sd_val 2 eq_refl). lra. }
  match goal with |- _ /\ ?G => assert G as E by (vm_compute; reflexivity) end. split; [|exact E].
  destruct (source_life_d (of_int 6) sd_steps (of_int 10)) as [[o r]|e|x|]; [|discriminate E ..]. exists o, r. reflexivity.
Qed.

(** A double in units of 2 ^ -60. *)
Definition sd_scale (x : double) : Z := match x with B754_finite b m e _ => (cond_Zopp b (Zpos m) * 2 ^ (e + 60))%Z | _ => 0%Z end.
Lemma sd_scaled x : match x with B754_finite _ _ e _ => (-60 <=? e)%Z | _ => false end = true -> B2R x = IZR (sd_scale x) * bpow radix2 (-60).
Proof.
  destruct x as [| | |b m e H]; try discriminate. intro E. apply Z.leb_le in E. cbn [sd_scale B2R]. unfold F2R. cbn [Fnum Fexp].
  rewrite mult_IZR. change 2%Z with (radix_val radix2). rewrite IZR_Zpower by lia. rewrite Rmult_assoc, <- bpow_plus. f_equal. f_equal. lia.
Qed.
(** Three trades that together do not exceed the stock can still fail: of 1 kg, after trades of 0.03 kg and 0.87 kg, what is
    left is below 0.1 kg, and the third trade raises an exception. *)
Theorem C112_fills_refuted : exists stock a b c,
  nearest stock (Q2R (1 # 1)) /\ nearest a (Q2R (3 # 100)) /\ nearest b (Q2R (87 # 100)) /\ nearest c (Q2R (1 # 10)) /\
  orderly stock [a; b; c] /\ sum_of [a; b; c] <= B2R stock /\ trades_d [a; b; c] stock = Throw ValueError.
Proof.
  exists (ddiv (of_int 1) (of_int 1)), (ddiv (of_int 3) (of_int 100)), (ddiv (of_int 87) (of_int 100)), (ddiv (of_int 1) (of_int 10)).
  split; [apply (read_decimal 1 1); reflexivity|]. split; [apply (read_decimal 3 100); reflexivity|]. split; [apply (read_decimal 87 100); reflexivity|]. split; [apply (read_decimal 1 10); reflexivity|].
  match goal with |- orderly ?s [?x; ?y; ?z] /\ _ => pose proof (sd_scaled s ltac:(vm_compute; reflexivity)) as VS; pose proof (sd_scaled x ltac:(vm_compute; reflexivity)) as VA;
    pose proof (sd_scaled y ltac:(vm_compute; reflexivity)) as VB; pose proof (sd_scaled z ltac:(vm_compute; reflexivity)) as VC;
    assert (sd_scale x + (sd_scale y + sd_scale z) <= sd_scale s /\ 0 < sd_scale x /\ 0 < sd_scale y /\ 0 < sd_scale z /\ sd_scale s = 2 ^ 60)%Z as (L & LA & LB & LC & LS) by (repeat split; vm_compute; congruence);
    assert (quantity_d s /\ quantity_d x /\ quantity_d y /\ quantity_d z) as (QS & QA & QB & QC) by (repeat split; vm_compute; reflexivity);
    assert (trades_d [x; y; z] s = Throw ValueError) as E by (vm_compute; reflexivity) end.
  revert VS VA VB VC L LA LB LC LS QS QA QB QC E.
  generalize (ddiv (of_int 1) (of_int 1)) (ddiv (of_int 3) (of_int 100)) (ddiv (of_int 87) (of_int 100)) (ddiv (of_int 1) (of_int 10)).
  intros s x y z VS VA VB VC L LA LB LC LS QS QA QB QC E. pose proof (bpow_gt_0 radix2 (-60)) as P.
  apply IZR_le in L. rewrite !plus_IZR in L. apply IZR_lt in LA, LB, LC.
  split; [split; [exact QS|split; [rewrite VS, LS; change (2 ^ 60)%Z with (radix_val radix2 ^ 60)%Z; rewrite IZR_Zpower, <- bpow_plus by lia; apply bpow_le; lia|]]|].
  { repeat constructor; try apply QA; try apply QB; try apply QC; rewrite ?VA, ?VB, ?VC; apply Rmult_lt_0_compat; assumption. }
  split; [|exact E]. unfold sum_of. cbn [fold_right]. rewrite VS, VA, VB, VC. rewrite Rplus_0_r, <- !Rmult_plus_distr_r. apply Rmult_le_compat_r; lra.
Qed.
Print Assumptions C112_fills_refuted.
