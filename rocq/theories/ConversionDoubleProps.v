(** C120: the balance of Conversion in double precision.  The axioms below are those of the standard library's real numbers,
    which Flocq's proofs use. *)
From Coq Require Import ZArith Reals QArith Qreals List Lia Lra.
From Flocq Require Import Core.Core IEEE754.BinarySingleNaN.
From Verif Require Import Outcome DoubleModel DoubleProofs DoubleFacts DoubleSpec MixerDoubleModel MixerDoubleSpec SeparationsDoubleProofs StorageDoubleSpec
  StorageDoubleProofs SourceDoubleModel SourceDoubleSpec SourceDoubleProps SinkDoubleModel SinkDoubleProps ConversionDoubleModel ConversionDoubleSpec ConversionDoubleProofs.
Import ListNotations.
Local Open Scope R_scope.

(** ** C120.  Through any history a conversion facility holds what it received less what it converted, and what it converted
    less what it sold, up to two units of 2 ^ -53 of everything received for each step, delivery and sale; never a negative
    or an infinite quantity. *)
Theorem C120_balance : forall eps throughput capacity es s os,
  amount_d throughput -> ordinary es -> conv_life_d eps throughput capacity conv_empty_d es = Ok (s, os) ->
  is_finite (cd_in s) = true /\ 0 <= B2R (cd_in s) /\ is_finite (cd_out s) = true /\ 0 <= B2R (cd_out s) /\
  Rabs (B2R (cd_in s) - (sum_of (all_receipts es) - sum_of (all_moved os))) <= INR (operations es) * (2 * bpow radix2 (-53) * sum_of (all_receipts es)) /\
  Rabs (B2R (cd_out s) - (sum_of (all_moved os) - sum_of (all_sales es))) <= INR (operations es) * (2 * bpow radix2 (-53) * sum_of (all_receipts es)).
Proof. exact balance_final. Qed.
Print Assumptions C120_balance.

(** Each step converts exactly the input it finds or its throughput, whichever is less; nothing only if there is no input. *)
Theorem C120_throughput : forall eps throughput capacity es s os,
  amount_d throughput -> ordinary es -> conv_life_d eps throughput capacity conv_empty_d es = Ok (s, os) ->
  Forall (fun o => match co_moved o with
                   | Some x => B2R x = Rmin (B2R (co_input o)) (B2R throughput)
                   | None => B2R (co_input o) = 0
                   end) os.
Proof. exact throughput_final. Qed.
Print Assumptions C120_throughput.

(** After any history, a step succeeds whose deliveries are within its request, with a tolerance that covers their rounding,
    and whose sales leave their rounding in the output.  Missing: sales up to the whole output, see C120_sales_refuted, and
    inputs that are large for the tolerance, see C115_refuted. *)
Theorem C120_never_fails_partial : forall eps throughput capacity k es e s os s1 mv,
  conv_input eps capacity k -> amount_d throughput -> ordinary es ->
  conv_life_d eps throughput capacity conv_empty_d es = Ok (s, os) ->
  convert_d throughput s = Ok (s1, mv) -> honours k (cd_out s1) (conv_request_d capacity s1) e ->
  exists s2 o, conv_step_d eps throughput capacity s e = Ok (s2, o).
Proof. exact conv_never_fails_final. Qed.
Print Assumptions C120_never_fails_partial.

(** Without rounding, when throughput, deliveries and sales are multiples of a power of two and at most 2 ^ 53 of it is
    received: any capacity and any tolerance will do, nothing fails, and every quantity is exact. *)
Theorem C120_exact : forall e eps throughput capacity es,
  is_finite eps = true -> 0 <= B2R eps -> amount_d throughput -> quantity_d capacity -> B2R capacity <= bpow radix2 1000 ->
  ordinary es -> conv_grid e throughput es -> exact_within (B2R throughput) (B2R capacity) 0 0 es ->
  exists s os, conv_life_d eps throughput capacity conv_empty_d es = Ok (s, os) /\
    (map (fun o => sum_of (moved o)) os, (B2R (cd_in s), B2R (cd_out s))) = exact_course (B2R throughput) 0 0 es.
Proof. exact grid_exact_final. Qed.
Print Assumptions C120_exact.

(** Worked case: 5 kg a step, room for 20 kg.  It gets 8 and 3 kg; sells 2 kg and gets 4 kg; sells 1 and 3 kg.  It could then
    sell 6 of 9 kg and get the 20 kg it asks for. *)
Definition cv_steps : list conv_env_d :=
  [{| ce_sales := []; ce_receipts := [of_int 8; of_int 3] |};
   {| ce_sales := [of_int 2]; ce_receipts := [of_int 4] |};
   {| ce_sales := [of_int 1; of_int 3]; ce_receipts := [] |}].
Definition cv_next : conv_env_d := {| ce_sales := [of_int 6]; ce_receipts := [of_int 20] |}.
Lemma cv_input : conv_input sk_eps (of_int 20) 2.
Proof.
  destruct sk_eps_val as [F L]. assert (P : bpow radix2 5 = 32) by reflexivity. assert (P2 : bpow radix2 5 <= bpow radix2 1000) by (apply bpow_le; lia).
  split; [exact F|]. split; [apply sk_q; [lia|vm_compute; reflexivity]|]. rewrite (sd_val 20 eq_refl). split; [lra|]. split; [lia|].
  cbn [INR]. assert (bpow radix2 (-53) * 128 <= bpow radix2 (-20)); [|pose proof (bpow_gt_0 radix2 (-53)); lra].
  change 128 with (bpow radix2 7). rewrite <- bpow_plus. apply bpow_le. lia.
Qed.
Lemma cv_amount n : (0 < n < 2 ^ 53)%Z -> (match of_int n with B754_zero s | B754_finite s _ _ _ => s | _ => true end) = false -> amount_d (of_int n).
Proof. intros H S. apply (sd_int n H S). Qed.
Lemma cv_ordinary : amount_d (of_int 5) /\ ordinary cv_steps.
Proof.
  split; [apply cv_amount; [lia|vm_compute; reflexivity]|]. unfold ordinary, operations, cv_steps, all_receipts, all_sales.
  cbn [flat_map ce_receipts ce_sales app List.length]. split; [repeat (apply Forall_cons; [apply sk_q; [lia|vm_compute; reflexivity]|]); apply Forall_nil|].
  split; [repeat (apply Forall_cons; [apply cv_amount; [lia|vm_compute; reflexivity]|]); apply Forall_nil|]. split; [|cbn; lia].
  assert (P : bpow radix2 4 = 16) by reflexivity. assert (P2 : bpow radix2 4 <= bpow radix2 1000) by (apply bpow_le; lia).
  unfold sum_of. cbn [fold_right]. rewrite (sd_val 8 eq_refl), (sd_val 3 eq_refl), (sd_val 4 eq_refl). lra.
Qed.
Lemma cv_run : match conv_life_d sk_eps (of_int 5) (of_int 20) conv_empty_d cv_steps with
  | Ok (s, [{| co_moved := None |}; {| co_moved := Some x2 |}; {| co_moved := Some x3 |}]) =>
      Beqb (cd_in s) (of_int 5) && Beqb (cd_out s) (of_int 4) && Beqb x2 (of_int 5) && Beqb x3 (of_int 5) &&
      match convert_d (of_int 5) s with
      | Ok (s1, Some x) =>
          Beqb (cd_out s1) (of_int 9) && match conv_request_d (of_int 20) s1 with Some r => Beqb r (of_int 20) | None => false end
      | _ => false
      end
  | _ => false
  end%bool = true.
Proof. vm_compute. reflexivity. Qed.
Example C120_case : conv_input sk_eps (of_int 20) 2 /\ amount_d (of_int 5) /\ ordinary cv_steps /\
  exists s os s1 mv, conv_life_d sk_eps (of_int 5) (of_int 20) conv_empty_d cv_steps = Ok (s, os) /\ B2R (cd_in s) = 5 /\ B2R (cd_out s) = 4 /\
    map (fun o => map B2R (moved o)) os = [[]; [5]; [5]] /\
    convert_d (of_int 5) s = Ok (s1, mv) /\ honours 2 (cd_out s1) (conv_request_d (of_int 20) s1) cv_next.
Proof.
  split; [exact cv_input|]. split; [apply cv_ordinary|]. split; [apply cv_ordinary|].
  pose proof cv_run as H. assert (A6 : amount_d (of_int 6)) by (apply cv_amount; [lia|vm_compute; reflexivity]). assert (Q20 : quantity_d (of_int 20)) by (apply sk_q; [lia|vm_compute; reflexivity]).
  pose proof (sd_val 6 eq_refl) as V6. pose proof (sd_val 20 eq_refl) as V20.
  assert (E5 := fun x => sk_eqb x 5 eq_refl). assert (E4 := fun x => sk_eqb x 4 eq_refl). assert (E9 := fun x => sk_eqb x 9 eq_refl). assert (E20 := fun x => sk_eqb x 20 eq_refl).
  unfold cv_next. generalize dependent (of_int 6). intros c6 A6 V6. unfold cv_steps in *. unfold conv_empty_d in *.
  revert H Q20 V20 E5 E4 E9 E20. generalize (of_int 0) (of_int 1) (of_int 2) (of_int 3) (of_int 4) (of_int 5) (of_int 8) (of_int 9) (of_int 20) sk_eps.
  intros c0 c1 c2 c3 c4 c5 c8 c9 c20 eps H Q20 V20 E5 E4 E9 E20.
  destruct (conv_life_d eps c5 c20 _ _) as [[s os]|x|x|]; [|discriminate H ..].
  destruct os as [|[i1 [x1|] f1 r1] [|[i2 [x2|] f2 r2] [|[i3 [x3|] f3 r3] [|o os]]]]; try discriminate H.
  destruct (convert_d c5 s) as [[s1 [x|]]|x|x|] eqn:Ec; try (rewrite Bool.andb_false_r in H; discriminate H).
  destruct (conv_request_d c20 s1) as [r|] eqn:Er; [|rewrite !Bool.andb_false_r in H; discriminate H].
  repeat rewrite Bool.andb_true_iff in H. destruct H as ((((H1 & H2) & H3) & H4) & H5 & H6).
  apply E5 in H1 as (_ & H1), H3 as (_ & H3), H4 as (_ & H4). apply E4 in H2 as (_ & H2). apply E9 in H5 as (_ & H5). apply E20 in H6 as (_ & H6).
  exists s, [{| co_input := i1; co_moved := None; co_offer := f1; co_request := r1 |}; {| co_input := i2; co_moved := Some x2; co_offer := f2; co_request := r2 |};
             {| co_input := i3; co_moved := Some x3; co_offer := f3; co_request := r3 |}], s1, (Some x).
  split; [reflexivity|]. split; [exact H1|]. split; [exact H2|]. split; [cbn [map moved co_moved]; rewrite H3, H4; reflexivity|]. split; [exact Ec|].
  rewrite Er. unfold honours. cbn [ce_sales ce_receipts List.length INR]. split; [apply Forall_cons; [exact A6|apply Forall_nil]|].
  assert (bpow radix2 (-53) <= bpow radix2 (-10)) by (apply bpow_le; lia). assert (bpow radix2 (-10) = / 1024) by reflexivity.
  unfold sum_of. cbn [fold_right]. rewrite H5. split; [lra|]. split; [apply Forall_cons; [exact Q20|apply Forall_nil]|]. split; [lia|lra].
Qed.
Example C120_exact_case : conv_grid 0 (of_int 5) cv_steps /\ exact_within (B2R (of_int 5)) (B2R (of_int 20)) 0 0 cv_steps /\
  exact_course (B2R (of_int 5)) 0 0 cv_steps = ([0; 5; 5], (5, 4)).
Proof.
  assert (P : bpow radix2 4 = 16) by reflexivity. assert (P2 : bpow radix2 4 <= bpow radix2 (0 + 53)) by (apply bpow_le; lia).
  split; [|split].
  - split; [lia|]. split; [apply sk_m; reflexivity|]. unfold cv_steps, all_receipts, all_sales. cbn [flat_map ce_receipts ce_sales app].
    split; [repeat (apply Forall_cons; [apply sk_m; reflexivity|]); apply Forall_nil|]. split; [repeat (apply Forall_cons; [apply sk_m; reflexivity|]); apply Forall_nil|].
    unfold sum_of. cbn [fold_right]. rewrite (sd_val 8 eq_refl), (sd_val 3 eq_refl), (sd_val 4 eq_refl). lra.
  - rewrite (sd_val 5 eq_refl), (sd_val 20 eq_refl). unfold cv_steps. cbn [exact_within ce_receipts ce_sales]. unfold sum_of. cbn [fold_right].
    rewrite (sd_val 1 eq_refl), (sd_val 2 eq_refl), (sd_val 3 eq_refl), (sd_val 4 eq_refl), (sd_val 8 eq_refl).
    unfold Rmin. repeat (destruct (Rle_dec _ _); try lra).
  - rewrite (sd_val 5 eq_refl). unfold cv_steps. cbn [exact_course ce_receipts ce_sales fst snd]. unfold sum_of. cbn [fold_right].
    rewrite (sd_val 1 eq_refl), (sd_val 2 eq_refl), (sd_val 3 eq_refl), (sd_val 4 eq_refl), (sd_val 8 eq_refl).
    unfold Rmin. repeat (destruct (Rle_dec _ _); try lra). repeat f_equal; lra.
Qed.

(** ** Sales within the output can fail.  A facility got and converted 1 kg; it sells 0.03, 0.87 and 0.1 kg, as numbers in an
    input file are read, which together are at most the 1 kg: the last sale raises an exception. *)
Theorem C120_sales_refuted : exists eps throughput capacity one a b c,
  nearest eps (Q2R (1 # 1000000)) /\ nearest one (Q2R (1 # 1)) /\ nearest a (Q2R (3 # 100)) /\ nearest b (Q2R (87 # 100)) /\ nearest c (Q2R (1 # 10)) /\
  orderly one [a; b; c] /\ sum_of [a; b; c] <= B2R one /\ amount_d throughput /\ quantity_d capacity /\ B2R one <= B2R throughput /\ B2R one <= B2R capacity /\
  conv_life_d eps throughput capacity conv_empty_d [{| ce_sales := []; ce_receipts := [one] |}; {| ce_sales := [a; b; c]; ce_receipts := [] |}] = Throw ValueError.
Proof.
  exists (ddiv (of_int 1) (of_int 1000000)), (of_int 5), (of_int 20), (ddiv (of_int 1) (of_int 1)), (ddiv (of_int 3) (of_int 100)), (ddiv (of_int 87) (of_int 100)), (ddiv (of_int 1) (of_int 10)).
  split; [apply (read_decimal 1 1000000); reflexivity|]. split; [apply (read_decimal 1 1); reflexivity|]. split; [apply (read_decimal 3 100); reflexivity|]. split; [apply (read_decimal 87 100); reflexivity|]. split; [apply (read_decimal 1 10); reflexivity|].
  match goal with |- orderly ?s [?x; ?y; ?z] /\ _ => pose proof (sd_scaled s ltac:(vm_compute; reflexivity)) as VS; pose proof (sd_scaled x ltac:(vm_compute; reflexivity)) as VA;
    pose proof (sd_scaled y ltac:(vm_compute; reflexivity)) as VB; pose proof (sd_scaled z ltac:(vm_compute; reflexivity)) as VC;
    assert (sd_scale x + (sd_scale y + sd_scale z) <= sd_scale s /\ 0 < sd_scale x /\ 0 < sd_scale y /\ 0 < sd_scale z /\ sd_scale s = 2 ^ 60)%Z as (L & LA & LB & LC & LS) by (repeat split; vm_compute; congruence);
    assert (quantity_d s /\ quantity_d x /\ quantity_d y /\ quantity_d z) as (QS & QA & QB & QC) by (repeat split; vm_compute; reflexivity);
    assert (conv_life_d (ddiv (of_int 1) (of_int 1000000)) (of_int 5) (of_int 20) conv_empty_d
      [{| ce_sales := []; ce_receipts := [s] |}; {| ce_sales := [x; y; z]; ce_receipts := [] |}] = Throw ValueError) as E by (vm_compute; reflexivity) end.
  assert (A5 : amount_d (of_int 5)) by (apply cv_amount; [lia|vm_compute; reflexivity]). assert (Q20 : quantity_d (of_int 20)) by (apply sk_q; [lia|vm_compute; reflexivity]).
  pose proof (sd_val 5 eq_refl) as V5. pose proof (sd_val 20 eq_refl) as V20.
  revert VS VA VB VC L LA LB LC LS QS QA QB QC E A5 Q20 V5 V20.
  generalize (ddiv (of_int 1) (of_int 1000000)) (ddiv (of_int 1) (of_int 1)) (ddiv (of_int 3) (of_int 100)) (ddiv (of_int 87) (of_int 100)) (ddiv (of_int 1) (of_int 10)) (of_int 5) (of_int 20).
  intros t s x y z c5 c20 VS VA VB VC L LA LB LC LS QS QA QB QC E A5 Q20 V5 V20. pose proof (bpow_gt_0 radix2 (-60)) as P.
  apply IZR_le in L. rewrite !plus_IZR in L. apply IZR_lt in LA, LB, LC.
  assert (S1 : B2R s = 1). { rewrite VS, LS. change (2 ^ 60)%Z with (radix_val radix2 ^ 60)%Z. rewrite IZR_Zpower by lia. rewrite <- bpow_plus. reflexivity. }
  assert (AX : 0 < B2R x) by (rewrite VA; apply Rmult_lt_0_compat; assumption). assert (AY : 0 < B2R y) by (rewrite VB; apply Rmult_lt_0_compat; assumption). assert (AZ : 0 < B2R z) by (rewrite VC; apply Rmult_lt_0_compat; assumption).
  assert (SM : sum_of [x; y; z] <= B2R s).
  { unfold sum_of. cbn [fold_right]. rewrite VS, VA, VB, VC. apply Rmult_le_compat_r with (r := bpow radix2 (-60)) in L; lra. }
  split; [|split; [exact SM|]; split; [exact A5|]; split; [exact Q20|]; split; [lra|]; split; [lra|exact E]].
  split; [exact QS|]. split; [assert (bpow radix2 0 = 1) by reflexivity; assert (bpow radix2 0 <= bpow radix2 1022) by (apply bpow_le; lia); lra|].
  repeat (apply Forall_cons; [split; assumption|]). apply Forall_nil.
Qed.
Print Assumptions C120_sales_refuted.

(** ** Mass can come from nothing.  A facility with a throughput of 1 kg gets 2 ^ 55 kg.  After n further steps it holds all of
    it and n kg of converted material. *)
Definition cv_big : double := dmult (of_int 1125899906842624) (of_int 32).
Definition cv_quiet : conv_env_d := {| ce_sales := []; ce_receipts := [] |}.
Lemma cv_big_val : is_finite cv_big = true /\ B2R cv_big = bpow radix2 55.
Proof.
  split; [vm_compute; reflexivity|]. pose proof (sd_scaled cv_big ltac:(vm_compute; reflexivity)) as V. assert (L : (sd_scale cv_big = 2 ^ 115)%Z) by (vm_compute; reflexivity).
  rewrite V, L. change (2 ^ 115)%Z with (radix_val radix2 ^ 115)%Z. rewrite IZR_Zpower by lia. rewrite <- bpow_plus. reflexivity.
Qed.
Lemma cv_absorbs : rnd (bpow radix2 55 - 1) = bpow radix2 55.
Proof.
  destruct cv_big_val as [F V]. destruct (f_int 1 ltac:(lia)) as [F1 V1].
  assert (P : bpow radix2 55 <= pw 1023) by (apply bpow_le; lia). assert (P1 : bpow radix2 0 <= bpow radix2 55) by (apply bpow_le; lia). change (bpow radix2 0) with 1 in P1.
  destruct (f_minus cv_big (of_int 1) F F1) as [F2 V2]; [rewrite V, V1; apply Rabs_le; lra|].
  assert (E : Beqb (dminus cv_big (of_int 1)) cv_big = true) by (vm_compute; reflexivity).
  rewrite Beqb_correct in E by assumption. destruct (Req_bool_spec (B2R (dminus cv_big (of_int 1))) (B2R cv_big)) as [W|]; [|discriminate].
  rewrite V2, V, V1 in W. exact W.
Qed.
Lemma cv_idle eps capacity n : forall s k, is_finite (cd_in s) = true -> B2R (cd_in s) = bpow radix2 55 -> is_finite (cd_out s) = true -> B2R (cd_out s) = IZR k -> (0 <= k)%Z -> (k + Z.of_nat n <= 2 ^ 53)%Z ->
  exists s' os, conv_life_d eps (of_int 1) capacity s (repeat cv_quiet n) = Ok (s', os) /\ B2R (cd_in s') = bpow radix2 55 /\ B2R (cd_out s') = IZR (k + Z.of_nat n).
Proof.
  induction n as [|n IH]; intros s k F V Fo Vo K L.
  - exists s, []. split; [reflexivity|]. split; [exact V|]. rewrite Z.add_0_r. exact Vo.
  - assert (A1 : amount_d (of_int 1)) by (apply cv_amount; [lia|vm_compute; reflexivity]). destruct (f_int 1 ltac:(lia)) as [F1 V1].
    assert (P1 : bpow radix2 0 <= bpow radix2 55) by (apply bpow_le; lia). change (bpow radix2 0) with 1 in P1. assert (P2 : bpow radix2 55 <= pw 1022) by (apply bpow_le; lia). assert (P3 : bpow radix2 55 <= pw 1023) by (apply bpow_le; lia).
    destruct (convert_exactly (of_int 1) s A1 F) as (s1 & mv & C & W & D); [lra|lra|]. rewrite V, V1 in W. rewrite Rmin_right in W by lra.
    destruct mv as [x|]; cbn [amt] in W; [|lra]. destruct D as (_ & X & Lx & _ & D1 & D2). pose proof (proj1 (proj1 X)) as Fx.
    destruct (f_minus (cd_in s) x F Fx) as [G1 W1]; [rewrite V, W; apply Rabs_le; lra|]. rewrite V, W, cv_absorbs in W1.
    assert (Lk : (k + 1 <= 2 ^ 53)%Z) by lia. assert (Lk' : IZR (k + 1) <= bpow radix2 53) by (apply IZR_le in Lk; exact Lk). assert (Lp : bpow radix2 53 <= pw 1023) by (apply bpow_le; lia).
    assert (K0 : 0 <= IZR k) by (apply IZR_le in K; exact K). rewrite plus_IZR in Lk'.
    destruct (f_plus (cd_out s) x Fo Fx) as [G2 W2]; [rewrite Vo, W; apply Rabs_le; lra|]. rewrite Vo, W in W2. change 1 with (IZR 1) in W2. rewrite <- plus_IZR in W2.
    rewrite rnd_id in W2 by (replace (IZR (k + 1)) with (IZR (k + 1) * bpow radix2 0) by (cbn; ring); apply multiple_fmt; lia).
    destruct (IH s1 (k + 1)%Z) as (s' & os & R1 & R2 & R3); try assumption; try lia; [rewrite D1; exact G1|rewrite D1; exact W1|rewrite D2; exact G2|rewrite D2; exact W2|].
    cbn [repeat conv_life_d]. unfold conv_step_d at 1, cv_quiet at 1 2. cbn [ce_sales ce_receipts]. rewrite C. cbn [bind]. unfold trades_d, sink_accept_d. cbn [loop bind].
    replace {| cd_in := cd_in s1; cd_out := cd_out s1 |} with s1 by (destruct s1; reflexivity). rewrite R1. cbn [bind]. do 2 eexists. split; [reflexivity|]. split; [exact R2|].
    rewrite R3. f_equal. lia.
Qed.
Lemma cv_first : match conv_life_d sk_eps (of_int 1) cv_big conv_empty_d [{| ce_sales := []; ce_receipts := [cv_big] |}] with
  | Ok (s, _) => Beqb (cd_in s) cv_big && Beqb (cd_out s) (of_int 0) | _ => false end%bool = true.
Proof. vm_compute. reflexivity. Qed.
Theorem C120_mass_refuted : exists throughput big, amount_d throughput /\ B2R throughput = 1 /\ quantity_d big /\ B2R big = bpow radix2 55 /\
  forall n, (Z.of_nat n <= 2 ^ 53)%Z -> exists s os,
    conv_life_d sk_eps throughput big conv_empty_d ({| ce_sales := []; ce_receipts := [big] |} :: repeat cv_quiet n) = Ok (s, os) /\
    B2R (cd_in s) = B2R big /\ B2R (cd_out s) = INR n.
Proof.
  destruct cv_big_val as [F V]. exists (of_int 1), cv_big. split; [apply cv_amount; [lia|vm_compute; reflexivity]|]. split; [apply sd_val; reflexivity|].
  split; [split; vm_compute; reflexivity|]. split; [exact V|]. intros n L. pose proof cv_first as H. cbn [conv_life_d] in *.
  assert (E0 := fun x => sk_eqb x 0 eq_refl). revert H. set (z := of_int 0) in *.
  destruct (conv_step_d sk_eps (of_int 1) cv_big conv_empty_d _) as [[s o]|x|x|]; cbn [bind]; intro H; try discriminate H.
  apply Bool.andb_true_iff in H as [H1 H2]. apply E0 in H2 as [G2 W2].
  assert (G1 : is_finite (cd_in s) = true) by (revert H1 F; generalize cv_big; intros b H1 F; destruct (cd_in s) as [x|x| |x m e B], b as [x'|x'| |x' m' e' B']; try reflexivity; try discriminate; destruct x; discriminate).
  rewrite Beqb_correct in H1 by assumption. destruct (Req_bool_spec (B2R (cd_in s)) (B2R cv_big)) as [W1|]; [|discriminate]. rewrite V in W1.
  destruct (cv_idle sk_eps cv_big n s 0%Z G1 W1 G2 W2 ltac:(lia) ltac:(lia)) as (s' & os & R1 & R2 & R3). rewrite R1. cbn [bind].
  do 2 eexists. split; [reflexivity|]. split; [rewrite V; exact R2|]. rewrite R3, INR_IZR_INZ. reflexivity.
Qed.
Print Assumptions C120_mass_refuted.
