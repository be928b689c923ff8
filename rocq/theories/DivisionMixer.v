(** A mixer whose streams get the same material divided differently (C125). *)
From Coq Require Import Lia Lqa.
From Verif Require Import Outcome KernelMaterial KernelResBuf KernelBuf KernelFacts KernelMass KernelBufFacts MixerModel MixerSpec MixerRun
  DivisionSpec DivisionProofs DivisionComp DivisionSeparations.
Local Open Scope Q_scope.

Lemma target_same : forall rs bs bs' t t', Forall2 same_stock bs bs' -> t == t' -> mx_target t rs bs == mx_target t' rs bs'.
Proof.
  induction rs as [|r rs IH]; intros bs bs' t t' F E; [exact E|]. destruct F as [|b b' bs bs' S F]; [exact E|]. cbn [mx_target]. cbv zeta. apply IH; [exact F|]. destruct (Qeq_bool r 0); [exact E|].
  assert (D : b_qty b / r == b_qty b' / r) by (rewrite (stock_qty _ _ S); reflexivity). rewrite <- (qltb_eq _ _ t t' D E). destruct (Qltb (b_qty b / r) t); assumption.
Qed.
Lemma blend_mixed eps : forall rs bs bs' t t' acc acc' a r, Forall2 same_stock bs bs' -> t == t' -> both alike acc acc' -> mx_blend eps t acc rs bs = Ok (a, r) ->
  exists a' r', mx_blend eps t' acc' rs bs' = Ok (a', r') /\ both alike a a' /\ Forall2 same_stock r r'.
Proof.
  induction rs as [|q rs IH]; intros bs bs' t t' acc acc' a r F E A H; [cbn in *; injection H as <- <-; eauto|].
  destruct F as [|b b' bs bs' S F]; [cbn in *; injection H as <- <-; eauto|]. cbn [mx_blend] in *. apply bind_ok in H as ([m b1] & P & H).
  assert (Eq : q * t == q * t') by (rewrite E; reflexivity). destruct (stock_pop _ _ _ (q * t') _ _ _ S Eq P) as (m' & b1' & -> & Am & _ & _ & _ & S1). cbn [bind]. cbv zeta in *. apply bind_ok in H as ([a2 r2] & B & H). injection H as <- <-.
  assert (Ac : both alike (Some (match acc with None => m | Some a => absorb a m end)) (Some (match acc' with None => m' | Some a => absorb a m' end))) by (destruct acc, acc'; try contradiction; [apply alike_absorb; auto|exact Am]).
  destruct (IH _ bs' _ t' _ _ _ _ F E Ac B) as (a2' & r2' & -> & A2 & R2). cbn [bind].
  eexists. eexists. split; [reflexivity|]. auto.
Qed.
Lemma mx_tick_same eps cfg s s' s1 sup : same_mixer s s' -> mx_tick eps cfg s = Ok (s1, sup) -> exists s1' sup', mx_tick eps cfg s' = Ok (s1', sup') /\ same_mixer s1 s1' /\ same_named sup sup'.
Proof.
  intros (R & F & O) H. unfold mx_tick in *. apply bind_ok in H as (s2 & X & H). injection H as <- <-. pose proof (store_qty _ _ O) as Q. rewrite <- (qltb_eq (b_qty (xs_output s)) (b_qty (xs_output s')) _ _ Q (Qeq_refl _)).
  match goal with |- exists a b, (let* s0 := ?X in _) = _ /\ _ => assert (Y : exists s2', X = Ok s2' /\ same_mixer s2 s2') end.
  { destruct (Qltb (b_qty (xs_output s)) (xc_out_size cfg)); [|injection X as <-; exists s'; split; [reflexivity|split; [exact R|split; assumption]]]. cbv zeta in *. rewrite <- R.
    assert (E : Qmin (mx_target (Qmax 0 (xc_out_size cfg - b_qty (xs_output s))) (xs_ratios s) (xs_bufs s)) (xc_throughput cfg) == Qmin (mx_target (Qmax 0 (xc_out_size cfg - b_qty (xs_output s'))) (xs_ratios s) (xs_bufs s')) (xc_throughput cfg)).
    { apply qmin_eq; [|reflexivity]. apply target_same; [exact F|]. apply qmax_eq. rewrite Q. reflexivity. }
    rewrite <- (qltb_eq 0 0 _ _ (Qeq_refl _) E). destruct (Qltb 0 _); [|injection X as <-; exists s'; split; [reflexivity|split; [exact R|split; assumption]]].
    apply bind_ok in X as ([acc bs] & B & X). destruct (blend_mixed eps _ _ _ _ _ None None _ _ F E I B) as (acc' & bs' & -> & A & Fb). cbn [bind]. destruct acc as [m|]; [|discriminate]. destruct acc' as [m'|]; [|contradiction].
    apply bind_ok in X as (o & P & X). injection X as <-. destruct (store_push _ _ _ _ _ _ O A P) as (o' & -> & So). cbn [bind]. eexists. split; [reflexivity|]. split; [reflexivity|]. split; assumption. }
  destruct Y as (s2' & -> & S2). cbn [bind]. eexists. eexists. split; [reflexivity|]. split; [exact S2|]. split; [reflexivity|]. cbn [snd]. apply store_qty, S2.
Qed.
Lemma sell_same eps sales s s' s1 ms : same_mixer s s' -> mx_sell eps sales s = Ok (s1, ms) -> exists s1' ms', mx_sell eps sales s' = Ok (s1', ms') /\ same_mixer s1 s1' /\ Forall2 alike ms ms' /\ xs_bufs s1 = xs_bufs s /\ xs_bufs s1' = xs_bufs s'.
Proof.
  intros (R & F & O) H. unfold mx_sell in *. apply bind_ok in H as ([o l] & L & H). injection H as <- <-.
  assert (X : forall qs b b' k k' r, same_store b b' -> Forall2 alike k k' -> loop (fun (st : buf * list mat) q => let* '(m, b) := b_pop_tol (fst st) q eps in Ok (b, snd st ++ [m])) qs (b, k) = Ok r ->
    exists r', loop (fun (st : buf * list mat) q => let* '(m, b) := b_pop_tol (fst st) q eps in Ok (b, snd st ++ [m])) qs (b', k') = Ok r' /\ same_store (fst r) (fst r') /\ Forall2 alike (snd r) (snd r')).
  { clear. induction qs as [|q qs IH]; intros b b' k k' r S K H; cbn [loop] in *; [injection H as <-; eauto|]. apply bind_ok in H as ([b1 k1] & H1 & H). cbn [fst snd] in *. apply bind_ok in H1 as ([m b2] & P & H1). injection H1 as <- <-.
    destruct (store_pop _ _ _ q _ _ _ S (Qeq_refl _) P) as (m' & b2' & -> & A & S2). cbn [bind]. eapply IH; [exact S2| |exact H]. apply Forall2_app; auto. }
  destruct (X _ _ (xs_output s') _ [] _ O (Forall2_nil _) L) as ([o' l'] & -> & So & Sl). cbn [bind fst snd] in *. eexists. eexists. split; [reflexivity|]. split; [split; [exact R|split; assumption]|]. auto.
Qed.
Lemma reqs_same eps : forall strs bs bs' i, Forall2 same_stock bs bs' -> Forall2 same_portfolio (mx_reqs eps i strs bs) (mx_reqs eps i strs bs').
Proof.
  induction strs as [|st strs IH]; intros bs bs' i F; [constructor|]. destruct F as [|b b' bs bs' S F]; [constructor|]. cbn [mx_reqs]. cbv zeta. unfold b_space. rewrite <- (proj1 S). destruct (b_cap b) as [c|].
  - assert (E : Qmax 0 (c - b_qty b) == Qmax 0 (c - b_qty b')) by (apply qmax_eq; rewrite (stock_qty _ _ S); reflexivity). rewrite <- (qltb_eq eps eps _ _ (Qeq_refl _) E). destruct (Qltb eps _); [|apply IH, F]. constructor; [|apply IH, F]. split; [reflexivity|]. split; [exact E|reflexivity].
  - constructor; [|apply IH, F]. split; [reflexivity|]. split; [exact I|reflexivity].
Qed.
Lemma asked_same r r' : Forall2 same_portfolio r r' -> asked r = asked r' /\ mx_req_inventories r = mx_req_inventories r'.
Proof.
  induction 1 as [|p p' r r' (S & _ & It) F [IH1 IH2]]; [split; reflexivity|]. unfold asked, mx_req_inventories in *. cbn [flat_map]. rewrite IH1, IH2, S, It. split; reflexivity.
Qed.
Lemma deliveries_same r r' l i : asked r = asked r' -> deliveries r l i = deliveries r' l i.
Proof. intro E. unfold deliveries. rewrite E. reflexivity. Qed.
Lemma demand_same cfg s s' : Forall2 same_stock (xs_bufs s) (xs_bufs s') -> Forall2 (fun a b => fst a = fst b /\ both Qeq (snd a) (snd b)) (mx_demand cfg s) (mx_demand cfg s').
Proof.
  unfold mx_demand. generalize (xs_bufs s) (xs_bufs s'). clear s s'. intros bs bs' F. revert bs bs' F. induction (xc_streams cfg) as [|st strs IH]; intros bs bs' F; [constructor|]. destruct F as [|b b' bs bs' S F]; [constructor|].
  cbn [combine flat_map fst snd]. apply Forall2_app; [|apply IH, F]. assert (E : both Qeq (b_space b) (b_space b')).
  { unfold b_space. rewrite <- (proj1 S). destruct (b_cap b); [|exact I]. cbn [both]. apply qmax_eq. rewrite (stock_qty _ _ S). reflexivity. }
  induction (xs_commods st) as [|c l IHl]; cbn [map]; constructor; [split; [reflexivity|exact E]|exact IHl].
Qed.
Lemma deliveries_solid r l i : solid (map snd l) -> solid (deliveries r l i).
Proof.
  intro H. induction l as [|jm l IH]; [constructor|]. cbn [map] in H. inversion H as [|? ? A B]; subst. rewrite deliveries_cons. apply solid_app; [|apply IH, B]. destruct (nth_error _ _) as [[j c]|]; [|constructor].
  destruct (Nat.eqb j i); [constructor; [exact A|constructor]|constructor].
Qed.
Lemma mx_accept_same eps cfg s s' invs o e e' s1 : 0 <= eps -> same_mixer s s' -> xo_requests o = mx_requests eps cfg s -> invs = mx_req_inventories (xo_requests o) -> same_streams_fed o e e' -> mx_accept eps invs (xe_receipts e) s = Ok s1 ->
  exists s1', mx_accept eps invs (xe_receipts e') s' = Ok s1' /\ same_mixer s1 s1'.
Proof.
  intros He (R & F & O) Er -> (_ & Rg & Sd & Sd' & Ly & Lim) H. unfold mx_accept in *. apply bind_ok in H as (bs & L & H). injection H as <-. destruct (accept_loop_facts _ _ _ _ _ L) as (Rg0 & Len & Nth).
  assert (Len2 : List.length (xs_bufs s) = List.length (xs_bufs s')) by (clear - F; induction F as [|? ? ? ? ? ? IH]; [reflexivity|cbn; rewrite IH; reflexivity]).
  assert (FN : forall k b b', nth_error (xs_bufs s) k = Some b -> nth_error (xs_bufs s') k = Some b' -> same_stock b b').
  { clear - F. induction F as [|b b' l l' S F IH]; intros [|k] x y X Y; cbn in X, Y; try discriminate; [injection X as <-; injection Y as <-; exact S|eauto]. }
  destruct (accept_loop_ok eps (xo_requests o) (xe_receipts e') He (xs_bufs s')) as (bs' & L').
  - exact Rg.
  - apply Forall_map. apply solid_ok in Sd'. exact Sd'.
  - intros p Ip. rewrite Er in Ip. destruct (asked_stream _ _ _ _ Ip) as (st & b & [A1 A2] & _). rewrite <- Len2. apply nth_error_Some. congruence.
  - intros k b' sp B' SP NE. destruct (nth_error (xs_bufs s) k) as [b|] eqn:B; [|apply nth_error_None in B; assert (nth_error (xs_bufs s') k <> None) by congruence; rewrite nth_error_Some in *; lia].
    specialize (FN k b b' B B'). rewrite <- (proj1 (Ly k)).
    assert (EX : exists p, In p (xo_requests o) /\ xr_stream p = k).
    { clear - NE. induction (xe_receipts e') as [|[j m] l IH]; [exfalso; apply NE; auto|]. rewrite deliveries_cons in NE. cbn [fst snd] in NE. destruct (nth_error (asked (xo_requests o)) j) as [[i c]|] eqn:E; [|auto].
      destruct (Nat.eqb_spec i k) as [->|]; [|auto]. eapply asked_in; eauto. }
    destruct EX as (p & P1 & P2). rewrite <- P2. rewrite Er in P1. destruct (asked_stream _ _ _ _ P1) as (st & b0 & [A1 A2] & C & _). rewrite P2 in A2. assert (b0 = b) by congruence. subst b0.
    unfold b_space in SP, C. rewrite <- (proj1 FN) in SP. destruct (b_cap b) as [c|]; [|discriminate]. injection SP as <-. rewrite <- (qmax_eq 0 (c - b_qty b) (c - b_qty b')) by (rewrite (stock_qty _ _ FN); reflexivity).
    apply Lim; [rewrite Er; exact P1|exact C].
  - rewrite L'. cbn [bind]. eexists. split; [reflexivity|]. split; [exact R|]. split; [|exact O]. cbn [xs_bufs]. destruct (accept_loop_facts _ _ _ _ _ L') as (_ & Len' & Nth').
    assert (K : forall l l' : list buf, List.length l = List.length l' -> (forall k x y, nth_error l k = Some x -> nth_error l' k = Some y -> same_stock x y) -> Forall2 same_stock l l').
    { clear. induction l as [|x l IH]; intros [|y l'] E H; cbn in E; try discriminate; [constructor|]. constructor; [apply (H 0%nat); reflexivity|]. apply IH; [lia|]. intros k. apply (H (Datatypes.S k)). }
    apply K; [congruence|]. intros k x y X Y.
    destruct (nth_error (xs_bufs s) k) as [b|] eqn:B; [|apply nth_error_None in B; assert (nth_error bs k <> None) by congruence; rewrite nth_error_Some in *; lia].
    destruct (nth_error (xs_bufs s') k) as [b'|] eqn:B'; [|apply nth_error_None in B'; assert (nth_error bs' k <> None) by congruence; rewrite nth_error_Some in *; lia].
    rewrite (Nth k b B) in X. injection X as <-. rewrite (Nth' k b' B') in Y. injection Y as <-. destruct (FN k b b' B B') as (C & Sl & T & T'). split; [exact C|]. cbn [b_items].
    split; [apply layers_app; auto using solid_ok|]. split; apply solid_app; auto; apply deliveries_solid; assumption.
Qed.
Lemma mx_step_same eps cfg s s' e e' s2 o : 0 <= eps -> same_mixer s s' -> mx_step eps cfg s e = Ok (s2, o) -> same_streams_fed o e e' ->
  exists s2' o', mx_step eps cfg s' e' = Ok (s2', o') /\ same_mixer s2 s2' /\ same_mixing o o'.
Proof.
  intros He S H D. unfold mx_step in *. cbv zeta in *. apply bind_ok in H as ([s1 sup] & T & H). apply bind_ok in H as ([s3 sh] & Se & H). apply bind_ok in H as (s4 & A & H). injection H as <- <-.
  destruct (mx_tick_same _ _ _ _ _ _ S T) as (s1' & sup' & -> & S1 & Sup). cbn [bind]. rewrite <- (proj1 D). destruct (sell_same _ _ _ _ _ _ S1 Se) as (s3' & sh' & -> & S3 & Sh & B3 & B3'). cbn [bind].
  pose proof (reqs_same eps (xc_streams cfg) _ _ 0%nat (proj1 (proj2 S1))) as Rq. destruct (asked_same _ _ Rq) as [Ea Ei]. unfold mx_requests in *. rewrite <- Ei.
  match type of D with same_streams_fed ?x _ _ => destruct (mx_accept_same eps cfg s3 s3' _ x e e' s4 He S3 (f_equal (mx_reqs eps 0 (xc_streams cfg)) (eq_sym B3)) eq_refl D A) as (s4' & A' & S4) end.
  cbn [xo_requests] in A'. rewrite A'. cbn [bind].
  eexists. eexists. split; [reflexivity|]. split; [exact S4|]. split; [exact Sup|]. split; [apply demand_same, (proj2 S1)|]. split; [exact Rq|exact Sh].
Qed.
Lemma mx_run_same eps cfg : 0 <= eps -> forall es es' s s' s2 os, same_mixer s s' -> mx_run eps cfg s es = Ok (s2, os) -> streams_fed os es es' ->
  exists s2' os', mx_run eps cfg s' es' = Ok (s2', os') /\ same_mixer s2 s2' /\ Forall2 same_mixing os os'.
Proof.
  intro He. induction es as [|e es IH]; intros es' s s' s2 os S H D; cbn [mx_run] in *.
  - injection H as <- <-. destruct es' as [|e' es']; [|contradiction]. cbn [mx_run]. eauto.
  - apply bind_ok in H as ([s1 o] & H1 & H). apply bind_ok in H as ([s3 os1] & H2 & H). injection H as <- <-. destruct es' as [|e' es']; [contradiction|]. destruct D as [D1 D2]. cbn [mx_run].
    destruct (mx_step_same _ _ _ _ _ _ _ _ He S H1 D1) as (s1' & o' & -> & S1 & O1). cbn [bind]. destruct (IH _ _ _ _ _ S1 H2 D2) as (s3' & os' & -> & S3 & O3). cbn [bind]. eexists. eexists. split; [reflexivity|]. auto.
Qed.
