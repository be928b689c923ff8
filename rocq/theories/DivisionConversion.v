(** A conversion facility fed with the same material divided differently (C125). *)
From Coq Require Import Lia Lqa.
From Verif Require Import Outcome KernelMaterial KernelResBuf KernelBuf KernelFacts KernelMass KernelBufFacts ConversionModel
  DivisionSpec DivisionProofs DivisionComp DivisionSeparations.
Local Open Scope Q_scope.

(** Blending gives the content. *)
Lemma bulk_push_solid l m : solid l -> solid [m] -> solid (bulk_push l m).
Proof.
  intros S M. destruct S as [|x l [A B] S]; [exact M|]. inversion M as [|? ? [C D] _]; subst. constructor; [|exact S]. split; [apply absorb_ok; auto|]. rewrite qty_absorb. lra.
Qed.
Lemma bulk_alike l l' m m' : Forall2 alike l l' -> alike m m' -> Forall2 alike (bulk_push l m) (bulk_push l' m').
Proof. intros F A. destruct F as [|x y l l' H F]; constructor; auto using alike_absorb. Qed.
(** Several parcels pushed into a bulk store. *)
Definition bulk_all (l ms : list mat) : list mat := fold_left bulk_push ms l.
Lemma bulk_cons x l ms : bulk_all (x :: l) ms = fold_left absorb ms x :: l.
Proof. unfold bulk_all. revert x. induction ms as [|m ms IH]; intro x; [reflexivity|]. cbn [fold_left bulk_push]. apply IH. Qed.
Lemma bulk_nil m ms : bulk_all [] (m :: ms) = [fold_left absorb ms m].
Proof. unfold bulk_all. cbn [fold_left bulk_push]. apply bulk_cons. Qed.
Lemma fold_content x y ms ms' : mat_ok x -> mat_ok y -> alike x y -> mats_ok ms -> mats_ok ms' -> same_content ms ms' -> alike (fold_left absorb ms x) (fold_left absorb ms' y).
Proof. intros X Y [Q A] M M' [Qm Am]. split; [rewrite !fold_absorb_qty; lra|]. intro n. rewrite !fold_absorb_mass by auto. rewrite (A n), (Am n). reflexivity. Qed.
Lemma bulk_content l l' ms ms' : solid l -> solid l' -> Forall2 alike l l' -> solid ms -> solid ms' -> same_content ms ms' -> Forall2 alike (bulk_all l ms) (bulk_all l' ms').
Proof.
  intros S S' F M M' C. destruct F as [|x y l l' A F].
  - destruct ms as [|m ms], ms' as [|m' ms'].
    + constructor.
    + exfalso. pose proof (solid_nil _ M') as N. rewrite N in M' by (rewrite <- (proj1 C); reflexivity). pose proof (N ltac:(rewrite <- (proj1 C); reflexivity)). discriminate.
    + exfalso. pose proof (solid_nil _ M ltac:(rewrite (proj1 C); reflexivity)). discriminate.
    + rewrite !bulk_nil. constructor; [|constructor]. inversion M as [|? ? [O P] T]; subst. inversion M' as [|? ? [O' P'] T']; subst. destruct C as [Q C]. rewrite !qty_of_cons in Q.
      split; [rewrite !fold_absorb_qty; lra|]. intro n. rewrite !fold_absorb_mass by (auto using solid_ok). specialize (C n). rewrite !mass_in_cons in C. exact C.
  - rewrite !bulk_cons. inversion S as [|? ? [O P] T]; subst. inversion S' as [|? ? [O' P'] T']; subst. constructor; [|exact F]. apply fold_content; auto using solid_ok.
Qed.
Lemma bulk_solid ms : forall l, solid l -> solid ms -> solid (bulk_all l ms).
Proof. induction ms as [|m ms IH]; intros l L M; [exact L|]. inversion M as [|? ? X Y]; subst. apply IH; [|exact Y]. apply bulk_push_solid; [exact L|constructor; [exact X|constructor]]. Qed.
Lemma bulk_qty l m : qty_of (bulk_push l m) == qty_of l + m_qty m.
Proof. destruct l as [|x l]; cbn [bulk_push]; rewrite ?qty_of_cons, ?qty_of_nil; [lra|]. rewrite qty_absorb. lra. Qed.

Lemma cv_accept_is eps cfg : forall ms l l', cv_accept eps cfg ms l = Ok l' -> l' = bulk_all l ms.
Proof. induction ms as [|m ms IH]; intros l l' H; cbn [cv_accept] in H; [injection H as <-; reflexivity|]. destruct (Qltb _ _); [discriminate|]. apply IH in H. exact H. Qed.
Lemma cv_accept_ok eps cfg : 0 <= eps -> forall ms l, mats_ok ms -> ms = [] \/ qty_of l + qty_of ms <= vc_capacity cfg -> cv_accept eps cfg ms l = Ok (bulk_all l ms).
Proof.
  intros He. induction ms as [|m ms IH]; intros l M L; [reflexivity|]. inversion M as [|? ? X Y]; subst. destruct L as [L|L]; [discriminate|]. rewrite qty_of_cons in L. pose proof (mats_qty_nonneg ms Y) as N.
  cbn [cv_accept]. assert (T : Qltb eps (m_qty m - Qmax 0 (vc_capacity cfg - qty_of l)) = false).
  { apply Qltb_false. pose proof (Q.le_max_r 0 (vc_capacity cfg - qty_of l)). lra. }
  rewrite T. apply IH; [exact Y|]. right. rewrite bulk_qty. lra.
Qed.
Lemma pop_solid l q m r : solid l -> items_pop_qty l q = Ok (m, r) -> solid r.
Proof. intros S H. destruct (layers_pop l l q q m r S S (layers_refl l) (Qeq_refl _) H) as (m' & r' & E & _ & _ & _ & _ & _ & R & _). exact R. Qed.
Lemma cv_sales_same : forall amts l l' sh sh' r, Forall2 alike l l' -> Forall2 alike sh sh' -> cv_trades amts l sh = Ok r ->
  exists r', cv_trades amts l' sh' = Ok r' /\ Forall2 alike (fst r) (fst r') /\ Forall2 alike (snd r) (snd r').
Proof.
  induction amts as [|q amts IH]; intros l l' sh sh' r F G H; cbn [cv_trades] in *; [injection H as <-; eexists; split; [reflexivity|auto]|].
  apply bind_ok in H as ([m o] & P & H). destruct (alike_pop_qty _ _ _ _ _ _ F (Qeq_refl q) P) as (m' & o' & -> & A & B). cbn [bind]. eapply IH; [exact B| |exact H]. apply Forall2_app; auto.
Qed.
Lemma cv_bids_same s s' reqs b : solid (vs_output s) -> Forall2 alike (vs_output s) (vs_output s') -> cv_bids s reqs = Ok b -> exists b', cv_bids s' reqs = Ok b' /\ both same_bidding b b'.
Proof.
  intros So F H. unfold cv_bids in *. pose proof (alike_qty _ _ F) as Qe. cbv zeta in *. rewrite <- (qleb_eq (qty_of (vs_output s)) (qty_of (vs_output s')) 0 0) by (auto; reflexivity).
  destruct (Qle_bool (qty_of (vs_output s)) 0) eqn:Z; [injection H as <-; eexists; split; [reflexivity|exact I]|]. apply Qle_bool_false in Z. apply bind_ok in H as (bs & L & H). injection H as <-.
  assert (X : forall js acc acc' bs0, Forall2 (fun a b => fst a = fst b /\ alike (snd a) (snd b)) acc acc' ->
    loop (fun (acc : list (nat * mat)) (jq : nat * Q) => if Qltb 0 (Qmin (qty_of (vs_output s)) (snd jq)) then match vs_output s with [] => Throw ValueError | m :: _ => Ok (acc ++ [(fst jq, {| m_id := 0; m_qty := Qmin (qty_of (vs_output s)) (snd jq); m_comp := m_comp m |})]) end else Ok acc) js acc = Ok bs0 ->
    exists bs1, loop (fun (acc : list (nat * mat)) (jq : nat * Q) => if Qltb 0 (Qmin (qty_of (vs_output s')) (snd jq)) then match vs_output s' with [] => Throw ValueError | m :: _ => Ok (acc ++ [(fst jq, {| m_id := 0; m_qty := Qmin (qty_of (vs_output s')) (snd jq); m_comp := m_comp m |})]) end else Ok acc) js acc' = Ok bs1 /\
      Forall2 (fun a b => fst a = fst b /\ alike (snd a) (snd b)) bs0 bs1).
  { clear bs L. induction js as [|[j q] js IH]; intros acc acc' bs0 A H; cbn [loop] in *; [injection H as <-; eauto|]. cbn [fst snd] in *. apply bind_ok in H as (acc1 & H1 & H).
    assert (E : Qmin (qty_of (vs_output s)) q == Qmin (qty_of (vs_output s')) q) by (apply qmin_eq; [exact Qe|reflexivity]).
    rewrite <- (qltb_eq 0 0 _ _ (Qeq_refl _) E). destruct (Qltb 0 (Qmin (qty_of (vs_output s)) q)) eqn:P.
    - destruct (vs_output s) as [|m l] eqn:Es; [discriminate|]. destruct (vs_output s') as [|m' l'] eqn:Es'; [inversion F|]. injection H1 as <-. cbn [bind]. eapply IH; [|exact H]. apply Forall2_app; [exact A|]. constructor; [|constructor]. split; [reflexivity|].
      cbn [snd]. inversion F as [|? ? ? ? Am Fl]; subst.
      inversion So as [|? ? [_ Pm] _]; subst. apply alike_cut; auto. lra.
    - injection H1 as <-. cbn [bind]. eapply IH; [exact A|exact H]. }
  destruct (X _ [] [] bs (Forall2_nil _) L) as (bs' & -> & B). cbn [bind]. eexists. split; [reflexivity|]. split; [exact B|exact Qe].
Qed.

Lemma cv_tick_same cfg s s' s1 : same_converter s s' -> cv_tick cfg s = Ok s1 -> exists s1', cv_tick cfg s' = Ok s1' /\ same_converter s1 s1'.
Proof.
  intros (Fi & Fo & S & S') H. apply Forall_app in S as [Si So]. apply Forall_app in S' as [Si' So']. unfold cv_tick in *. pose proof (alike_qty _ _ Fi) as Q.
  rewrite <- (qltb_eq 0 0 (qty_of (vs_input s)) (qty_of (vs_input s'))) by (auto; reflexivity). destruct (Qltb 0 (qty_of (vs_input s))) eqn:P.
  - apply bind_ok in H as ([m r] & X & H). injection H as <-.
    destruct (alike_pop_qty _ _ _ (Qmin (qty_of (vs_input s')) (vc_throughput cfg)) _ _ Fi (qmin_eq _ _ _ _ Q (Qeq_refl _)) X) as (m' & r' & X' & A & B). rewrite X'. cbn [bind].
    destruct (layers_pop _ _ _ _ _ _ Si Si (layers_refl _) (Qeq_refl _) X) as (? & ? & _ & _ & O & _ & Pm & _ & R & _).
    destruct (layers_pop _ _ _ _ _ _ Si' Si' (layers_refl _) (Qeq_refl _) X') as (? & ? & _ & _ & O' & _ & Pm' & _ & R' & _).
    eexists. split; [reflexivity|]. split; [exact B|]. split; [apply bulk_alike; auto|]. cbn [vs_input vs_output].
    split; apply solid_app; auto; apply bulk_push_solid; auto; (constructor; [split; assumption|constructor]).
  - injection H as <-. exists s'. split; [reflexivity|]. split; [exact Fi|]. split; [exact Fo|]. split; apply solid_app; assumption.
Qed.
Lemma trades_solid : forall amts l sh r, solid l -> cv_trades amts l sh = Ok r -> solid (fst r).
Proof.
  induction amts as [|q amts IH]; intros l sh r S H; cbn [cv_trades] in H; [injection H as <-; exact S|]. apply bind_ok in H as ([m o] & P & H). eapply IH; [|exact H]. eapply pop_solid; eauto.
Qed.
Lemma cv_requests_same cfg s s' : Forall2 alike (vs_input s) (vs_input s') -> both same_asking (cv_requests cfg s) (cv_requests cfg s').
Proof.
  intro F. pose proof (alike_qty _ _ F) as Q. unfold cv_requests. cbv zeta. assert (E : cv_available cfg s == cv_available cfg s') by (unfold cv_available; lra). rewrite <- (qleb_eq _ _ 0 0 E) by reflexivity.
  destruct (Qle_bool (cv_available cfg s) 0); [exact I|]. split; [|exact E]. cbn [fst]. induction (vc_incommods cfg) as [|c l IH]; cbn [map]; constructor; [split; [reflexivity|exact E]|exact IH].
Qed.
Lemma cv_step_same eps cfg s s' e e' s2 o : 0 <= eps -> same_converter s s' -> same_supply e e' -> cv_step eps cfg s e = Ok (s2, o) -> qty_of (ve_receipts e) <= wanted o ->
  exists s2' o', cv_step eps cfg s' e' = Ok (s2', o') /\ same_converter s2 s2' /\ same_conversion o o'.
Proof.
  intros He P (Er & Es & C & S & S') H W. unfold cv_step in *. apply bind_ok in H as (s1 & T & H). apply bind_ok in H as (b & B & H). apply bind_ok in H as ([out sh] & Tr & H). apply bind_ok in H as (inp & A & H). injection H as <- <-.
  destruct (cv_tick_same _ _ _ _ P T) as (s1' & -> & (Fi & Fo & S1 & S1')). cbn [bind]. apply Forall_app in S1 as [Si So]. apply Forall_app in S1' as [Si' So']. rewrite <- Er, <- Es.
  destruct (cv_bids_same s1 s1' _ _ So Fo B) as (b' & -> & Bb). cbn [bind]. pose proof (trades_solid _ _ _ _ So Tr) as T1.
  destruct (cv_sales_same _ _ (vs_output s1') _ [] _ Fo (Forall2_nil _) Tr) as ([out' sh'] & Tr' & Ro & Rs). pose proof (trades_solid _ _ _ _ So' Tr') as T2. rewrite Tr'. cbn [fst snd bind] in *.
  pose proof (cv_requests_same cfg s1 s1' Fi) as Rq. pose proof (alike_qty _ _ Fi) as Qi. pose proof (proj1 C) as Qc.
  rewrite (cv_accept_ok eps cfg He (ve_receipts e') (vs_input s1')).
  - cbn [bind]. apply cv_accept_is in A. subst inp. eexists. eexists. split; [reflexivity|]. split; [|split; [exact Rq|split; [exact Bb|exact Rs]]].
    split; [apply bulk_content; auto|]. split; [exact Ro|]. cbn [vs_input vs_output]. split; apply solid_app; auto; apply bulk_solid; auto.
  - apply solid_ok, S'.
  - unfold wanted in W. cbn [vo_requests] in W. unfold cv_requests in W. cbv zeta in W. destruct (Qle_bool (cv_available cfg s1) 0) eqn:Z.
    + left. apply (solid_nil _ S'). pose proof (mats_qty_nonneg _ (solid_ok _ S)). lra.
    + right. cbn [snd] in W. unfold cv_available in W. lra.
Qed.
Lemma cv_run_same eps cfg : 0 <= eps -> forall es es', Forall2 same_supply es es' -> forall s s' s2 os, same_converter s s' -> cv_run eps cfg s es = Ok (s2, os) ->
  Forall2 (fun e o => qty_of (ve_receipts e) <= wanted o) es os ->
  exists s2' os', cv_run eps cfg s' es' = Ok (s2', os') /\ same_converter s2 s2' /\ Forall2 same_conversion os os'.
Proof.
  intros He es es' F. induction F as [|e e' es es' D F IH]; intros s s' s2 os P H As; cbn [cv_run] in *; [injection H as <- <-; eauto|].
  apply bind_ok in H as ([s1 o] & H1 & H). apply bind_ok in H as ([s3 os1] & H2 & H). injection H as <- <-. inversion As; subst.
  destruct (cv_step_same _ _ _ _ _ _ _ _ He P D H1) as (s1' & o' & -> & P1 & So); auto. cbn [bind].
  destruct (IH s1 s1' s3 os1 P1 H2) as (s3' & os' & -> & P3 & Sos); auto. cbn [bind]. eexists. eexists. split; [reflexivity|]. auto.
Qed.
