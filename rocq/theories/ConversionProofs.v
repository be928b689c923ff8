(** Proofs about the Conversion model. *)
From Coq Require Import Lia Lqa.
From Verif Require Import Outcome KernelMaterial KernelResBuf KernelFacts KernelMass ConversionModel ConversionSpec.
Local Open Scope Q_scope.

Lemma mass_in_app n a b : mass_in n (a ++ b) == mass_in n a + mass_in n b.
Proof. unfold mass_in. rewrite map_app. apply qsum_app. Qed.
Lemma mats_ok_app a b : mats_ok (a ++ b) <-> mats_ok a /\ mats_ok b.
Proof. apply Forall_app. Qed.

(** ** Bulk buffers *)
Lemma bulk_push_facts ms m : mats_ok ms -> mat_ok m ->
  mats_ok (bulk_push ms m) /\ qty_of (bulk_push ms m) == qty_of ms + m_qty m /\
  (forall n, mass_in n (bulk_push ms m) == mass_in n ms + mass_of m n) /\
  ((List.length ms <= 1)%nat -> (List.length (bulk_push ms m) <= 1)%nat).
Proof.
  intros Oms Om. destruct ms as [|x r]; simpl.
  - split; [constructor; [auto|constructor]|]. split; [unfold qty_of; simpl; lra|].
    split; [intro n; unfold mass_in; simpl; lra|auto].
  - inversion Oms; subst. split; [constructor; [apply absorb_ok; auto|auto]|].
    split; [rewrite !qty_of_cons, qty_absorb; lra|]. split; [|simpl; auto].
    intro n. rewrite !mass_in_cons, mass_absorb by auto. lra.
Qed.

Definition cv_sane (s : cv_state) : Prop :=
  mats_ok (vs_input s) /\ mats_ok (vs_output s) /\
  (List.length (vs_input s) <= 1)%nat /\ (List.length (vs_output s) <= 1)%nat.

Lemma take_qty_len ms : forall q a r, take_qty q ms = (a, r) -> (List.length r <= List.length ms)%nat.
Proof.
  induction ms as [|m ms IH]; intros q a r T; simpl in T.
  - injection T as <- <-; auto.
  - destruct (Qle_bool q 0); [injection T as <- <-; auto|].
    destruct (Qltb q (m_qty m)); [injection T as <- <-; simpl; auto|].
    destruct (take_qty (q - m_qty m) ms) as [a' r'] eqn:E. injection T as <- <-.
    apply IH in E. simpl. lia.
Qed.
Lemma pop_qty_len ms q m r : items_pop_qty ms q = Ok (m, r) -> (List.length r <= List.length ms)%nat.
Proof.
  unfold items_pop_qty. destruct (Qltb (qty_of ms) q); [discriminate|].
  destruct (take_qty q ms) as [a r0] eqn:T. intro H. apply bind_ok in H as (m' & _ & E).
  injection E as _ <-. eapply take_qty_len; eauto.
Qed.
Lemma pop_qty_pos ms q m r : items_pop_qty ms q = Ok (m, r) -> 0 < q.
Proof.
  unfold items_pop_qty. destruct (Qltb (qty_of ms) q); [discriminate|].
  destruct (Qlt_le_dec 0 q); auto. rewrite take_qty_zero by auto. discriminate.
Qed.

(** ** Tick *)
Lemma tick_facts cfg s s' : cv_sane s -> 0 <= vc_throughput cfg -> cv_tick cfg s = Ok s' ->
  cv_sane s' /\
  qty_of (vs_output s') == qty_of (vs_output s) + Qmin (vc_throughput cfg) (qty_of (vs_input s)) /\
  qty_of (vs_input s') == qty_of (vs_input s) - Qmin (vc_throughput cfg) (qty_of (vs_input s)) /\
  (forall n, mass_in n (vs_input s') + mass_in n (vs_output s') ==
             mass_in n (vs_input s) + mass_in n (vs_output s)).
Proof.
  intros (Oi & Oo & Li & Lo) Ht H. unfold cv_tick in H.
  pose proof (mats_qty_nonneg _ Oi) as Nn.
  destruct (Qltb 0 (qty_of (vs_input s))) eqn:E.
  - apply bind_ok in H as ([m r] & P & E'). injection E' as <-. simpl.
    pose proof (pop_qty_len _ _ _ _ P) as Lr. apply pop_qty_facts in P as (A1 & A2 & A3 & A4 & A5 & A6 & A7); auto.
    2:{ apply Q.min_glb; auto. }
    destruct (bulk_push_facts (vs_output s) m Oo A4) as (B1 & B2 & B3 & B4).
    split; [|split; [|split]].
    + split; [auto|split; [auto|split; [simpl; lia|auto]]].
    + rewrite B2, A1. rewrite Q.min_comm. reflexivity.
    + rewrite A2. rewrite Q.min_comm. reflexivity.
    + intro n. rewrite B3, <- A6. lra.
  - apply Qltb_false in E. injection H as <-. assert (Z : qty_of (vs_input s) == 0) by lra.
    assert (M : Qmin (vc_throughput cfg) (qty_of (vs_input s)) == 0).
    { rewrite Q.min_r; lra. }
    split; [repeat split; auto|]. rewrite M. split; [lra|]. split; [lra|]. intro; lra.
Qed.
Lemma tick_ok cfg s : cv_sane s -> 0 < vc_throughput cfg -> exists s', cv_tick cfg s = Ok s'.
Proof.
  intros (Oi & _) Ht. unfold cv_tick. destruct (Qltb 0 (qty_of (vs_input s))) eqn:E; eauto.
  apply Qltb_true in E.
  destruct (pop_qty_ok (vs_input s) (Qmin (qty_of (vs_input s)) (vc_throughput cfg))) as (m & r & P).
  - apply Q.min_glb_lt; auto.
  - apply Q.le_min_l.
  - rewrite P. simpl. eauto.
Qed.

(** ** Trades *)
Lemma cv_trades_facts amts : forall out acc out' sh, mats_ok out -> mats_ok acc ->
  cv_trades amts out acc = Ok (out', sh) ->
  mats_ok out' /\ mats_ok sh /\ (List.length out' <= List.length out)%nat /\
  qty_of sh + qty_of out' == qty_of acc + qty_of out /\
  (forall n, mass_in n sh + mass_in n out' == mass_in n acc + mass_in n out).
Proof.
  induction amts as [|q amts IH]; intros out acc out' sh Oo Oa H; simpl in H.
  - injection H as <- <-. repeat split; auto; intros; lra.
  - apply bind_ok in H as ([m r] & P & H). pose proof (pop_qty_pos _ _ _ _ P) as Pq.
    pose proof (pop_qty_len _ _ _ _ P) as L.
    apply pop_qty_facts in P as (A1 & A2 & A3 & A4 & A5 & A6 & A7); [|auto|lra].
    apply IH in H as (B1 & B2 & B3 & B4 & B5); [|auto|apply mats_ok_app; split; [auto|constructor; [auto|constructor]]].
    split; [auto|]. split; [auto|]. split; [lia|]. split.
    + rewrite B4, qty_of_app, qty_of_cons, qty_of_nil, A2, A1. lra.
    + intro n. rewrite B5, mass_in_app, mass_in_cons, mass_in_nil. rewrite <- (A6 n). lra.
Qed.
Lemma cv_trades_ok amts : forall out acc, mats_ok out -> Forall (fun q => 0 < q) amts ->
  qsum amts <= qty_of out -> exists r, cv_trades amts out acc = Ok r.
Proof.
  induction amts as [|q amts IH]; intros out acc Oo P L; simpl; [eauto|].
  inversion P as [|? ? Pq Pr]; subst. simpl in L.
  assert (0 <= qsum amts) as N. { apply qsum_nonneg. eapply Forall_impl; [|exact Pr]. intros; simpl in *; lra. }
  unfold qsum in N, L. 
  destruct (pop_qty_ok out q Pq) as (m & r & E). { fold (qsum amts) in *. lra. }
  rewrite E. simpl. apply pop_qty_facts in E as (A1 & A2 & A3 & A4 & A5 & A6 & A7); [|auto|lra].
  apply IH; auto. unfold qsum. lra.
Qed.

(** All parcels popped from a single-parcel buffer have its composition. *)
Lemma pop_single x q m r : items_pop_qty [x] q = Ok (m, r) ->
  m_comp m = m_comp x /\ (r = [] \/ exists y, r = [y] /\ m_comp y = m_comp x).
Proof.
  unfold items_pop_qty. destruct (Qltb (qty_of [x]) q); [discriminate|]. simpl.
  destruct (Qle_bool q 0); [discriminate|].
  destruct (Qltb q (m_qty x)); simpl; intro H; injection H as <- <-; simpl; split; auto.
  right. eexists; split; reflexivity.
Qed.
Lemma pop_nil q m r : items_pop_qty [] q = Ok (m, r) -> False.
Proof. unfold items_pop_qty. destruct (Qltb (qty_of []) q); discriminate. Qed.
Lemma cv_trades_comp amts : forall out acc out' sh c,
  (out = [] \/ exists y, out = [y] /\ m_comp y = c) -> Forall (fun m => m_comp m = c) acc ->
  cv_trades amts out acc = Ok (out', sh) -> Forall (fun m => m_comp m = c) sh.
Proof.
  induction amts as [|q amts IH]; intros out acc out' sh c S A H; simpl in H.
  - injection H as <- <-. auto.
  - apply bind_ok in H as ([m r] & P & H). destruct S as [->|(y & -> & Ey)].
    + exfalso; eapply pop_nil; eauto.
    + apply pop_single in P as (E1 & E2). apply (IH r (acc ++ [m]) out' sh c); auto.
      * destruct E2 as [->|(z & -> & Ez)]; [auto|right; exists z; split; congruence].
      * apply Forall_app; split; auto. constructor; [congruence|constructor].
Qed.

(** ** Deliveries *)
Lemma cv_accept_facts eps cfg ms : forall inp inp', mats_ok inp -> mats_ok ms ->
  cv_accept eps cfg ms inp = Ok inp' ->
  mats_ok inp' /\ ((List.length inp <= 1)%nat -> (List.length inp' <= 1)%nat) /\
  qty_of inp' == qty_of inp + qty_of ms /\
  (forall n, mass_in n inp' == mass_in n inp + mass_in n ms).
Proof.
  induction ms as [|m ms IH]; intros inp inp' Oi Om H; simpl in H.
  - injection H as <-. split; [auto|]. split; [auto|]. split; [rewrite qty_of_nil; lra|].
    intro; rewrite mass_in_nil; lra.
  - destruct (Qltb eps _); [discriminate|]. inversion Om; subst.
    destruct (bulk_push_facts inp m) as (B1 & B2 & B3 & B4); auto.
    apply IH in H as (A1 & A2 & A3 & A4); auto.
    split; [auto|]. split; [auto|]. split; [rewrite A3, B2, qty_of_cons; lra|].
    intro n. rewrite A4, B3, mass_in_cons. lra.
Qed.
Lemma cv_accept_ok eps cfg ms : forall inp, 0 <= eps -> mats_ok inp -> mats_ok ms ->
  (ms = [] \/ qty_of inp + qty_of ms <= vc_capacity cfg) -> exists inp', cv_accept eps cfg ms inp = Ok inp'.
Proof.
  induction ms as [|m ms IH]; intros inp He Oi Om L; simpl; [eauto|].
  destruct L as [L|L]; [discriminate|]. rewrite qty_of_cons in L.
  inversion Om as [|? ? Om1 Om2]; subst. pose proof (mats_qty_nonneg _ Om2).
  destruct (Qltb eps (m_qty m - Qmax 0 (vc_capacity cfg - qty_of inp))) eqn:E.
  - exfalso. apply Qltb_true in E. pose proof (Q.le_max_r 0 (vc_capacity cfg - qty_of inp)). lra.
  - destruct (bulk_push_facts inp m) as (B1 & B2 & _); auto. apply IH; auto. right. rewrite B2. lra.
Qed.

(** ** Steps and histories *)
Lemma cv_step_inv eps cfg s e s' o : cv_sane s -> mats_ok (ve_receipts e) -> 0 <= vc_throughput cfg ->
  cv_step eps cfg s e = Ok (s', o) ->
  cv_tick cfg s = Ok (vo_ticked o) /\ cv_sane (vo_ticked o) /\ cv_sane s' /\
  mats_ok (vo_shipped o) /\
  cv_trades (ve_sales e) (vs_output (vo_ticked o)) [] = Ok (vs_output s', vo_shipped o) /\
  cv_accept eps cfg (ve_receipts e) (vs_input (vo_ticked o)) = Ok (vs_input s') /\
  cv_bids (vo_ticked o) (ve_reqs e) = Ok (vo_bids o) /\
  vo_requests o = cv_requests cfg (vo_ticked o).
Proof.
  intros Sn Or Ht H. unfold cv_step in H.
  apply bind_ok in H as (s1 & T & H). apply bind_ok in H as (b & Bd & H).
  apply bind_ok in H as ([out sh] & Tr & H). apply bind_ok in H as (inp & Ac & H).
  injection H as <- <-. simpl.
  destruct (tick_facts _ _ _ Sn Ht T) as (S1 & _).
  destruct S1 as (Si & So & Li & Lo).
  destruct (cv_trades_facts _ _ _ _ _ So (Forall_nil _) Tr) as (A1 & A2 & A3 & _).
  destruct (cv_accept_facts _ _ _ _ _ Si Or Ac) as (B1 & B2 & _).
  split; [auto|]. split; [repeat split; auto|]. split; [repeat split; simpl; auto; lia|].
  repeat split; auto.
Qed.

Lemma cv_run_facts eps cfg es : forall s s' os, cv_sane s -> mats_ok (cv_received es) ->
  0 <= vc_throughput cfg -> cv_run eps cfg s es = Ok (s', os) ->
  cv_sane s' /\
  qty_of (vs_input s') + qty_of (vs_output s') + qty_of (cv_shipped os) ==
    qty_of (vs_input s) + qty_of (vs_output s) + qty_of (cv_received es) /\
  (forall n, mass_in n (vs_input s') + mass_in n (vs_output s') + mass_in n (cv_shipped os) ==
    mass_in n (vs_input s) + mass_in n (vs_output s) + mass_in n (cv_received es)).
Proof.
  induction es as [|e es IH]; intros s s' os Sn Or Ht H; simpl in H.
  - injection H as <- <-. split; [auto|]. unfold cv_shipped, cv_received; simpl.
    split; [rewrite !qty_of_nil; lra|]. intro; rewrite !mass_in_nil; lra.
  - apply bind_ok in H as ([s1 o] & St & H). apply bind_ok in H as ([s2 os'] & R & H).
    injection H as <- <-. unfold cv_received in Or. simpl in Or. apply mats_ok_app in Or as (Or1 & Or2).
    destruct (cv_step_inv _ _ _ _ _ _ Sn Or1 Ht St) as (T & S1 & S2 & Osh & Tr & Ac & _).
    destruct (tick_facts _ _ _ Sn Ht T) as (_ & Q1 & Q2 & Q3).
    destruct S1 as (Si & So & _).
    destruct (cv_trades_facts _ _ _ _ _ So (Forall_nil _) Tr) as (_ & _ & _ & A4 & A5).
    destruct (cv_accept_facts _ _ _ _ _ Si Or1 Ac) as (_ & _ & B3 & B4).
    destruct (IH _ _ _ S2 Or2 Ht R) as (I1 & I2 & I3).
    split; [auto|]. unfold cv_shipped, cv_received in *. simpl. split.
    + rewrite !qty_of_app. rewrite qty_of_nil in A4. lra.
    + intro n. rewrite !mass_in_app. specialize (I3 n). specialize (B4 n). specialize (A5 n).
      specialize (Q3 n). rewrite mass_in_nil in A5. lra.
Qed.
Lemma cv_empty_sane : cv_sane cv_empty.
Proof. repeat split; simpl; auto; constructor. Qed.
Lemma cv_received_app a b : cv_received (a ++ b) = cv_received a ++ cv_received b.
Proof. apply flat_map_app. Qed.

Lemma conv_conserved eps cfg es s os : 0 <= vc_throughput cfg -> mats_ok (cv_received es) ->
  cv_run eps cfg cv_empty es = Ok (s, os) ->
  qty_of (vs_input s) + qty_of (vs_output s) + qty_of (cv_shipped os) == qty_of (cv_received es) /\
  forall n, mass_in n (vs_input s) + mass_in n (vs_output s) + mass_in n (cv_shipped os) ==
            mass_in n (cv_received es).
Proof.
  intros Ht Or R. destruct (cv_run_facts _ _ _ _ _ _ cv_empty_sane Or Ht R) as (_ & A & B).
  split; [rewrite A; simpl; rewrite qty_of_nil; lra|]. intro n. rewrite B. simpl. rewrite mass_in_nil. lra.
Qed.
Lemma conv_reach eps cfg es e s os : 0 <= vc_throughput cfg -> mats_ok (cv_received (es ++ [e])) ->
  cv_run eps cfg cv_empty es = Ok (s, os) -> cv_sane s /\ mats_ok (ve_receipts e).
Proof.
  intros Ht Or R. rewrite cv_received_app in Or. apply mats_ok_app in Or as (O1 & O2).
  unfold cv_received in O2. simpl in O2. rewrite app_nil_r in O2.
  destruct (cv_run_facts _ _ _ _ _ _ cv_empty_sane O1 Ht R) as (A & _). auto.
Qed.
Lemma conv_throughput eps cfg es e s os s' o : 0 <= vc_throughput cfg ->
  mats_ok (cv_received (es ++ [e])) -> cv_run eps cfg cv_empty es = Ok (s, os) ->
  cv_step eps cfg s e = Ok (s', o) ->
  qty_of (vs_output (vo_ticked o)) - qty_of (vs_output s) == Qmin (vc_throughput cfg) (qty_of (vs_input s)) /\
  qty_of (vs_input s) - qty_of (vs_input (vo_ticked o)) == Qmin (vc_throughput cfg) (qty_of (vs_input s)) /\
  forall n, mass_in n (vs_input s) + mass_in n (vs_output s) ==
            mass_in n (vs_input (vo_ticked o)) + mass_in n (vs_output (vo_ticked o)).
Proof.
  intros Ht Or R St. destruct (conv_reach _ _ _ _ _ _ Ht Or R) as (Sn & Oe).
  destruct (cv_step_inv _ _ _ _ _ _ Sn Oe Ht St) as (T & _).
  destruct (tick_facts _ _ _ Sn Ht T) as (_ & Q1 & Q2 & Q3).
  split; [lra|]. split; [lra|]. intro n. rewrite Q3. lra.
Qed.

Lemma conv_capacity_gen eps cfg es : forall s s' os, cv_sane s -> mats_ok (cv_received es) ->
  0 <= vc_throughput cfg -> qty_of (vs_input s) <= vc_capacity cfg ->
  cv_run eps cfg s es = Ok (s', os) -> Forall2 within_request es os ->
  qty_of (vs_input s') <= vc_capacity cfg.
Proof.
  induction es as [|e es IH]; intros s s' os Sn Or Ht L H W; simpl in H.
  - injection H as <- <-. auto.
  - apply bind_ok in H as ([s1 o] & St & H). apply bind_ok in H as ([s2 os'] & R & H).
    injection H as <- <-. inversion W as [|? ? ? ? W1 W2]; subst.
    unfold cv_received in Or. simpl in Or. apply mats_ok_app in Or as (Or1 & Or2).
    destruct (cv_step_inv _ _ _ _ _ _ Sn Or1 Ht St) as (T & S1 & S2 & Osh & Tr & Ac & _ & Rq).
    destruct (tick_facts _ _ _ Sn Ht T) as (_ & Q1 & Q2 & Q3).
    destruct S1 as (Si & So & _).
    destruct (cv_accept_facts _ _ _ _ _ Si Or1 Ac) as (_ & _ & B3 & _).
    apply (IH s1 s2 os'); auto.
    destruct Sn as (Osi & _). pose proof (mats_qty_nonneg _ Osi) as N0.
    assert (0 <= Qmin (vc_throughput cfg) (qty_of (vs_input s))) by (apply Q.min_glb; auto).
    unfold within_request in W1. rewrite Rq in W1. unfold cv_requests, cv_available in W1.
    destruct (Qle_bool _ 0).
    + rewrite W1 in B3. rewrite qty_of_nil in B3. lra.
    + lra.
Qed.
Lemma conv_capacity eps cfg es s os : 0 <= vc_throughput cfg -> 0 <= vc_capacity cfg ->
  mats_ok (cv_received es) -> cv_run eps cfg cv_empty es = Ok (s, os) ->
  Forall2 within_request es os -> qty_of (vs_input s) <= vc_capacity cfg.
Proof.
  intros. eapply (conv_capacity_gen eps cfg es cv_empty s os); eauto using cv_empty_sane.
Qed.

(** ** Requests *)
Lemma conv_requests_exact cfg s : 
  match cv_requests cfg s with
  | None => vc_capacity cfg - qty_of (vs_input s) <= 0
  | Some (reqs, limit) => 0 < limit /\ limit == vc_capacity cfg - qty_of (vs_input s) /\
      map fst reqs = vc_incommods cfg /\ Forall (fun r => snd r = limit) reqs
  end.
Proof.
  unfold cv_requests, cv_available. destruct (Qle_bool _ 0) eqn:E.
  - apply Qle_bool_iff in E. auto.
  - apply Qle_bool_false in E. split; [auto|]. split; [lra|]. rewrite map_map, map_id. split; auto.
    apply Forall_forall. intros r Hr. apply in_map_iff in Hr as (c & <- & _). reflexivity.
Qed.

(** ** Bids *)
Lemma bids_loop s l : forall acc, vs_output s <> [] ->
  exists c, loop (fun acc jq =>
        let offer := Qmin (qty_of (vs_output s)) (snd jq) in
        if Qltb 0 offer then
          match vs_output s with
          | [] => Throw ValueError
          | m :: _ => Ok (acc ++ [(fst jq, {| m_id := 0; m_qty := offer; m_comp := m_comp m |})])
          end
        else Ok acc) l acc =
   Ok (acc ++ map (fun jq : nat * Q => (fst jq, Mat 0 (Qmin (qty_of (vs_output s)) (snd jq)) c))
         (filter (fun jq : nat * Q => Qltb 0 (Qmin (qty_of (vs_output s)) (snd jq))) l)) /\
   (forall x r, vs_output s = x :: r -> c = m_comp x).
Proof.
  induction l as [|[j q] l IH]; intros acc Hne.
  - destruct (vs_output s) as [|x r]; [congruence|]. exists (m_comp x). simpl. rewrite app_nil_r.
    split; [auto|]. intros y r' E. injection E as <- _. auto.
  - destruct (vs_output s) as [|x r] eqn:Eo; [congruence|]. simpl snd. cbn [loop].
    destruct (Qltb 0 (Qmin (qty_of (x :: r)) q)) eqn:E; cbn zeta; simpl snd; rewrite E; cbn [bind].
    + destruct (IH (acc ++ [(j, Mat 0 (Qmin (qty_of (x :: r)) q) (m_comp x))])) as (c & L & C); [congruence|].
      exists c. split; [|auto]. etransitivity; [exact L|]. rewrite <- app_assoc. simpl. rewrite E. simpl.
      rewrite (C x r eq_refl). reflexivity.
    + destruct (IH acc) as (c & L & C); [congruence|]. exists c. split; [|auto]. etransitivity; [exact L|]. simpl. rewrite E. reflexivity.
Qed.
Lemma in_indexed (l : list Q) : forall k j q, In (j, q) (combine (seq k (List.length l)) l) <->
  (k <= j)%nat /\ nth_error l (j - k) = Some q.
Proof.
  induction l as [|x l IH]; intros k j q; simpl.
  - split; [tauto|]. intros [_ H]. destruct (j - k)%nat; discriminate.
  - rewrite IH. split.
    + intros [E|[L N]]; [injection E as <- <-; rewrite Nat.sub_diag; simpl; split; [lia|auto]|].
      split; [lia|]. replace (j - k)%nat with (S (j - S k)) by lia. auto.
    + intros [L N]. destruct (Nat.eq_dec j k) as [->|D].
      * left. rewrite Nat.sub_diag in N. simpl in N. congruence.
      * right. split; [lia|]. replace (j - k)%nat with (S (j - S k)) in N by lia. auto.
Qed.
Lemma conv_bids_ok s reqs : cv_sane s -> exists b, cv_bids s reqs = Ok b /\
  match b with
  | None => qty_of (vs_output s) == 0
  | Some (bids, limit) => 0 < limit /\ limit = qty_of (vs_output s) /\
     exists m r, vs_output s = m :: r /\
     forall j offer, In (j, offer) bids <->
       exists q, nth_error reqs j = Some q /\ 0 < q /\
                 offer = Mat 0 (Qmin (qty_of (vs_output s)) q) (m_comp m)
  end.
Proof.
  intros (_ & Oo & _). unfold cv_bids. pose proof (mats_qty_nonneg _ Oo) as N.
  destruct (Qle_bool (qty_of (vs_output s)) 0) eqn:E.
  - apply Qle_bool_iff in E. exists None. split; [auto|]. lra.
  - apply Qle_bool_false in E. assert (Hne : vs_output s <> []).
    { intro Z. rewrite Z, qty_of_nil in E. lra. }
    destruct (bids_loop s (combine (seq 0 (List.length reqs)) reqs) [] Hne) as (c & L & C).
    cbv zeta in L |- *. rewrite L. cbn [bind app]. eexists. split; [reflexivity|]. simpl. split; [auto|]. split; [auto|].
    destruct (vs_output s) as [|m r] eqn:Eo; [congruence|]. exists m, r. split; [auto|].
    rewrite (C m r eq_refl). intros j offer. rewrite in_map_iff. split.
    + intros ([j' q] & Ej & In'). simpl in Ej. injection Ej as <- <-.
      apply filter_In in In' as (In' & P). apply in_indexed in In' as (_ & Nt).
      rewrite Nat.sub_0_r in Nt. simpl in P. apply Qltb_true in P.
      exists q. split; [auto|]. split; [|auto].
      eapply Qlt_le_trans; [exact P|apply Q.le_min_r].
    + intros (q & Nt & Pq & ->). exists (j, q). split; [auto|]. apply filter_In. split.
      * apply in_indexed. rewrite Nat.sub_0_r. split; [lia|auto].
      * simpl. apply Qltb_true. apply Q.min_glb_lt; auto.
Qed.

Lemma conv_offer_honoured eps cfg es e s os s' o : 0 <= vc_throughput cfg ->
  mats_ok (cv_received (es ++ [e])) -> cv_run eps cfg cv_empty es = Ok (s, os) ->
  cv_step eps cfg s e = Ok (s', o) ->
  match vo_bids o with
  | None => qty_of (vs_output (vo_ticked o)) == 0
  | Some (bids, limit) =>
    0 < limit /\ limit == qty_of (vs_output (vo_ticked o)) /\
    (forall j, (exists offer, In (j, offer) bids) <-> exists q, nth_error (ve_reqs e) j = Some q /\ 0 < q) /\
    (forall j offer q, In (j, offer) bids -> nth_error (ve_reqs e) j = Some q ->
       m_qty offer == Qmin limit q) /\
    (forall j offer m, In (j, offer) bids -> In m (vs_output (vo_ticked o)) \/ In m (vo_shipped o) ->
       m_comp m = m_comp offer)
  end.
Proof.
  intros Ht Or R St. destruct (conv_reach _ _ _ _ _ _ Ht Or R) as (Sn & Oe).
  destruct (cv_step_inv _ _ _ _ _ _ Sn Oe Ht St) as (T & S1 & S2 & Osh & Tr & Ac & Bd & _).
  destruct (conv_bids_ok (vo_ticked o) (ve_reqs e) S1) as (b & Eb' & F).
  rewrite Bd in Eb'. injection Eb' as <-. destruct (vo_bids o) as [[bids limit]|] eqn:Eb.
  2:{ exact F. }
  destruct F as (Pl & El & m & r & Eo & Iff).
  split; [auto|]. split; [subst; lra|]. split; [|split].
  - intro j. split.
    + intros (offer & I). apply Iff in I as (q & A & B & _). eauto.
    + intros (q & A & B). eexists. apply Iff. exists q. split; [auto|]. split; [auto|reflexivity].
  - intros j offer q I Nq. apply Iff in I as (q' & A & B & ->). simpl.
    assert (q' = q) by congruence. subst. lra.
  - intros j offer m' I Im. apply Iff in I as (q' & A & B & ->). simpl.
    destruct S1 as (_ & _ & _ & L1). rewrite Eo in L1, Tr, Im. simpl in L1.
    destruct r as [|y r]; [|simpl in L1; lia].
    destruct Im as [[->|[]]|Im]; [reflexivity|].
    eapply (cv_trades_comp _ [m] []) in Tr; [|right; exists m; split; reflexivity|constructor].
    rewrite Forall_forall in Tr. apply Tr, Im.
Qed.

(** ** No failures *)
Lemma conv_step_ok eps cfg es e s os : 0 <= eps -> 0 < vc_throughput cfg ->
  mats_ok (cv_received (es ++ [e])) -> cv_run eps cfg cv_empty es = Ok (s, os) ->
  Forall (fun q => 0 < q) (ve_sales e) ->
  qsum (ve_sales e) <= qty_of (vs_output s) + Qmin (vc_throughput cfg) (qty_of (vs_input s)) ->
  (ve_receipts e = [] \/ qty_of (ve_receipts e) <= vc_capacity cfg -
       (qty_of (vs_input s) - Qmin (vc_throughput cfg) (qty_of (vs_input s)))) ->
  exists s' o, cv_step eps cfg s e = Ok (s', o) /\ Forall2 (fun m q => m_qty m == q) (vo_shipped o) (ve_sales e).
Proof.
  intros He Ht Or R Ps Ls Lr. assert (Ht' : 0 <= vc_throughput cfg) by lra.
  destruct (conv_reach _ _ _ _ _ _ Ht' Or R) as (Sn & Oe).
  destruct (tick_ok cfg s Sn Ht) as (s1 & T).
  destruct (tick_facts _ _ _ Sn Ht' T) as (S1 & Q1 & Q2 & _).
  destruct (conv_bids_ok s1 (ve_reqs e) S1) as (b & Bd & _).
  pose proof S1 as (Si & So & _).
  destruct (cv_trades_ok (ve_sales e) (vs_output s1) [] So Ps) as ([out sh] & Tr); [lra|].
  destruct (cv_accept_ok eps cfg (ve_receipts e) (vs_input s1) He Si Oe) as (inp & Ac).
  { destruct Lr as [L|L]; [left; auto|right; lra]. }
  unfold cv_step. rewrite T. cbn [bind]. rewrite Bd. cbn [bind]. rewrite Tr. cbn [bind]. rewrite Ac. cbn [bind].
  do 2 eexists. split; [reflexivity|]. simpl.
  assert (G : forall amts out acc out' sh', mats_ok out ->
    cv_trades amts out acc = Ok (out', sh') -> exists t, sh' = acc ++ t /\ Forall2 (fun m q => m_qty m == q) t amts).
  { clear. induction amts as [|q amts IH]; intros out acc out' sh' Oo H; simpl in H.
    - injection H as <- <-. exists []. rewrite app_nil_r. split; [auto|constructor].
    - apply bind_ok in H as ([m r] & P & H). pose proof (pop_qty_pos _ _ _ _ P).
      apply pop_qty_facts in P as (A1 & A2 & A3 & A4 & A5 & _); [|auto|lra].
      apply IH in H as (t & -> & F); auto. exists (m :: t). rewrite <- app_assoc. split; [auto|]. constructor; auto. }
  destruct (G _ _ _ _ _ So Tr) as (t & -> & F). exact F.
Qed.

Lemma conv_restore_input s : cv_sane s -> vs_input (cv_restore (cv_snapshot s)) = vs_input s.
Proof.
  intros (_ & _ & L & _). unfold cv_restore, cv_snapshot. simpl.
  destruct (vs_input s) as [|x [|y r]]; simpl in *; auto. lia.
Qed.
Lemma conv_reach_sane eps cfg es s os : 0 <= vc_throughput cfg -> mats_ok (cv_received es) ->
  cv_run eps cfg cv_empty es = Ok (s, os) -> cv_sane s.
Proof. intros Ht Or R. apply (cv_run_facts _ _ _ _ _ _ cv_empty_sane Or Ht R). Qed.
Lemma conv_restart_input eps cfg es s os : 0 <= vc_throughput cfg -> mats_ok (cv_received es) ->
  cv_run eps cfg cv_empty es = Ok (s, os) -> vs_input (cv_restore (cv_snapshot s)) = vs_input s.
Proof. intros. eapply conv_restore_input, conv_reach_sane; eauto. Qed.
Lemma conv_request_bounded eps cfg es e s os s' o : 0 <= vc_throughput cfg -> mats_ok (cv_received (es ++ [e])) ->
  cv_run eps cfg cv_empty es = Ok (s, os) -> cv_step eps cfg s e = Ok (s', o) ->
  match vo_requests o with
  | None => vc_capacity cfg - qty_of (vs_input (vo_ticked o)) <= 0
  | Some (reqs, limit) => 0 < limit /\ limit == vc_capacity cfg - qty_of (vs_input (vo_ticked o)) /\
      map fst reqs = vc_incommods cfg /\ Forall (fun r => snd r = limit) reqs /\
      (vc_capacity cfg - qty_of (vs_input (vo_ticked o)) <= vc_throughput cfg ->
       limit == Qmin (vc_throughput cfg) (vc_capacity cfg - qty_of (vs_input (vo_ticked o))))
  end.
Proof.
  intros Ht Or R St. destruct (conv_reach _ _ _ _ _ _ Ht Or R) as (Sn & Oe).
  destruct (cv_step_inv _ _ _ _ _ _ Sn Oe Ht St) as (_ & _ & _ & _ & _ & _ & _ & Eq). rewrite Eq.
  pose proof (conv_requests_exact cfg (vo_ticked o)) as H.
  destruct (cv_requests cfg (vo_ticked o)) as [[reqs limit]|]; auto.
  destruct H as (A & B & C & D). repeat split; auto. intro L. rewrite Q.min_r; auto.
Qed.
