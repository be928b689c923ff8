(** Lemmas about the Mixer model. *)
From Coq Require Import Lia Lqa.
From Verif Require Import Outcome KernelMaterial KernelResBuf KernelFacts KernelMass KernelBuf KernelBufFacts
  MixerModel MixerSpec.
Local Open Scope Q_scope.

(** ** Normalisation *)
Lemma norm_len rs : List.length (mx_normalise rs) = List.length rs.
Proof. unfold mx_normalise. destruct (negb _); apply map_length. Qed.
Lemma qsum_const {A} (l : list A) k : qsum (map (fun _ => k) l) == inject_Z (zlen l) * k.
Proof.
  induction l as [|x l IH]; [change (inject_Z (zlen (@nil A))) with 0; cbn [map qsum fold_right]; ring|].
  cbn [map qsum fold_right]. fold (qsum (map (fun _ => k) l)). rewrite IH, zlen_cons, inject_Z_plus.
  change (inject_Z 1) with 1%Q. lra.
Qed.
Lemma zlen_pos {A} (l : list A) : l <> [] -> 0 < inject_Z (zlen l).
Proof.
  intro H. destruct l as [|x l]; [congruence|]. rewrite zlen_cons.
  pose proof (zlen_nonneg l). change 0 with (inject_Z 0). rewrite <- Zlt_Qlt. lia.
Qed.
Lemma norm_sum rs : rs <> [] -> qsum (mx_normalise rs) == 1.
Proof.
  intro H. unfold mx_normalise. destruct (negb (Qeq_bool (qsum rs) 0)) eqn:E.
  - apply negb_true_iff, Qeq_bool_false in E.
    rewrite (qsum_map_ext _ (fun r => (1 / qsum rs) * r)) by (intros; ring).
    rewrite qsum_map_scale, map_id. field. exact E.
  - rewrite qsum_const. pose proof (zlen_pos rs H). field. lra.
Qed.
Lemma norm_nth rs i r : nth_error (mx_normalise rs) i = Some r ->
  exists u, nth_error rs i = Some u /\
    ((~ qsum rs == 0 /\ r * qsum rs == u) \/ (qsum rs == 0 /\ r * inject_Z (zlen rs) == 1)).
Proof.
  unfold mx_normalise. destruct (negb (Qeq_bool (qsum rs) 0)) eqn:E; intro H.
  - apply negb_true_iff, Qeq_bool_false in E.
    rewrite nth_error_map in H. destruct (nth_error rs i) as [u|] eqn:U; [|discriminate].
    exists u. split; auto. left. split; auto. injection H as <-. field. exact E.
  - apply negb_false_iff, Qeq_bool_iff in E.
    rewrite nth_error_map in H. destruct (nth_error rs i) as [u|] eqn:U; [|discriminate].
    exists u. split; auto. right. split; auto. injection H as <-.
    assert (N : rs <> []) by (intro; subst; destruct i; discriminate).
    pose proof (zlen_pos rs N). field. lra.
Qed.
Lemma share_unique cfg st x y : xc_streams cfg <> [] -> share_of cfg st x -> share_of cfg st y -> x == y.
Proof.
  intros N [[A B]|[A B]] [[C D]|[C D]]; try contradiction.
  - assert (x * mx_total cfg == y * mx_total cfg) by (rewrite B, D; reflexivity).
    apply Qmult_inj_r with (z := mx_total cfg); auto.
  - pose proof (zlen_pos _ N). apply Qmult_inj_r with (z := inject_Z (zlen (xc_streams cfg))); [lra|].
    rewrite B, D. reflexivity.
Qed.
Definition ratios_of (cfg : mx_cfg) := mx_normalise (map xs_ratio (xc_streams cfg)).
Lemma ratio_share cfg i r : nth_error (ratios_of cfg) i = Some r ->
  exists st, nth_error (xc_streams cfg) i = Some st /\ share_of cfg st r.
Proof.
  intro H. apply norm_nth in H as (u & U & D). rewrite nth_error_map in U.
  destruct (nth_error (xc_streams cfg) i) as [st|] eqn:E; [|discriminate]. exists st. split; auto.
  injection U as <-. rewrite zlen_map in D. exact D.
Qed.
Lemma share_ratio cfg i st : nth_error (xc_streams cfg) i = Some st ->
  exists r, nth_error (ratios_of cfg) i = Some r /\ share_of cfg st r.
Proof.
  intro H. assert (L : (i < List.length (ratios_of cfg))%nat).
  { unfold ratios_of. rewrite norm_len, map_length. apply nth_error_Some. congruence. }
  destruct (nth_error (ratios_of cfg) i) as [r|] eqn:E; [|apply nth_error_None in E; lia].
  exists r. split; auto. destruct (ratio_share _ _ _ E) as (st' & A & B). congruence.
Qed.
Lemma ratios_nonneg cfg : Forall (fun st => 0 <= xs_ratio st) (xc_streams cfg) -> Forall (fun r => 0 <= r) (ratios_of cfg).
Proof.
  intro H. unfold ratios_of, mx_normalise.
  assert (N : 0 <= qsum (map xs_ratio (xc_streams cfg))) by (apply qsum_nonneg, Forall_map, H).
  destruct (negb (Qeq_bool _ 0)) eqn:E.
  - apply negb_true_iff, Qeq_bool_false in E. apply Forall_map, Forall_map.
    eapply Forall_impl; [|exact H]. intros st Hs. simpl.
    apply Qmult_le_0_compat; auto. apply Qle_shift_div_l; lra.
  - apply Forall_map, Forall_map. eapply Forall_impl; [|exact H]. intros st Hs. cbv beta.
    rewrite zlen_map. destruct (xc_streams cfg) as [|a l] eqn:X.
    + discriminate.
    + pose proof (zlen_pos (a :: l) ltac:(discriminate)). apply Qle_shift_div_l; auto. lra.
Qed.
Lemma ratios_pos cfg : mx_sensible cfg -> Forall (fun r => 0 < r) (ratios_of cfg).
Proof.
  intros (N & _ & H). unfold ratios_of, mx_normalise.
  pose proof (zlen_pos _ N) as ZP.
  destruct (negb (Qeq_bool _ 0)) eqn:E.
  - apply negb_true_iff, Qeq_bool_false in E. destruct H as [H|H].
    + assert (P : 0 <= qsum (map xs_ratio (xc_streams cfg))).
      { apply qsum_nonneg, Forall_map. eapply Forall_impl; [|exact H]. intros; simpl in *; lra. }
      apply Forall_map, Forall_map. eapply Forall_impl; [|exact H]. intros st Hs. cbv beta.
      assert (P' : 0 < qsum (map xs_ratio (xc_streams cfg))).
      { apply Qle_lteq in P as [P|P]; [auto|]. exfalso. apply E. symmetry. exact P. }
      assert (0 < 1 / qsum (map xs_ratio (xc_streams cfg))) by (apply Qlt_shift_div_l; [auto|rewrite Qmult_0_l; reflexivity]).
      apply Qmult_lt_0_compat; auto.
    + exfalso. apply E. clear E. induction H as [|st l Hs _ IH]; simpl; [reflexivity|].
      destruct l as [|b l']; [simpl; rewrite Hs; reflexivity|]. 
      rewrite Hs, IH; [reflexivity|discriminate|apply zlen_pos; discriminate].
  - apply Forall_map, Forall_map, Forall_forall. intros st _. cbv beta. rewrite zlen_map. apply Qlt_shift_div_l; lra.
Qed.

(** ** The target amount *)
Lemma nth_cons_case {A B} (P : A -> B -> Prop) r rs b bs :
  P r b -> (forall i x y, nth_error rs i = Some x -> nth_error bs i = Some y -> P x y) ->
  forall i x y, nth_error (r :: rs) i = Some x -> nth_error (b :: bs) i = Some y -> P x y.
Proof. intros H1 H2 [|i] x y X Y; simpl in *; [congruence|eauto]. Qed.
Lemma mul_le_div q r t : 0 < r -> t <= q / r -> r * t <= q.
Proof. intros P H. apply (Qmult_le_l _ _ r) in H; auto. rewrite Qmult_div_r in H by lra. exact H. Qed.
Lemma target_le rs : forall tgt bs, mx_target tgt rs bs <= tgt.
Proof.
  induction rs as [|r rs IH]; intros tgt bs; simpl; [lra|]. destruct bs as [|b bs]; [lra|].
  destruct (Qeq_bool r 0); [apply IH|].
  destruct (Qltb (b_qty b / r) tgt) eqn:E; [|apply IH].
  apply Qltb_true in E. pose proof (IH (b_qty b / r) bs). lra.
Qed.
Lemma target_streams rs : forall tgt bs, Forall (fun r => 0 <= r) rs -> Forall (fun b => 0 <= b_qty b) bs ->
  forall i r b, nth_error rs i = Some r -> nth_error bs i = Some b -> r * mx_target tgt rs bs <= b_qty b.
Proof.
  induction rs as [|r rs IH]; intros tgt bs HR HB i r0 b0 HI HJ; [destruct i; discriminate|].
  destruct bs as [|b bs]; [destruct i; discriminate|]. inversion HR; subst. inversion HB; subst.
  simpl. set (tgt' := if Qeq_bool r 0 then tgt else _).
  destruct i as [|i]; simpl in HI, HJ; [|eapply IH; eauto].
  injection HI as <-. injection HJ as <-. pose proof (target_le rs tgt' bs) as L.
  destruct (Qeq_bool r 0) eqn:E.
  - apply Qeq_bool_iff in E. rewrite E. lra.
  - apply Qeq_bool_false in E. apply mul_le_div; [lra|]. subst tgt'.
    destruct (Qltb (b_qty b / r) tgt) eqn:F; [lra|]. apply Qltb_false in F. lra.
Qed.
Lemma target_max rs : forall tgt bs t, Forall (fun r => 0 <= r) rs -> t <= tgt ->
  (forall i r b, nth_error rs i = Some r -> nth_error bs i = Some b -> r * t <= b_qty b) ->
  t <= mx_target tgt rs bs.
Proof.
  induction rs as [|r rs IH]; intros tgt bs t HR HT H; simpl; [auto|]. destruct bs as [|b bs]; [auto|].
  inversion HR; subst. apply IH; auto; [|intros i; apply (H (S i))].
  specialize (H 0%nat r b eq_refl eq_refl).
  destruct (Qeq_bool r 0) eqn:E; auto. apply Qeq_bool_false in E.
  destruct (Qltb (b_qty b / r) tgt); auto. apply Qle_shift_div_l; [lra|]. lra.
Qed.
Lemma target_proper rs : forall x y bs, x == y -> mx_target x rs bs == mx_target y rs bs.
Proof.
  induction rs as [|r rs IH]; intros x y bs E; simpl; [auto|]. destruct bs as [|b bs]; auto.
  apply IH. destruct (Qeq_bool r 0); auto.
  destruct (Qltb (b_qty b / r) x) eqn:A, (Qltb (b_qty b / r) y) eqn:B;
    rewrite ?Qltb_true, ?Qltb_false in *; lra.
Qed.
(** Positive target: no negative ratio. *)
Lemma target_pos rs : forall tgt bs, Forall (fun b => 0 <= b_qty b) bs -> List.length rs = List.length bs ->
  0 < mx_target tgt rs bs -> Forall (fun r => 0 <= r) rs.
Proof.
  induction rs as [|r rs IH]; intros tgt bs HB L H; [constructor|].
  destruct bs as [|b bs]; [discriminate|]. inversion HB; subst. injection L as L. simpl in H.
  constructor; [|eapply IH; eauto].
  destruct (Qeq_bool r 0) eqn:E; [apply Qeq_bool_iff in E; lra|]. apply Qeq_bool_false in E.
  destruct (Qlt_le_dec r 0) as [N|N]; auto. exfalso.
  set (tgt' := if Qltb _ _ then _ else _) in H. pose proof (target_le rs tgt' bs) as T.
  assert (Q1 : b_qty b / r <= 0).
  { setoid_replace (b_qty b / r) with (- (b_qty b / - r)) by (field; lra).
    assert (0 <= b_qty b / - r) by (apply Qle_shift_div_l; lra). lra. }
  subst tgt'. destruct (Qltb (b_qty b / r) tgt) eqn:F; [lra|]. apply Qltb_false in F. lra.
Qed.

(** ** Blending *)
Definition bs_qty (bs : list buf) : Q := qsum (map b_qty bs).
Definition bs_mass (n : Z) (bs : list buf) : Q := qsum (map (fun b => mass_in n (b_items b)) bs).
Definition bs_ok (bs : list buf) : Prop := Forall (fun b => mats_ok (b_items b)) bs.
Definition o_qty (o : option mat) : Q := match o with None => 0 | Some m => m_qty m end.
Definition o_mass (n : Z) (o : option mat) : Q := match o with None => 0 | Some m => mass_of m n end.
Definition o_ok (o : option mat) : Prop := match o with None => True | Some m => mat_ok m end.
Lemma bs_qty_nonneg bs : bs_ok bs -> Forall (fun b => 0 <= b_qty b) bs.
Proof. intro H. eapply Forall_impl; [|exact H]. intros b Hb. apply mats_qty_nonneg, Hb. Qed.

Lemma b_pop_tol_facts b q eps m b' : mats_ok (b_items b) -> 0 <= q -> q <= b_qty b ->
  b_pop_tol b q eps = Ok (m, b') ->
  m_qty m == q /\ b_qty b' == b_qty b - q /\ b_cap b' = b_cap b /\ mat_ok m /\ mats_ok (b_items b') /\
  (forall n, mass_of m n + mass_in n (b_items b') == mass_in n (b_items b)).
Proof.
  intros O Q1 Q2 H. unfold b_pop_tol in H. apply bind_ok in H as ([m1 r] & P & H). injection H as <- <-.
  destruct (pop_tol_facts _ _ _ _ _ O Q1 P) as (A & B & _ & C & D & E).
  assert (Hm : m_qty m1 == q) by (rewrite A; apply Q.min_l; exact Q2).
  split; [exact Hm|]. split; [unfold b_qty; simpl; rewrite B, Hm; reflexivity|]. simpl. auto.
Qed.
Lemma b_pop_tol_ok b q eps : 0 < q -> 0 <= eps -> q <= b_qty b -> exists m b', b_pop_tol b q eps = Ok (m, b').
Proof.
  intros A B C. destruct (pop_tol_ok (b_items b) q eps A B C) as (m & r & H).
  unfold b_pop_tol. rewrite H. simpl. eauto.
Qed.

Lemma blend_facts eps tgt rs : forall acc bs acc' bs', List.length rs = List.length bs -> bs_ok bs -> o_ok acc ->
  (forall i r b, nth_error rs i = Some r -> nth_error bs i = Some b -> 0 <= r * tgt /\ r * tgt <= b_qty b) ->
  mx_blend eps tgt acc rs bs = Ok (acc', bs') ->
  List.length bs' = List.length bs /\ bs_ok bs' /\ o_ok acc' /\
  (forall i r b b', nth_error rs i = Some r -> nth_error bs i = Some b -> nth_error bs' i = Some b' ->
     b_cap b' = b_cap b /\ b_qty b' == b_qty b - r * tgt) /\
  o_qty acc' == o_qty acc + qsum rs * tgt /\
  (forall n, o_mass n acc' + bs_mass n bs' == o_mass n acc + bs_mass n bs) /\
  (rs <> [] \/ acc <> None -> acc' <> None).
Proof.
  induction rs as [|r rs IH]; intros acc bs acc' bs' L O OA H B; destruct bs as [|b bs]; try discriminate; simpl in B.
  - injection B as <- <-. split; [auto|]. split; [auto|]. split; [auto|].
    split; [intros i; destruct i; discriminate|]. split; [simpl; lra|]. split; [intro; reflexivity|tauto].
  - inversion O as [|? ? Ob Obs]; subst. injection L as L.
    apply bind_ok in B as ([m b1] & P & B). destruct (H 0%nat r b eq_refl eq_refl) as [H1 H2].
    destruct (b_pop_tol_facts _ _ _ _ _ Ob H1 H2 P) as (M1 & M2 & M3 & M4 & M5 & M6).
    apply bind_ok in B as ([acc2 bs2] & B & R). injection R as <- <-.
    set (a1 := match acc with None => m | Some a => absorb a m end) in B.
    assert (OA1 : mat_ok a1) by (subst a1; destruct acc; [apply absorb_ok|]; auto).
    assert (QA1 : m_qty a1 == o_qty acc + r * tgt).
    { subst a1. destruct acc; cbn [o_qty]; [rewrite qty_absorb|]; rewrite M1; lra. }
    assert (MA1 : forall n, mass_of a1 n == o_mass n acc + mass_of m n).
    { intro n. subst a1. destruct acc; cbn [o_mass]; [apply mass_absorb; auto|lra]. }
    destruct (IH (Some a1) bs acc2 bs2 L Obs OA1 (fun i => H (S i)) B) as (I1 & I2 & I3 & I4 & I5 & I6 & I7).
    split; [simpl; congruence|]. split; [constructor; auto|]. split; [auto|].
    split. { intros [|i] r0 b0 b0' X Y Z; simpl in X, Y, Z; [|eapply I4; eauto].
      injection X as <-. injection Y as <-. injection Z as <-. auto. }
    split; [rewrite I5; cbn [o_qty]; rewrite QA1; cbn [qsum fold_right]; fold (qsum rs); ring|].
    split; [|intros _; apply I7; right; discriminate].
    intro n. specialize (I6 n). unfold bs_mass in *. cbn [map qsum fold_right].
    fold (qsum (map (fun b => mass_in n (b_items b)) bs2)) (qsum (map (fun b => mass_in n (b_items b)) bs)).
    cbn [o_mass] in I6. rewrite (MA1 n) in I6. specialize (M6 n). lra.
Qed.
Lemma blend_ok eps tgt rs : forall acc bs, 0 <= eps -> List.length rs = List.length bs ->
  (forall i r b, nth_error rs i = Some r -> nth_error bs i = Some b -> 0 < r * tgt /\ r * tgt <= b_qty b) ->
  exists acc' bs', mx_blend eps tgt acc rs bs = Ok (acc', bs').
Proof.
  induction rs as [|r rs IH]; intros acc bs E L H; simpl; [eauto|].
  destruct bs as [|b bs]; [discriminate|]. injection L as L.
  destruct (H 0%nat r b eq_refl eq_refl) as [H1 H2].
  destruct (b_pop_tol_ok b (r * tgt) eps H1 E H2) as (m & b' & P). rewrite P. cbn [bind].
  set (a1 := match acc with None => m | Some a => absorb a m end).
  destruct (IH (Some a1) bs E L (fun i => H (S i))) as (x & y & R). rewrite R. simpl. eauto.
Qed.

(** ** Tick *)
Definition mx_inv (cfg : mx_cfg) (s : mx_state) : Prop :=
  xs_ratios s = ratios_of cfg /\ List.length (xs_bufs s) = List.length (xc_streams cfg) /\
  bs_ok (xs_bufs s) /\ mats_ok (b_items (xs_output s)) /\ b_cap (xs_output s) = Some (xc_out_size cfg).

Lemma tick_facts eps cfg s s' sup : mx_inv cfg s -> mx_tick eps cfg s = Ok (s', sup) ->
  mx_inv cfg s' /\ sup = (("supply" ++ xc_out_commod cfg)%string, b_qty (xs_output s')) /\
  (s' = s \/
   exists t m, 0 < t /\
     t == Qmin (mx_target (xc_out_size cfg - b_qty (xs_output s)) (xs_ratios s) (xs_bufs s)) (xc_throughput cfg) /\
     mat_ok m /\ m_qty m == t /\ b_items (xs_output s') = b_items (xs_output s) ++ [m] /\
     xs_extra s' = xs_extra s /\
     (forall i r b b', nth_error (xs_ratios s) i = Some r -> nth_error (xs_bufs s) i = Some b ->
        nth_error (xs_bufs s') i = Some b' -> b_cap b' = b_cap b /\ b_qty b' == b_qty b - r * t) /\
     (forall n, mass_of m n + bs_mass n (xs_bufs s') == bs_mass n (xs_bufs s))) /\
  (s' = s -> Qmin (mx_target (xc_out_size cfg - b_qty (xs_output s)) (xs_ratios s) (xs_bufs s)) (xc_throughput cfg) <= 0).
Proof.
  intros (R & L & OB & OO & OC) H. unfold mx_tick in H. apply bind_ok in H as (s1 & H & E). injection E as <- <-.
  assert (LR : List.length (xs_ratios s) = List.length (xs_bufs s)).
  { rewrite R, L. unfold ratios_of. rewrite norm_len. apply map_length. }
  destruct (Qltb (b_qty (xs_output s)) (xc_out_size cfg)) eqn:G.
  2:{ injection H as <-. apply Qltb_false in G. split; [repeat split; auto|]. split; [auto|]. split; [auto|].
      intros _. pose proof (target_le (xs_ratios s) (xc_out_size cfg - b_qty (xs_output s)) (xs_bufs s)) as T.
      eapply Qle_trans; [apply Q.le_min_l|]. lra. }
  apply Qltb_true in G.
  assert (SP : Qmax 0 (xc_out_size cfg - b_qty (xs_output s)) == xc_out_size cfg - b_qty (xs_output s)).
  { apply Q.max_r. lra. }
  set (tgt := Qmin (mx_target (Qmax 0 _) _ _) _) in H.
  assert (ET : tgt == Qmin (mx_target (xc_out_size cfg - b_qty (xs_output s)) (xs_ratios s) (xs_bufs s)) (xc_throughput cfg)).
  { subst tgt. rewrite (target_proper _ _ _ _ SP). reflexivity. }
  destruct (Qltb 0 tgt) eqn:P.
  2:{ injection H as <-. apply Qltb_false in P. split; [repeat split; auto|]. split; [auto|]. split; [auto|].
      intros _. rewrite <- ET. exact P. }
  apply Qltb_true in P.
  set (T0 := mx_target (Qmax 0 (xc_out_size cfg - b_qty (xs_output s))) (xs_ratios s) (xs_bufs s)) in *.
  assert (LT : tgt <= T0) by apply Q.le_min_l.
  assert (RN : Forall (fun r => 0 <= r) (xs_ratios s)).
  { apply (target_pos _ (Qmax 0 (xc_out_size cfg - b_qty (xs_output s))) (xs_bufs s)); auto; [apply bs_qty_nonneg, OB|]. fold T0. lra. }
  assert (HS : forall i r b, nth_error (xs_ratios s) i = Some r -> nth_error (xs_bufs s) i = Some b ->
    0 <= r * tgt /\ r * tgt <= b_qty b).
  { intros i r b X Y. assert (0 <= r) by (rewrite Forall_forall in RN; apply RN; eapply nth_error_In; eauto).
    pose proof (target_streams _ (Qmax 0 (xc_out_size cfg - b_qty (xs_output s))) _ RN (bs_qty_nonneg _ OB) i r b X Y) as Z.
    fold T0 in Z. split; nra. }
  apply bind_ok in H as ([acc bs] & B & H).
  destruct (blend_facts eps tgt _ None _ _ _ LR OB I HS B) as (F1 & F2 & F3 & F4 & F5 & F6 & F7).
  destruct acc as [m|]; [|discriminate]. apply bind_ok in H as (o & PU & H). injection H as <-.
  destruct (b_push_facts _ _ _ _ PU) as (P1 & P2 & _).
  assert (NE : ratios_of cfg <> []).
  { intro Z. rewrite R, Z in B. simpl in B. discriminate. }
  assert (NS : map xs_ratio (xc_streams cfg) <> []).
  { intro Z. apply NE. unfold ratios_of. rewrite Z. reflexivity. }
  assert (QM : m_qty m == tgt).
  { cbn [o_qty] in F5. rewrite F5, R. unfold ratios_of. rewrite (norm_sum _ NS). lra. }
  split. { split; [exact R|]. split; [cbn [xs_bufs]; congruence|]. split; [exact F2|]. cbn [xs_output].
    split; [rewrite P2; apply mats_ok_app; split; [auto|constructor; [exact F3|constructor]]|congruence]. }
  split; [reflexivity|]. split.
  - right. exists tgt, m. split; [auto|]. split; [exact ET|]. split; [exact F3|]. split; [exact QM|].
    split; [exact P2|]. split; [reflexivity|]. split; [exact F4|]. intro n. specialize (F6 n). cbn [o_mass] in F6.
    cbn [xs_bufs]. lra.
  - intro Z. exfalso. apply (f_equal xs_output) in Z. cbn [xs_output] in Z. subst o.
    apply (f_equal (@List.length mat)) in P2. rewrite app_length in P2. simpl in P2. lia.
Qed.

Lemma tick_ok eps cfg s : 0 <= eps -> mx_sensible cfg -> mx_inv cfg s -> exists s' sup, mx_tick eps cfg s = Ok (s', sup).
Proof.
  intros EP SE (R & L & OB & OO & OC). unfold mx_tick.
  assert (LR : List.length (xs_ratios s) = List.length (xs_bufs s)).
  { rewrite R, L. unfold ratios_of. rewrite norm_len. apply map_length. }
  pose proof (ratios_pos cfg SE) as RP. rewrite <- R in RP.
  assert (RN : Forall (fun r => 0 <= r) (xs_ratios s)).
  { eapply Forall_impl; [|exact RP]. intros; simpl in *; lra. }
  destruct (Qltb (b_qty (xs_output s)) (xc_out_size cfg)) eqn:G; [|simpl; eauto].
  apply Qltb_true in G.
  set (tgt := Qmin (mx_target (Qmax 0 _) _ _) _).
  destruct (Qltb 0 tgt) eqn:P; [|simpl; eauto]. apply Qltb_true in P.
  set (T0 := mx_target (Qmax 0 (xc_out_size cfg - b_qty (xs_output s))) (xs_ratios s) (xs_bufs s)) in *.
  assert (LT : tgt <= T0) by apply Q.le_min_l.
  assert (HS : forall i r b, nth_error (xs_ratios s) i = Some r -> nth_error (xs_bufs s) i = Some b ->
    0 < r * tgt /\ r * tgt <= b_qty b).
  { intros i r b X Y. assert (0 < r) by (rewrite Forall_forall in RP; apply RP; eapply nth_error_In; eauto).
    pose proof (target_streams _ (Qmax 0 (xc_out_size cfg - b_qty (xs_output s))) _ RN (bs_qty_nonneg _ OB) i r b X Y) as Z.
    fold T0 in Z. split; nra. }
  destruct (blend_ok eps tgt _ None _ EP LR HS) as (acc & bs & B). rewrite B. cbn [bind].
  assert (NS : map xs_ratio (xc_streams cfg) <> []).
  { destruct SE as (N & _). destruct (xc_streams cfg); [congruence|discriminate]. }
  assert (NR : xs_ratios s <> []).
  { intro Z. apply (f_equal (@List.length Q)) in Z. rewrite R in Z. unfold ratios_of in Z.
    rewrite norm_len in Z. destruct (map xs_ratio (xc_streams cfg)); [congruence|discriminate]. }
  assert (HS' : forall i r b, nth_error (xs_ratios s) i = Some r -> nth_error (xs_bufs s) i = Some b ->
    0 <= r * tgt /\ r * tgt <= b_qty b).
  { intros i r b X Y. destruct (HS i r b X Y). split; lra. }
  destruct (blend_facts eps tgt _ None _ _ _ LR OB I HS' B) as (F1 & F2 & F3 & F4 & F5 & F6 & F7).
  destruct acc as [m|]; [|exfalso; apply F7; auto].
  assert (QM : m_qty m == tgt).
  { cbn [o_qty] in F5. rewrite F5, R. unfold ratios_of. rewrite (norm_sum _ NS). lra. }
  rewrite b_push_ok. { simpl. eauto. }
  rewrite OC, QM. pose proof (target_le (xs_ratios s) (Qmax 0 (xc_out_size cfg - b_qty (xs_output s))) (xs_bufs s)) as T1.
  fold T0 in T1. lra.
Qed.
