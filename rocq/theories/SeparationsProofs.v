(** Lemmas for the separations properties. *)
From Coq Require Import Lia Lqa.
From Verif Require Import Outcome KernelMaterial KernelResBuf KernelBuf KernelFacts KernelMass
  KernelBufFacts SeparationsModel SeparationsSpec.
Local Open Scope Q_scope.

(** ** Efficiencies *)
Lemma eff_find_given k effs : eff_find k effs = given k effs.
Proof.
  unfold given. induction effs as [|[k' v] effs IH]; simpl; auto.
  destruct (Z.eqb k' k); auto.
Qed.
Lemma elem_of_element n : elem_of n = element n.
Proof. unfold elem_of, element. pose proof (Z.quot_rem' n 10000000). lia. Qed.
Lemma eff_for_efficiency effs n :
  efficiency effs n = match eff_for effs n with Some e => e | None => 0 end.
Proof.
  unfold efficiency, eff_for. rewrite !eff_find_given, elem_of_element.
  destruct (given n effs); auto.
Qed.
Lemma given_in k effs e : given k effs = Some e -> In (k, e) effs.
Proof.
  unfold given. intro H. destruct (find _ effs) as [[k' v]|] eqn:F; [|discriminate].
  apply find_some in F as (I & E). simpl in *. apply Z.eqb_eq in E. injection H as ->. subst. auto.
Qed.
Lemma eff_nonneg effs n : (forall e, In e effs -> 0 <= snd e) -> 0 <= efficiency effs n.
Proof.
  intro H. unfold efficiency.
  destruct (given n effs) as [e|] eqn:E; [apply given_in in E; apply (H _ E)|].
  destruct (given (element n) effs) as [e|] eqn:E'; [apply given_in in E'; apply (H _ E')|lra].
Qed.

(** ** SepMaterial *)
Definition sepcomp effs (cm : comp) : comp :=
  flat_map (fun e => match eff_for effs (fst e) with
                     | Some eff => [(fst e, snd e * eff)] | None => [] end) cm.
Lemma cget_sepcomp effs cm n : cget n (sepcomp effs cm) == efficiency effs n * cget n cm.
Proof.
  rewrite eff_for_efficiency.
  induction cm as [|[k v] cm IH]; [simpl; lra|]. unfold sepcomp in *. cbn [flat_map fst snd].
  rewrite cget_app, IH. cbn [cget].
  destruct (Z.eqb_spec k n) as [->|E].
  - destruct (eff_for effs n); simpl; [rewrite Z.eqb_refl|]; ring.
  - destruct (eff_for effs k) as [e|]; simpl.
    + destruct (Z.eqb_spec k n); [contradiction|]. ring.
    + ring.
Qed.
Lemma sepcomp_keys effs cm : incl (map fst (sepcomp effs cm)) (map fst cm).
Proof.
  intros n H. induction cm as [|[k v] cm IH]; simpl in *; auto.
  rewrite map_app, in_app_iff in H. destruct H as [H|H]; auto.
  destruct (eff_for effs k); simpl in H; [tauto|contradiction].
Qed.
(** The relevant facts about a staged material. *)
Definition staged_ok (m : mat) (effs : list (Z * Q)) (x : mat) : Prop :=
  comp_ok (m_comp x) /\ m_qty x = csum (m_comp x) /\
  (forall n, cget n (m_comp x) == efficiency effs n * mass_of m n) /\
  incl (map fst (m_comp x)) (map fst (m_comp m)).
Lemma sep_facts effs m x : sep_material effs m = Ok x -> staged_ok m effs x.
Proof.
  unfold sep_material. fold (sepcomp effs (ccanon (cnorm (m_qty m) (m_comp m)))).
  destruct (all_nonneg _) eqn:A; [|discriminate]. intro H. injection H as <-. simpl.
  apply all_nonneg_iff in A. split; [exact A|]. split; [reflexivity|]. split.
  - intro n. simpl. rewrite cget_sepcomp, cget_ccanon. reflexivity.
  - simpl. intros n I. apply sepcomp_keys in I. rewrite ccanon_keys in I. apply ckeys_in in I.
    rewrite cnorm_keys in I. auto.
Qed.
Lemma sep_succeeds effs m : (forall e, In e effs -> 0 <= snd e) -> mat_qok m ->
  exists x, sep_material effs m = Ok x.
Proof.
  intros He (Hq & Hc). unfold sep_material. fold (sepcomp effs (ccanon (cnorm (m_qty m) (m_comp m)))).
  assert (O : comp_ok (sepcomp effs (ccanon (cnorm (m_qty m) (m_comp m))))).
  { pose proof (ccanon_ok _ (cnorm_ok _ _ Hq Hc)) as O. revert O.
    generalize (ccanon (cnorm (m_qty m) (m_comp m))). intros cm O.
    induction O as [|[k v] cm Hv O IH]; [constructor|]. unfold sepcomp. simpl.
    apply Forall_app. split; [|exact IH].
    destruct (eff_for effs k) as [e|] eqn:E; constructor; simpl; [|constructor].
    pose proof (eff_nonneg effs k He) as Ne. rewrite eff_for_efficiency, E in Ne.
    simpl in Hv. apply Qmult_le_0_compat; auto. }
  apply all_nonneg_iff in O. rewrite O. eauto.
Qed.
Lemma staged_share m effs x : staged_ok m effs x -> m_qty x == share effs m.
Proof.
  intros (C & E & G & I). rewrite E.
  rewrite <- (sum_over_keys (m_comp x) (nuclides m)).
  - apply qsum_map_ext. intros n _. apply G.
  - apply ckeys_nodup.
  - intros n H. apply ckeys_in. apply I. auto.
Qed.
Lemma share_nonneg effs m : (forall e, In e effs -> 0 <= snd e) -> mat_qok m -> 0 <= share effs m.
Proof.
  intros He (Hq & Hc). unfold share. apply qsum_nonneg. rewrite Forall_forall.
  intros v H. apply in_map_iff in H as (n & <- & _). apply Qmult_le_0_compat.
  - apply eff_nonneg; auto.
  - apply cget_nonneg. apply cnorm_ok; auto.
Qed.
Lemma qsum_swap {A B} (g : A -> B -> Q) (la : list A) (lb : list B) :
  qsum (map (fun a => qsum (map (fun b => g a b) lb)) la) ==
  qsum (map (fun b => qsum (map (fun a => g a b) la)) lb).
Proof.
  induction la as [|a la IH]; simpl.
  - induction lb as [|b lb IHb]; simpl; [lra|]. rewrite <- IHb. lra.
  - rewrite IH. induction lb as [|b lb IHb]; simpl; [lra|].
    assert (X : forall u v w z y x : Q, u + v == w -> (x + u) + (y + v) == (x + y) + w) by (intros; lra).
    pose proof (qsum_map_plus (fun b => g a b) (fun b => qsum (map (fun a0 => g a0 b) la)) lb) as P.
    clear IHb. simpl in *. rewrite P. ring.
Qed.
(** Shares never exceed the material when the efficiencies are sane. *)
Lemma shares_le cfg m : efficiencies_sane cfg -> mat_ok m ->
  qsum (map (fun st => share (st_effs st) m) (pc_streams cfg)) <= m_qty m.
Proof.
  intros (En & Es) Om. unfold share.
  rewrite (qsum_swap (fun st n => efficiency (st_effs st) n * mass_of m n)).
  assert (T : m_qty m == qsum (map (fun n => mass_of m n) (nuclides m))).
  { rewrite <- (ok_csum m Om).
    rewrite <- (sum_over_keys (cnorm (m_qty m) (m_comp m)) (nuclides m)); [reflexivity|apply ckeys_nodup|].
    intros n H. rewrite cnorm_keys in H. apply ckeys_in, H. }
  rewrite T. clear T. induction (nuclides m) as [|n l IH]; simpl; [lra|].
  apply Qplus_le_compat; auto.
  assert (Z : qsum (map (fun st => efficiency (st_effs st) n * mass_of m n) (pc_streams cfg)) ==
              mass_of m n * qsum (map (fun st => efficiency (st_effs st) n) (pc_streams cfg))).
  { clear. induction (pc_streams cfg) as [|st l' IH']; simpl; [lra|]. rewrite IH'. ring. }
  rewrite Z. pose proof (mass_nonneg m n Om). specialize (Es n). nra.
Qed.

(** ** First loop *)
Definition limits (s : sp_state) (f : Q) (st : sp_stream) (nm : string * mat) : Prop :=
  forall sp, b_space (stream_buf s (st_name st)) = Some sp -> 0 < m_qty (snd nm) -> f * m_qty (snd nm) <= sp.
Lemma b_space_nonneg b sp : b_space b = Some sp -> 0 <= sp.
Proof.
  unfold b_space. destruct (b_cap b); [|discriminate]. intro H. injection H as <-. apply Q.le_max_l.
Qed.
Lemma stage_loop s m strs : forall acc f0 staged f,
  loop (stage_one s m) strs (acc, f0) = Ok (staged, f) -> 0 <= f0 ->
  exists l, staged = acc ++ l /\ 0 <= f /\ f <= f0 /\
    Forall2 (fun st nm => fst nm = st_name st /\ sep_material (st_effs st) m = Ok (snd nm)) strs l /\
    Forall2 (limits s f) strs l /\
    (f = f0 \/ exists st x sp, In st strs /\ sep_material (st_effs st) m = Ok x /\
       b_space (stream_buf s (st_name st)) = Some sp /\ 0 < m_qty x /\ f * m_qty x == sp).
Proof.
  induction strs as [|st strs IH]; intros acc f0 staged f H Hf; simpl in H.
  - injection H as <- <-. exists []. rewrite app_nil_r. repeat split; auto; try lra; constructor.
  - apply bind_ok in H as ([acc1 f1] & H1 & H2). unfold stage_one in H1.
    apply bind_ok in H1 as (x & Sx & E1). injection E1 as <- E1.
    assert (F1 : 0 <= f1 /\ f1 <= f0 /\ limits s f1 st (st_name st, x) /\
      (f1 = f0 \/ exists sp, b_space (stream_buf s (st_name st)) = Some sp /\ 0 < m_qty x /\ f1 * m_qty x == sp)).
    { unfold limits. unfold stream_buf.
      destruct (b_space (bm_get (st_name st) (ps_streams s))) as [sp|] eqn:Sp.
      - pose proof (b_space_nonneg _ _ Sp) as Nsp.
        destruct (Qltb 0 (m_qty x)) eqn:P.
        + apply Qltb_true in P. simpl in E1.
          assert (N : 0 <= sp / m_qty x) by (apply Qle_shift_div_l; lra).
          assert (K : sp / m_qty x * m_qty x == sp) by (field; lra).
          destruct (Qltb (sp / m_qty x) f0) eqn:L.
          * apply Qltb_true in L. subst f1. split; [auto|]. split; [lra|]. split.
            -- intros sp' E _. injection E as <-. simpl. lra.
            -- right. exists sp. auto.
          * apply Qltb_false in L. subst f1. split; [auto|]. split; [lra|]. split.
            -- intros sp' E _. injection E as <-. simpl. nra.
            -- auto.
        + apply Qltb_false in P. simpl in E1. subst f1. split; [auto|]. split; [lra|]. split; auto.
          intros sp' _ P'. simpl in P'. lra.
      - simpl in E1. subst f1. split; [auto|]. split; [lra|]. split; auto. intros sp' E; discriminate. }
    destruct F1 as (F1a & F1b & F1c & F1d).
    destruct (IH _ _ _ _ H2 F1a) as (l & -> & A & B & C & D & E).
    exists ((st_name st, x) :: l). rewrite <- app_assoc. split; [auto|]. split; [auto|]. split; [lra|].
    split; [constructor; auto|]. split.
    + constructor; auto. intros sp Sp P. specialize (F1c sp Sp P). simpl in *. nra.
    + destruct E as [E|(st' & x' & sp & I & R)].
      * destruct F1d as [F|(sp & X & Y & W)]; [left; congruence|].
        right. exists st, x, sp. rewrite E. simpl. auto.
      * right. exists st', x', sp. simpl. tauto.
Qed.
Lemma stage_loop_ok s m strs : forall st0,
  (forall st e, In st strs -> In e (st_effs st) -> 0 <= snd e) -> mat_qok m ->
  exists r, loop (stage_one s m) strs st0 = Ok r.
Proof.
  induction strs as [|st strs IH]; intros st0 He Hm; simpl; eauto.
  destruct (sep_succeeds (st_effs st) m (fun e H => He st e (or_introl eq_refl) H) Hm) as (x & Hx).
  unfold stage_one at 1. destruct st0 as [acc f0]. rewrite Hx. simpl.
  apply IH; auto. intros st' e A B. apply (He st' e); simpl; auto.
Qed.

(** ** Second loop *)
Lemma touch_get k k2 bm : bm_get k2 (bm_set k (bm_get k bm) bm) = bm_get k2 bm.
Proof.
  destruct (string_dec k2 k) as [->|D]; [apply bm_get_set_same|apply bm_get_set_other; auto].
Qed.
Lemma touch_qty k bm : bm_qty (bm_set k (bm_get k bm) bm) == bm_qty bm.
Proof. rewrite bm_qty_set. lra. Qed.
Lemma touch_mass n k bm : bm_mass n (bm_set k (bm_get k bm) bm) == bm_mass n bm.
Proof. rewrite bm_mass_set. lra. Qed.

(** One extraction, when it succeeds. *)
Lemma extract_one_inv eps f mat0 bm seps series name x st' :
  extract_one eps f (mat0, bm, seps, series) (name, x) = Ok st' ->
  exists mat1 bm1 seps1, st' = (mat1, bm_set name (bm_get name bm1) bm1, seps1,
      series ++ [(name, b_qty (bm_get name bm1))]) /\
   ((m_qty x <= 0 /\ mat1 = mat0 /\ bm1 = bm /\ seps1 = seps) \/
    (0 < m_qty x /\ exists q out b, q = (if Qltb (m_qty mat0) (m_qty x) then m_qty mat0 else m_qty x) /\
       extract_comp eps (q * f) (m_comp x) mat0 = Ok (out, mat1) /\
       b_push eps (bm_get name bm) out = Ok b /\ bm1 = bm_set name b bm /\
       seps1 = seps ++ [(name, q * f)])).
Proof.
  unfold extract_one. intro H. apply bind_ok in H as ([[mat1 bm1] seps1] & H1 & E).
  injection E as <-. exists mat1, bm1, seps1. split; [auto|].
  destruct (Qltb 0 (m_qty x)) eqn:P.
  - apply Qltb_true in P. right. split; auto. cbv zeta in H1.
    apply bind_ok in H1 as ([out rest] & X & H1). apply bind_ok in H1 as (b & B & H1).
    injection H1 as <- <- <-. do 3 eexists. split; [reflexivity|]. split; [exact X|]. split; [exact B|]. auto.
  - apply Qltb_false in P. left. injection H1 as <- <- <-. auto.
Qed.
Lemma min_if a b : (if Qltb a b then a else b) <= a /\ (if Qltb a b then a else b) <= b.
Proof.
  destruct (Qltb a b) eqn:E; [apply Qltb_true in E|apply Qltb_false in E]; split; lra.
Qed.

Lemma extract_total eps f l : forall mat0 bm seps series mat1 bm1 seps1 series1,
  loop (extract_one eps f) l (mat0, bm, seps, series) = Ok (mat1, bm1, seps1, series1) ->
  0 <= f -> 0 <= m_qty mat0 -> bm_all qtys_ok bm ->
  m_qty mat1 + bm_qty bm1 == m_qty mat0 + bm_qty bm /\ 0 <= m_qty mat1 /\ m_qty mat1 <= m_qty mat0 /\
  bm_all qtys_ok bm1 /\ (NoDup (map fst bm) -> NoDup (map fst bm1)).
Proof.
  induction l as [|[name x] l IH]; intros mat0 bm seps series mat1 bm1 seps1 series1 H Hf Hm Hb; simpl in H.
  - injection H as <- <- <- <-. repeat split; auto; lra.
  - apply bind_ok in H as (st & H1 & H2).
    apply extract_one_inv in H1 as (mat' & bm' & seps' & -> & D).
    assert (K : m_qty mat' + bm_qty bm' == m_qty mat0 + bm_qty bm /\ 0 <= m_qty mat' /\
       m_qty mat' <= m_qty mat0 /\ bm_all qtys_ok bm' /\ (NoDup (map fst bm) -> NoDup (map fst bm'))).
    { destruct D as [(_ & -> & -> & _)|(P & q & out & b & -> & X & B & -> & _)].
      - repeat split; auto; lra.
      - set (q := if Qltb (m_qty mat0) (m_qty x) then m_qty mat0 else m_qty x) in *.
        assert (Nq : 0 <= q) by (unfold q; destruct (Qltb _ _); lra).
        assert (Nqf : 0 <= q * f) by (apply Qmult_le_0_compat; auto).
        apply extract_comp_facts in X as (X1 & X2 & X3 & X4 & X5 & X6).
        apply b_push_facts in B as (B1 & B2 & B3).
        assert (Eb : b_qty b == b_qty (bm_get name bm) + q * f).
        { unfold b_qty. rewrite B2, qty_of_app, qty_of_cons, qty_of_nil, X1. lra. }
        rewrite bm_qty_set, X3. split; [lra|]. split; [lra|]. split; [lra|]. split.
        + apply bm_all_set; auto. rewrite B2. apply Forall_app. split.
          * apply (bm_all_get qtys_ok); auto. constructor.
          * constructor; [rewrite X1; auto|constructor].
        + apply bm_nodup_set. }
    destruct K as (K1 & K2 & K3 & K4 & K5).
    assert (K4' : bm_all qtys_ok (bm_set name (bm_get name bm') bm')).
    { apply bm_all_set; auto. apply (bm_all_get qtys_ok); auto. constructor. }
    destruct (IH _ _ _ _ _ _ _ _ H2 Hf K2 K4') as (R1 & R2 & R3 & R4 & R5).
    rewrite touch_qty in R1. split; [lra|]. split; [auto|]. split; [lra|]. split; [auto|].
    intro N. apply R5. apply bm_nodup_set. auto.
Qed.

(** Mass drift of the second loop. *)
Definition tracked (m : mat) (nm : string * mat) : Prop :=
  comp_ok (m_comp (snd nm)) /\ m_qty (snd nm) = csum (m_comp (snd nm)) /\
  incl (map fst (m_comp (snd nm))) (map fst (m_comp m)).
Lemma extract_drift eps f l n : forall mat0 bm seps series mat1 bm1 seps1 series1,
  loop (extract_one eps f) l (mat0, bm, seps, series) = Ok (mat1, bm1, seps1, series1) ->
  0 <= eps -> 0 <= f -> mat_qok mat0 -> Forall (tracked mat0) l ->
  mat_qok mat1 /\
  Qabs (mass_of mat1 n + bm_mass n bm1 - (mass_of mat0 n + bm_mass n bm)) <=
    inject_Z (zlen l) * (eps * inject_Z (zlen (nuclides mat0))).
Proof.
  induction l as [|[name x] l IH]; intros mat0 bm seps series mat1 bm1 seps1 series1 H He Hf Hm Hl; simpl in H.
  - injection H as <- <- <- <-. split; auto.
    assert (Z : mass_of mat0 n + bm_mass n bm - (mass_of mat0 n + bm_mass n bm) == 0) by lra.
    rewrite Z. change (inject_Z (zlen (@nil (string * mat)))) with 0. rewrite Qmult_0_l. discriminate.
  - apply bind_ok in H as (st & H1 & H2).
    apply extract_one_inv in H1 as (mat' & bm' & seps' & -> & D).
    inversion Hl as [|? ? (T1 & T2 & T3) Hl']; subst. simpl in T1, T2, T3.
    set (B := eps * inject_Z (zlen (nuclides mat0))).
    assert (NB : 0 <= B).
    { apply Qmult_le_0_compat; auto. change 0 with (inject_Z 0). rewrite <- Zle_Qle. unfold zlen. lia. }
    assert (K : mat_qok mat' /\ Qabs (mass_of mat' n + bm_mass n bm' - (mass_of mat0 n + bm_mass n bm)) <= B /\
       (forall k, In k (map fst (m_comp mat')) <-> In k (map fst (m_comp mat0))) /\
       List.length (nuclides mat') = List.length (nuclides mat0)).
    { destruct D as [(_ & -> & -> & _)|(P & q & out & b & -> & X & Bp & -> & _)].
      - split; auto. split; [|split; [tauto|auto]].
        assert (Z : mass_of mat0 n + bm_mass n bm - (mass_of mat0 n + bm_mass n bm) == 0) by lra.
        rewrite Z. exact NB.
      - set (q := if Qltb (m_qty mat0) (m_qty x) then m_qty mat0 else m_qty x) in *.
        destruct Hm as (Hm1 & Hm2).
        assert (Nq : 0 <= q) by (unfold q; destruct (Qltb _ _); lra).
        assert (Nqf : 0 <= q * f) by (apply Qmult_le_0_compat; auto).
        destruct (extract_comp_bound eps (q * f) (m_comp x) mat0 out mat' n He Nqf (conj Hm1 Hm2)
                    (fun _ => I) T1 ltac:(rewrite <- T2; exact P) T3 X) as (Y1 & Y2).
        destruct (extract_comp_keys _ _ _ _ _ _ T3 X) as (_ & Y3 & Y4).
        apply b_push_facts in Bp as (_ & B2 & _).
        split; auto. split; [|split; auto].
        assert (Z : mass_of mat' n + bm_mass n (bm_set name b bm) - (mass_of mat0 n + bm_mass n bm) ==
                    mass_of out n + mass_of mat' n - mass_of mat0 n).
        { rewrite bm_mass_set, B2, mass_in_app, mass_in_cons, mass_in_nil. lra. }
        rewrite Z. exact Y2. }
    destruct K as (K1 & K2 & K3 & K4).
    assert (Hl2 : Forall (tracked mat') l).
    { eapply Forall_impl; [|exact Hl']. intros nm (A1 & A2 & A3). split; auto. split; auto.
      intros k Hk. apply K3, A3, Hk. }
    destruct (IH _ _ _ _ _ _ _ _ H2 He Hf K1 Hl2) as (R1 & R2). split; auto.
    assert (Zl : zlen (nuclides mat') = zlen (nuclides mat0)) by (unfold zlen; rewrite K4; auto).
    rewrite Zl in R2. fold B in R2.
    assert (L : inject_Z (zlen ((name, x) :: l)) == inject_Z (zlen l) + 1).
    { unfold zlen. cbn [List.length]. rewrite Nat2Z.inj_succ, <- Z.add_1_r, inject_Z_plus. reflexivity. }
    rewrite L. rewrite touch_mass in R2.
    set (P := inject_Z (zlen l)) in *.
    assert (Dp : (P + 1) * B == P * B + B) by ring. rewrite Dp.
    set (PB := P * B) in *.
    rewrite Qabs_Qle_condition in K2, R2 |- *. destruct K2, R2. split; lra.
Qed.

(** What reaches each stream when the shares fit into the material. *)
Definition stream_gain (id : Z) (f : Q) (x : mat) : list mat :=
  if Qltb 0 (m_qty x) then [{| m_id := id; m_qty := m_qty x * f; m_comp := m_comp x |}] else [].
Lemma extract_streams eps f l : forall mat0 bm seps series mat1 bm1 seps1 series1,
  loop (extract_one eps f) l (mat0, bm, seps, series) = Ok (mat1, bm1, seps1, series1) ->
  0 <= f <= 1 -> NoDup (map fst l) ->
  Forall (fun nm => 0 <= m_qty (snd nm)) l ->
  qsum (map (fun nm => m_qty (snd nm)) l) <= m_qty mat0 ->
  m_qty mat1 == m_qty mat0 - f * qsum (map (fun nm => m_qty (snd nm)) l) /\
  m_id mat1 = m_id mat0 /\
  (forall name, ~ In name (map fst l) -> bm_get name bm1 = bm_get name bm) /\
  (forall name x, In (name, x) l -> b_cap (bm_get name bm1) = b_cap (bm_get name bm) /\
     b_items (bm_get name bm1) = b_items (bm_get name bm) ++ stream_gain (m_id mat0) f x) /\
  seps1 = seps ++ flat_map (fun nm => map (fun y => (fst nm, m_qty y)) (stream_gain (m_id mat0) f (snd nm))) l /\
  series1 = series ++ map (fun nm => (fst nm, b_qty (bm_get (fst nm) bm1))) l.
Proof.
  induction l as [|[name x] l IH]; intros mat0 bm seps series mat1 bm1 seps1 series1 H Hf ND Hx Hs; simpl in H.
  - injection H as <- <- <- <-. simpl. rewrite !app_nil_r. split; [lra|]. repeat split; auto; contradiction.
  - apply bind_ok in H as (st & H1 & H2).
    apply extract_one_inv in H1 as (mat' & bm' & seps' & -> & D).
    inversion ND as [|? ? N ND']; subst. inversion Hx as [|? ? Hx0 Hx']; subst. simpl in Hx0, Hs.
    assert (Srest : 0 <= qsum (map (fun nm => m_qty (snd nm)) l)).
    { apply qsum_nonneg. rewrite Forall_map. auto. }
    assert (K : m_qty mat' == m_qty mat0 - f * m_qty x /\ m_id mat' = m_id mat0 /\
       (forall k, k <> name -> bm_get k bm' = bm_get k bm) /\
       b_cap (bm_get name bm') = b_cap (bm_get name bm) /\
       b_items (bm_get name bm') = b_items (bm_get name bm) ++ stream_gain (m_id mat0) f x /\
       seps' = seps ++ map (fun y => (name, m_qty y)) (stream_gain (m_id mat0) f x)).
    { unfold stream_gain.
      destruct D as [(P & -> & -> & ->)|(P & q & out & b & Eq & X & Bp & -> & ->)].
      - assert (E : Qltb 0 (m_qty x) = false).
        { destruct (Qltb 0 (m_qty x)) eqn:E; auto. apply Qltb_true in E. lra. }
        rewrite E. simpl. rewrite !app_nil_r.
        assert (Z : m_qty x == 0) by lra. rewrite Z. split; [lra|]. repeat split; auto.
      - assert (E : Qltb 0 (m_qty x) = true).
        { destruct (Qltb 0 (m_qty x)) eqn:E; auto. apply Qltb_false in E. lra. }
        rewrite E. simpl.
        assert (E2 : Qltb (m_qty mat0) (m_qty x) = false).
        { destruct (Qltb (m_qty mat0) (m_qty x)) eqn:E2; auto. apply Qltb_true in E2. lra. }
        rewrite E2 in Eq. subst q.
        assert (Eid : out = {| m_id := m_id mat0; m_qty := m_qty x * f; m_comp := m_comp x |} /\ m_id mat' = m_id mat0).
        { unfold extract_comp in X. destruct (Qltb _ _); [discriminate|]. destruct (all_nonneg _); [|discriminate].
          injection X as <- <-. auto. }
        destruct Eid as (-> & Eid).
        apply extract_comp_facts in X as (_ & _ & X3 & _).
        apply b_push_facts in Bp as (B1 & B2 & _).
        rewrite bm_get_set_same. split; [rewrite X3; ring|]. split; [auto|]. split; [|auto].
        intros k Hk. apply bm_get_set_other; auto. }
    destruct K as (K1 & K2 & K3 & K4 & K5 & K6).
    assert (Hs' : qsum (map (fun nm => m_qty (snd nm)) l) <= m_qty mat') by (rewrite K1; nra).
    destruct (IH _ _ _ _ _ _ _ _ H2 Hf ND' Hx' Hs') as (R1 & R2 & R3 & R4 & R5 & R6).
    rewrite K2 in *. simpl in N.
    assert (G1 : bm_get name bm1 = bm_get name bm') by (rewrite (R3 name N); apply touch_get).
    split; [rewrite R1, K1; simpl; ring|]. split; [auto|]. split.
    { intros k Hk. simpl in Hk. rewrite R3 by tauto. rewrite touch_get. apply K3. intro; subst; tauto. }
    split.
    { intros k y [E|I].
      - injection E as <- <-. rewrite G1. auto.
      - destruct (R4 k y I) as (A & B). rewrite touch_get in A, B.
        assert (k <> name) by (intros ->; apply N; apply in_map_iff; exists (name, y); auto).
        rewrite A, B, K3 by auto. auto. }
    split.
    + rewrite R5, K6. simpl. rewrite app_assoc. reflexivity.
    + rewrite R6. simpl. rewrite <- app_assoc. simpl. rewrite G1. reflexivity.
Qed.

(** The second loop succeeds and is exact when no traces arise. *)
Lemma extract_exact eps f l : forall mat0 bm seps series,
  0 <= eps -> 0 <= f <= 1 -> NoDup (map fst l) -> mat_ok mat0 ->
  Forall (fun nm => comp_ok (m_comp (snd nm)) /\ m_qty (snd nm) = csum (m_comp (snd nm))) l ->
  qsum (map (fun nm => m_qty (snd nm)) l) <= m_qty mat0 ->
  Forall (fun nm => 0 < m_qty (snd nm) -> match b_cap (bm_get (fst nm) bm) with
                    | None => True
                    | Some c => m_qty (snd nm) * f <= Qmax 0 (c - b_qty (bm_get (fst nm) bm)) + eps end) l ->
  (forall l1 l2 n, l = l1 ++ l2 ->
     let r := mass_of mat0 n - f * qsum (map (fun nm => cget n (m_comp (snd nm))) l1) in
     0 <= r /\ (r == 0 \/ eps <= r)) ->
  exists mat1 bm1 seps1 series1,
    loop (extract_one eps f) l (mat0, bm, seps, series) = Ok (mat1, bm1, seps1, series1) /\
    mat_ok mat1 /\
    (forall n, mass_of mat1 n == mass_of mat0 n - f * qsum (map (fun nm => cget n (m_comp (snd nm))) l)) /\
    (forall n, mass_of mat1 n + bm_mass n bm1 == mass_of mat0 n + bm_mass n bm).
Proof.
  induction l as [|[name x] l IH]; intros mat0 bm seps series He Hf ND Om Hx Hs Hroom Ht.
  - simpl. do 4 eexists. split; [reflexivity|]. split; [auto|]. split; intro n; lra.
  - inversion ND as [|? ? N ND']; subst. inversion Hx as [|? ? (Hc & Hq) Hx']; subst.
    inversion Hroom as [|? ? Hr Hroom']; subst. cbn [fst snd] in *.
    assert (Nx : 0 <= m_qty x) by (rewrite Hq; apply csum_nonneg; auto).
    assert (Srest : 0 <= qsum (map (fun nm => m_qty (snd nm)) l)).
    { apply qsum_nonneg. rewrite Forall_map. eapply Forall_impl; [|exact Hx']. intros nm (A & ->). apply csum_nonneg; auto. }
    cbn [map qsum snd] in Hs. unfold qsum in Hs; simpl in Hs; fold (qsum (map (fun nm : string * mat => m_qty (snd nm)) l)) in Hs.
    assert (Hs0 : m_qty x + qsum (map (fun nm => m_qty (snd nm)) l) <= m_qty mat0) by exact Hs.
    (* the step *)
    assert (STEP : exists mat' bm' seps' series',
       extract_one eps f (mat0, bm, seps, series) (name, x) = Ok (mat', bm', seps', series') /\
       mat_ok mat' /\ m_qty mat' == m_qty mat0 - f * m_qty x /\
       (forall n, mass_of mat' n == mass_of mat0 n - f * cget n (m_comp x)) /\
       (forall k, k <> name -> bm_get k bm' = bm_get k bm) /\
       (forall n, mass_of mat' n + bm_mass n bm' == mass_of mat0 n + bm_mass n bm)).
    { unfold extract_one. destruct (Qltb 0 (m_qty x)) eqn:P.
      - apply Qltb_true in P.
        assert (E2 : Qltb (m_qty mat0) (m_qty x) = false).
        { destruct (Qltb (m_qty mat0) (m_qty x)) eqn:E2; auto. apply Qltb_true in E2. lra. }
        rewrite E2. cbv zeta.
        assert (Nqf : 0 <= m_qty x * f) by (apply Qmult_le_0_compat; lra).
        assert (Lqf : m_qty x * f <= m_qty mat0) by nra.
        assert (Pc : 0 < csum (m_comp x)) by (rewrite <- Hq; auto).
        assert (G : forall n, cget n (cnorm (m_qty x * f) (m_comp x)) == f * cget n (m_comp x)).
        { intro n. rewrite cget_cnorm by auto. rewrite Hq. field. lra. }
        destruct (extract_comp_exact eps (m_qty x * f) (m_comp x) mat0 He Nqf Lqf Om Hc Pc) as (b & X & Ob & Qb & Mb).
        { intro n. destruct (Ht [(name, x)] l n eq_refl) as (A & B). cbn [map qsum snd] in A, B.
          unfold qsum in A, B; simpl in A, B.
          assert (Z : mass_of mat0 n - cget n (cnorm (m_qty x * f) (m_comp x)) ==
                      mass_of mat0 n - f * (cget n (m_comp x) + 0)) by (rewrite G; ring).
          rewrite Z. auto. }
        rewrite X. simpl.
        rewrite b_push_ok; [|simpl; apply Hr; auto]. simpl.
        do 4 eexists. split; [reflexivity|]. split; [auto|]. split; [rewrite Qb; ring|]. split.
        + intro n. rewrite Mb, G. reflexivity.
        + split.
          * intros k Hk. rewrite touch_get. apply bm_get_set_other; auto.
          * intro n. rewrite touch_mass, bm_mass_set. cbn [b_items]. rewrite mass_in_app, mass_in_cons, mass_in_nil, Mb.
            unfold mass_of at 2. cbn [m_qty m_comp]. lra.
      - apply Qltb_false in P. simpl. do 4 eexists. split; [reflexivity|]. split; [auto|].
        assert (Z : m_qty x == 0) by lra. split; [rewrite Z; lra|]. split.
        + intro n. rewrite (csum_zero_cget n (m_comp x) Hc) by (rewrite <- Hq; auto). lra.
        + split; [intros k Hk; apply touch_get|]. intro n. rewrite touch_mass. reflexivity. }
    destruct STEP as (mat' & bm' & seps' & series' & E & Om' & Qm' & Mm' & G' & C').
    cbn [loop]. rewrite E. cbn [bind].
    destruct (IH mat' bm' seps' series') as (mat1 & bm1 & seps1 & series1 & L & O1 & M1 & C1); auto.
    + rewrite Qm'. nra.
    + eapply Forall_impl; [|apply Forall_and; [exact Hroom'|]].
      2:{ rewrite Forall_forall. intros nm I. exact (I : In nm l). }
      intros nm (R & I). intro P. specialize (R P).
      assert (fst nm <> name) by (intros <-; apply N; apply in_map; auto).
      rewrite G' by auto. exact R.
    + intros l1 l2 n El. set (r := mass_of mat' n - f * qsum (map (fun nm => cget n (m_comp (snd nm))) l1)).
      destruct (Ht ((name, x) :: l1) l2 n) as (A & B); [rewrite El; reflexivity|].
      assert (Z : r == mass_of mat0 n - f * qsum (map (fun nm => cget n (m_comp (snd nm))) ((name, x) :: l1))).
      { unfold r. rewrite Mm'. simpl. ring. }
      rewrite Z. auto.
    + do 4 eexists. split; [exact L|]. split; [auto|]. split.
      * intro n. rewrite M1, Mm'. simpl. ring.
      * intro n. rewrite C1. apply C'.
Qed.
