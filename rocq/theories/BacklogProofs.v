(** Proofs for C118. *)
From Coq Require Import Lia Lqa.
From Verif Require Import Outcome KernelMaterial KernelResBuf KernelFacts KernelMass ConversionModel ConversionSpec ConversionProofs
  StorageModel StorageSpec StorageProofs StorageGlue BacklogSpec.
Local Open Scope Q_scope.

Lemma full_nil {A} t : at_full t (@nil A) == 0.
Proof. unfold at_full. change (zlen (@nil A)) with 0%Z. ring. Qed.
Lemma full_app {A} t (l : list A) x : at_full t (l ++ [x]) == at_full t l + t.
Proof. unfold at_full, zlen. rewrite app_length, Nat2Z.inj_add, inject_Z_plus. cbn. ring. Qed.
(** The last step of a split history. *)
Lemma split_last {A} (es : list A) e before x after : es ++ [e] = before ++ x :: after ->
  (before = es /\ x = e /\ after = []) \/ exists after', after = after' ++ [e] /\ es = before ++ x :: after'.
Proof.
  intro H. destruct (exists_last (l := x :: after)) as (l & y & E); [discriminate|]. rewrite E, app_assoc in H. apply app_inj_tail in H as [H ->].
  destruct l as [|z l]; cbn in E; injection E as E1 E2; subst.
  - left. rewrite app_nil_r. auto.
  - right. exists l. auto.
Qed.
Lemma cv_run_last eps cfg es e : forall s s' os', cv_run eps cfg s (es ++ [e]) = Ok (s', os') ->
  exists s1 os o, cv_run eps cfg s es = Ok (s1, os) /\ cv_step eps cfg s1 e = Ok (s', o) /\ os' = os ++ [o].
Proof.
  induction es as [|x es IH]; intros s s' os'; cbn [app cv_run].
  - destruct (cv_step eps cfg s e) as [[s1 o]| | |] eqn:S0; try discriminate. cbn. intro H. injection H as <- <-. exists s, [], o. auto.
  - destruct (cv_step eps cfg s x) as [[s1 o]| | |] eqn:S1; try discriminate. cbn [bind]. destruct (cv_run eps cfg s1 (es ++ [e])) as [[s2 os]| | |] eqn:R; try discriminate.
    cbn [bind]. intro H. injection H as <- <-. destruct (IH _ _ _ R) as (s3 & os3 & o3 & R3 & S3 & ->). exists s3, (o :: os3), o3. rewrite R3. cbn. auto.
Qed.
Lemma st_run_last eps cfg es e : forall s s' os', st_run eps cfg s (es ++ [e]) = Ok (s', os') ->
  exists s1 os o, st_run eps cfg s es = Ok (s1, os) /\ st_step eps cfg s1 e = Ok (s', o) /\ os' = os ++ [o].
Proof.
  induction es as [|x es IH]; intros s s' os'; cbn [app st_run].
  - destruct (st_step eps cfg s e) as [[s1 o]| | |] eqn:S0; try discriminate. cbn. intro H. injection H as <- <-. exists s, [], o. auto.
  - destruct (st_step eps cfg s x) as [[s1 o]| | |] eqn:S1; try discriminate. cbn [bind]. destruct (st_run eps cfg s1 (es ++ [e])) as [[s2 os]| | |] eqn:R; try discriminate.
    cbn [bind]. intro H. injection H as <- <-. destruct (IH _ _ _ R) as (s3 & os3 & o3 & R3 & S3 & ->). exists s3, (o :: os3), o3. rewrite R3. cbn. auto.
Qed.

(** ** Conversion *)
Lemma converted_rest eps cfg es s os : 0 <= vc_throughput cfg -> mats_ok (cv_received es) -> cv_run eps cfg cv_empty es = Ok (s, os) ->
  converted s os == qty_of (cv_received es) - qty_of (vs_input s).
Proof. intros T M R. destruct (conv_conserved eps cfg es s os T M R) as [C _]. unfold converted. lra. Qed.
Lemma converted_step eps cfg es e s os s' o : 0 <= vc_throughput cfg -> mats_ok (cv_received (es ++ [e])) -> cv_run eps cfg cv_empty es = Ok (s, os) ->
  cv_step eps cfg s e = Ok (s', o) -> cv_run eps cfg cv_empty (es ++ [e]) = Ok (s', os ++ [o]) ->
  converted s' (os ++ [o]) == Qmin (converted s os + vc_throughput cfg) (qty_of (cv_received es)).
Proof.
  intros T M R S1 R1. pose proof (converted_rest _ _ _ _ _ T M R1) as C1.
  assert (M0 : mats_ok (cv_received es)) by (rewrite cv_received_app in M; apply mats_ok_app in M; apply M).
  pose proof (converted_rest _ _ _ _ _ T M0 R) as C0.
  destruct (conv_throughput eps cfg es e s os s' o T M R S1) as (_ & I & _). destruct (conv_reach eps cfg es e s os T M R) as [MS ME].
  destruct (cv_step_inv eps cfg s e s' o MS ME T S1) as (_ & (Si & _) & _ & _ & _ & Ac & _). destruct (cv_accept_facts _ _ _ _ _ Si ME Ac) as (_ & _ & B & _).
  rewrite cv_received_app, qty_of_app in C1. unfold cv_received in C1 at 2. cbn [flat_map] in C1. rewrite app_nil_r in C1.
  revert I. apply Q.min_case_strong; [intros x y E H1 H2; rewrite E in H1; apply H1, H2| |]; apply Q.min_case_strong; try (intros x y E H1; rewrite <- E; exact H1); lra.
Qed.
Lemma conversion_upto eps cfg es : 0 <= vc_throughput cfg -> forall s os, mats_ok (cv_received es) -> cv_run eps cfg cv_empty es = Ok (s, os) -> es <> [] ->
  (forall before e after, es = before ++ e :: after -> converted s os <= qty_of (cv_received before) + at_full (vc_throughput cfg) after) /\
  (exists before e after, es = before ++ e :: after /\ converted s os == qty_of (cv_received before) + at_full (vc_throughput cfg) after).
Proof.
  intro T. induction es as [|e es IH] using rev_ind; [congruence|]. intros s' os' M R1 _. destruct (cv_run_last _ _ _ _ _ _ _ R1) as (s & os & o & R & S1 & ->).
  pose proof (converted_step _ _ _ _ _ _ _ _ T M R S1 R1) as D. assert (M0 : mats_ok (cv_received es)) by (rewrite cv_received_app in M; apply mats_ok_app in M; apply M).
  assert (D0 : es = [] -> converted s os + vc_throughput cfg >= qty_of (cv_received es)).
  { intros ->. cbn in R. injection R as <- <-. unfold converted, cv_shipped, cv_received. cbn [flat_map vs_output cv_empty]. rewrite qty_of_nil. lra. }
  split.
  - intros before x after E. pose proof (@full_app cv_env (vc_throughput cfg)) as F. destruct (split_last _ _ _ _ _ E) as [(-> & -> & ->)|(after' & -> & E')].
    + rewrite full_nil, D. rewrite Qplus_0_r. apply Q.le_min_r.
    + assert (N : es <> []) by (rewrite E'; destruct before; discriminate). destruct (IH s os M0 R N) as [U _]. specialize (U _ _ _ E').
      rewrite F. pose proof (Q.le_min_l (converted s os + vc_throughput cfg) (qty_of (cv_received es))). lra.
  - destruct (Qlt_le_dec (converted s os + vc_throughput cfg) (qty_of (cv_received es))) as [L|L].
    + assert (N : es <> []) by (intro N; specialize (D0 N); lra). destruct (IH s os M0 R N) as [_ (before & x & after & E & V)].
      exists before, x, (after ++ [e]). split; [rewrite E, <- app_assoc; reflexivity|]. rewrite full_app. rewrite D, Q.min_l by lra. lra.
    + exists es, e, []. split; [reflexivity|]. rewrite full_nil, D, Q.min_r by lra. lra.
Qed.

(** ** Storage *)
Lemma released_step eps cfg es e s os s' o : 0 <= sc_throughput cfg -> sc_discrete cfg = false -> st_history (es ++ [e]) -> st_run eps cfg st_empty es = Ok (s, os) ->
  st_step eps cfg s e = Ok (s', o) -> st_run eps cfg st_empty (es ++ [e]) = Ok (s', os ++ [o]) ->
  qty_of (all_released (os ++ [o])) == Qmin (qty_of (all_released os) + sc_throughput cfg) (matured (sc_residence cfg) (es ++ [e])).
Proof.
  intros T Dc H R S1 R1. destruct (throughput_limit eps cfg es e s os s' o T H R S1) as [_ P]. specialize (P Dc). unfold released in P.
  destruct (residence_exact eps cfg (es ++ [e]) s' (os ++ [o]) H R1) as (_ & _ & G & _).
  destruct (regroup_facts _ _ G) as (_ & Q & _). { apply mats_ok_filter. apply H. }
  unfold matured. rewrite qty_of_app in Q, P. unfold all_released in Q |- *. rewrite flat_map_app, qty_of_app in Q |- *. cbn [flat_map] in Q |- *. rewrite app_nil_r in Q |- *. fold (all_released os) in Q |- *.
  unfold due in Q |- *. rewrite <- Q.
  revert P. apply Q.min_case_strong; [intros x y E H1 H2; rewrite E in H1; apply H1, H2| |]; apply Q.min_case_strong; try (intros x y E H1; rewrite <- E; exact H1); lra.
Qed.
Lemma history_shorter es e : st_history (es ++ [e]) -> st_history es.
Proof. apply history_prefix. Qed.
Lemma split_end {A} (es : list A) e before after : es ++ [e] = before ++ after -> (before = es ++ [e] /\ after = []) \/ exists after', after = after' ++ [e] /\ es = before ++ after'.
Proof.
  intro H. destruct after as [|x after]; [left; rewrite app_nil_r in H; auto|right]. destruct (split_last _ _ _ _ _ H) as [(-> & -> & ->)|(after' & -> & E)].
  - exists []. rewrite app_nil_r. auto.
  - exists (x :: after'). auto.
Qed.
Lemma storage_upto eps cfg es : 0 <= sc_throughput cfg -> sc_discrete cfg = false -> forall s os, st_history es -> st_run eps cfg st_empty es = Ok (s, os) ->
  (forall before after, es = before ++ after -> qty_of (all_released os) <= matured (sc_residence cfg) before + at_full (sc_throughput cfg) after) /\
  (exists before after, es = before ++ after /\ qty_of (all_released os) == matured (sc_residence cfg) before + at_full (sc_throughput cfg) after).
Proof.
  intros T Dc. assert (Z0 : matured (sc_residence cfg) [] == 0) by reflexivity. induction es as [|e es IH] using rev_ind.
  - intros s os _ R. cbn in R. injection R as <- <-. assert (A0 : qty_of (all_released []) == 0) by reflexivity. split.
    + intros before after E. symmetry in E. apply app_eq_nil in E as [-> ->]. rewrite full_nil, Z0, A0. lra.
    + exists [], []. split; [reflexivity|]. rewrite full_nil, Z0, A0. lra.
  - intros s' os' H R1. destruct (st_run_last _ _ _ _ _ _ _ R1) as (s & os & o & R & S1 & ->). pose proof (released_step _ _ _ _ _ _ _ _ T Dc H R S1 R1) as D.
    destruct (IH s os (history_shorter _ _ H) R) as [U (before & after & E & V)]. split.
    + intros b a E2. destruct (split_end _ _ _ _ E2) as [[-> ->]|(a' & -> & E3)].
      * rewrite full_nil, D, Qplus_0_r. apply Q.le_min_r.
      * specialize (U _ _ E3). rewrite full_app. pose proof (Q.le_min_l (qty_of (all_released os) + sc_throughput cfg) (matured (sc_residence cfg) (es ++ [e]))). lra.
    + destruct (Qlt_le_dec (qty_of (all_released os) + sc_throughput cfg) (matured (sc_residence cfg) (es ++ [e]))) as [L|L].
      * exists before, (after ++ [e]). split; [rewrite E, <- app_assoc; reflexivity|]. rewrite full_app, D, Q.min_l by lra. lra.
      * exists (es ++ [e]), []. split; [rewrite app_nil_r; reflexivity|]. rewrite full_nil, D, Q.min_r by lra. lra.
Qed.

(** ** Consequences *)
Lemma quiet_clears eps cfg quiet : 0 <= vc_throughput cfg -> Forall (fun e => ve_receipts e = []) quiet -> forall s s' os, cv_sane s -> cv_run eps cfg s quiet = Ok (s', os) ->
  qty_of (vs_input s') == Qmax 0 (qty_of (vs_input s) - at_full (vc_throughput cfg) quiet).
Proof.
  intros T Q. induction Q as [|e quiet E Q IH]; intros s s' os Sn R.
  - cbn in R. injection R as <- <-. rewrite full_nil. assert (0 <= qty_of (vs_input s)) by (destruct Sn as (Si & _); apply qty_of_nonneg, mats_nonneg, Si). rewrite Q.max_r by lra. lra.
  - cbn [cv_run] in R. apply bind_ok in R as ([s1 o] & St & R). apply bind_ok in R as ([s2 os'] & R & H). injection H as <- <-.
    assert (ME : mats_ok (ve_receipts e)) by (rewrite E; constructor). destruct (cv_step_inv _ _ _ _ _ _ Sn ME T St) as (Tk & _ & S2 & _ & _ & Ac & _).
    rewrite E in Ac. cbn [cv_accept] in Ac. injection Ac as Ac. destruct (tick_facts _ _ _ Sn T Tk) as (_ & Q1 & Q2 & _). rewrite (IH _ _ _ S2 R), <- Ac.
    assert (F : at_full (vc_throughput cfg) (e :: quiet) == at_full (vc_throughput cfg) quiet + vc_throughput cfg).
    { unfold at_full, zlen. cbn [List.length]. rewrite Nat2Z.inj_succ, <- Z.add_1_r, inject_Z_plus. ring. }
    assert (N : 0 <= at_full (vc_throughput cfg) quiet). { unfold at_full, zlen. apply Qmult_le_0_compat; [|exact T]. change 0 with (inject_Z 0). rewrite <- Zle_Qle. lia. }
    rewrite F. revert Q2. apply Q.min_case_strong; [intros x y Ex H1 H2; rewrite Ex in H1; apply H1, H2| |]; intros L Q2;
      apply Q.max_case_strong; try (intros x y Ex H1; rewrite <- Ex; exact H1); intro L1; apply Q.max_case_strong; try (intros x y Ex H1; rewrite <- Ex; exact H1); lra.
Qed.
Lemma conversion_clears eps cfg es quiet s os s' os' : 0 <= vc_throughput cfg -> mats_ok (cv_received es) -> cv_run eps cfg cv_empty es = Ok (s, os) ->
  Forall (fun e => ve_receipts e = []) quiet -> cv_run eps cfg s quiet = Ok (s', os') ->
  qty_of (vs_input s') == Qmax 0 (qty_of (vs_input s) - at_full (vc_throughput cfg) quiet).
Proof. intros T M R Q R2. exact (quiet_clears eps cfg quiet T Q s s' os' (conv_reach_sane eps cfg es s os T M R) R2). Qed.
