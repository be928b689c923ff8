(** Proofs for C114. *)
From Coq Require Import Lia Permutation Lqa.
From Verif Require Import Outcome KernelMaterial KernelResBuf KernelFacts KernelBuf FuelFabModel MixerModel
  EnrichmentModel EnrichmentSpec EnrichmentBids AddressModel AddressSpec.
Local Open Scope Q_scope.

(** ** The registry *)
Lemma find_set A k k' (a : A) r : reg_find k (reg_set k' a r) = if Z.eqb k k' then Some a else reg_find k r.
Proof.
  induction r as [|(k0, a0) r IH]; [reflexivity|]. cbn [reg_set]. destruct (Z.eqb_spec k' k0) as [->|N].
  - cbn [reg_find]. destruct (Z.eqb k k0); reflexivity.
  - cbn [reg_find]. rewrite IH. destruct (Z.eqb_spec k k0) as [->|M]; [|reflexivity].
    destruct (Z.eqb_spec k0 k') as [->|_]; [congruence|reflexivity].
Qed.
Lemma find_all_other A addr j (invs : list A) r k : (forall i, (j <= i)%nat -> addr i <> k) ->
  reg_find k (reg_all addr j invs r) = reg_find k r.
Proof.
  revert j r. induction invs as [|a invs IH]; intros j r H; [reflexivity|]. cbn [reg_all].
  rewrite IH by (intros i L; apply H; lia). rewrite find_set.
  destruct (Z.eqb_spec k (addr j)) as [E|_]; [|reflexivity]. symmetry in E. apply H in E; [contradiction|lia].
Qed.
Lemma find_all A addr (invs : list A) : placed addr -> forall j r i a,
  nth_error invs i = Some a -> reg_find (addr (j + i)%nat) (reg_all addr j invs r) = Some a.
Proof.
  intro P. induction invs as [|b invs IH]; intros j r i a N; [destruct i; discriminate|]. cbn [reg_all]. destruct i as [|i].
  - cbn in N. injection N as ->. rewrite Nat.add_0_r. rewrite find_all_other by (intros i L E; apply P in E; lia).
    rewrite find_set, Z.eqb_refl. reflexivity.
  - replace (j + S i)%nat with (S j + i)%nat by lia. apply IH, N.
Qed.

(** ** FuelFab *)
Definition single (b : buf) : Prop := (List.length (b_items b) <= 1)%nat.
Definition singles (s : ff_state) : Prop := single (fb_fill s) /\ single (fb_fiss s) /\ single (fb_topup s).
Lemma take_length ms : forall q, (List.length (snd (take_qty q ms)) <= List.length ms)%nat.
Proof.
  induction ms as [|m ms IH]; intro q; cbn [take_qty]; [cbn; lia|].
  destruct (Qle_bool q 0); [cbn; lia|]. destruct (Qltb q (m_qty m)); [cbn; lia|].
  specialize (IH (q - m_qty m)). destruct (take_qty (q - m_qty m) ms) as (a, b). cbn in *. lia.
Qed.
Lemma pop_single b q tol m b' : b_pop_tol b q tol = Ok (m, b') -> single b -> single b'.
Proof.
  unfold b_pop_tol, items_pop_tol, items_pop_qty, single. intros H S.
  destruct (Qltb _ q); [discriminate|]. destruct (Qle_bool _ q).
  - destruct (squash (b_items b)); cbn in H; try discriminate. injection H as <- <-. cbn. lia.
  - destruct (Qltb _ q); [discriminate|]. pose proof (take_length (b_items b) q) as L. destruct (take_qty q (b_items b)) as (a, r).
    cbn [snd] in L. destruct (squash a); cbn in H; try discriminate. injection H as <- <-. cbn. lia.
Qed.
Ltac binds H :=
  repeat match type of H with
  | (let* _ := ?x in _) = Ok _ => let E := fresh "E" in destruct x eqn:E; cbn [bind] in H; try discriminate H
  | (let '(_, _) := ?p in _) = Ok _ => destruct p
  | (if ?c then _ else _) = Ok _ => destruct c; try discriminate H
  end.
Lemma trade_singles eps nz D cfg a b c s tgt q s' m : ff_trade1 eps nz D cfg a b c s tgt q = Ok (s', m) -> singles s -> singles s'.
Proof.
  intros H (S1 & S2 & S3). unfold ff_trade1 in H.
  binds H; injection H as <- <-; split; try split; cbn; try assumption; eauto using pop_single.
Qed.
Lemma trades_singles eps nz D cfg a b c ts : forall tot s s' ms,
  ff_trade_loop eps nz D cfg a b c tot s ts = Ok (s', ms) -> singles s -> singles s'.
Proof.
  induction ts as [|(tgt, q) ts IH]; intros tot s s' ms H S; cbn [ff_trade_loop] in H; [injection H as <- <-; exact S|].
  cbv zeta in H. binds H. injection H as <- <-. eauto using trade_singles.
Qed.
Lemma squash_single eps b b' : ff_squash eps b = Ok b' -> single b'.
Proof.
  unfold ff_squash, single. destruct (Nat.ltb_spec 1 (b_count b)) as [L|L]; intro H.
  - binds H. unfold b_push in H. destruct (b_fits _ _ _) in H; [|discriminate]. injection H as <-. cbn. lia.
  - injection H as <-. unfold b_count in L. lia.
Qed.
Lemma squash_id eps b : single b -> ff_squash eps b = Ok b.
Proof. unfold ff_squash, single, b_count. intro S. destruct (Nat.ltb_spec 1 (List.length (b_items b))); [lia|reflexivity]. Qed.
Lemma accept_singles eps invs rs s s' : ff_accept eps invs rs s = Ok s' -> singles s'.
Proof. unfold ff_accept. intro H. binds H. injection H as <-. split; [|split]; cbn; eauto using squash_single. Qed.
Lemma accept_nothing eps invs s : singles s -> ff_accept eps invs [] s = Ok s.
Proof.
  intros (A & B & C). unfold ff_accept. cbn [loop bind]. rewrite !squash_id by assumption. cbn [bind]. destruct s; reflexivity.
Qed.
Lemma loop_at eps addr invs r rs : placed addr -> forall s s',
  loop (ff_accept1 eps invs) rs s = Ok s' -> loop (ff_accept1_at eps (reg_all addr 0 invs r)) (by_address addr rs) s = Ok s'.
Proof.
  intro P. induction rs as [|(j, m) rs IH]; intros s s' H; [exact H|]. cbn [by_address map loop] in *. unfold ff_accept1 in H at 1. cbn [fst snd] in *.
  destruct (nth_error invs j) as [a|] eqn:N; [|discriminate]. pose proof (find_all _ addr invs P 0%nat r j a N) as F.
  cbn [Nat.add] in F. unfold ff_accept1_at at 1. cbn [fst snd]. rewrite F. destruct a.
  all: match type of H with (let* _ := ?x in _) = Ok _ => destruct x eqn:E; cbn [bind] in *; try discriminate H end; apply IH, H.
Qed.
Lemma ff_step_same eps nz D recipe cfg prefs s r e addr s' o : placed addr -> singles s ->
  ff_step eps nz D recipe cfg prefs s e = Ok (s', o) ->
  singles s' /\ exists r', ff_step_at eps nz D recipe cfg prefs s r e addr = Ok (s', r', o).
Proof.
  intros P S H. unfold ff_step in H. unfold ff_step_at.
  destruct (ff_requests _ _ _ _ _) as [reqs| | |]; cbn [bind] in *; try discriminate.
  destruct (ff_get_bids _ _ _ _ _ _) as [bids| | |]; cbn [bind] in *; try discriminate.
  destruct (ff_trades _ _ _ _ _ _) as [(s1, ms)| | |] eqn:T; cbn [bind] in *; try discriminate.
  apply trades_singles in T; [|exact S].
  destruct (ff_accept _ _ _ _) as [s2| | |] eqn:A; cbn [bind] in *; try discriminate. injection H as -> <-.
  split; [exact (accept_singles _ _ _ _ _ A)|]. destruct (fe_receipts e) as [|x rs] eqn:R.
  - rewrite accept_nothing in A by exact T. injection A as ->. cbn [bind]. eauto.
  - unfold ff_accept in A. unfold ff_accept_at.
    destruct (loop _ _ _) as [s3| | |] eqn:L in A; cbn [bind] in A; try discriminate.
    rewrite (loop_at _ _ _ r _ P _ _ L). cbn [bind].
    destruct (ff_squash _ (fb_fill s3)); cbn [bind] in *; try discriminate.
    destruct (ff_squash _ (fb_fiss s3)); cbn [bind] in *; try discriminate.
    destruct (ff_squash _ (fb_topup s3)); cbn [bind] in *; try discriminate.
    injection A as <-. eauto.
Qed.
Lemma ff_run_same eps nz D recipe cfg prefs es : forall s r s' os, Forall (fun x => placed (snd x)) es -> singles s ->
  ff_run eps nz D recipe cfg prefs s (map fst es) = Ok (s', os) ->
  exists r', ff_run_at eps nz D recipe cfg prefs s r es = Ok (s', r', os).
Proof.
  induction es as [|(e, addr) es IH]; intros s r s' os P S H; cbn [map ff_run ff_run_at fst] in *.
  - injection H as <- <-. eauto.
  - inversion P as [|? ? P1 P2]; subst. cbn in P1.
    destruct (ff_step _ _ _ _ _ _ _ _) as [(s1, o)| | |] eqn:E; cbn [bind] in H; try discriminate.
    destruct (ff_run _ _ _ _ _ _ _ _) as [(s2, os')| | |] eqn:R; cbn [bind] in H; try discriminate. injection H as -> <-.
    destruct (ff_step_same _ _ _ _ _ _ _ r _ _ _ _ P1 S E) as (S1 & r1 & ->). cbn [bind].
    destruct (IH _ r1 _ _ P2 S1 R) as (r2 & ->). cbn [bind]. eauto.
Qed.
Lemma ff_final eps nz D recipe cfg prefs es s os : Forall (fun x => placed (snd x)) es ->
  ff_run eps nz D recipe cfg prefs (ff_new cfg) (map fst es) = Ok (s, os) ->
  exists r, ff_run_at eps nz D recipe cfg prefs (ff_new cfg) [] es = Ok (s, r, os).
Proof. intros P. apply ff_run_same; [exact P|]. split; [|split]; unfold single; cbn; lia. Qed.

(** ** Mixer *)
Lemma mx_loop_at eps addr invs r rs : placed addr -> forall bs bs',
  loop (fun bs jm => match nth_error invs (fst jm) with None => Throw ValueError | Some i => mx_push_at eps i (snd jm) bs end) rs bs = Ok bs' ->
  loop (fun bs km => match reg_find (fst km) (reg_all addr 0 invs r) with None => Throw ValueError | Some i => mx_push_at eps i (snd km) bs end)
    (by_address addr rs) bs = Ok bs'.
Proof.
  intro P. induction rs as [|(j, m) rs IH]; intros s s' H; [exact H|]. cbn [by_address map loop fst snd] in *.
  destruct (nth_error invs j) as [a|] eqn:N; [|discriminate]. pose proof (find_all _ addr invs P 0%nat r j a N) as F.
  cbn [Nat.add] in F. rewrite F. destruct (mx_push_at _ _ _ _); cbn [bind] in *; try discriminate. apply IH, H.
Qed.
Lemma mx_step_same eps cfg s r e addr s' o : placed addr -> mx_step eps cfg s e = Ok (s', o) ->
  exists r', mx_step_at eps cfg s r e addr = Ok (s', r', o).
Proof.
  intros P H. unfold mx_step in H. unfold mx_step_at.
  destruct (mx_tick _ _ _) as [(s1, sup)| | |]; cbn [bind] in *; try discriminate.
  destruct (mx_sell _ _ _) as [(s2, ms)| | |]; cbn [bind] in *; try discriminate.
  destruct (mx_accept _ _ _ _) as [s3| | |] eqn:A; cbn [bind] in *; try discriminate. injection H as -> <-.
  unfold mx_accept in A. destruct (xe_receipts e) as [|x rs] eqn:R.
  - cbn [loop bind] in A. injection A as <-. cbn [bind]. destruct s2; eauto.
  - destruct (loop _ _ _) as [s4| | |] eqn:L in A; cbn [bind] in A; try discriminate. unfold mx_accept_at.
    rewrite (mx_loop_at _ _ _ r _ P _ _ L). cbn [bind]. injection A as <-. eauto.
Qed.
Lemma mx_run_same eps cfg es : forall s r s' os, Forall (fun x => placed (snd x)) es ->
  mx_run eps cfg s (map fst es) = Ok (s', os) -> exists r', mx_run_at eps cfg s r es = Ok (s', r', os).
Proof.
  induction es as [|(e, addr) es IH]; intros s r s' os P H; cbn [map mx_run mx_run_at fst] in *.
  - injection H as <- <-. eauto.
  - inversion P as [|? ? P1 P2]; subst. cbn in P1.
    destruct (mx_step _ _ _ _) as [(s1, o)| | |] eqn:E; cbn [bind] in H; try discriminate.
    destruct (mx_run _ _ _ _) as [(s2, os')| | |] eqn:R; cbn [bind] in H; try discriminate. injection H as -> <-.
    destruct (mx_step_same _ _ _ r _ _ _ _ P1 E) as (r1 & ->). cbn [bind].
    destruct (IH _ r1 _ _ P2 R) as (r2 & ->). cbn [bind]. eauto.
Qed.

(** ** Enrichment *)
Lemma comparable_iff l : all_comparable l = true <->
  Forall (fun x => ~ m_qty (snd x) == 0) l /\ ForallOrdPairs (fun x y => ~ bid_frac (snd x) == bid_frac (snd y)) l.
Proof.
  induction l as [|x l IH]; cbn [all_comparable]; [split; [split; constructor|reflexivity]|].
  rewrite !andb_true_iff, IH, forallb_forall, negb_true_iff. split.
  - intros ((Q & F) & A & B). split; constructor; auto.
    + intro E. apply Qeq_bool_iff in E. congruence.
    + apply Forall_forall. intros y I E. apply F in I. apply Qeq_bool_iff in E. rewrite E in I. discriminate.
  - intros (A & B). inversion A; subst. inversion B; subst. split; [split|split]; auto.
    + destruct (Qeq_bool _ _) eqn:E; auto. apply Qeq_bool_iff in E. contradiction.
    + intros y I. rewrite Forall_forall in *. destruct (Qeq_bool _ _) eqn:E; auto. apply Qeq_bool_iff in E. firstorder.
Qed.
Lemma pairs_perm l l' : Permutation l l' -> ForallOrdPairs (fun x y : nat * mat => ~ bid_frac (snd x) == bid_frac (snd y)) l ->
  ForallOrdPairs (fun x y => ~ bid_frac (snd x) == bid_frac (snd y)) l'.
Proof.
  induction 1 as [|x l l' P IH|x y l|l l' l'' P IH P' IH']; intro H; auto.
  - inversion H; subst. constructor; auto. rewrite Forall_forall in *. intros z I. apply Permutation_sym in P. eauto using Permutation_in.
  - inversion H as [|? ? A B]; subst. inversion B as [|? ? C D]; subst. inversion A; subst. constructor; [|constructor; auto].
    constructor; [|exact C]. intro E. symmetry in E. contradiction.
Qed.
Lemma comparable_perm l l' : Permutation l l' -> all_comparable l = all_comparable l'.
Proof.
  intro P. destruct (all_comparable l) eqn:A, (all_comparable l') eqn:B; auto.
  - apply comparable_iff in A as (F & G). rewrite <- B. symmetry. apply comparable_iff. split; [|eauto using pairs_perm].
    rewrite Forall_forall in *. intros z I. apply F. apply Permutation_sym in P. eauto using Permutation_in.
  - apply comparable_iff in B as (F & G). rewrite <- A. apply comparable_iff. split; [|eauto using pairs_perm, Permutation_sym].
    rewrite Forall_forall in *. intros z I. apply F. eauto using Permutation_in.
Qed.
Lemma sorted_unique l : forall l', Permutation l l' -> sortedp l -> sortedp l' ->
  ForallOrdPairs (fun x y => ~ bid_frac (snd x) == bid_frac (snd y)) l -> l = l'.
Proof.
  induction l as [|x l IH]; intros l' P S S' D; [apply Permutation_nil in P; congruence|].
  destruct l' as [|y l']; [apply Permutation_sym, Permutation_nil in P; discriminate|].
  apply sortedp_cons in S as (A & S). apply sortedp_cons in S' as (A' & S'). inversion D as [|? ? D1 D2]; subst.
  assert (x = y).
  { pose proof (Permutation_in _ P (or_introl eq_refl)) as [E|I]; [congruence|].
    pose proof (Permutation_in _ (Permutation_sym P) (or_introl eq_refl)) as [E|J]; [congruence|].
    apply A' in I. rewrite Forall_forall in D1. apply D1 in J as N. apply A in J. exfalso. apply N. apply Qle_antisym; assumption. }
  subst y. f_equal. apply IH; auto. eapply Permutation_cons_inv, P.
Qed.
Lemma adjust_perm cfg l l' : Permutation l l' -> en_adjust cfg l = en_adjust cfg l'.
Proof.
  intro P. unfold en_adjust. destruct (ec_order_prefs cfg); [|reflexivity]. f_equal. unfold sort_bids.
  destruct l as [|x [|y l]].
  - apply Permutation_nil in P. subst. reflexivity.
  - apply Permutation_length_1_inv in P. subst. reflexivity.
  - pose proof (Permutation_length P) as L. destruct l' as [|x' [|y' l']]; try discriminate L.
    rewrite (comparable_perm _ _ P). destruct (all_comparable (x' :: y' :: l')) eqn:C; [|reflexivity]. f_equal.
    apply sorted_unique; try apply increasing_sorted.
    + etransitivity; [apply Permutation_sym, increasing_perm|]. etransitivity; [exact P|apply increasing_perm].
    + eapply pairs_perm; [apply increasing_perm|]. rewrite <- (comparable_perm _ _ P) in C. apply comparable_iff in C. apply C.
Qed.
