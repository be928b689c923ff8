(** Proofs about GrowthRegion. *)
From Coq Require Import Lia Lqa.
From Verif Require Import Outcome KernelFacts InstModel InstSpec InstProofs RegionModel RegionSpec.
Local Open Scope Q_scope.

(** ** Demand *)
Lemma pw_value_snoc p i x : pw_value (p ++ [i]) x = if Qle_bool (pi_x i) x then pi_f i (x - pi_x i) + pi_y i else pw_value p x.
Proof. unfold pw_value. rewrite rev_unit. cbn [find]. destruct (Qle_bool (pi_x i) x); reflexivity. Qed.
Lemma increasing_snoc d e : increasing (d ++ [e]) -> increasing d /\ (forall a, In a d -> (fst a < fst e)%Z).
Proof.
  induction d as [|a d IH]; cbn [app]; [intros _; split; [exact I|intros a []]|].
  destruct d as [|b d]; cbn [app increasing] in *.
  - intros [H _]. split; [auto|]. intros x [<-|[]]. exact H.
  - intros [H G]. destruct (IH G) as [A B]. split; [auto|]. intros x [<-|X]; [|apply B, X].
    specialize (B b (or_introl eq_refl)). lia.
Qed.
Definition demand_loop (bff : basic) := (fun '(p, continuous) (e : piece) =>
      let* f := bff (fst (snd e)) (snd (snd e)) in
      let* p' := pw_add p f (inject_Z (fst e)) continuous in
      Ok (p', true)) : pw * bool -> piece -> outcome (pw * bool).
Lemma nth_app_last {A} (l : list A) a i x : nth_error (l ++ [a]) i = Some x -> (nth_error l i = Some x /\ (i < List.length l)%nat) \/ (i = List.length l /\ x = a).
Proof.
  intro H. destruct (Nat.lt_ge_cases i (List.length l)) as [L|L].
  - rewrite nth_error_app1 in H by exact L. auto.
  - rewrite nth_error_app2 in H by exact L. destruct (i - List.length l)%nat as [|k] eqn:E; cbn in H; [|destruct k; discriminate].
    injection H as <-. right. split; [lia|reflexivity].
Qed.
Lemma demand_built bff : forall d ps, increasing d -> pieces_of bff d ps -> Forall (fun sf => proper (snd sf)) ps ->
  exists p, loop (demand_loop bff) d ([], false) = Ok (p, negb (Nat.eqb (List.length d) 0)) /\
    map pi_x p = map (fun e => inject_Z (fst e)) d /\ demand_curve ps (pw_value p).
Proof.
  induction d as [|e d IH] using rev_ind; intros ps I P R.
  - inversion P; subst. exists []. split; [reflexivity|]. split; [reflexivity|]. split; [reflexivity|]. split; intros.
    + discriminate.
    + destruct i; discriminate.
  - apply Forall2_app_inv_l in P as (ps0 & l2 & P0 & P1 & ->). inversion P1 as [|? [s f] ? ? [S F] P2]; subst. inversion P2; subst. clear P1 P2.
    cbn [fst snd] in S, F. apply Forall_app in R as [R0 R1]. inversion R1 as [|? ? PF _]; subst. cbn [snd] in PF.
    apply increasing_snoc in I as [I0 I1]. destruct (IH ps0 I0 P0 R0) as (p & E & X & (C1 & C2 & C3)).
    rewrite loop_app, E. cbn [bind loop]. unfold demand_loop at 1. rewrite F. cbn [bind].
    assert (Len : List.length ps0 = List.length d) by (symmetry; exact (Forall2_len _ _ _ P0)).
    assert (Lp : List.length p = List.length d) by (rewrite <- (map_length pi_x p), X, map_length; reflexivity).
    set (new := {| pi_f := f; pi_x := inject_Z (fst e); pi_y := if negb (Nat.eqb (List.length d) 0) then pw_value p (inject_Z (fst e)) - f 0 else 0 |}).
    assert (ADD : pw_add p f (inject_Z (fst e)) (negb (Nat.eqb (List.length d) 0)) = Ok (p ++ [new])).
    { unfold pw_add. destruct (rev p) as [|last r] eqn:RP.
      - assert (p = []) by (rewrite <- (rev_involutive p), RP; reflexivity). subst p. reflexivity.
      - assert (IL : In last p) by (apply in_rev; rewrite RP; left; reflexivity).
        apply (in_map pi_x) in IL. rewrite X in IL. apply in_map_iff in IL as (a & A1 & A2). specialize (I1 a A2).
        rewrite <- A1. destruct (Qle_bool (inject_Z (fst e)) (inject_Z (fst a))) eqn:Q; [|reflexivity].
        apply Qle_bool_iff in Q. rewrite <- Zle_Qle in Q. lia. }
    rewrite ADD. cbn [bind]. exists (p ++ [new]). split.
    { rewrite app_length. cbn [List.length]. destruct (Nat.eqb_spec (List.length d + 1) 0); [lia|reflexivity]. }
    split; [rewrite !map_app, X; reflexivity|].
    assert (VL : forall x, inject_Z (fst e) <= x -> pw_value (p ++ [new]) x = f (x - inject_Z (fst e)) + pi_y new).
    { intros x L. rewrite pw_value_snoc. cbn [pi_x pi_f new]. apply Qle_bool_iff in L. rewrite L. reflexivity. }
    assert (VS : forall x, x < inject_Z (fst e) -> pw_value (p ++ [new]) x = pw_value p x).
    { intros x L. rewrite pw_value_snoc. cbn [pi_x new]. destruct (Qle_bool (inject_Z (fst e)) x) eqn:Q; [apply Qle_bool_iff in Q; lra|reflexivity]. }
    assert (PS : forall i s f, nth_error ps0 i = Some (s, f) -> s < inject_Z (fst e)).
    { intros i s' f' N. assert (In (s', f') ps0) by (eapply nth_error_In; exact N).
      assert (EX : exists a, In a d /\ s' = inject_Z (fst a)).
      { clear -P0 H. induction P0 as [|a b dd pp [A _] _ IH]; [destruct H|]. destruct H as [->|H]; [exists a; split; [left; reflexivity|exact A]|].
        destruct (IH H) as (a' & A1 & A2). exists a'. split; [right; exact A1|exact A2]. }
      destruct EX as (a & A1 & ->). rewrite <- Zlt_Qlt. apply I1, A1. }
    (* where the old and the new part meet *)
    assert (VJ : (0 < List.length d)%nat -> pw_value (p ++ [new]) (inject_Z (fst e)) == pw_value p (inject_Z (fst e))).
    { intro L. rewrite VL by lra. cbn [pi_y new]. destruct (Nat.eqb_spec (List.length d) 0); [lia|]. cbn [negb].
      rewrite (PF (inject_Z (fst e) - inject_Z (fst e)) 0) by lra. lra. }
    split; [|split].
    + intros x H. destruct ps0 as [|[s0 f0] ps0].
      * cbn in H. specialize (H _ _ eq_refl). rewrite VS by exact H. apply C1. intros s' f' N. discriminate.
      * cbn in H. specialize (H _ _ eq_refl). rewrite VS by (pose proof (PS 0%nat s0 f0 eq_refl); lra). apply C1. intros s' f' N. injection N as <- <-. exact H.
    + intros s' f' N. destruct ps0 as [|[s0 f0] ps0].
      * cbn in N. injection N as <- <-. rewrite VL by lra. cbn [pi_y new]. cbn in Len. rewrite <- Len. cbn [Nat.eqb negb].
        rewrite (PF (inject_Z (fst e) - inject_Z (fst e)) 0) by lra. lra.
      * cbn in N. injection N as <- <-. rewrite VS by (apply (PS 0%nat s0 f0 eq_refl)). apply C2. reflexivity.
    + intros i s' f' x N L U. apply nth_app_last in N as [[N Li]|[-> N]].
      * pose proof (PS i s' f' N) as B. rewrite (VS s' B).
        assert (XE : x <= inject_Z (fst e)).
        { destruct (nth_error ps0 (Datatypes.S i)) as [[s2 f2]|] eqn:N2.
          - specialize (U s2 f2). rewrite nth_error_app1 in U by (apply nth_error_Some; congruence). specialize (U N2). pose proof (PS _ _ _ N2). lra.
          - apply nth_error_None in N2. apply (U (inject_Z (fst e)) f). rewrite nth_error_app2 by lia. replace (Datatypes.S i - List.length ps0)%nat with 0%nat by lia. reflexivity. }
        assert (OLD : pw_value p x == pw_value p s' + (f' (x - s') - f' 0)).
        { apply (C3 i s' f' x N L). intros s2 f2 N2. apply (U s2 f2). rewrite nth_error_app1 by (apply nth_error_Some; congruence). exact N2. }
        destruct (Qlt_le_dec x (inject_Z (fst e))) as [LT|GE]; [rewrite (VS x LT); exact OLD|].
        (* x is the start of the new piece *)
        assert (XEQ : x == inject_Z (fst e)) by lra.
        rewrite VL by lra. cbn [pi_y new]. destruct (Nat.eqb_spec (List.length d) 0); [lia|]. cbn [negb].
        rewrite (PF (x - inject_Z (fst e)) 0) by lra.
        assert (O2 : pw_value p (inject_Z (fst e)) == pw_value p s' + (f' (inject_Z (fst e) - s') - f' 0)).
        { apply (C3 i s' f' (inject_Z (fst e)) N); [lra|]. intros s2 f2 N2. pose proof (PS _ _ _ N2). specialize (U s2 f2). rewrite nth_error_app1 in U by (apply nth_error_Some; congruence). specialize (U N2). lra. }
        rewrite O2. assert (PF' : proper f'). { apply nth_error_In in N. rewrite Forall_forall in R0. apply (R0 _ N). }
        rewrite (PF' (x - s') (inject_Z (fst e) - s')) by lra. lra.
      * injection N as -> ->. rewrite VL by exact L. rewrite VL by lra.
        rewrite (PF (inject_Z (fst e) - inject_Z (fst e)) 0) by lra. lra.
Qed.
Lemma demand_fun_ok bff d : demand_ok bff d -> exists p, rg_demand_fun bff d = Ok p /\ forall ps, pieces_of bff d ps -> demand_curve ps (pw_value p).
Proof.
  intros (I & ps & P & R). destruct (demand_built bff d ps I P R) as (p & E & _ & C). exists p. split.
  - unfold rg_demand_fun. change (loop _ d ([], false)) with (loop (demand_loop bff) d ([], false)). rewrite E. reflexivity.
  - intros ps' P'. assert (ps' = ps); [|subst; exact C]. clear -P P'. revert ps' P'. induction P as [|a [s f] d ps [A B] _ IH]; intros ps' P'; inversion P' as [|? [s' f'] ? ps2 [A' B'] P2]; subst; auto.
    cbn [fst snd] in *. f_equal; [|apply IH, P2]. congruence.
Qed.
Definition start_loop (bff : basic) := fun acc (e : string * list piece) => let* f := rg_demand_fun bff (snd e) in Ok (acc ++ [(fst e, f)]).
Lemma demands_ok bff : forall cfg acc, Forall (fun e => demand_ok bff (snd e)) cfg ->
  exists ds, loop (start_loop bff) cfg acc = Ok (acc ++ ds) /\
    Forall2 (fun e p => fst e = fst p /\ forall ps, pieces_of bff (snd e) ps -> demand_curve ps (pw_value (snd p))) cfg ds.
Proof.
  induction cfg as [|e cfg IH]; intros acc A; cbn [loop].
  - exists []. rewrite app_nil_r. split; [reflexivity|constructor].
  - inversion A as [|? ? D A']; subst. destruct (demand_fun_ok bff (snd e) D) as (p & E & C). unfold start_loop at 1. rewrite E. cbn [bind].
    destruct (IH (acc ++ [(fst e, p)]) A') as (ds & L & F). exists ((fst e, p) :: ds). split; [rewrite L, <- app_assoc; reflexivity|].
    constructor; [split; [reflexivity|exact C]|exact F].
Qed.
Lemma find_key {A B} (R : A -> B -> Prop) cfg ds c (d : A) : NoDup (map fst cfg) -> Forall2 (fun (e : string * A) (p : string * B) => fst e = fst p /\ R (snd e) (snd p)) cfg ds ->
  In (c, d) cfg -> exists p, find (fun e => String.eqb (fst e) c) ds = Some (c, p) /\ R d p.
Proof.
  intros N F I. induction F as [|e [k p] cfg ds [K X] F IH]; [destruct I|]. cbn [fst snd] in *. cbn in N. inversion N as [|? ? N1 N2]; subst.
  cbn [find fst]. destruct I as [->|I].
  - cbn [fst snd] in *. rewrite String.eqb_refl. exists p. auto.
  - destruct (String.eqb_spec (fst e) c) as [E|_]; [|apply IH; assumption]. exfalso. apply N1. rewrite E. apply (in_map fst) in I. exact I.
Qed.
Lemma start_facts bff cfg ch : Forall (fun e => demand_ok bff (snd e)) cfg -> NoDup (map fst cfg) ->
  exists s, rg_start bff cfg ch = Ok s /\ rg_children s = rg_children (fold_left (fun st m => rg_register m st) ch {| rg_children := ch; rg_managers := []; rg_builders := []; rg_demand := [] |}) /\
    rg_managers s = rg_managers (fold_left (fun st m => rg_register m st) ch {| rg_children := ch; rg_managers := []; rg_builders := []; rg_demand := [] |}) /\
    rg_builders s = rg_builders (fold_left (fun st m => rg_register m st) ch {| rg_children := ch; rg_managers := []; rg_builders := []; rg_demand := [] |}) /\
  forall c d, In (c, d) cfg -> exists D, (forall now, demand_at s c now = Ok (D (inject_Z now))) /\ forall ps, pieces_of bff d ps -> demand_curve ps D.
Proof.
  intros A N. unfold rg_start. destruct (demands_ok bff cfg [] A) as (ds & L & F). cbn [app] in L.
  change (loop _ cfg []) with (loop (start_loop bff) cfg []). rewrite L. cbn [bind].
  eexists. split; [reflexivity|]. cbn [rg_children rg_managers rg_builders]. split; [reflexivity|]. split; [reflexivity|]. split; [reflexivity|].
  intros c d I. destruct (find_key (fun d p => forall ps, pieces_of bff d ps -> demand_curve ps (pw_value p)) cfg ds c d N F I) as (p & E & C).
  exists (pw_value p). split; [|exact C]. intro now. unfold demand_at. cbn [rg_demand]. rewrite E. reflexivity.
Qed.
Lemma demand_final : forall bff cfg ch, Forall (fun e => demand_ok bff (snd e)) cfg -> NoDup (map fst cfg) ->
  exists s, rg_start bff cfg ch = Ok s /\ forall c d, In (c, d) cfg ->
    exists D, (forall now, demand_at s c now = Ok (D (inject_Z now))) /\ forall ps, pieces_of bff d ps -> demand_curve ps D.
Proof. intros bff cfg ch A N. destruct (start_facts bff cfg ch A N) as (s & E & _ & _ & _ & D). eauto. Qed.

(** ** Orders *)
Lemma orders_ok orders : forall acc, let go := loop (fun acc o => match or_builder o, or_producer o with
    | Some b, Some p => Ok (acc ++ repeat (b, pr_name p) (Z.to_nat (or_n o)))
    | _, _ => Throw CastError
    end) orders acc in
  (Forall castable orders -> go = Ok (acc ++ flat_map builds_of orders)) /\ (~ Forall castable orders -> go = Throw CastError).
Proof.
  induction orders as [|o os IH]; intro acc; cbn [loop flat_map].
  - split; [rewrite app_nil_r; reflexivity|]. intro H. destruct H. constructor.
  - unfold builds_of at 1. destruct (or_builder o) as [b|] eqn:B, (or_producer o) as [p|] eqn:P; cbn [bind].
    + destruct (IH (acc ++ repeat (b, pr_name p) (Z.to_nat (or_n o)))) as [X Y]. split.
      * intro F. inversion F; subst. rewrite app_assoc. apply X. assumption.
      * intro F. apply Y. intro G. apply F. constructor; [split; congruence|exact G].
    + split; [intro F; inversion F as [|? ? [C1 C2] _]; subst; congruence|reflexivity].
    + split; [intro F; inversion F as [|? ? [C1 C2] _]; subst; congruence|reflexivity].
    + split; [intro F; inversion F as [|? ? [C1 C2] _]; subst; congruence|reflexivity].
Qed.
Lemma Qltb_sub a b : Qltb 0 (a - b) = Qltb b a.
Proof.
  destruct (Qltb 0 (a - b)) eqn:X, (Qltb b a) eqn:Y; auto; [apply Qltb_true in X; apply Qltb_false in Y; lra|apply Qltb_false in X; apply Qltb_true in Y; lra].
Qed.
Lemma tick_final : forall cfg decide now w s d, (forall c, In c (map fst cfg) -> demand_at s c now = Ok (d c)) ->
  (wanted_ok cfg decide d (supply w s) -> rg_tick cfg decide now w s = Ok (wanted cfg decide d (supply w s))) /\
  (~ wanted_ok cfg decide d (supply w s) -> rg_tick cfg decide now w s = Throw CastError).
Proof.
  intros cfg decide now w s d H. unfold rg_tick, wanted.
  cut (forall acc, (wanted_ok cfg decide d (supply w s) -> loop (fun acc (e : string * list piece) =>
    let* d := demand_at s (fst e) now in
    let unmet := d - supply w s (fst e) in
    if Qltb 0 unmet then let* new := order_builds (decide (fst e) unmet) in Ok (acc ++ new) else Ok acc) cfg acc = Ok (acc ++ wanted cfg decide d (supply w s))) /\
   (~ wanted_ok cfg decide d (supply w s) -> loop (fun acc (e : string * list piece) =>
    let* d := demand_at s (fst e) now in
    let unmet := d - supply w s (fst e) in
    if Qltb 0 unmet then let* new := order_builds (decide (fst e) unmet) in Ok (acc ++ new) else Ok acc) cfg acc = Throw CastError)).
  { intro G. apply (G []). }
  unfold wanted. revert H. induction cfg as [|e cfg IH]; intros H acc; cbn [loop flat_map].
  - split; [rewrite app_nil_r; reflexivity|]. intro X. destruct X. constructor.
  - rewrite (H (fst e)) by (left; reflexivity). cbn [bind]. cbv zeta. rewrite Qltb_sub.
    assert (H' : forall c, In c (map fst cfg) -> demand_at s c now = Ok (d c)) by (intros c I; apply H; right; exact I).
    destruct (Qltb (supply w s (fst e)) (d (fst e))) eqn:Q.
    + apply Qltb_true in Q. unfold order_builds. destruct (orders_ok (decide (fst e) (d (fst e) - supply w s (fst e))) []) as [X Y]. cbv zeta in X, Y.
      split.
      * intro F. inversion F as [|? ? F1 F2]; subst. rewrite (X (F1 Q)). cbn [bind app]. rewrite app_assoc. apply (IH H'), F2.
      * intro F. destruct (Forall_dec castable) with (l := decide (fst e) (d (fst e) - supply w s (fst e))) as [C|C].
        { intro o. unfold castable. destruct (or_builder o), (or_producer o); (left; split; congruence) || (right; intros [? ?]; congruence). }
        -- rewrite (X C). cbn [bind]. apply (IH H'). intro G. apply F. constructor; [intros _; exact C|exact G].
        -- rewrite (Y C). reflexivity.
    + apply Qltb_false in Q. split.
      * intro F. inversion F as [|? ? F1 F2]; subst. apply (IH H'), F2.
      * intro F. apply (IH H'). intro G. apply F. constructor; [intro Q'; lra|exact G].
Qed.

(** ** Registers *)
Lemma add_id_new i l : ~ In i l -> add_id i l = l ++ [i].
Proof.
  intro H. unfold add_id. destruct (existsb (Nat.eqb i) l) eqn:E; [|reflexivity]. apply existsb_exists in E as (j & I & E). apply Nat.eqb_eq in E. subst. contradiction.
Qed.
Lemma NoDup_snoc {A} (l : list A) a : NoDup l -> ~ In a l -> NoDup (l ++ [a]).
Proof.
  intros N F. rewrite <- (rev_involutive l). change (rev (rev l) ++ [a]) with (rev (a :: rev l)). apply NoDup_rev. constructor; [|apply NoDup_rev, N].
  intro I. apply in_rev in I. exact (F I).
Qed.
Lemma add_id_nodup i l : NoDup l -> NoDup (add_id i l).
Proof.
  intro N. unfold add_id. destruct (existsb (Nat.eqb i) l) eqn:E; [exact N|]. apply NoDup_snoc; [exact N|].
  intro I. assert (X : existsb (Nat.eqb i) l = true) by (apply existsb_exists; exists i; split; [exact I|apply Nat.eqb_refl]). congruence.
Qed.
Lemma mids_filter_in f l x : In x (mids (filter f l)) -> In x (mids l).
Proof. unfold mids. rewrite !in_map_iff. intros (a & E & I). apply filter_In in I as [I _]. eauto. Qed.
Lemma registered ch : forall s, NoDup (mids ch) -> (forall i, In i (mids ch) -> ~ In i (rg_managers s) /\ ~ In i (rg_builders s)) ->
  let s' := fold_left (fun st m => rg_register m st) ch s in
  rg_children s' = rg_children s /\ rg_managers s' = rg_managers s ++ mids (filter is_manager ch) /\ rg_builders s' = rg_builders s ++ mids (filter is_builder ch).
Proof.
  induction ch as [|m ch IH]; intros s N F; cbn [fold_left filter].
  - cbn. rewrite !app_nil_r. auto.
  - cbn in N. inversion N as [|? ? N1 N2]; subst. destruct (F (mb_id m) (or_introl eq_refl)) as [F1 F2].
    destruct (IH (rg_register m s) N2) as (A & B & C).
    { intros i I. destruct (F i (or_intror I)) as [G1 G2]. unfold rg_register. cbn [rg_managers rg_builders].
      assert (i <> mb_id m) by (intro; subst; contradiction).
      split; [destruct (is_manager m); [rewrite add_id_new by exact F1|]|destruct (is_builder m); [rewrite add_id_new by exact F2|]]; rewrite ?in_app_iff; cbn; intuition congruence. }
    cbv zeta. rewrite A, B, C. unfold rg_register. cbn [rg_children rg_managers rg_builders]. split; [reflexivity|].
    split; [destruct (is_manager m); [rewrite add_id_new by exact F1|]|destruct (is_builder m); [rewrite add_id_new by exact F2|]]; cbn [mids map]; rewrite <- ?app_assoc; reflexivity.
Qed.
(** Nothing but children of the right kind is ever registered. *)
Definition rg_inv (s : region) : Prop := NoDup (mids (rg_children s)) /\ NoDup (rg_managers s) /\ NoDup (rg_builders s) /\
  incl (rg_managers s) (mids (filter is_manager (rg_children s))) /\ incl (rg_builders s) (mids (filter is_builder (rg_children s))).
Definition rg_full (s : region) : Prop := NoDup (mids (rg_children s)) /\
  rg_managers s = mids (filter is_manager (rg_children s)) /\ rg_builders s = mids (filter is_builder (rg_children s)).
Lemma nodup_filter f l : NoDup (mids l) -> NoDup (mids (filter f l)).
Proof.
  induction l as [|x l IH]; cbn; auto. intro N. inversion N as [|? ? A B]; subst. destruct (f x); auto. cbn. constructor; auto. intro X. apply A. eapply mids_filter_in, X.
Qed.
Lemma full_inv s : rg_full s -> rg_inv s.
Proof.
  intros (A & B & C). unfold rg_inv. rewrite B, C. split; [exact A|]. split; [apply nodup_filter, A|]. split; [apply nodup_filter, A|].
  split; intros x H; exact H.
Qed.
Lemma start_full bff cfg ch s : NoDup (mids ch) -> rg_start bff cfg ch = Ok s -> rg_full s /\ rg_children s = ch.
Proof.
  intros N H. unfold rg_start in H. destruct (registered ch {| rg_children := ch; rg_managers := []; rg_builders := []; rg_demand := [] |} N) as (A & B & C); [cbn; auto|].
  destruct (loop _ cfg []) as [ds| | |]; try discriminate. cbn [bind] in H. injection H as <-. unfold rg_full. cbn [rg_children rg_managers rg_builders] in *.
  rewrite A, B, C. cbn [app]. auto.
Qed.
Lemma mid_unique l m m' : NoDup (mids l) -> In m l -> In m' l -> mb_id m = mb_id m' -> m = m'.
Proof.
  induction l as [|x l IH]; [intros _ []|]. cbn. intros N I I' E. inversion N as [|? ? A B]; subst. destruct I as [->|I], I' as [->|I']; auto.
  - exfalso. apply A. rewrite E. apply in_map, I'.
  - exfalso. apply A. rewrite <- E. apply in_map, I.
Qed.
Lemma del_filter k m l : NoDup (mids l) -> In m l -> 
  mids (filter k (filter (fun b => negb (Nat.eqb (mb_id b) (mb_id m))) l)) = if k m then del_id (mb_id m) (mids (filter k l)) else mids (filter k l).
Proof.
  intros N I. set (g := fun b => negb (Nat.eqb (mb_id b) (mb_id m))).
  assert (D : forall l', mids (filter k (filter g l')) = del_id (mb_id m) (mids (filter k l'))).
  { induction l' as [|x l' IH]; auto. cbn [filter]. unfold g at 1. unfold del_id in *. destruct (k x) eqn:K; cbn [mids map filter].
    - destruct (negb (mb_id x =? mb_id m)%nat) eqn:E; cbn [filter]; rewrite ?K; unfold mids in *; cbn [map]; rewrite ?IH; reflexivity.
    - destruct (negb (mb_id x =? mb_id m)%nat) eqn:E; cbn [filter]; rewrite ?K; exact IH. }
  rewrite D. destruct (k m) eqn:K; [reflexivity|]. unfold del_id. 
  assert (G : forall l', incl l' l -> filter (fun j => negb (Nat.eqb j (mb_id m))) (mids (filter k l')) = mids (filter k l')).
  { induction l' as [|x l' IH]; intro L; auto. assert (L' : incl l' l) by (intros y Hy; apply L; right; exact Hy). cbn [filter]. destruct (k x) eqn:Kx; [|apply IH, L'].
    cbn [mids map filter]. destruct (Nat.eqb_spec (mb_id x) (mb_id m)) as [E|E]; cbn [negb].
    - exfalso. assert (x = m) by (apply (mid_unique l); auto; apply L; left; reflexivity). congruence.
    - f_equal. apply IH, L'. }
  apply G. intros y Hy; exact Hy.
Qed.
Lemma run_full bff cfg es : forall s s', rg_full s -> rg_sensible (rg_children s) es -> none_built es -> rg_run bff cfg s es = Ok s' ->
  rg_full s' /\ rg_children s' = present (rg_children s) es.
Proof.
  unfold rg_run. induction es as [|e es IH]; intros s s' F S NB H; cbn [loop] in H.
  - injection H as <-. auto.
  - inversion NB as [|? ? B NB']; subst. destruct (rg_step bff cfg s e) as [s1| | |] eqn:E; try discriminate. cbn [bind] in H.
    destruct e as [m|m|]; [contradiction| |]; cbn [rg_step rg_sensible present] in *.
    + injection E as <-. destruct S as [I S]. destruct F as (N & M & Bd).
      assert (F1 : rg_full {| rg_children := filter (fun b => negb (Nat.eqb (mb_id b) (mb_id m))) (rg_children (rg_unregister m s)); rg_managers := rg_managers (rg_unregister m s); rg_builders := rg_builders (rg_unregister m s); rg_demand := rg_demand (rg_unregister m s) |}).
      { unfold rg_full, rg_unregister. cbn [rg_children rg_managers rg_builders]. split; [apply nodup_filter, N|]. rewrite !del_filter by assumption. rewrite M, Bd. auto. }
      apply (IH _ _ F1 S NB' H).
    + destruct (start_full _ _ _ _ (proj1 F) E) as [F1 C1]. rewrite <- C1 in S |- *. apply (IH _ _ F1 S NB' H).
Qed.
Lemma manager_spec l : filter manages l = filter is_manager l.
Proof. apply filter_ext. intros [i [[]|]]; reflexivity. Qed.
Lemma builder_spec l : filter builds l = filter is_builder l.
Proof. apply filter_ext. intros [i [[]|]]; reflexivity. Qed.
Lemma registers_final : forall bff cfg ch s0 es s, NoDup (mids ch) -> rg_sensible ch es -> none_built es ->
  rg_start bff cfg ch = Ok s0 -> rg_run bff cfg s0 es = Ok s ->
  rg_managers s = mids (filter manages (present ch es)) /\ rg_builders s = mids (filter builds (present ch es)).
Proof.
  intros bff cfg ch s0 es s N S NB B R. destruct (start_full _ _ _ _ N B) as [F C]. rewrite manager_spec, builder_spec. rewrite <- C in S |- *.
  destruct (run_full bff cfg es s0 s F S NB R) as [(_ & M & Bd) P]. rewrite M, Bd, P. auto.
Qed.
Lemma run_inv bff cfg es : forall s s', rg_inv s -> rg_sensible (rg_children s) es -> rg_run bff cfg s es = Ok s' ->
  rg_inv s' /\ rg_children s' = present (rg_children s) es.
Proof.
  unfold rg_run. induction es as [|e es IH]; intros s s' F S H; cbn [loop] in H.
  - injection H as <-. auto.
  - destruct (rg_step bff cfg s e) as [s1| | |] eqn:E; try discriminate. cbn [bind] in H.
    destruct F as (N & M1 & B1 & M2 & B2). destruct e as [m|m|]; cbn [rg_step rg_sensible present] in *.
    + injection E as <-. destruct S as [I S]. refine ((fun X Y => IH _ _ Y X H) S _). unfold rg_inv. cbn [rg_children rg_managers rg_builders].
      assert (ND : NoDup (mids (rg_children s ++ [m]))) by (unfold mids; rewrite map_app; apply NoDup_snoc; assumption).
      split; [exact ND|]. split; [exact M1|]. split; [exact B1|]. rewrite !filter_app. unfold mids in *. rewrite !map_app. split; intros x X; apply in_app_iff; left; auto.
    + injection E as <-. destruct S as [I S]. refine ((fun X Y => IH _ _ Y X H) S _). unfold rg_inv, rg_unregister. cbn [rg_children rg_managers rg_builders].
      split; [apply nodup_filter, N|]. rewrite !del_filter by assumption.
      split; [destruct (is_manager m); [apply NoDup_filter|]; exact M1|]. split; [destruct (is_builder m); [apply NoDup_filter|]; exact B1|].
      split; [destruct (is_manager m); [|exact M2]|destruct (is_builder m); [|exact B2]]; intros x X; unfold del_id in *; apply filter_In in X as [X1 X2]; apply filter_In; auto.
    + destruct (start_full _ _ _ _ N E) as [F1 C1]. rewrite <- C1 in S |- *. apply IH; [apply full_inv, F1|exact S|exact H].
Qed.
Lemma registered_final : forall bff cfg ch s0 es s, NoDup (mids ch) -> rg_sensible ch es ->
  rg_start bff cfg ch = Ok s0 -> rg_run bff cfg s0 es = Ok s ->
  NoDup (rg_managers s) /\ NoDup (rg_builders s) /\
  incl (rg_managers s) (mids (filter manages (present ch es))) /\ incl (rg_builders s) (mids (filter builds (present ch es))).
Proof.
  intros bff cfg ch s0 es s N S B R. destruct (start_full _ _ _ _ N B) as [F C]. rewrite manager_spec, builder_spec. rewrite <- C in S |- *.
  destruct (run_inv bff cfg es s0 s (full_inv _ F) S R) as [(_ & M & Bd & M2 & B2) P]. rewrite <- P. auto.
Qed.

(** ** Capacity from tick to tick *)
Definition ok_inst (next : nat) (x : inst) : Prop := in_ok x /\ Forall (fun i => (i < next)%nat) (ids (in_children x)).
Lemma world_insts st i x : world_ok st -> inst_of (fst st) i = Some x -> ok_inst (snd st) x.
Proof.
  intros [N F] H. unfold inst_of in H. destruct (find _ (fst st)) as [e|] eqn:E; [|discriminate]. cbn in H. injection H as <-.
  apply find_some in E as [I _]. rewrite Forall_forall in F. destruct (F e I) as (A & B & C). split; [split; assumption|exact C].
Qed.
Lemma inst_of_set w i f j : inst_of (set_inst w i f) j = if Nat.eqb j i then option_map f (inst_of w j) else inst_of w j.
Proof.
  unfold inst_of, set_inst. induction w as [|[k x] w IH]; cbn [map find option_map].
  - destruct (Nat.eqb j i); reflexivity.
  - cbn [fst snd]. destruct (Nat.eqb_spec k i) as [->|NE]; cbn [fst snd find].
    + destruct (Nat.eqb_spec i j) as [->|NJ]; [rewrite Nat.eqb_refl; reflexivity|]. rewrite IH. destruct (Nat.eqb j i); reflexivity.
    + destruct (Nat.eqb_spec k j) as [->|NJ]; [destruct (Nat.eqb_spec j i); [congruence|reflexivity]|]. exact IH.
Qed.
Lemma set_ok w next next' i f : world_ok (w, next) -> (next <= next')%nat -> (forall x, inst_of w i = Some x -> ok_inst next' (f x)) -> world_ok (set_inst w i f, next').
Proof.
  intros [N F] L H. cbn [fst snd] in *. split; cbn [fst snd].
  - unfold set_inst. rewrite map_map. erewrite map_ext; [exact N|]. intros [k x]. cbn [fst]. destruct (Nat.eqb k i); reflexivity.
  - apply Forall_forall. intros e I. apply in_map_iff in I as ([k x] & E & I). cbn [fst snd] in E. rewrite Forall_forall in F. specialize (F _ I). cbn [snd] in F.
    destruct (Nat.eqb_spec k i) as [->|NE]; subst e; cbn [snd].
    + assert (X : inst_of w i = Some x).
      { unfold inst_of. clear -N I. induction w as [|[k y] w IH]; [destruct I|]. cbn in N. inversion N as [|? ? A B]; subst. cbn [find fst]. destruct I as [I|I].
        - injection I as -> ->. rewrite Nat.eqb_refl. reflexivity.
        - destruct (Nat.eqb_spec k i) as [->|_]; [|apply IH; assumption]. exfalso. apply A. apply (in_map fst) in I. exact I. }
      destruct (H x X) as [[A B] C]. auto.
    + destruct F as (A & B & C). split; [exact A|]. split; [exact B|]. eapply Forall_impl; [|exact C]. intros a Ha. cbn beta in *. lia.
Qed.
Lemma total_children x c : in_ok x -> total_capacity x c == capacity_of (in_children x) c.
Proof. intros [P _]. unfold total_capacity. rewrite P. apply capacity_sum. Qed.
Lemma capacity_app l1 l2 c : capacity_of (l1 ++ l2) c == capacity_of l1 c + capacity_of l2 c.
Proof. unfold capacity_of. rewrite map_app. apply qsum_app. Qed.
Lemma capacity_drop a c : forall l, NoDup (ids l) -> In a l ->
  capacity_of (filter (fun b => negb (Nat.eqb (ag_id b) (ag_id a))) l) c + makes a c == capacity_of l c.
Proof.
  induction l as [|x l IH]; intros N I; [destruct I|]. cbn in N. inversion N as [|? ? A B]; subst. cbn [filter].
  destruct (Nat.eqb_spec (ag_id x) (ag_id a)) as [E|E]; cbn [negb].
  - assert (x = a). { destruct I as [I|I]; [exact I|]. exfalso. apply A. rewrite E. apply in_map, I. } subst x.
    assert (FL : filter (fun b => negb (Nat.eqb (ag_id b) (ag_id a))) l = l).
    { clear -A. induction l as [|y l IH]; auto. cbn in A. cbn. destruct (Nat.eqb_spec (ag_id y) (ag_id a)) as [E|E]; [destruct A; left; auto|]. cbn. f_equal. apply IH. intro X. apply A. right. exact X. }
    rewrite FL. change (capacity_of (a :: l) c) with (makes a c + capacity_of l c). lra.
  - destruct I as [->|I]; [congruence|]. change (capacity_of (x :: ?l) c) with (makes x c + capacity_of l c). specialize (IH B I). unfold capacity_of at 1 2. cbn [map qsum fold_right].
    fold (qsum (map (fun a => makes a c) (filter (fun b => negb (Nat.eqb (ag_id b) (ag_id a))) l))) (qsum (map (fun a => makes a c) l)).
    fold (capacity_of (filter (fun b => negb (Nat.eqb (ag_id b) (ag_id a))) l) c) (capacity_of l c). lra.
Qed.
Lemma sum_update (ms : list nat) (g g' : nat -> Q) i d : NoDup ms -> (forall j, j <> i -> g' j == g j) -> g' i == g i + d ->
  qsum (map g' ms) == qsum (map g ms) + (if existsb (Nat.eqb i) ms then d else 0).
Proof.
  intros N O H. induction ms as [|m ms IH]; [cbn; lra|]. inversion N as [|? ? A B]; subst. specialize (IH B). cbn [map existsb].
  change (qsum (g' m :: map g' ms)) with (g' m + qsum (map g' ms)). change (qsum (g m :: map g ms)) with (g m + qsum (map g ms)).
  destruct (Nat.eqb_spec i m) as [->|NE]; cbn [orb].
  - assert (E : existsb (Nat.eqb m) ms = false).
    { destruct (existsb (Nat.eqb m) ms) eqn:E; [|reflexivity]. apply existsb_exists in E as (j & I & J). apply Nat.eqb_eq in J. subst. contradiction. }
    rewrite E in IH. lra.
  - rewrite (O m) by congruence. lra.
Qed.
Definition has_inst (w : world) (i : nat) : bool := match inst_of w i with Some _ => true | None => false end.
Lemma has_set w i f j : has_inst (set_inst w i f) j = has_inst w j.
Proof. unfold has_inst. rewrite inst_of_set. destruct (Nat.eqb j i); destruct (inst_of w j); reflexivity. Qed.
Lemma supply_set w s i f c d : NoDup (rg_managers s) -> (forall x, inst_of w i = Some x -> total_capacity (f x) c == total_capacity x c + d) ->
  supply (set_inst w i f) s c == supply w s c + (if (existsb (Nat.eqb i) (rg_managers s) && has_inst w i)%bool then d else 0).
Proof.
  intros N H. unfold supply, has_inst. destruct (inst_of w i) as [x|] eqn:X.
  - rewrite Bool.andb_true_r. apply sum_update; [exact N| |].
    + intros j J. rewrite inst_of_set. destruct (Nat.eqb_spec j i); [congruence|]. reflexivity.
    + rewrite inst_of_set, Nat.eqb_refl, X. cbn [option_map]. apply H. reflexivity.
  - rewrite Bool.andb_false_r. rewrite Qplus_0_r. assert (E : forall j, inst_of (set_inst w i f) j = inst_of w j).
    { intro j. rewrite inst_of_set. destruct (Nat.eqb_spec j i) as [->|]; [rewrite X|]; reflexivity. }
    erewrite map_ext; [reflexivity|]. intro j. cbn beta. rewrite E. reflexivity.
Qed.
Lemma built_cap a x next c : ok_inst next x -> ag_id a = next -> ok_inst (S next) (child_built a x) /\ total_capacity (child_built a x) c == total_capacity x c + makes a c.
Proof.
  intros [O F] E. assert (FR : ~ In (ag_id a) (ids (in_children x))) by (intro I; rewrite Forall_forall in F; specialize (F _ I); lia).
  destruct (built_ok a x O FR) as (O1 & C1 & _). split.
  - split; [exact O1|]. rewrite C1. unfold ids. rewrite map_app. apply Forall_app. split; [|constructor; [lia|constructor]].
    eapply Forall_impl; [|exact F]. intros i Hi. cbn beta in *. lia.
  - rewrite !total_children by assumption. rewrite C1, capacity_app. unfold capacity_of at 2. cbn [map qsum fold_right]. lra.
Qed.
Lemma gone_cap a x next c : ok_inst next x -> In a (in_children x) -> ok_inst next (child_gone a x) /\ total_capacity (child_gone a x) c == total_capacity x c + - makes a c.
Proof.
  intros [O F] I. destruct (gone_ok a x O I) as (O1 & C1 & _). split.
  - split; [exact O1|]. rewrite C1. apply Forall_forall. intros i Hi. unfold ids in Hi. apply in_map_iff in Hi as (b & E & B). apply filter_In in B as [B _].
    rewrite Forall_forall in F. apply F. rewrite <- E. apply in_map, B.
  - rewrite !total_children by assumption. rewrite C1. pose proof (capacity_drop a c (in_children x) (proj2 O) I). lra.
Qed.
Lemma decom_facts s c : NoDup (rg_managers s) -> forall ds w next, world_ok (w, next) -> leaving w ds ->
  world_ok (decom_all ds w, next) /\ (forall j, has_inst (decom_all ds w) j = has_inst w j) /\
  supply w s c == supply (decom_all ds w) s c + qsum (map (fun d => if existsb (Nat.eqb (fst d)) (rg_managers s) then makes (snd d) c else 0) ds).
Proof.
  intros N. unfold decom_all. induction ds as [|d ds IH]; intros w next O L; cbn [fold_left leaving map] in *.
  - split; [exact O|]. split; [reflexivity|]. cbn. lra.
  - destruct L as ((x & X & I) & L). 
    assert (O1 : world_ok (set_inst w (fst d) (child_gone (snd d)), next)).
    { apply (set_ok w next next); [exact O|lia|]. intros y Y. rewrite X in Y. injection Y as <-. apply (gone_cap (snd d) x next c); [apply (world_insts (w, next) _ _ O X)|exact I]. }
    destruct (IH _ _ O1 L) as (A & B & C). split; [exact A|]. split; [intro j; rewrite B; apply has_set|].
    assert (E : supply (set_inst w (fst d) (child_gone (snd d))) s c == supply w s c + (if (existsb (Nat.eqb (fst d)) (rg_managers s) && has_inst w (fst d))%bool then - makes (snd d) c else 0)).
    { apply supply_set; [exact N|]. intros y Y. rewrite X in Y. injection Y as <-. apply (gone_cap (snd d) x next c); [apply (world_insts (w, next) _ _ O X)|exact I]. }
    unfold has_inst in E. rewrite X, Bool.andb_true_r in E.
    change (qsum (?a :: ?r)) with (a + qsum r). destruct (existsb (Nat.eqb (fst d)) (rg_managers s)); lra.
Qed.
Definition gain (reg : registry) (w : world) (s : region) (c : string) (b : nat * string) : Q :=
  if (existsb (Nat.eqb (fst b)) (rg_managers s) && has_inst w (fst b))%bool then match lookup reg (snd b) with Some p => makes {| ag_id := 0; ag_proto := p |} c | None => 0 end else 0.
Lemma build_facts reg s : NoDup (rg_managers s) -> forall bs w next, world_ok (w, next) -> Forall (fun b => lookup reg (snd b) <> None) bs ->
  exists w' next', build_all reg bs (w, next) = Ok (w', next') /\ world_ok (w', next') /\
    forall c, supply w' s c == supply w s c + qsum (map (gain reg w s c) bs).
Proof.
  intros N. unfold build_all. induction bs as [|b bs IH]; intros w next O K; cbn [loop map].
  - exists w, next. split; [reflexivity|]. split; [exact O|]. intro c. cbn. lra.
  - inversion K as [|? ? K1 K2]; subst. destruct (lookup reg (snd b)) as [p|] eqn:L; [|congruence]. unfold create at 1. rewrite L. cbn [bind].
    set (a := {| ag_id := next; ag_proto := p |}).
    assert (O1 : world_ok (set_inst w (fst b) (child_built a), S next)).
    { apply (set_ok w next (S next)); [exact O|lia|]. intros y Y. apply (built_cap a y next ""%string); [apply (world_insts (w, next) _ _ O Y)|reflexivity]. }
    destruct (IH _ _ O1 K2) as (w' & next' & E & O2 & C). exists w', next'. split; [exact E|]. split; [exact O2|]. intro c.
    rewrite C. rewrite (supply_set w s (fst b) (child_built a) c (makes a c) N).
    2: { intros y Y. apply (built_cap a y next c); [apply (world_insts (w, next) _ _ O Y)|reflexivity]. }
    assert (G : map (gain reg (set_inst w (fst b) (child_built a)) s c) bs = map (gain reg w s c) bs) by (apply map_ext; intro z; unfold gain; rewrite has_set; reflexivity).
    rewrite G. change (qsum (?a :: ?r)) with (a + qsum r). unfold gain at 2. rewrite L. change (makes a c) with (makes {| ag_id := 0; ag_proto := p |} c).
    destruct (existsb (Nat.eqb (fst b)) (rg_managers s) && has_inst w (fst b))%bool; lra.
Qed.
Lemma qsum_map_nonneg {A} (f : A -> Q) l : (forall x, 0 <= f x) -> 0 <= qsum (map f l).
Proof. intro H. apply qsum_nonneg, Forall_forall. intros q I. apply in_map_iff in I as (x & <- & _). apply H. Qed.
Lemma gain_nonneg reg w s c b : sound_reg reg -> 0 <= gain reg w s c b.
Proof.
  intro H. unfold gain. destruct (_ && _)%bool; [|lra]. destruct (lookup reg (snd b)) as [p|] eqn:L; [|lra]. apply (H _ _ c L).
Qed.
Lemma gain_order reg w w0 s c o : buildable reg w0 s o -> (forall j, has_inst w j = has_inst w0 j) -> qsum (map (gain reg w s c) (builds_of o)) == order_capacity c o.
Proof.
  intros (b & p & x & B & P & L & M & X) H. unfold builds_of, order_capacity. rewrite B, P, map_repeat.
  assert (G : gain reg w s c (b, pr_name p) = makes {| ag_id := 0; ag_proto := p |} c).
  { unfold gain. cbn [fst snd]. rewrite L, H. unfold has_inst. rewrite X. rewrite Bool.andb_true_r.
    assert (E : existsb (Nat.eqb b) (rg_managers s) = true) by (apply existsb_exists; exists b; split; [exact M|apply Nat.eqb_refl]). rewrite E. reflexivity. }
  rewrite G. generalize (makes {| ag_id := 0; ag_proto := p |} c) as k. intro k. induction (Z.to_nat (or_n o)) as [|n IH].
  - change (0 == 0 * k). ring.
  - cbn [repeat]. change (qsum (k :: repeat k n)) with (k + qsum (repeat k n)). rewrite IH. rewrite Nat2Z.inj_succ, <- Z.add_1_r, inject_Z_plus. change (inject_Z 1) with 1. ring.
Qed.
Lemma gain_orders reg w w0 s c os : Forall (buildable reg w0 s) os -> (forall j, has_inst w j = has_inst w0 j) ->
  qsum (map (gain reg w s c) (flat_map builds_of os)) == qsum (map (order_capacity c) os).
Proof.
  intros F H. induction F as [|o os O F IH]; [reflexivity|]. cbn [flat_map map]. rewrite map_app, qsum_app, IH, (gain_order reg w w0 s c o O H).
  change (qsum (?a :: ?r)) with (a + qsum r). reflexivity.
Qed.
Lemma part_le {A B} (f : B -> Q) (g : A -> list B) l a : (forall b, 0 <= f b) -> In a l -> qsum (map f (g a)) <= qsum (map f (flat_map g l)).
Proof.
  intros H I. induction l as [|x l IH]; [destruct I|]. cbn [flat_map]. rewrite map_app, qsum_app.
  pose proof (qsum_map_nonneg f (g x) H). pose proof (qsum_map_nonneg f (flat_map g l) H). destruct I as [->|I]; [lra|]. specialize (IH I). lra.
Qed.
Lemma supply_facilities st s c : world_ok st -> supply (fst st) s c == capacity_of (facilities (fst st) (rg_managers s)) c.
Proof.
  intro O. unfold supply, facilities. induction (rg_managers s) as [|m ms IH]; [reflexivity|]. cbn [map flat_map]. rewrite capacity_app, <- IH.
  change (qsum (?a :: ?r)) with (a + qsum r). destruct (inst_of (fst st) m) as [x|] eqn:X.
  - rewrite total_children by (apply (world_insts st m x O X)). reflexivity.
  - reflexivity.
Qed.
Lemma time_step reg cfg s now d st e : sound_reg reg -> NoDup (rg_managers s) -> (forall c, In c (map fst cfg) -> demand_at s c now = Ok (d c)) ->
  world_ok st -> env_ok reg cfg s (fst st) e ->
  exists st', rg_time reg cfg s now st e = Ok st' /\ world_ok st' /\
    forall c, (In c (map fst cfg) -> d c <= supply (fst st') s c + capacity_gone s e c) /\ supply (fst st) s c <= supply (fst st') s c + capacity_gone s e c.
Proof.
  intros SR N D O (AD & LV & KO). destruct st as [w next]. cbn [fst snd] in *. unfold rg_time. cbn [fst snd].
  assert (WO : wanted_ok cfg (re_decide e) d (supply w s)).
  { apply Forall_forall. intros x Ix Q. destruct (AD (fst x) (d (fst x) - supply w s (fst x))) as [B _]; [apply in_map, Ix|lra|]. eapply Forall_impl; [|exact B].
    intros o (b & p & y & X1 & X2 & _). split; congruence. }
  rewrite (proj1 (tick_final cfg (re_decide e) now w s d D) WO). cbn [bind].
  destruct (decom_facts s ""%string N (re_gone e) w next O LV) as (O1 & HI & _).
  assert (KB : Forall (fun b => lookup reg (snd b) <> None) (wanted cfg (re_decide e) d (supply w s) ++ re_others e)).
  { apply Forall_app. split; [|exact KO]. apply Forall_forall. intros b Ib. unfold wanted in Ib. apply in_flat_map in Ib as (x & Ix & Ib).
    destruct (Qltb (supply w s (fst x)) (d (fst x))) eqn:Q; [|destruct Ib]. apply Qltb_true in Q. apply in_flat_map in Ib as (o & Io & Ib).
    destruct (AD (fst x) (d (fst x) - supply w s (fst x))) as [B _]; [apply in_map, Ix|lra|]. rewrite Forall_forall in B. destruct (B o Io) as (bb & p & y & X1 & X2 & X3 & _).
    unfold builds_of in Ib. rewrite X1, X2 in Ib. apply repeat_spec in Ib. subst b. cbn [snd]. congruence. }
  destruct (build_facts reg s N _ _ _ O1 KB) as (w' & next' & E & O2 & C). exists (w', next'). split; [exact E|]. split; [exact O2|]. intro c. cbn [fst].
  destruct (decom_facts s c N (re_gone e) w next O LV) as (_ & _ & G). fold (capacity_gone s e c) in G. specialize (C c). rewrite map_app, qsum_app in C.
  assert (NN : forall b, 0 <= gain reg (decom_all (re_gone e) w) s c b) by (intro b; apply gain_nonneg, SR).
  pose proof (qsum_map_nonneg _ (wanted cfg (re_decide e) d (supply w s)) NN). pose proof (qsum_map_nonneg _ (re_others e) NN).
  split; [|lra]. intro I. apply in_map_iff in I as (x & <- & Ix).
  assert (PL := part_le (gain reg (decom_all (re_gone e) w) s (fst x)) (fun e0 => if Qltb (supply w s (fst e0)) (d (fst e0)) then flat_map builds_of (re_decide e (fst e0) (d (fst e0) - supply w s (fst e0))) else []) cfg x NN Ix).
  fold (wanted cfg (re_decide e) d (supply w s)) in PL. cbn beta in PL. destruct (Qltb (supply w s (fst x)) (d (fst x))) eqn:Q.
  - apply Qltb_true in Q. destruct (AD (fst x) (d (fst x) - supply w s (fst x))) as [B U]; [apply in_map, Ix|lra|].
    rewrite (gain_orders reg _ w s (fst x) _ B HI) in PL. lra.
  - apply Qltb_false in Q. lra.
Qed.
Lemma history_loop reg cfg s (d : string -> Z -> Q) : sound_reg reg -> NoDup (rg_managers s) ->
  (forall c now, In c (map fst cfg) -> demand_at s c now = Ok (d c now)) ->
  forall es now st, world_ok st -> history_ok reg cfg s now st es ->
  exists sts, rg_life reg cfg s now st es = Ok sts /\ List.length sts = List.length es /\ Forall world_ok sts /\
    forall k e st' c, nth_error es k = Some e -> nth_error sts k = Some st' -> In c (map fst cfg) ->
      d c (now + Z.of_nat k)%Z <= supply (fst st') s c + capacity_gone s e c.
Proof.
  intros SR N D. induction es as [|e es IH]; intros now st O H; cbn [rg_life history_ok] in *.
  - exists []. split; [reflexivity|]. split; [reflexivity|]. split; [constructor|]. intros [|k]; discriminate.
  - destruct H as [EO H]. destruct (time_step reg cfg s now (fun c => d c now) st e SR N (fun c I => D c now I) O EO) as (st' & E & O' & P).
    rewrite E. cbn [bind]. destruct (IH (now + 1)%Z st' O' (H st' E)) as (sts & L & Len & FO & Q). rewrite L. cbn [bind].
    exists (st' :: sts). split; [reflexivity|]. split; [cbn; lia|]. split; [constructor; assumption|]. intros [|k] e' st2 c X Y I; cbn in X, Y.
    + injection X as <-. injection Y as <-. rewrite Z.add_0_r. apply P, I.
    + specialize (Q k e' st2 c X Y I). replace (now + Z.of_nat (S k))%Z with (now + 1 + Z.of_nat k)%Z by lia. exact Q.
Qed.
Lemma growth_final : forall bff reg cfg ch s now st es, Forall (fun e => demand_ok bff (snd e)) cfg -> NoDup (map fst cfg) -> NoDup (mids ch) ->
  rg_start bff cfg ch = Ok s -> sound_reg reg -> world_ok st -> history_ok reg cfg s now st es ->
  exists sts, rg_life reg cfg s now st es = Ok sts /\ List.length sts = List.length es /\
    forall k e st' c, nth_error es k = Some e -> nth_error sts k = Some st' -> In c (map fst cfg) -> exists d,
      demand_at s c (now + Z.of_nat k) = Ok d /\ d <= capacity_of (facilities (fst st') (rg_managers s)) c + capacity_gone s e c.
Proof.
  intros bff reg cfg ch s now st es A NK NC B SR O H. destruct (start_facts bff cfg ch A NK) as (s1 & E & _ & _ & _ & D). rewrite B in E. injection E as <-.
  assert (NM : NoDup (rg_managers s)). { destruct (start_full _ _ _ _ NC B) as [F _]. apply full_inv in F. apply F. }
  set (d := fun c now => match demand_at s c now with Ok x => x | _ => 0 end).
  assert (DD : forall c now, In c (map fst cfg) -> demand_at s c now = Ok (d c now)).
  { intros c n I. unfold d. apply in_map_iff in I as ([c' dd] & <- & I). destruct (D _ _ I) as (D0 & X & _). cbn [fst]. rewrite X. reflexivity. }
  destruct (history_loop reg cfg s d SR NM DD es now st O H) as (sts & L & Len & FO & P). exists sts. split; [exact L|]. split; [exact Len|].
  intros k e st' c X Y I. exists (d c (now + Z.of_nat k)%Z). split; [apply DD, I|]. rewrite <- supply_facilities; [apply (P k e st' c X Y I)|].
  rewrite Forall_forall in FO. apply FO. eapply nth_error_In, Y.
Qed.
