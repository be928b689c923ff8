(** Simulations whose facilities are ordered by a growth region (C142): the proofs. *)
From Coq Require Import Lia Lqa.
From Verif Require Import Outcome KernelFacts InstModel InstSpec InstProofs RegionModel RegionSpec RegionProofs.
From Verif Require Import KernelMaterial KernelResBuf KernelBuf NetworkSpec SimulationSpec SimulationProofs SimulationNetwork UnitSpec UnitProofs ReplayProofs PlanSpec PlanProofs GrowthSpec.
Local Open Scope Z_scope.

Definition pid (p : plant) : nat := ag_id (pt_agent p).
(** What the institutions know is what there is. *)
Definition books (st : RegionModel.world * nat) (ps : list plant) : Prop :=
  RegionSpec.world_ok st /\ (forall i x, inst_of (fst st) i = Some x -> in_children x = map pt_agent (filter (at_inst i) ps)) /\
  Forall (fun p => inst_of (fst st) (pt_inst p) <> None) ps /\ NoDup (map pid ps) /\ Forall (fun p => (pid p < snd st)%nat) ps.

Lemma pair_eq {A B} (x : A * B) : x = (fst x, snd x).
Proof. destruct x; reflexivity. Qed.
Lemma set_keeps w i f j : inst_of w j <> None -> inst_of (set_inst w i f) j <> None.
Proof. intro H. rewrite inst_of_set. destruct (Nat.eqb j i); [|exact H]. destruct (inst_of w j); [discriminate|congruence]. Qed.
Lemma books_built w next ps i p f : books (w, next) ps -> inst_of w i <> None ->
  books (set_inst w i (child_built {| ag_id := next; ag_proto := p |}), S next) (ps ++ [{| pt_inst := i; pt_agent := {| ag_id := next; ag_proto := p |}; pt_fac := f |}]).
Proof.
  intros (W & C & P & N & L) I. set (a := {| ag_id := next; ag_proto := p |}). split; [|split; [|split; [|split]]]; cbn [fst snd] in *.
  - apply set_ok with (next := next); [exact W|lia|]. intros x X. apply (built_cap a x next ""%string (world_insts _ _ _ W X) eq_refl).
  - intros j x H. rewrite inst_of_set in H. rewrite filter_app, map_app. cbn [filter]. unfold at_inst at 2. cbn [pt_inst]. rewrite Nat.eqb_sym. destruct (Nat.eqb_spec j i) as [->|NE].
    + destruct (inst_of w i) as [x0|] eqn:X0; [|discriminate]. injection H as <-. destruct (world_insts _ _ _ W X0) as [O F]. cbn [snd] in F.
      destruct (built_ok a x0 O) as (_ & E & _); [intro J; rewrite Forall_forall in F; specialize (F _ J); cbn in F; lia|]. rewrite E, (C i x0 X0). reflexivity.
    + rewrite (C j x H). cbn [map]. rewrite app_nil_r. reflexivity.
  - apply Forall_app. split; [|constructor; [cbn [pt_inst]; apply set_keeps, I|constructor]]. eapply Forall_impl; [|exact P]. intros q. apply set_keeps.
  - rewrite map_app. cbn [map]. apply NoDup_rev in N. rewrite <- (rev_involutive (map pid ps ++ _)). apply NoDup_rev. rewrite rev_app_distr. cbn. constructor; [|exact N].
    rewrite <- in_rev. intro J. apply in_map_iff in J as (q & E & J). rewrite Forall_forall in L. specialize (L q J). cbn in E. unfold pid in *. lia.
  - apply Forall_app. split; [|constructor; [cbn; lia|constructor]]. eapply Forall_impl; [|exact L]. intros q H. cbn beta in *. lia.
Qed.
Lemma create_ok reg n p : create reg n = Ok p -> lookup reg n = Some p.
Proof. unfold create. destruct (lookup reg n); [intro H; injection H as ->; reflexivity|discriminate]. Qed.
Lemma books_build make reg t : forall bs st ps st', books st ps -> Forall (has_place (fst st)) bs -> build_all reg bs st = Ok st' -> books st' (ps ++ arrive make reg t (snd st) bs).
Proof.
  induction bs as [|b bs IH]; intros [w next] ps st' B H E; cbn [arrive fst snd] in *.
  - cbn in E. injection E as <-. rewrite app_nil_r. exact B.
  - inversion H as [|? ? H1 H2]; subst. unfold build_all in E. cbn [loop] in E. apply bind_ok in E as (st1 & E1 & E). apply bind_ok in E1 as (p & E1 & E2). injection E2 as <-.
    rewrite (create_ok _ _ _ E1). change (?a :: ?b) with ([a] ++ b). rewrite app_assoc. apply (IH (set_inst w (fst b) (child_built {| ag_id := next; ag_proto := p |}), S next)); [|exact (Forall_impl _ (fun x => set_keeps w (fst b) _ (fst x)) H2)|exact E].
    apply books_built; assumption.
Qed.
Lemma filter_id a : forall l, NoDup (map pid l) -> forall i, ~ In (ag_id a) (map pid l) -> filter (fun b => negb (Nat.eqb (ag_id b) (ag_id a))) (map pt_agent (filter (at_inst i) l)) = map pt_agent (filter (at_inst i) l).
Proof.
  induction l as [|p l IH]; intros N i H; [reflexivity|]. cbn in N, H. inversion N as [|? ? A B]; subst. cbn [filter]. specialize (IH B i (fun X => H (or_intror X))).
  destruct (at_inst i p); [|exact IH]. cbn [map filter]. destruct (Nat.eqb_spec (ag_id (pt_agent p)) (ag_id a)) as [E|_]; [exfalso; apply H; left; exact E|]. cbn [negb]. rewrite IH. reflexivity.
Qed.
Lemma books_gone w next a p b : books (w, next) (a ++ p :: b) ->
  (exists x, inst_of w (pt_inst p) = Some x /\ In (pt_agent p) (in_children x)) /\ books (set_inst w (pt_inst p) (child_gone (pt_agent p)), next) (a ++ b).
Proof.
  intros (W & C & P & N & L). cbn [fst snd] in *. apply Forall_app in P as [P1 P2]. inversion P2 as [|? ? P3 P4]; subst. apply Forall_app in L as [L1 L2]. inversion L2 as [|? ? L3 L4]; subst.
  rewrite map_app in N. cbn [map] in N. pose proof (NoDup_remove_1 _ _ _ N) as N1. pose proof (NoDup_remove_2 _ _ _ N) as N2. rewrite <- map_app in N1, N2.
  assert (M : forall x, inst_of w (pt_inst p) = Some x -> In (pt_agent p) (in_children x)).
  { intros x X. rewrite (C _ _ X). apply in_map. apply filter_In. split; [apply in_or_app; right; left; reflexivity|unfold at_inst; apply Nat.eqb_refl]. }
  split; [destruct (inst_of w (pt_inst p)) as [x|] eqn:X; [exists x; split; [reflexivity|apply M; reflexivity]|congruence]|].
  split; [|split; [|split; [|split]]]; cbn [fst snd].
  - apply set_ok with (next := next); [exact W|lia|]. intros x X. apply (gone_cap (pt_agent p) x next ""%string (world_insts _ _ _ W X) (M x X)).
  - intros j x H. rewrite inst_of_set in H. destruct (Nat.eqb_spec j (pt_inst p)) as [->|NE].
    + destruct (inst_of w (pt_inst p)) as [x0|] eqn:X0; [|discriminate]. injection H as <-. destruct (world_insts _ _ _ W X0) as [O F]. destruct (gone_ok (pt_agent p) x0 O (M x0 eq_refl)) as (_ & E & _).
      rewrite E, (C _ x0 X0). rewrite !filter_app, !map_app, filter_app. cbn [filter]. unfold at_inst at 2. rewrite Nat.eqb_refl. cbn [map filter]. rewrite Nat.eqb_refl. cbn [negb].
      rewrite <- filter_app, <- map_app, <- filter_app. apply filter_id; assumption.
    + rewrite (C j x H). rewrite !filter_app. cbn [filter]. unfold at_inst at 2. destruct (Nat.eqb_spec (pt_inst p) j); [congruence|reflexivity].
  - apply Forall_app. split; [eapply Forall_impl; [|exact P1]|eapply Forall_impl; [|exact P4]]; intros q; apply set_keeps.
  - exact N1.
  - apply Forall_app. split; assumption.
Qed.
Lemma quit_one i (l : list plant) : (i < List.length l)%nat -> exists a p b, l = a ++ p :: b /\ List.length a = i /\ without i l = a ++ b /\ firstn 1 (skipn i l) = [p].
Proof.
  intro H. destruct (without_spec i l H) as (a & p & b & -> & L & E). exists a, p, b. split; [reflexivity|]. split; [exact L|]. split; [exact E|].
  rewrite <- L, skipn_app, skipn_all, Nat.sub_diag. reflexivity.
Qed.
Definition goners (l : list nat) (ps : list plant) : list (nat * agent) := map (fun p => (pt_inst p, pt_agent p)) (quitters l ps).
Lemma books_leave l : forall w next ps, books (w, next) ps -> possible l ps -> leaving w (goners l ps) /\ books (decom_all (goners l ps) w, next) (depart l ps) /\ forall j, inst_of w j <> None -> inst_of (decom_all (goners l ps) w) j <> None.
Proof.
  induction l as [|i l IH]; intros w next ps B H; [split; [exact I|]; split; [exact B|auto]|]. destruct H as [H1 H2]. destruct (quit_one i ps H1) as (a & p & b & -> & Li & E & F).
  unfold goners in *. cbn [quitters depart]. rewrite F, map_app. rewrite E in *. destruct (books_gone _ _ _ _ _ B) as [B1 B2]. destruct (IH _ _ _ B2 H2) as (X & Y & Z). cbn [map app leaving fst snd].
  split; [split; assumption|]. split; [exact Y|]. intros j J. apply Z, set_keeps, J.
Qed.
(** ** Only the facilities change in the exchange *)
Lemma refit_length ps : forall fs, List.length fs = List.length ps -> map pt_fac (refit ps fs) = fs /\ map pt_inst (refit ps fs) = map pt_inst ps /\ map pt_agent (refit ps fs) = map pt_agent ps.
Proof.
  unfold refit. induction ps as [|p ps IH]; intros [|f fs] L; try discriminate L; [repeat split|]. injection L as L. destruct (IH fs L) as (A & B & C). cbn. rewrite A, B, C. repeat split.
Qed.
Definition twins (ps qs : list plant) : Prop := map pt_inst ps = map pt_inst qs /\ map pt_agent ps = map pt_agent qs.
Lemma twins_cons p ps qs : twins (p :: ps) qs -> exists q qs', qs = q :: qs' /\ pt_inst p = pt_inst q /\ pt_agent p = pt_agent q /\ twins ps qs'.
Proof. destruct qs as [|q qs]; intros [A B]; [discriminate A|]. cbn in A, B. injection A as A1 A2. injection B as B1 B2. exists q, qs. repeat split; assumption. Qed.
Lemma twins_length ps qs : twins ps qs -> List.length ps = List.length qs.
Proof. intros [A _]. rewrite <- (map_length pt_inst ps), A, map_length. reflexivity. Qed.
Lemma twins_filter (g : nat -> bool) : forall ps qs, twins ps qs -> map pt_agent (filter (fun p => g (pt_inst p)) ps) = map pt_agent (filter (fun p => g (pt_inst p)) qs).
Proof.
  induction ps as [|p ps IH]; intros qs T; [destruct qs; [reflexivity|destruct T as [A _]; discriminate A]|]. destruct (twins_cons _ _ _ T) as (q & qs' & -> & A & B & T'). cbn [filter]. rewrite A.
  destruct (g (pt_inst q)); cbn [map]; rewrite (IH _ T'); congruence.
Qed.
Lemma twins_pid ps qs : twins ps qs -> map pid ps = map pid qs.
Proof. intros [_ B]. unfold pid. rewrite <- (map_map pt_agent ag_id ps), <- (map_map pt_agent ag_id qs), B. reflexivity. Qed.
Lemma Forall_via {A B} (f : A -> B) (P : B -> Prop) l : Forall (fun x => P (f x)) l <-> Forall P (map f l).
Proof. rewrite Forall_map. reflexivity. Qed.
Lemma twins_books st ps qs : twins ps qs -> books st ps -> books st qs.
Proof.
  intros T (W & C & P & N & L). split; [exact W|]. split; [|split; [|split]].
  - intros i x X. rewrite (C i x X). exact (twins_filter (fun j => Nat.eqb j i) _ _ T).
  - apply (Forall_via pt_inst (fun i => inst_of (fst st) i <> None)). rewrite <- (proj1 T). apply (Forall_via pt_inst (fun i => inst_of (fst st) i <> None)). exact P.
  - rewrite <- (twins_pid _ _ T). exact N.
  - apply (Forall_via pid (fun i => (i < snd st)%nat)). rewrite <- (twins_pid _ _ T). apply (Forall_via pid (fun i => (i < snd st)%nat)). exact L.
Qed.
Lemma map_without {A B} (f : A -> B) i l : map f (without i l) = without i (map f l).
Proof. unfold without. rewrite map_app, firstn_map, skipn_map. reflexivity. Qed.
Lemma map_depart {A B} (f : A -> B) is : forall l, map f (depart is l) = depart is (map f l).
Proof. induction is as [|i is IH]; intro l; [reflexivity|]. cbn. rewrite IH, map_without. reflexivity. Qed.
Lemma twins_depart l ps qs : twins ps qs -> twins (depart l ps) (depart l qs).
Proof. intros [A B]. split; rewrite !map_depart; congruence. Qed.
Lemma possible_len {A B} is : forall (l : list A) (m : list B), List.length l = List.length m -> possible is l -> possible is m.
Proof.
  induction is as [|i is IH]; intros l m E H; [exact I|]. destruct H as [H1 H2]. assert (H3 : (i < List.length m)%nat) by lia. split; [exact H3|]. apply (IH (without i l)); [|exact H2].
  pose proof (length_without i l H1). pose proof (length_without i m H3). lia.
Qed.
Lemma refit_twins ps fs : List.length fs = List.length ps -> twins ps (refit ps fs).
Proof. intro L. destruct (refit_length ps fs L) as (_ & A & B). split; congruence. Qed.
Lemma step_books w make reg cfg s t id st ps y st' ps' : books st ps -> gstep w make reg cfg s t id st ps y st' ps' -> books st' ps'.
Proof.
  intros B (sched & fs' & sent & T & G & O & N & P & H & E & ->). destruct st as [wd next]. cbn [fst snd] in *. destruct N as (_ & L & _). rewrite map_length in L.
  destruct (books_leave _ _ _ _ B P) as (_ & B1 & K). pose proof (twins_books _ _ _ (twins_depart (gd_leave y) _ _ (refit_twins ps fs' L)) B1) as B2.
  apply (books_build make reg (t + 1) _ (decom_all (goners (gd_leave y) ps) wd, next) _ _ B2); [|exact E]. eapply Forall_impl; [|exact H]. intros b. apply K.
Qed.
Lemma start_books make reg is next bs st : NoDup (map fst is) -> Forall (fun e => in_children (snd e) = [] /\ in_producers (snd e) = []) is -> Forall (has_place is) bs -> build_all reg bs (is, next) = Ok st ->
  books st (arrive make reg 0 next bs).
Proof.
  intros N F H E. apply (books_build make reg 0 bs (is, next) [] st); [|exact H|exact E]. split; [|split; [|split; [|split]]]; cbn [fst snd]; try constructor.
  - exact N.
  - eapply Forall_impl; [|exact F]. intros e [A B]. rewrite A, B. split; [reflexivity|]. split; constructor.
  - intros i x X. unfold inst_of in X. destruct (find _ is) as [e|] eqn:Y; [|discriminate]. injection X as <-. apply find_some in Y as [Y _]. rewrite Forall_forall in F. exact (proj1 (F e Y)).
Qed.
Lemma grows_books w id0 make reg cfg s days t id st ps : grows w id0 make reg cfg s days t id st ps -> books st ps.
Proof. induction 1; [eapply start_books; eassumption|eapply step_books; eassumption]. Qed.
Lemma grows_now w id0 make reg cfg s days t id st ps : grows w id0 make reg cfg s days t id st ps -> 0 <= t.
Proof. induction 1; lia. Qed.
(** ** What there is was built *)
Definition built_as (make : proto -> Z -> fac) (reg : registry) (t : Z) (p : plant) : Prop :=
  exists n t0, 0 <= t0 <= t /\ lookup reg n = Some (ag_proto (pt_agent p)) /\ alike (make (ag_proto (pt_agent p)) t0) (pt_fac p).
Lemma arrive_built make reg t : 0 <= t -> forall bs next, Forall (built_as make reg t) (arrive make reg t next bs).
Proof.
  intro T. induction bs as [|b bs IH]; intro next; cbn [arrive]; [constructor|]. destruct (lookup reg (snd b)) as [p|] eqn:L; constructor; [|apply IH].
  exists (snd b), t. split; [lia|]. split; [exact L|apply alike_refl].
Qed.
Lemma refit_built make reg t w id gs ps ds fs' sent : Forall (built_as make reg t) ps -> nstep w t id gs (map pt_fac ps) ds fs' sent -> Forall (built_as make reg (t + 1)) (refit ps fs').
Proof.
  intros B N. pose proof (nstep_alike _ _ _ _ _ _ _ _ N) as A. clear N. unfold refit. remember (map pt_fac ps) as l eqn:E. revert ps E B. induction A as [|f f' l l' X A IH]; intros [|p ps] E B; try discriminate E; cbn; [constructor|].
  injection E as -> E. inversion B as [|? ? (n & t0 & R & L & K) B2]; subst. constructor; [|apply IH; [reflexivity|exact B2]]. exists n, t0. cbn. split; [lia|]. split; [exact L|]. eapply alike_trans; eassumption.
Qed.
Lemma depart_forall {A} (P : A -> Prop) is : forall l, Forall P l -> Forall P (depart is l).
Proof.
  induction is as [|i is IH]; intros l F; [exact F|]. cbn. apply IH. unfold without. rewrite <- (firstn_skipn i l) in F. apply Forall_app in F as [F1 F2]. apply Forall_app. split; [exact F1|].
  rewrite <- (firstn_skipn 1 (skipn i l)) in F2. apply Forall_app in F2 as [_ F2]. replace (skipn (S i) l) with (skipn 1 (skipn i l)); [exact F2|]. clear. revert l. induction i as [|i IH]; intro l; [reflexivity|]. destruct l; [reflexivity|]. apply IH.
Qed.
Lemma grows_built w id0 make reg cfg s days t id st ps : grows w id0 make reg cfg s days t id st ps -> Forall (built_as make reg t) ps.
Proof.
  induction 1 as [is next bs st N F H E|days t id st ps y st' ps' R IH S]; [apply arrive_built; lia|]. pose proof (grows_now _ _ _ _ _ _ _ _ _ _ _ R) as T. destruct S as (sched & fs' & sent & _ & _ & _ & N & _ & _ & _ & ->).
  apply Forall_app. split; [apply depart_forall; eapply refit_built; eassumption|apply arrive_built; lia].
Qed.
Lemma the_books w id0 make reg cfg s days t id st ps : grows w id0 make reg cfg s days t id st ps ->
  (forall i x, inst_of (fst st) i = Some x -> in_children x = map pt_agent (filter (at_inst i) ps) /\ in_producers x = producers_of (in_children x)) /\
  NoDup (map (fun p => ag_id (pt_agent p)) ps) /\
  Forall (fun p => inst_of (fst st) (pt_inst p) <> None /\ exists n t0, 0 <= t0 <= t /\ lookup reg n = Some (ag_proto (pt_agent p)) /\ alike (make (ag_proto (pt_agent p)) t0) (pt_fac p)) ps.
Proof.
  intro R. destruct (grows_books _ _ _ _ _ _ _ _ _ _ _ R) as (W & C & P & N & _). split; [|split; [exact N|]].
  - intros i x X. split; [exact (C i x X)|]. destruct (world_insts _ _ _ W X) as [[O _] _]. exact O.
  - pose proof (grows_built _ _ _ _ _ _ _ _ _ _ _ R) as B. rewrite Forall_forall in *. intros p I. split; [exact (P p I)|exact (B p I)].
Qed.
(** ** It is a simulation *)
Lemma arrive_sound w make reg t : sound_make w make reg -> 0 <= t -> forall bs next, Forall (deployed w t) (map pt_fac (arrive make reg t next bs)).
Proof. intros M T. induction bs as [|b bs IH]; intro next; cbn [arrive]; [constructor|]. destruct (lookup reg (snd b)) as [p|] eqn:L; constructor; [exact (M _ _ _ T L)|apply IH]. Qed.
Lemma grown_simulation w id0 make reg cfg s : sound_make w make reg -> forall days t id st ps, grows w id0 make reg cfg s days t id st ps -> exists ms, plays w id0 ms t id (map pt_fac ps).
Proof.
  intros M. induction 1 as [is next bs st N F H E|days t id st ps y st' ps' R (ms & P) S].
  - exists ([] ++ map (Deploy 0) (map pt_fac (arrive make reg 0 next bs))). apply (deploy_all w id0 0 id0 _ [] []); [constructor|apply arrive_sound; [exact M|lia]].
  - pose proof (grows_now _ _ _ _ _ _ _ _ _ _ _ R) as T. destruct S as (sched & fs' & sent & _ & G & O & N & L & _ & _ & ->). pose proof (pl_trade _ _ _ _ _ _ _ _ _ _ P G O N) as P2.
    destruct N as (_ & E & _). rewrite map_length in E. destruct (refit_length ps fs' E) as (E1 & _ & _). pose proof (retire_all _ _ _ _ _ _ _ P2 (possible_len _ _ fs' (eq_sym E) L)) as P3.
    pose proof (deploy_all _ _ _ _ (map pt_fac (arrive make reg (t + 1) (snd st) (sched ++ gd_others y))) _ _ P3 (arrive_sound w make reg (t + 1) M ltac:(lia) _ _)) as P4.
    eexists. rewrite map_app, map_depart, E1. exact P4.
Qed.
(** ** Demand *)
Lemma capacity_split c : forall ms, NoDup ms -> forall ps : list plant,
  (capacity_of (map pt_agent (filter (fun p => existsb (Nat.eqb (pt_inst p)) ms) ps)) c == qsum (map (fun i => capacity_of (map pt_agent (filter (at_inst i) ps)) c) ms))%Q.
Proof.
  induction ms as [|m ms IH]; intros N ps.
  - cbn. replace (filter (fun _ => false) ps) with (@nil plant); [reflexivity|]. induction ps; auto.
  - inversion N as [|? ? A B]; subst. change (qsum (map ?g (m :: ms))) with (g m + qsum (map g ms))%Q. cbn beta. rewrite <- (IH B ps). clear IH. induction ps as [|p ps IH]; [reflexivity|]. cbn [filter existsb]. unfold at_inst at 1.
    destruct (Nat.eqb_spec (pt_inst p) m) as [E|E]; cbn [orb].
    + assert (X : existsb (Nat.eqb (pt_inst p)) ms = false). { apply not_true_iff_false. intro X. apply existsb_exists in X as (k & K & Y). apply Nat.eqb_eq in Y. congruence. }
      rewrite X. cbn [map]. unfold capacity_of in *. cbn [map]. change (qsum (?a :: ?r)) with (a + qsum r)%Q. cbn [existsb] in IH. rewrite IH. ring.
    + destruct (existsb (Nat.eqb (pt_inst p)) ms); [|exact IH]. cbn [map]. unfold capacity_of in *. cbn [map]. change (qsum (?a :: ?r)) with (a + qsum r)%Q. cbn [existsb] in IH. rewrite IH. ring.
Qed.
Lemma supply_network st ps s c : books st ps -> NoDup (rg_managers s) -> (supply (fst st) s c == network_capacity s ps c)%Q.
Proof.
  intros (W & C & P & _) N. unfold network_capacity, counted. rewrite (capacity_split c _ N ps). unfold supply. clear N. induction (rg_managers s) as [|m ms IH]; [reflexivity|]. cbn [map]. change (qsum (?a :: ?r)) with (a + qsum r)%Q. rewrite IH.
  apply Qplus_comp; [|reflexivity]. destruct (inst_of (fst st) m) as [x|] eqn:X.
  - destruct (world_insts _ _ _ W X) as [O _]. rewrite (total_children x c O), (C m x X). reflexivity.
  - replace (filter (at_inst m) ps) with (@nil plant); [reflexivity|]. clear - P X. induction P as [|p ps A P IH]; [reflexivity|]. cbn [filter]. unfold at_inst at 1. destruct (Nat.eqb_spec (pt_inst p) m) as [E|_]; [congruence|exact IH].
Qed.
Lemma gone_capacity s c l : (qsum (map (fun d => if existsb (Nat.eqb (fst d)) (rg_managers s) then makes (snd d) c else 0) (map (fun p => (pt_inst p, pt_agent p)) l)) == network_capacity s l c)%Q.
Proof.
  unfold network_capacity. induction l as [|p l IH]; [reflexivity|]. cbn [map filter fst snd]. change (qsum (?a :: ?r)) with (a + qsum r)%Q. rewrite IH. change (counted s p) with (existsb (Nat.eqb (pt_inst p)) (rg_managers s)).
  destruct (existsb _ _); [|ring]. unfold capacity_of. cbn [map]. change (qsum (?a :: ?r)) with (a + qsum r)%Q. reflexivity.
Qed.
Lemma build_known reg : forall bs st st', build_all reg bs st = Ok st' -> Forall (fun b => lookup reg (snd b) <> None) bs.
Proof.
  induction bs as [|b bs IH]; intros [w next] st' E; constructor.
  - unfold build_all in E. cbn [loop] in E. apply bind_ok in E as (st1 & E1 & _). apply bind_ok in E1 as (p & E1 & _). rewrite (create_ok _ _ _ E1). discriminate.
  - unfold build_all in E. cbn [loop] in E. apply bind_ok in E as (st1 & _ & E). exact (IH _ _ E).
Qed.
Lemma region_facts bff cfg ch s : Forall (fun e => demand_ok bff (snd e)) cfg -> NoDup (map fst cfg) -> NoDup (mids ch) -> rg_start bff cfg ch = Ok s ->
  NoDup (rg_managers s) /\ exists d, forall c now, In c (map fst cfg) -> demand_at s c now = Ok (d c now).
Proof.
  intros A NK NC B. destruct (start_facts bff cfg ch A NK) as (s1 & E & _ & _ & _ & D). rewrite B in E. injection E as <-. split.
  - destruct (start_full _ _ _ _ NC B) as [F _]. apply full_inv in F. apply F.
  - exists (fun c now => match demand_at s c now with Ok x => x | _ => 0%Q end). intros c n I. apply in_map_iff in I as ([c' dd] & <- & I). destruct (D _ _ I) as (D0 & X & _). cbn [fst]. rewrite X. reflexivity.
Qed.
Lemma demand_met w id0 make bff reg cfg ch s days t id st ps y st' ps' : Forall (fun e => demand_ok bff (snd e)) cfg -> NoDup (map fst cfg) -> NoDup (mids ch) -> rg_start bff cfg ch = Ok s -> sound_reg reg ->
  grows w id0 make reg cfg s days t id st ps -> adequate reg cfg (fst st) s (gd_decide y) -> gstep w make reg cfg s t id st ps y st' ps' ->
  forall c, In c (map fst cfg) -> exists d, demand_at s c t = Ok d /\ (d <= network_capacity s ps' c + network_capacity s (quitters (gd_leave y) ps) c)%Q.
Proof.
  intros A NK NC B SR R AD S c I. destruct (region_facts bff cfg ch s A NK NC B) as (NM & d & D). pose proof (grows_books _ _ _ _ _ _ _ _ _ _ _ R) as BK. pose proof (step_books _ _ _ _ _ _ _ _ _ _ _ _ BK S) as BK'.
  destruct S as (sched & fs' & sent & T & _ & _ & _ & P & _ & E & _). destruct st as [wd next]. cbn [fst snd] in *. destruct (books_leave _ _ _ _ BK P) as (LV & _ & _).
  set (e := {| re_decide := gd_decide y; re_gone := goners (gd_leave y) ps; re_others := gd_others y |}).
  assert (EO : env_ok reg cfg s wd e). { split; [exact AD|]. split; [exact LV|]. pose proof (build_known _ _ _ _ E) as K. apply Forall_app in K. exact (proj2 K). }
  destruct (time_step reg cfg s t (fun c => d c t) (wd, next) e SR NM (fun c0 J => D c0 t J) (proj1 BK) EO) as (st2 & E2 & _ & X). unfold rg_time in E2. cbn [fst snd re_decide re_gone re_others e] in E2.
  rewrite T in E2. cbn [bind] in E2. unfold goners in E2. rewrite E in E2. injection E2 as <-. exists (d c t). split; [exact (D c t I)|]. pose proof (proj1 (X c) I) as Y. cbn beta in Y.
  rewrite (supply_network _ _ s c BK' NM) in Y. unfold capacity_gone in Y. cbn [re_gone e] in Y. unfold goners in Y. rewrite gone_capacity in Y. exact Y.
Qed.
(** ** It goes on *)
Lemma wanted_place reg cfg wd s decide d : adequate reg cfg wd s decide -> Forall (has_place wd) (wanted cfg decide d (supply wd s)).
Proof.
  intro AD. apply Forall_forall. intros b Ib. unfold wanted in Ib. apply in_flat_map in Ib as (x & Ix & Ib). destruct (Qltb (supply wd s (fst x)) (d (fst x))) eqn:Q; [|destruct Ib]. apply Qltb_true in Q.
  apply in_flat_map in Ib as (o & Io & Ib). destruct (AD (fst x) (d (fst x) - supply wd s (fst x))%Q) as [B _]; [apply in_map, Ix|lra|]. rewrite Forall_forall in B. destruct (B o Io) as (bb & p & z & X1 & X2 & X3 & X4 & X5).
  unfold builds_of in Ib. rewrite X1, X2 in Ib. apply repeat_spec in Ib. subst b. unfold has_place. cbn [fst]. congruence.
Qed.
Lemma next_gday w id0 make bff reg cfg ch s days t id st ps y : world_ok w -> sound_make w make reg -> Forall (fun e => demand_ok bff (snd e)) cfg -> NoDup (map fst cfg) -> NoDup (mids ch) -> rg_start bff cfg ch = Ok s -> sound_reg reg ->
  grows w id0 make reg cfg s days t id st ps -> adequate reg cfg (fst st) s (gd_decide y) -> Forall (fun b => lookup reg (snd b) <> None /\ inst_of (fst st) (fst b) <> None) (gd_others y) ->
  (forall i, signal_ok (gd_sig y i)) -> orderly w t (gd_sig y) (map pt_fac ps) (gd_trades y) -> possible (gd_leave y) ps ->
  exists st' ps', gstep w make reg cfg s t id st ps y st' ps'.
Proof.
  intros W M A NK NC B SR R AD OT G O P. destruct (region_facts bff cfg ch s A NK NC B) as (NM & d & D). pose proof (grows_books _ _ _ _ _ _ _ _ _ _ _ R) as BK. pose proof (grows_now _ _ _ _ _ _ _ _ _ _ _ R) as T.
  destruct (grown_simulation _ _ _ _ _ _ M _ _ _ _ _ R) as (ms & PL). destruct (reached_good w W _ _ _ (plays_reached _ _ _ _ _ _ PL)) as [_ GD]. destruct (nstep_exists w t id _ _ _ W T G GD O) as (fs' & sent & N & _).
  destruct st as [wd next]. cbn [fst snd] in *. destruct (books_leave _ _ _ _ BK P) as (LV & _ & _). set (e := {| re_decide := gd_decide y; re_gone := goners (gd_leave y) ps; re_others := gd_others y |}).
  assert (EO : env_ok reg cfg s wd e). { split; [exact AD|]. split; [exact LV|]. eapply Forall_impl; [|exact OT]. intros b X. exact (proj1 X). }
  destruct (time_step reg cfg s t (fun c => d c t) (wd, next) e SR NM (fun c0 J => D c0 t J) (proj1 BK) EO) as (st2 & E2 & _ & _). unfold rg_time in E2. cbn [fst snd re_decide re_gone re_others e] in E2.
  assert (WO : wanted_ok cfg (gd_decide y) (fun c => d c t) (supply wd s)).
  { apply Forall_forall. intros x Ix Q. cbn beta in *. destruct (AD (fst x) (d (fst x) t - supply wd s (fst x))%Q) as [X _]; [apply in_map, Ix|lra|]. eapply Forall_impl; [|exact X]. intros o (b & p & z & X1 & X2 & _). split; congruence. }
  pose proof (proj1 (tick_final cfg (gd_decide y) t wd s (fun c => d c t) (fun c0 J => D c0 t J)) WO) as TK. rewrite TK in E2. cbn [bind] in E2.
  exists st2. eexists. exists (wanted cfg (gd_decide y) (fun c => d c t) (supply wd s)), fs', sent. split; [exact TK|]. split; [exact G|]. split; [exact O|]. split; [exact N|]. split; [exact P|]. split; [|split; [exact E2|reflexivity]].
  apply Forall_app. split; [apply wanted_place with (reg := reg), AD|]. eapply Forall_impl; [|exact OT]. intros b X. exact (proj2 X).
Qed.
