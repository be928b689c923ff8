(** C128: the reactor in an orderly exchange. *)
From Coq Require Import Lia Lqa Permutation.
From Verif Require Import Outcome KernelMaterial KernelResBuf KernelBuf KernelFacts KernelMass NetworkSpec SimulationSpec SimulationProofs.
From Verif Require Import ReactorModel ReactorSpec ReactorProofs ReactorTradeProofs ReactorHistory ReactorCycle ReactorRetire.
Local Open Scope Q_scope.

(** ** The tick only moves and burns assemblies *)
Lemma Forall_firstn {A} (P : A -> Prop) n l : Forall P l -> Forall P (firstn n l).
Proof. intro H. rewrite <- (firstn_skipn n l) in H. apply Forall_app in H. apply H. Qed.
Lemma Forall_skipn {A} (P : A -> Prop) n l : Forall P l -> Forall P (skipn n l).
Proof. intro H. rewrite <- (firstn_skipn n l) in H. apply Forall_app in H. apply H. Qed.
Lemma burn_real recipe s m : EnrichmentSpec.recipes_ok recipe -> real m -> real (burn recipe s m).
Proof.
  intros RO H. unfold burn. destruct (nth_error _ _) as [r|]; [|exact H]. destruct (recipe r) as [k|] eqn:E; [|exact H].
  unfold real, transmute. cbn. apply (RO _ _ E).
Qed.
Lemma burn_some recipe s n l : EnrichmentSpec.recipes_ok recipe -> Forall real l -> Forall real (map (burn recipe s) (firstn n l) ++ skipn n l).
Proof.
  intros RO H. apply Forall_app. split; [|apply Forall_skipn, H]. apply Forall_map. eapply Forall_impl; [|apply Forall_firstn, H].
  intros m. apply burn_real, RO.
Qed.
Lemma tick_real eps recipe cfg t s s1 ev : 0 <= eps -> config_consistent cfg -> recipes_known recipe cfg -> EnrichmentSpec.recipes_ok recipe ->
  reactor_ok recipe cfg s -> tick eps recipe cfg t s = Ok (s1, ev) -> Forall real (assemblies s) -> Forall real (assemblies s1).
Proof.
  intros EP C K RO I T H. unfold assemblies in H. apply Forall_app in H as [HF H]. apply Forall_app in H as [HC HS].
  destruct (retired cfg t) eqn:Hr.
  - destruct (tick_retired_spec eps recipe cfg EP C t s I Hr) as (s' & ev' & n & m & E & _ & _ & _ & _ & C1 & F1 & S1 & _).
    rewrite T in E. injection E as <- <-. unfold assemblies. rewrite C1, F1, S1.
    assert (HR : Forall real (rcore1 recipe cfg t s)) by (unfold rcore1; destruct (Z.eqb t _); [apply burn_some; assumption|exact HC]).
    repeat (apply Forall_app; split); auto using Forall_firstn, Forall_skipn.
  - destruct (tick_spec eps recipe cfg EP C K t s I Hr) as (s' & ev' & E & _ & TR). rewrite T in E. injection E as <- <-.
    unfold assemblies. rewrite (tr_core _ _ _ _ _ TR), (tr_fresh _ _ _ _ _ TR), (tr_spent _ _ _ _ _ TR).
    assert (HR : Forall real (core1 recipe cfg s)) by (unfold core1; destruct (Z.eqb _ _); [apply burn_some; assumption|exact HC]).
    unfold core2, moved. destruct (success cfg s); repeat (apply Forall_app; split); auto using Forall_firstn, Forall_skipn.
Qed.

(** ** Counting *)
Lemma filter_split_length {A} (g : A -> bool) l : (List.length (filter g l) + List.length (filter (fun x => negb (g x)) l) = List.length l)%nat.
Proof. induction l as [|x l IH]; [reflexivity|]. cbn. destruct (g x); cbn; lia. Qed.
Lemma one_each {A} (f : A -> option nat) (n : nat) : forall l, Forall (fun x => exists p, f x = Some p /\ (p < n)%nat) l ->
  (forall p, (p < n)%nat -> (List.length (filter (fun x => match f x with Some p' => Nat.eqb p' p | None => false end) l) <= 1)%nat) -> (List.length l <= n)%nat.
Proof.
  induction n as [|n IH]; intros l H L.
  - destruct l as [|x l]; [cbn; lia|]. inversion H as [|? ? (p & _ & X) _]. lia.
  - set (g := fun x => match f x with Some p' => Nat.eqb p' n | None => false end).
    pose proof (filter_split_length g l) as FL. pose proof (L n ltac:(lia)) as L1. fold g in L1.
    assert (L2 : (List.length (filter (fun x => negb (g x)) l) <= n)%nat); [|lia]. apply IH.
    + apply Forall_forall. intros x X. apply filter_In in X as [X G]. rewrite Forall_forall in H. destruct (H x X) as (p & E & P). exists p. split; [exact E|].
      unfold g in G. rewrite E in G. apply negb_true_iff, Nat.eqb_neq in G. lia.
    + intros p P. specialize (L p ltac:(lia)). etransitivity; [|exact L].
      clear. induction l as [|x l IH]; cbn; [lia|]. destruct (negb (g x)); cbn; destruct (match f x with Some p' => Nat.eqb p' p | None => false end); cbn; lia.
Qed.
Lemma total_alike a ds : Forall (fun d => t_amt d == a) ds -> total ds == inject_Z (zlen ds) * a.
Proof.
  unfold total. induction 1 as [|d ds E _ IH]; [cbn; ring|]. rewrite zlen_cons, inject_Z_plus. cbn [map].
  change (qsum (t_amt d :: map t_amt ds)) with (t_amt d + qsum (map t_amt ds)). rewrite E, IH. ring.
Qed.
Lemma slots_length p asks : List.length (slots p asks) = List.length (flat_map ak_commods asks).
Proof. revert p. induction asks as [|a r IH]; intro p; [reflexivity|]. cbn. rewrite !app_length, map_length, IH. reflexivity. Qed.
Lemma slots_range asks : forall p k q, nth_error (slots p asks) k = Some q -> (p <= q < p + List.length asks)%nat.
Proof.
  induction asks as [|a r IH]; intros p k q H; cbn [slots List.length] in *; [destruct k; discriminate|].
  destruct (Nat.lt_ge_cases k (List.length (map (fun _ => p) (ak_commods a)))) as [L|L].
  - rewrite nth_error_app1 in H by exact L. apply nth_error_In, in_map_iff in H as (x & <- & _). lia.
  - rewrite nth_error_app2 in H by exact L. apply IH in H. lia.
Qed.
(** Exclusive requests are answered once each. *)
Lemma exclusive_count n ds a : buys_ok n ds -> 0 < a -> Forall (fun k => ak_limit k = Some a /\ ak_unit k = Some a) (n_asks n) ->
  (zlen ds <= zlen (n_asks n))%Z /\ Forall (fun d => t_amt d == a) ds.
Proof.
  intros [H B] A U.
  assert (S : Forall (fun d => exists p, nth_error (slots 0 (n_asks n)) (t_slot d) = Some p /\ (p < List.length (n_asks n))%nat) ds).
  { eapply Forall_impl; [|exact H]. intros d X. destruct (nth_error (slots 0 (n_asks n)) (t_slot d)) as [p|] eqn:E.
    - exists p. split; [reflexivity|]. apply slots_range in E. lia.
    - exfalso. apply nth_error_None in E. rewrite slots_length in E. apply nth_error_None in E. cbv beta in X. congruence. }
  assert (M : forall p, (p < List.length (n_asks n))%nat ->
    let mine := filter (fun d => match nth_error (slots 0 (n_asks n)) (t_slot d) with Some p' => Nat.eqb p' p | None => false end) ds in
    Forall (fun d => t_amt d == a) mine /\ (List.length mine <= 1)%nat).
  { intros p P. cbv zeta. destruct (nth_error (n_asks n) p) as [k|] eqn:E; [|apply nth_error_None in E; lia].
    destruct (B p k E) as [F L]. rewrite Forall_forall in U. destruct (U k (nth_error_In _ _ E)) as [U1 U2].
    set (mine := filter _ ds) in *. rewrite U2 in F. cbn [fits] in F. split; [exact F|].
    destruct (Nat.eq_dec (List.length mine) 0) as [Z|Z]; [lia|].
    specialize (L a U1 ltac:(intro X; rewrite X in Z; apply Z; reflexivity)). rewrite (total_alike a) in L by exact F.
    assert (ZL : (zlen mine <= 1)%Z).
    { apply Znot_gt_le. intro G. assert (2 <= inject_Z (zlen mine)) by (change 2 with (inject_Z 2); rewrite <- Zle_Qle; lia). nra. }
    unfold zlen in ZL. lia. }
  split.
  - unfold zlen. apply Nat2Z.inj_le. apply (one_each (fun d => nth_error (slots 0 (n_asks n)) (t_slot d))); [exact S|]. intros p P. apply (M p P).
  - apply Forall_forall. intros d D. rewrite Forall_forall in S. destruct (S d D) as (p & E & P). destruct (M p P) as [F _]. rewrite Forall_forall in F. apply F.
    apply filter_In. split; [exact D|]. rewrite E. apply Nat.eqb_refl.
Qed.

Lemma NoDup_join {A} (a b : list A) : NoDup a -> NoDup b -> (forall x, In x a -> In x b -> False) -> NoDup (a ++ b).
Proof.
  induction 1 as [|x a N _ IH]; intros B D; [exact B|]. cbn. constructor.
  - intro I. apply in_app_or in I as [I|I]; [auto|]. apply (D x); [left; reflexivity|exact I].
  - apply IH; [exact B|]. intros y Y. apply D. right. exact Y.
Qed.
Lemma real_ok m : real m -> 0 <= m_qty m -> mat_ok m.
Proof. intros [A B] Q0. repeat split; auto. Qed.
Lemma agreed_real id id' x : as_agreed id id' x -> real (snd x).
Proof. intros (P & E & (_ & A & B) & _). split; [exact A|]. destruct B as [B|B]; [exact B|]. exfalso. lra. Qed.
Lemma qty_of_tags l l' : Permutation (map tag l) (map tag l') -> qty_of l == qty_of l'.
Proof.
  assert (E : forall k, qty_of k == fold_right (fun x acc => snd x + acc) 0 (map tag k)).
  { induction k as [|m k IH]; [reflexivity|]. rewrite qty_of_cons, IH. reflexivity. }
  intro P. rewrite !E. generalize dependent (map tag l). generalize (map tag l'). clear. intros b a P.
  induction P; cbn [fold_right]; [reflexivity|rewrite IHP; reflexivity|ring|rewrite IHP1; exact IHP2].
Qed.
Lemma ids_by_tags (P : Z -> Prop) l l' : Permutation (map tag l) (map tag l') -> Forall (fun m => P (m_id m)) l -> Forall (fun m => P (m_id m)) l'.
Proof.
  intros H F. apply Forall_forall. intros m M. assert (I : In (tag m) (map tag l)).
  { eapply Permutation_in; [apply Permutation_sym; exact H|]. apply in_map, M. }
  apply in_map_iff in I as (m' & E & M'). unfold tag in E. injection E as E _. rewrite <- E. rewrite Forall_forall in F. apply (F m' M').
Qed.
Lemma zlen_map_ {A B} (f : A -> B) l : zlen (map f l) = zlen l.
Proof. unfold zlen. rewrite map_length. reflexivity. Qed.
Lemma count_filter c S : count_commod c (map t_commod S) = zlen (filter (fun d => String.eqb (t_commod d) c) S).
Proof.
  unfold count_commod. induction S as [|d S IH]; [reflexivity|]. cbn [map filter]. rewrite String.eqb_sym. destruct (String.eqb (t_commod d) c); rewrite ?zlen_cons, IH; reflexivity.
Qed.

Lemma reac_works w t id id' g c s : world_ok w -> (id <= id')%Z -> good w t id (Reac c s) -> works w t id id' g (Reac c s).
Proof.
  intros (EP & _ & RO) LE (C & K & I & IB & RE).
  destruct (tick_ok (w_eps w) (w_recipe w) c EP C K t s I) as (s1 & ev1 & T & I1 & M1 & _ & _).
  destruct (get_requests_spec (w_recipe w) c C t s1 I1) as (p & mc & PO & _ & RQ & ON).
  destruct (portfolio_spec (w_recipe w) c s1 I1) as (p' & PO' & _ & PF). rewrite PO in PO'. injection PO' as <-.
  destruct (get_bids_spec (w_eps w) (w_recipe w) c EP C s1 (g_reqs g) I1) as (bs & BD & BF).
  pose proof (tick_real _ _ _ _ _ _ _ EP C K RO I T RE) as RE1.
  pose proof (ids_by_tags (fun k => (k < id)%Z) _ _ M1 IB) as IB1. cbv beta in IB1.
  pose proof (cc_assem _ C) as AP.
  unfold works. cbn [publish]. rewrite T. cbn [bind]. rewrite RQ. cbn [bind]. rewrite BD. cbn [bind]. eexists. split; [reflexivity|].
  intros S R HS HR AR ND. set (rs := repeat p (Z.to_nat (order_size c t s1))) in *.
  set (ds := map (fun d : trade * mat => (t_commod (fst d), snd d)) R).
  (* deliveries *)
  assert (UA : Forall (fun k => ak_limit k = Some (assem c) /\ ak_unit k = Some (assem c))
     (map (fun p0 : list request => {| ak_commods := map r_commod p0; ak_limit := Some (assem c); ak_unit := Some (assem c) |}) rs)).
  { apply Forall_map. apply Forall_forall. intros x _. split; reflexivity. }
  destruct (exclusive_count _ _ _ HR AP UA) as [NB AB]. cbn [n_asks] in NB. rewrite !zlen_map_ in NB.
  assert (DF : Forall (fun d => In (fst d) (incommods c) /\ m_qty (snd d) == assem c) ds).
  { destruct HR as [HR _]. unfold ds. apply Forall_map. cbn [fst snd]. apply Forall_forall. intros x X. cbn [n_asks] in HR.
    rewrite Forall_forall in HR, AB, AR. specialize (HR (fst x) (in_map _ _ _ X)). specialize (AB (fst x) (in_map _ _ _ X)). destruct (AR x X) as (_ & E & _).
    split; [|rewrite E; exact AB]. apply nth_error_In, in_flat_map in HR as (k & Kin & Cin). apply in_map_iff in Kin as (p0 & <- & Pin). cbn [ak_commods] in Cin.
    apply repeat_spec in Pin. subst p0. apply in_map_iff in Cin as (r & <- & Rin). apply In_nth_error in Rin as (j & J). destruct (PF _ _ J) as (rn & X1 & _).
    apply (nth_error_In _ _ X1). }
  assert (DL : (zlen ds <= n_core c - rb_count (core s1) + (n_fresh c - rb_count (fresh s1)))%Z).
  { unfold ds. rewrite zlen_map_. assert (LR : zlen rs = order_size c t s1) by (unfold rs, zlen; rewrite repeat_length, Z2Nat.id by exact ON; reflexivity). rewrite LR in NB.
    destruct (ok_limits _ _ _ I1) as (L1 & L2 & L3). unfold order_size in *. unfold rb_count in *.
    destruct (retired c t); [lia|]. destruct (Z.eqb (exit_t c) (-1)); lia. }
  assert (DN : NoDup (map (fun d => m_id (snd d)) ds ++ map m_id (assemblies s1))).
  { assert (EM : map (fun d : string * mat => m_id (snd d)) ds = map (fun x : trade * mat => m_id (snd x)) R) by (unfold ds; rewrite map_map; reflexivity).
    rewrite EM. apply NoDup_join; [exact ND|apply (ok_distinct _ _ _ I1)|]. intros k K1 K2. apply in_map_iff in K1 as (x & <- & X). apply in_map_iff in K2 as (m & E & M).
    rewrite Forall_forall in AR, IB1. destruct (AR x X) as (_ & _ & _ & LB & _). specialize (IB1 m M). cbv beta in IB1. lia. }
  (* sales *)
  destruct HS as [HS HL]. cbn [n_offers] in HS, HL.
  assert (SA : Forall (fun d => t_amt d == assem c) S).
  { eapply Forall_impl; [|exact HS]. intros d (_ & _ & _ & o & O & _ & F). apply in_map_iff in O as (b & <- & _). exact F. }
  assert (PK : forall k, In k (map t_commod S) -> (count_commod k (map t_commod S) <= zlen (on (ocommod c s1) k (rb_items (spent s1))))%Z).
  { refine (picks_ok (w_eps w) (w_recipe w) c EP C s1 bs (g_reqs g) (map t_commod S) I1 BD _). intros k Kin. apply in_map_iff in Kin as (d & <- & D).
    rewrite Forall_forall in HS. destruct (HS d D) as (_ & _ & _ & o & O & E & _). pose proof (HL o O) as LO. apply in_map_iff in O as (b & <- & B). cbn [of_commod of_limit] in *.
    exists b. split; [exact B|]. split; [exact E|]. rewrite count_filter, <- E, <- (total_alike (assem c)); [exact LO|].
    apply Forall_forall. intros x X. apply filter_In in X as [X _]. rewrite Forall_forall in SA. apply SA, X. }
  destruct (exchange_phase (w_eps w) (w_recipe w) c EP C s1 (map t_commod S) ds I1 PK DL DF DN)
    as (s2 & resp & s3 & ev3 & E4 & E5 & RS & I2 & I3 & F2 & C2 & (C3 & F3) & S3 & PS & _ & _ & _ & _ & _ & _ & _ & _ & _ & _ & PT).
  destruct (tock_ok c C t s3) as (s4 & ev4 & cy & di & E6 & ->).
  eexists (Reac c _), (map snd resp). cbn [fstep]. unfold rx_step. cbn [e_reqs e_pick e_deliv]. rewrite T. cbn [bind]. rewrite RQ. cbn [bind]. rewrite BD. cbn [bind].
  fold ds. rewrite E4. cbn [bind]. rewrite E5. cbn [bind]. rewrite E6. cbn [bind o_state o_shipped].
  split; [reflexivity|].
  assert (A4 : assemblies (upd_cyc s3 cy di) = assemblies s3) by reflexivity.
  assert (RR : Forall real (map snd resp) /\ Forall real (rb_items (spent s2)) /\ Forall (fun m => m_qty m == assem c) (map snd resp)).
  { pose proof (ok_sizes _ _ _ I1) as SZ. unfold assemblies in RE1, SZ. apply Forall_app in RE1 as [_ RE1]. apply Forall_app in RE1 as [_ RE1].
    apply Forall_app in SZ as [_ SZ]. apply Forall_app in SZ as [_ SZ].
    apply (Permutation_Forall PS) in RE1. apply (Permutation_Forall PS) in SZ. apply Forall_app in RE1 as [X Y]. apply Forall_app in SZ as [Z _]. auto. }
  destruct RR as (RR & RS2 & RZ).
  assert (RE3 : Forall real (assemblies s3)).
  { unfold assemblies in RE1 |- *. apply Forall_app in RE1 as [X RE1]. apply Forall_app in RE1 as [Y _]. rewrite C3, F3, S3.
    assert (RD : Forall real (map snd ds)).
    { unfold ds. rewrite map_map. cbn [snd]. apply Forall_map. eapply Forall_impl; [|exact AR]. intros x. apply agreed_real. }
    repeat (apply Forall_app; split); auto using Forall_firstn, Forall_skipn. }
  assert (TG : Permutation (map tag (assemblies s1 ++ map snd R)) (map tag (map snd resp ++ assemblies s3))).
  { rewrite !map_app. assert (E1 : map tag (map snd R) = map tagd ds) by (unfold ds; rewrite !map_map; reflexivity).
    assert (E2 : map tag (map snd resp) = map tagd resp) by (rewrite map_map; reflexivity). rewrite E1, E2. exact PT. }
  split; [|split].
  - (* as sold *) assert (LN : List.length resp = List.length S) by (rewrite <- (map_length fst), RS, map_length; reflexivity).
    clear -SA RZ RR LN AP. revert S SA LN. induction resp as [|r resp IH]; intros [|d S] SA LN; cbn in LN; try discriminate; [constructor|].
    cbn [map] in *. inversion SA; subst. inversion RZ as [|? ? RZ1 RZ2]; subst. inversion RR as [|? ? RR1 RR2]; subst. constructor.
    + split; [rewrite RZ1; symmetry; assumption|]. apply real_ok; [exact RR1|]. rewrite RZ1. lra.
    + apply IH; auto.
  - (* good *) split; [exact C|]. split; [exact K|]. split.
    { destruct I3 as [X1 X2 X3 X4 X5 X6 X7]. split; assumption. }
    rewrite A4. split; [|exact RE3].
    assert (IA : Forall (fun m => (m_id m < id')%Z) (assemblies s1 ++ map snd R)).
    { apply Forall_app. split.
      - eapply Forall_impl; [|exact IB1]. intros m X. cbv beta in X. lia.
      - apply Forall_map. eapply Forall_impl; [|exact AR]. intros x (_ & _ & _ & _ & X). exact X. }
    apply (ids_by_tags (fun k => (k < id')%Z) _ _ TG) in IA. apply Forall_app in IA. apply IA.
  - (* balance *) split; [cbn; tauto|]. cbn [inside inert]. split; [|intros []].
    rewrite A4. rewrite (qty_of_tags _ _ M1). pose proof (qty_of_tags _ _ TG) as QE. rewrite !qty_of_app in QE. lra.
Qed.
