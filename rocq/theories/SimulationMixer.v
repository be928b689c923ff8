(** C128: the mixer in an orderly exchange. *)
From Coq Require Import Lia Lqa.
From Verif Require Import Outcome KernelMaterial KernelResBuf KernelBuf KernelFacts KernelMass NetworkSpec SimulationSpec SimulationProofs NetworkProofs.
From Verif Require Import MixerModel MixerSpec MixerProofs MixerRun.
Local Open Scope Q_scope.

Definition to_ask (r : mx_request) : ask := {| ak_commods := map fst (xr_items r); ak_limit := xr_qty r; ak_unit := None |}.
Lemma asked_commods reqs : map snd (asked reqs) = flat_map ak_commods (map to_ask reqs).
Proof. unfold asked. induction reqs as [|p reqs IH]; [reflexivity|]. cbn [flat_map map]. rewrite map_app, IH. f_equal. cbn. rewrite map_map. reflexivity. Qed.
Lemma slots_asked : forall reqs k j i c, nth_error (asked reqs) j = Some (i, c) ->
  exists p r, nth_error (slots k (map to_ask reqs)) j = Some (k + p)%nat /\ nth_error reqs p = Some r /\ xr_stream r = i.
Proof.
  induction reqs as [|r reqs IH]; intros k j i c H; [destruct j; discriminate|]. cbn [asked flat_map] in H. fold (asked reqs) in H.
  cbn [map slots to_ask ak_commods]. destruct (Nat.lt_ge_cases j (List.length (xr_items r))) as [L|L].
  - rewrite nth_error_app1 in H by (rewrite map_length; exact L). rewrite nth_error_app1 by (rewrite !map_length; exact L).
    rewrite nth_error_map in H. destruct (nth_error (xr_items r) j) as [x|] eqn:E; [|discriminate]. injection H as <- <-.
    exists 0%nat, r. rewrite !nth_error_map, E. cbn. rewrite Nat.add_0_r. auto.
  - rewrite nth_error_app2 in H by (rewrite map_length; exact L). rewrite nth_error_app2 by (rewrite !map_length; exact L).
    rewrite map_length in H. rewrite !map_length. destruct (IH (S k) _ _ _ H) as (p & r' & A & B & C). exists (S p), r'. rewrite A. split; [f_equal; lia|auto].
Qed.
Lemma reqs_streams eps : forall strs i bs, Forall (fun p => (i <= xr_stream p)%nat) (mx_reqs eps i strs bs) /\ NoDup (map xr_stream (mx_reqs eps i strs bs)).
Proof.
  induction strs as [|st strs IH]; intros i bs; [cbn; repeat constructor|]. destruct bs as [|b bs]; [cbn; repeat constructor|].
  destruct (IH (S i) bs) as [A B]. assert (A' : Forall (fun p => (i <= xr_stream p)%nat) (mx_reqs eps (S i) strs bs)) by (eapply Forall_impl; [|exact A]; cbn; intros; lia).
  assert (N : ~ In i (map xr_stream (mx_reqs eps (S i) strs bs))).
  { rewrite in_map_iff. intros (p & E & I). rewrite Forall_forall in A. specialize (A p I). lia. }
  cbn [mx_reqs]. destruct (b_space b) as [sp|]; [destruct (Qltb eps sp)|]; cbn [map]; try (split; constructor; cbn; auto); split; assumption.
Qed.
Lemma filter_map_comm {A B} (f : A -> B) (p : B -> bool) l : filter p (map f l) = map f (filter (fun x => p (f x)) l).
Proof. induction l as [|x l IH]; [reflexivity|]. cbn. destruct (p (f x)); cbn; rewrite IH; reflexivity. Qed.
Lemma Forall_filter {A} (P : A -> Prop) f l : Forall P l -> Forall P (filter f l).
Proof. induction 1 as [|x l H _ IH]; cbn; [constructor|]. destruct (f x); [constructor|]; assumption. Qed.

Definition responses (R : list (trade * mat)) := map (fun d => (t_slot (fst d), snd d)) R.
Definition picks (asks : list ask) (p : nat) (d : trade) : bool := match nth_error (slots 0 asks) (t_slot d) with Some p' => Nat.eqb p' p | None => false end.
Lemma deliveries_filter reqs p r R : NoDup (map xr_stream reqs) -> nth_error reqs p = Some r ->
  Forall (fun d => (t_slot (fst d) < List.length (asked reqs))%nat) R ->
  deliveries reqs (responses R) (xr_stream r) = map snd (filter (fun d => picks (map to_ask reqs) p (fst d)) R).
Proof.
  intros N E. induction 1 as [|d R L _ IH]; [reflexivity|]. unfold responses, deliveries in *. cbn [map flat_map fst snd]. rewrite IH. cbn [filter].
  destruct (nth_error (asked reqs) (t_slot (fst d))) as [[i c]|] eqn:X; [|apply nth_error_None in X; lia].
  destruct (slots_asked _ 0 _ _ _ X) as (p' & r' & A & B & C). unfold picks at 2. rewrite A. cbn [Nat.add].
  destruct (Nat.eqb_spec p' p) as [->|D].
  - assert (r' = r) by congruence. subst r'. subst i. rewrite Nat.eqb_refl. reflexivity.
  - destruct (Nat.eqb_spec i (xr_stream r)) as [F|F]; [|reflexivity]. exfalso. apply D.
    rewrite NoDup_nth_error in N. apply N; [rewrite map_length; apply nth_error_Some; congruence|]. rewrite !nth_error_map, B, E. cbn. congruence.
Qed.
Lemma sell_exact eps : forall sales b acc o l, mats_ok (b_items b) -> Forall (fun q => 0 < q) sales -> qsum sales <= b_qty b ->
  loop (sell1 eps) sales (b, acc) = Ok (o, l) -> exists new, l = acc ++ new /\ Forall2 (fun m q => m_qty m == q) new sales.
Proof.
  induction sales as [|q sales IH]; intros b acc o l O P L H; cbn [loop] in H.
  - injection H as <- <-. exists []. rewrite app_nil_r. split; [reflexivity|constructor].
  - apply bind_ok in H as ([b1 l1] & T & H). inversion P as [|? ? Pq P']; subst. unfold sell1 in T. cbn [fst snd] in T. apply bind_ok in T as ([m b'] & T & X). injection X as <- <-.
    change (qsum (q :: sales)) with (q + qsum sales) in L.
    assert (N : 0 <= qsum sales) by (apply qsum_nonneg; eapply Forall_impl; [|exact P']; intros; simpl in *; lra).
    destruct (b_pop_tol_facts b q eps m b' O) as (A & B & _ & _ & C & _); [lra|lra|exact T|].
    destruct (IH b' _ _ _ C P' ltac:(lra) H) as (new & -> & F). exists (m :: new). rewrite <- app_assoc. split; [reflexivity|constructor; assumption].
Qed.

Lemma mix_works w t id id' g c s : world_ok w -> good w t id (Mixr c s) -> works w t id id' g (Mixr c s).
Proof.
  intros (EP & _) (SE & IV & CO & WI).
  destruct (tick_ok _ _ _ EP SE IV) as (s1 & sup & TK). destruct (tick_facts _ _ _ _ _ IV TK) as (IV1 & _).
  unfold works. cbn [publish]. rewrite TK. cbn [bind]. eexists. split; [reflexivity|]. intros S R HS HR AR _.
  set (e := {| xe_sales := map t_amt S; xe_receipts := responses R |}).
  set (reqs := mx_requests (w_eps w) c s1) in *. change (map (fun r => {| ak_commods := map fst (xr_items r); ak_limit := xr_qty r; ak_unit := None |}) reqs) with (map to_ask reqs) in *.
  pose proof (sales_pos _ _ HS) as PO. pose proof (sales_one _ _ _ HS eq_refl) as LE. cbn [of_limit] in LE.
  destruct (reqs_streams (w_eps w) (xc_streams c) 0 (xs_bufs s1)) as [_ ND]. change (NoDup (map xr_stream reqs)) in ND.
  assert (SL : Forall (fun d => (t_slot (fst d) < List.length (asked reqs))%nat) R).
  { destruct HR as [HR _]. rewrite Forall_map in HR. eapply Forall_impl; [|exact HR]. intros d X. cbn [n_asks] in X. rewrite <- asked_commods in X.
    rewrite <- (map_length snd). apply nth_error_Some. congruence. }
  assert (OR : Forall (fun jm => mat_ok (snd jm)) (responses R)).
  { apply Forall_map. eapply Forall_impl; [|exact AR]. intros x (_ & _ & X & _). exact X. }
  assert (EX : exchange_ok reqs (b_qty (xs_output s1)) e).
  { split; [|split; [exact OR|split; [|split; [exact PO|exact LE]]]].
    - apply Forall_map. exact SL.
    - intros p q I Q1. apply In_nth_error in I as (k & E). cbn [xe_receipts e]. rewrite (deliveries_filter _ _ _ _ ND E SL).
      destruct HR as [_ HR]. specialize (HR k (to_ask p)). cbn [n_asks] in HR. rewrite nth_error_map, E in HR. specialize (HR eq_refl). cbv zeta in HR. destruct HR as [_ HR].
      specialize (HR q Q1). fold (picks (map to_ask reqs) k) in HR. change (fun d => match nth_error (slots 0 (map to_ask reqs)) (t_slot d) with Some p' => Nat.eqb p' k | None => false end) with (picks (map to_ask reqs) k) in HR.
      rewrite filter_map_comm in HR. rewrite (got_total _ _ _ (Forall_filter _ _ _ AR)).
      destruct (filter (fun x => picks (map to_ask reqs) k (fst x)) R) as [|y l]; [|apply HR; discriminate].
      cbn. assert (0 <= q); [|lra].
      destruct (asked_stream (w_eps w) c s1 p) as (st & b & _ & Q2 & _ & Q3); [eapply nth_error_In; exact E|]. rewrite Q1 in Q2. specialize (Q3 q (eq_sym Q2)). lra. }
  destruct (step_ok _ _ _ e EP SE IV) as (s' & o & T). { intros s2 sup2 X. rewrite TK in X. injection X as <- <-. exact EX. }
  destruct (step_facts _ _ _ e _ _ IV CO OR PO T) as (IV' & CO' & MS & OS & _ & _ & TK' & RQ' & _).
  exists (Mixr c s'), (xo_shipped o). cbn [fstep]. fold (responses R). fold e. rewrite T. split; [reflexivity|].
  split; [|split; [split; [exact SE|split; [exact IV'|split; [exact CO'|]]]|]].
  - refine (sold_shape S _ _ eq_refl _ OS). unfold mx_step in T. rewrite TK in T. cbn [bind] in T. apply bind_ok in T as ([s2 ms] & X & T). apply bind_ok in T as (s3 & _ & T). injection T as <- <-.
    cbn [xo_shipped]. unfold mx_sell in X. change (fun st q => _) with (sell1 (w_eps w)) in X. apply bind_ok in X as ([o2 l] & X & Y). injection Y as _ <-.
    destruct (sell_exact _ _ _ _ _ _ (proj1 (proj2 (proj2 (proj2 IV1)))) PO LE X) as (new & -> & F). exact F.
  - refine (step_within _ _ _ e _ _ IV CO WI _ T). rewrite TK in TK'. injection TK' as E1 _. rewrite RQ', <- E1. exact EX.
  - assert (RS : map snd (responses R) = map snd R) by (unfold responses; rewrite map_map; reflexivity).
    cbn [xe_receipts e] in MS. rewrite RS in MS.
    assert (HO : forall x, mx_inv c x -> mats_ok (mx_held x)).
    { intros x (_ & _ & B & O & _). unfold mx_held. apply Forall_app. split; [|exact O]. apply Forall_flat_map. exact B. }
    split; [cbn; tauto|]. cbn [inside]. split; [|intros _ n; apply MS].
    rewrite <- !qty_of_app. apply nuclides_total.
    + apply Forall_app. split; [exact (HO _ IV')|exact OS].
    + apply Forall_app. split; [exact (HO _ IV)|exact (got_ok _ _ _ AR)].
    + intro n. rewrite !mass_in_app. apply MS.
Qed.
