(** Histories of the Mixer. *)
From Coq Require Import Lia Lqa.
From Verif Require Import Outcome KernelMaterial KernelResBuf KernelFacts KernelMass KernelBuf KernelBufFacts
  MixerModel MixerSpec MixerProofs.
Local Open Scope Q_scope.

(** ** Requests *)
Lemma reqs_in eps strs : forall bs i p, In p (mx_reqs eps i strs bs) ->
  exists k st b, xr_stream p = (i + k)%nat /\ nth_error strs k = Some st /\ nth_error bs k = Some b /\
    xr_qty p = b_space b /\ xr_items p = xs_commods st /\
    (forall sp, b_space b = Some sp -> eps < sp).
Proof.
  induction strs as [|st strs IH]; intros bs i p H; simpl in H; [tauto|].
  destruct bs as [|b bs]; [destruct H|].
  assert (REC : In p (mx_reqs eps (S i) strs bs) -> exists k st0 b0, xr_stream p = (i + k)%nat /\
    nth_error (st :: strs) k = Some st0 /\ nth_error (b :: bs) k = Some b0 /\
    xr_qty p = b_space b0 /\ xr_items p = xs_commods st0 /\ (forall sp, b_space b0 = Some sp -> eps < sp)).
  { intro X. destruct (IH bs (S i) p X) as (k & st0 & b0 & E & R). exists (S k), st0, b0. split; [lia|exact R]. }
  destruct (b_space b) as [sp|] eqn:SP.
  - destruct (Qltb eps sp) eqn:L; [|auto]. destruct H as [<-|H]; [|auto]. apply Qltb_true in L.
    exists 0%nat, st, b. simpl. split; [lia|]. split; [auto|]. split; [auto|]. split; [auto|]. split; [auto|].
    intros sp' E. rewrite SP in E. congruence.
  - destruct H as [<-|H]; [|auto]. exists 0%nat, st, b. simpl.
    split; [lia|]. split; [auto|]. split; [auto|]. split; [auto|]. split; [auto|].
    intros sp' E. congruence.
Qed.
Lemma reqs_complete eps strs : forall bs i k st b, nth_error strs k = Some st -> nth_error bs k = Some b ->
  (forall sp, b_space b = Some sp -> eps < sp) ->
  In {| xr_stream := (i + k)%nat; xr_qty := b_space b; xr_items := xs_commods st |} (mx_reqs eps i strs bs).
Proof.
  induction strs as [|s0 strs IH]; intros bs i k st b HS HB H; [destruct k; discriminate|].
  destruct bs as [|b0 bs]; [destruct k; discriminate|]. destruct k as [|k]; simpl in HS, HB.
  - injection HS as <-. injection HB as <-. simpl. rewrite Nat.add_0_r.
    destruct (b_space b0) as [sp|]; [|left; auto].
    assert (L : Qltb eps sp = true) by (apply Qltb_true, H; auto). rewrite L. left; auto.
  - assert (R : In {| xr_stream := (i + S k)%nat; xr_qty := b_space b; xr_items := xs_commods st |} (mx_reqs eps (S i) strs bs)).
    { replace (i + S k)%nat with (S i + k)%nat by lia. apply IH; auto. }
    simpl. destruct (b_space b0) as [sp|]; [destruct (Qltb eps sp)|]; simpl; auto.
Qed.
Lemma invs_asked reqs : mx_req_inventories reqs = map fst (asked reqs).
Proof.
  unfold mx_req_inventories, asked. induction reqs as [|p reqs IH]; simpl; auto.
  rewrite map_app, IH. f_equal. rewrite map_map. reflexivity.
Qed.
Lemma asked_in reqs j i c : nth_error (asked reqs) j = Some (i, c) -> exists p, In p reqs /\ xr_stream p = i.
Proof.
  intro H. apply nth_error_In in H. unfold asked in H. apply in_flat_map in H as (p & P & X).
  apply in_map_iff in X as (c0 & E & _). exists p. split; auto. congruence.
Qed.

(** ** Receiving *)
Lemma push_at_ok eps m : forall bs i b, nth_error bs i = Some b -> b_fits eps b (m_qty m) = true ->
  exists bs', mx_push_at eps i m bs = Ok bs'.
Proof.
  induction bs as [|b0 bs IH]; intros [|i] b H F; simpl in H; try discriminate.
  - injection H as ->. simpl. unfold b_push. rewrite F. simpl. eauto.
  - destruct (IH i b H F) as (bs' & E). simpl. rewrite E. simpl. eauto.
Qed.
Lemma push_at_facts eps m : forall bs i bs', mx_push_at eps i m bs = Ok bs' ->
  (i < List.length bs)%nat /\ List.length bs' = List.length bs /\
  forall k b, nth_error bs k = Some b ->
    nth_error bs' k = Some {| b_cap := b_cap b; b_items := b_items b ++ (if Nat.eqb i k then [m] else []) |}.
Proof.
  induction bs as [|b0 bs IH]; intros [|i] bs' H; simpl in H; try discriminate.
  - apply bind_ok in H as (b' & P & E). injection E as <-. split; [simpl; lia|]. split; [reflexivity|].
    destruct (b_push_facts _ _ _ _ P) as (P1 & P2 & _).
    intros [|k] b X; simpl in X |- *.
    + injection X as <-. rewrite <- P1, <- P2. destruct b'; reflexivity.
    + rewrite X. destruct b; simpl. rewrite app_nil_r. reflexivity.
  - apply bind_ok in H as (r & P & E). injection E as <-. destruct (IH i r P) as (A & B & C).
    split; [simpl; lia|]. split; [simpl; lia|].
    intros [|k] b X; simpl in X |- *.
    + injection X as <-. destruct b0; simpl. rewrite app_nil_r. reflexivity.
    + apply C, X.
Qed.

Lemma deliveries_cons reqs jm l i : deliveries reqs (jm :: l) i =
  (match nth_error (asked reqs) (fst jm) with
   | Some (i', _) => if Nat.eqb i' i then [snd jm] else [] | None => [] end) ++ deliveries reqs l i.
Proof. reflexivity. Qed.

Lemma accept_loop_facts eps reqs l : forall bs bs',
  loop (fun bs jm => match nth_error (mx_req_inventories reqs) (fst jm) with
                     | None => Throw ValueError | Some i => mx_push_at eps i (snd jm) bs end) l bs = Ok bs' ->
  Forall (fun jm => (fst jm < List.length (asked reqs))%nat) l /\
  List.length bs' = List.length bs /\
  forall k b, nth_error bs k = Some b ->
    nth_error bs' k = Some {| b_cap := b_cap b; b_items := b_items b ++ deliveries reqs l k |}.
Proof.
  induction l as [|[j m] l IH]; intros bs bs' H.
  - injection H as <-. split; [constructor|]. split; [auto|]. intros k b X. rewrite X. destruct b; simpl. rewrite app_nil_r. reflexivity.
  - cbn [loop fst snd] in H. apply bind_ok in H as (bs1 & P & H).
    rewrite invs_asked, nth_error_map in P. destruct (nth_error (asked reqs) j) as [[i c]|] eqn:E; [|discriminate].
    simpl in P. destruct (push_at_facts _ _ _ _ _ P) as (A & B & C).
    destruct (IH bs1 bs' H) as (D1 & D2 & D3). split.
    + constructor; auto. simpl. apply nth_error_Some. congruence.
    + split; [congruence|]. intros k b X. rewrite (D3 _ _ (C _ _ X)). simpl b_cap. simpl b_items.
      rewrite deliveries_cons. cbn [fst snd]. rewrite E, app_assoc. reflexivity.
Qed.
Lemma fits_iff eps b q : b_fits eps b q = true <-> (forall sp, b_space b = Some sp -> q <= sp + eps).
Proof.
  unfold b_fits. destruct (b_space b) as [sp|]; [|split; [discriminate|reflexivity]].
  rewrite Qle_bool_iff. split; [intros H sp' E; injection E as <-; lra|intro H; specialize (H sp eq_refl); lra].
Qed.
Lemma deliveries_qty_nonneg reqs l i : Forall (fun jm => mat_ok (snd jm)) l -> mats_ok (deliveries reqs l i).
Proof.
  intro H. induction H as [|jm l Hm _ IH]; [constructor|]. rewrite deliveries_cons. apply mats_ok_app. split; auto.
  destruct (nth_error _ _) as [[i' c]|]; [|constructor]. destruct (Nat.eqb i' i); [|constructor]. constructor; [auto|constructor].
Qed.
Lemma accept_loop_ok eps reqs l : 0 <= eps -> forall bs,
  Forall (fun jm => (fst jm < List.length (asked reqs))%nat) l ->
  Forall (fun jm => mat_ok (snd jm)) l ->
  (forall p, In p reqs -> (xr_stream p < List.length bs)%nat) ->
  (forall k b sp, nth_error bs k = Some b -> b_space b = Some sp -> deliveries reqs l k <> [] ->
     qty_of (deliveries reqs l k) <= sp) ->
  exists bs', loop (fun bs jm => match nth_error (mx_req_inventories reqs) (fst jm) with
                     | None => Throw ValueError | Some i => mx_push_at eps i (snd jm) bs end) l bs = Ok bs'.
Proof.
  intro EP. induction l as [|[j m] l IH]; intros bs HJ HM HR HS; [simpl; eauto|].
  inversion HJ as [|? ? J1 J2]; subst. inversion HM as [|? ? M1 M2]; subst. cbn [fst snd] in *.
  cbn [loop fst snd]. rewrite invs_asked, nth_error_map.
  destruct (nth_error (asked reqs) j) as [[i c]|] eqn:E; [|apply nth_error_None in E; lia]. cbn [option_map fst].
  destruct (asked_in _ _ _ _ E) as (p & P1 & P2). specialize (HR p P1) as RI. rewrite P2 in RI.
  destruct (nth_error bs i) as [b|] eqn:B; [|apply nth_error_None in B; lia].
  assert (DI : deliveries reqs ((j, m) :: l) i = m :: deliveries reqs l i).
  { rewrite deliveries_cons. cbn [fst snd]. rewrite E, Nat.eqb_refl. reflexivity. }
  assert (FI : b_fits eps b (m_qty m) = true).
  { apply fits_iff. intros sp SP. specialize (HS i b sp B SP). rewrite DI in HS.
    specialize (HS ltac:(discriminate)). rewrite qty_of_cons in HS.
    pose proof (mats_qty_nonneg _ (deliveries_qty_nonneg reqs l i M2)). lra. }
  destruct (push_at_ok eps m bs i b B FI) as (bs1 & PU). rewrite PU. cbn [bind].
  destruct (push_at_facts _ _ _ _ _ PU) as (A1 & A2 & A3).
  rewrite <- invs_asked. apply IH; auto.
  - intros p' HP. rewrite A2. auto.
  - intros k b' sp B' SP NE.
    destruct (nth_error bs k) as [bk|] eqn:BK; [|apply nth_error_None in BK; rewrite <- A2 in BK; apply nth_error_None in BK; congruence].
    rewrite (A3 _ _ BK) in B'. injection B' as <-.
    unfold b_space in SP. simpl in SP. destruct (b_cap bk) as [cp|] eqn:CP; [|discriminate]. injection SP as <-.
    assert (SK : b_space bk = Some (Qmax 0 (cp - b_qty bk))) by (unfold b_space; rewrite CP; auto).
    specialize (HS k bk _ BK SK). rewrite deliveries_cons in HS. cbn [fst snd] in HS. rewrite E in HS.
    unfold b_qty at 1. cbn [b_items]. rewrite qty_of_app. fold (b_qty bk).
    destruct (Nat.eqb_spec i k) as [EQ|D].
    + subst k. specialize (HS ltac:(discriminate)). cbn [app] in HS. rewrite qty_of_cons in HS.
      rewrite qty_of_cons, qty_of_nil.
      pose proof (mats_qty_nonneg _ (deliveries_qty_nonneg reqs l i M2)) as N1.
      destruct M1 as (M0 & _).
      destruct (Q.max_spec 0 (cp - b_qty bk)) as [[U1 U2]|[U1 U2]]; rewrite U2 in HS.
      * rewrite Q.max_r by lra. lra.
      * eapply Qle_trans; [|apply Q.le_max_l]. lra.
    + rewrite qty_of_nil. specialize (HS NE). cbn [app] in HS.
      setoid_replace (cp - (b_qty bk + 0)) with (cp - b_qty bk) by ring. exact HS.
Qed.

(** ** Selling *)
Definition sell1 (eps : Q) (st : buf * list mat) (q : Q) : outcome (buf * list mat) :=
  let* '(m, b) := b_pop_tol (fst st) q eps in Ok (b, snd st ++ [m]).
Lemma sell_loop_facts eps sales : Forall (fun q => 0 < q) sales -> forall b acc o l,
  mats_ok (b_items b) -> mats_ok acc -> loop (sell1 eps) sales (b, acc) = Ok (o, l) ->
  b_cap o = b_cap b /\ mats_ok (b_items o) /\ mats_ok l /\
  b_qty o + qty_of l == b_qty b + qty_of acc /\
  (forall n, mass_in n (b_items o) + mass_in n l == mass_in n (b_items b) + mass_in n acc) /\
  (List.length l = List.length acc + List.length sales)%nat.
Proof.
  intro Hq. induction Hq as [|q sales Q1 _ IH]; intros b acc o l O ON L.
  - injection L as -> ->. simpl. split; [auto|]. split; [auto|]. split; [auto|]. split; [lra|]. split; [intro; lra|lia].
  - cbn [loop] in L. unfold sell1 at 1 in L. cbn [fst snd] in L. apply bind_ok in L as ([b1 acc1] & P & L).
    apply bind_ok in P as ([m b2] & P & E). injection E as <- <-. unfold b_pop_tol in P.
    apply bind_ok in P as ([m1 r] & P & E). injection E as <- <-.
    assert (Q0 : 0 <= q) by lra.
    destruct (pop_tol_facts _ _ _ _ _ O Q0 P) as (A & B & _ & C & D & F).
    assert (ON1 : mats_ok (acc ++ [m1])) by (apply mats_ok_app; split; [auto|constructor; [auto|constructor]]).
    destruct (IH {| b_cap := b_cap b; b_items := r |} (acc ++ [m1]) o l D ON1 L) as (I1 & I2 & I3 & I4 & I5 & I6). simpl in I1.
    split; [auto|]. split; [auto|]. split; [auto|].
    split. { rewrite I4, qty_of_app, qty_of_cons, qty_of_nil. unfold b_qty. cbn [b_items]. rewrite B. ring. }
    split. { intro n. rewrite I5, mass_in_app, mass_in_cons, mass_in_nil. cbn [b_items]. specialize (F n). lra. }
    rewrite I6, app_length. simpl. lia.
Qed.
Lemma sell_facts eps sales s s' ms : mats_ok (b_items (xs_output s)) -> Forall (fun q => 0 < q) sales ->
  mx_sell eps sales s = Ok (s', ms) ->
  xs_ratios s' = xs_ratios s /\ xs_bufs s' = xs_bufs s /\ xs_extra s' = xs_extra s /\
  b_cap (xs_output s') = b_cap (xs_output s) /\ mats_ok (b_items (xs_output s')) /\ mats_ok ms /\
  b_qty (xs_output s') + qty_of ms == b_qty (xs_output s) /\
  (forall n, mass_in n (b_items (xs_output s')) + mass_in n ms == mass_in n (b_items (xs_output s))) /\
  List.length ms = List.length sales.
Proof.
  intros O Hq H. unfold mx_sell in H. apply bind_ok in H as ([o l] & L & H). injection H as <- <-.
  assert (ON : mats_ok []) by constructor.
  destruct (sell_loop_facts eps sales Hq (xs_output s) [] o l O ON L) as (A1 & A2 & A3 & A4 & A5 & A6).
  rewrite qty_of_nil in A4. cbn [xs_ratios xs_bufs xs_extra xs_output].
  split; [auto|]. split; [auto|]. split; [auto|]. split; [auto|]. split; [auto|]. split; [auto|].
  split; [lra|]. split; [|auto]. intro n. specialize (A5 n). rewrite mass_in_nil in A5. lra.
Qed.
Lemma sell_ok eps sales s : 0 <= eps -> mats_ok (b_items (xs_output s)) -> Forall (fun q => 0 < q) sales ->
  qsum sales <= b_qty (xs_output s) -> exists s' ms, mx_sell eps sales s = Ok (s', ms).
Proof.
  intros EP O Hq HS. unfold mx_sell.
  cut (forall acc, exists r, loop (sell1 eps) sales (xs_output s, acc) = Ok r).
  { intro X. destruct (X []) as ([o l] & E). change (fun st q => _) with (sell1 eps). rewrite E. simpl. eauto. }
  generalize dependent (xs_output s). clear s.
  induction Hq as [|q sales Q1 HQ IH]; intros b O HS acc; [simpl; eauto|].
  cbn [qsum fold_right] in HS. fold (qsum sales) in HS.
  assert (0 <= qsum sales) by (apply qsum_nonneg; eapply Forall_impl; [|exact HQ]; intros; simpl in *; lra).
  assert (HL : q <= b_qty b) by lra.
  destruct (b_pop_tol_ok b q eps Q1 EP HL) as (m & b' & P). cbn [loop]. unfold sell1 at 1. cbn [fst snd]. rewrite P. cbn [bind].
  assert (Q0 : 0 <= q) by lra.
  destruct (b_pop_tol_facts _ _ _ _ _ O Q0 HL P) as (M1 & M2 & M3 & M4 & M5 & M6).
  apply IH; auto. lra.
Qed.

(** ** Start-up *)
Lemma caps_new eps strs : 0 <= eps ->
  mx_caps eps strs (map (fun _ => new_buf) strs) =
  Ok (map (fun st => {| b_cap := if Qle_bool 0 (xs_size st) then Some (xs_size st) else None; b_items := [] |}) strs).
Proof.
  intro EP. induction strs as [|st strs IH]; simpl; auto.
  destruct (Qle_bool 0 (xs_size st)) eqn:E; simpl.
  - unfold mx_set_cap. apply Qle_bool_iff in E.
    assert (Q1 : Qltb eps (b_qty new_buf - xs_size st) = false).
    { apply Qltb_false. unfold b_qty, new_buf, qty_of. cbn [b_items map qsum fold_right]. lra. }
    rewrite Q1. cbn [bind]. rewrite IH. reflexivity.
  - rewrite IH. reflexivity.
Qed.
Definition mx_started (cfg : mx_cfg) : mx_state :=
  {| xs_ratios := ratios_of cfg;
     xs_bufs := map (fun st => {| b_cap := if Qle_bool 0 (xs_size st) then Some (xs_size st) else None; b_items := [] |}) (xc_streams cfg);
     xs_output := {| b_cap := Some (xc_out_size cfg); b_items := [] |}; xs_extra := None |}.
Lemma enter_new eps cfg : 0 <= eps -> mx_enter eps cfg (mx_new cfg) = Ok (mx_started cfg).
Proof.
  intro EP. unfold mx_enter, mx_new. cbn [xs_bufs]. rewrite caps_new; auto.
Qed.

(** ** One step *)
Definition caps_ok (cfg : mx_cfg) (s : mx_state) : Prop :=
  forall i st b, stream_at cfg s i st b -> b_cap b = if Qle_bool 0 (xs_size st) then Some (xs_size st) else None.

Lemma started_inv cfg : 0 <= xc_out_size cfg -> mx_inv cfg (mx_started cfg) /\ caps_ok cfg (mx_started cfg) /\ mx_within cfg (mx_started cfg).
Proof.
  intro OS.
  split. { split; [auto|]. split; [apply map_length|]. split; [|split; [constructor|auto]].
    unfold mx_started, bs_ok. cbn [xs_bufs]. apply Forall_map, Forall_forall. intros. constructor. }
  assert (A : forall i st b, stream_at cfg (mx_started cfg) i st b ->
    b = {| b_cap := if Qle_bool 0 (xs_size st) then Some (xs_size st) else None; b_items := [] |}).
  { intros i st b [A B]. unfold mx_started in B. cbn [xs_bufs] in B. rewrite nth_error_map, A in B. simpl in B. congruence. }
  split. { intros i st b H. rewrite (A _ _ _ H). reflexivity. }
  split; [exact OS|]. intros i st b H P. rewrite (A _ _ _ H). exact P.
Qed.
Lemma bs_ok_nth bs : (forall k b, nth_error bs k = Some b -> mats_ok (b_items b)) -> bs_ok bs.
Proof.
  intro H. apply Forall_forall. intros b I. apply In_nth_error in I as (k & E). eauto.
Qed.
Lemma bs_mass_flat n bs : bs_mass n bs == mass_in n (flat_map b_items bs).
Proof.
  unfold bs_mass. induction bs as [|b bs IH]; simpl; [reflexivity|]. rewrite mass_in_app, IH. reflexivity.
Qed.
Lemma bs_qty_flat bs : bs_qty bs == qty_of (flat_map b_items bs).
Proof.
  unfold bs_qty. induction bs as [|b bs IH]; simpl; [reflexivity|]. rewrite qty_of_app, IH. reflexivity.
Qed.
Lemma push_at_flat (f : mat -> Q) eps m : forall bs i bs', mx_push_at eps i m bs = Ok bs' ->
  qsum (map f (flat_map b_items bs')) == qsum (map f (flat_map b_items bs)) + f m.
Proof.
  induction bs as [|b0 bs IH]; intros [|i] bs' H; simpl in H; try discriminate.
  - apply bind_ok in H as (b' & P & E). injection E as <-. destruct (b_push_facts _ _ _ _ P) as (_ & P2 & _).
    cbn [flat_map]. rewrite P2, !map_app, !qsum_app. cbn [map qsum fold_right]. lra.
  - apply bind_ok in H as (r & P & E). injection E as <-. cbn [flat_map]. rewrite !map_app, !qsum_app, (IH _ _ P). lra.
Qed.
Lemma accept_flat (f : mat -> Q) eps invs l : forall bs bs',
  loop (fun bs jm => match nth_error invs (fst jm) with
                     | None => Throw ValueError | Some i => mx_push_at eps i (snd jm) bs end) l bs = Ok bs' ->
  qsum (map f (flat_map b_items bs')) == qsum (map f (flat_map b_items bs)) + qsum (map f (map snd l)).
Proof.
  induction l as [|[j m] l IH]; intros bs bs' H.
  - injection H as <-. simpl. lra.
  - cbn [loop fst snd] in H. apply bind_ok in H as (bs1 & P & H).
    destruct (nth_error invs j) as [i|]; [|discriminate].
    rewrite (IH _ _ H), (push_at_flat f _ _ _ _ _ P). cbn [map qsum fold_right snd]. 
    fold (qsum (map f (map snd l))). lra.
Qed.

Lemma tick_within eps cfg s s' sup : mx_inv cfg s -> caps_ok cfg s -> mx_within cfg s ->
  mx_tick eps cfg s = Ok (s', sup) -> caps_ok cfg s' /\ mx_within cfg s'.
Proof.
  intros IV CO (W1 & W2) H. destruct (tick_facts _ _ _ _ _ IV H) as (IV' & _ & [->|(t & m & T0 & TE & M1 & M2 & M3 & M4 & M5 & M6)] & _).
  { split; [auto|]. split; auto. }
  destruct IV as (R & L & OB & OO & OC). destruct IV' as (R' & L' & OB' & OO' & OC').
  assert (PREV : forall i st b', stream_at cfg s' i st b' -> exists b r, stream_at cfg s i st b /\ b_cap b' = b_cap b /\
    b_qty b' == b_qty b - r * t /\ nth_error (xs_ratios s) i = Some r).
  { intros i st b' [A B]. destruct (nth_error (xs_bufs s) i) as [b|] eqn:E.
    2:{ apply nth_error_None in E. assert (i < List.length (xs_bufs s'))%nat by (apply nth_error_Some; congruence). lia. }
    destruct (share_ratio cfg i st A) as (r & RR & _). exists b, r. rewrite <- R in RR.
    destruct (M5 i r b b' RR E B). repeat split; auto. }
  split.
  { intros i st b' A. destruct (PREV _ _ _ A) as (b & r & B & C & _). rewrite C. apply (CO i), B. }
  split.
  - unfold b_qty. rewrite M3, qty_of_app, qty_of_cons, qty_of_nil. fold (b_qty (xs_output s)).
    pose proof (target_le (xs_ratios s) (xc_out_size cfg - b_qty (xs_output s)) (xs_bufs s)) as TL.
    assert (t <= mx_target (xc_out_size cfg - b_qty (xs_output s)) (xs_ratios s) (xs_bufs s)) by (rewrite TE; apply Q.le_min_l).
    lra.
  - intros i st b' A P. destruct (PREV _ _ _ A) as (b & r & B & C & D & E).
    specialize (W2 i st b B P).
    assert (RN : Forall (fun r => 0 <= r) (xs_ratios s)).
    { apply (target_pos _ (xc_out_size cfg - b_qty (xs_output s)) (xs_bufs s)); auto.
      - apply bs_qty_nonneg, OB.
      - rewrite R, L. unfold ratios_of. rewrite norm_len. apply map_length.
      - assert (t <= mx_target (xc_out_size cfg - b_qty (xs_output s)) (xs_ratios s) (xs_bufs s)) by (rewrite TE; apply Q.le_min_l). lra. }
    assert (0 <= r) by (rewrite Forall_forall in RN; apply RN; eapply nth_error_In; eauto).
    assert (0 <= r * t) by nra. lra.
Qed.

Lemma step_facts eps cfg s e s' o : mx_inv cfg s -> caps_ok cfg s ->
  Forall (fun jm => mat_ok (snd jm)) (xe_receipts e) -> Forall (fun q => 0 < q) (xe_sales e) ->
  mx_step eps cfg s e = Ok (s', o) ->
  mx_inv cfg s' /\ caps_ok cfg s' /\
  (forall n, mass_in n (mx_held s') + mass_in n (xo_shipped o) == mass_in n (mx_held s) + mass_in n (map snd (xe_receipts e))) /\
  mats_ok (xo_shipped o) /\
  (forall k b, nth_error (xs_bufs (xo_ticked o)) k = Some b ->
     nth_error (xs_bufs s') k = Some {| b_cap := b_cap b; b_items := b_items b ++ deliveries (xo_requests o) (xe_receipts e) k |}) /\
  b_qty (xs_output s') + qty_of (xo_shipped o) == b_qty (xs_output (xo_ticked o)) /\
  mx_tick eps cfg s = Ok (xo_ticked o, xo_supply o) /\ xo_requests o = mx_requests eps cfg (xo_ticked o) /\
  xo_demand o = mx_demand cfg (xo_ticked o).
Proof.
  intros IV CO HM HQ H. unfold mx_step in H.
  apply bind_ok in H as ([s1 sup] & T & H). apply bind_ok in H as ([s2 ms] & SL & H). apply bind_ok in H as (s3 & A & H).
  injection H as <- <-. cbn [xo_ticked xo_supply xo_requests xo_shipped xo_demand].
  pose proof (tick_facts _ _ _ _ _ IV T) as (IV1 & _ & TF & _).
  destruct IV1 as (R1 & L1 & OB1 & OO1 & OC1).
  destruct (sell_facts _ _ _ _ _ OO1 HQ SL) as (S1 & S2 & S3 & S4 & S5 & S6 & S7 & S8 & S9).
  unfold mx_accept in A. apply bind_ok in A as (bs & AL & A). injection A as <-.
  destruct (accept_loop_facts _ _ _ _ _ AL) as (A1 & A2 & A3).
  assert (OBS : bs_ok bs).
  { apply bs_ok_nth. intros k b X.
    destruct (nth_error (xs_bufs s2) k) as [b2|] eqn:E.
    2:{ apply nth_error_None in E. assert (k < List.length bs)%nat by (apply nth_error_Some; congruence). lia. }
    rewrite (A3 _ _ E) in X. injection X as <-. cbn [b_items]. apply mats_ok_app. split.
    - rewrite S2 in E. unfold bs_ok in OB1. rewrite Forall_forall in OB1. apply OB1. eapply nth_error_In; eauto.
    - apply deliveries_qty_nonneg, HM. }
  split. { split; [cbn [xs_ratios]; congruence|]. split; [cbn [xs_bufs]; congruence|]. split; [exact OBS|].
    cbn [xs_output]. split; [auto|congruence]. }
  split. { intros i st b [X Y]. cbn [xs_bufs] in Y.
    destruct (nth_error (xs_bufs s2) i) as [b2|] eqn:E.
    2:{ apply nth_error_None in E. assert (i < List.length bs)%nat by (apply nth_error_Some; congruence). lia. }
    rewrite (A3 _ _ E) in Y. injection Y as <-. cbn [b_cap]. rewrite S2 in E.
    assert (C1 : caps_ok cfg s1).
    { destruct TF as [->|(t & m & _ & _ & _ & _ & _ & _ & M5 & _)]; auto.
      intros i' st' b' [A' B'].
      destruct IV as (R & L & _).
      destruct (nth_error (xs_bufs s) i') as [b0|] eqn:E'.
      2:{ apply nth_error_None in E'. assert (i' < List.length (xs_bufs s1))%nat by (apply nth_error_Some; congruence). lia. }
      destruct (share_ratio cfg i' st' A') as (r & RR & _). rewrite <- R in RR.
      destruct (M5 i' r b0 b' RR E' B') as [M _]. rewrite M. apply (CO i'). split; auto. }
    apply (C1 i). split; auto. }
  split. { intro n. unfold mx_held. cbn [xs_bufs xs_output]. rewrite !mass_in_app.
    unfold mass_in at 1. rewrite (accept_flat (fun m => mass_of m n) _ _ _ _ _ AL). fold (mass_in n (flat_map b_items (xs_bufs s2))).
    fold (mass_in n (map snd (xe_receipts e))). rewrite S2. specialize (S8 n).
    assert (TM : mass_in n (flat_map b_items (xs_bufs s1)) + mass_in n (b_items (xs_output s1)) ==
                 mass_in n (flat_map b_items (xs_bufs s)) + mass_in n (b_items (xs_output s))).
    { destruct TF as [->|(t & m & _ & _ & _ & _ & M3 & _ & _ & M6)]; [reflexivity|].
      specialize (M6 n). rewrite !bs_mass_flat in M6. rewrite M3, mass_in_app, mass_in_cons, mass_in_nil. lra. }
    lra. }
  split; [exact S6|]. split. { intros k b X. cbn [xs_bufs]. apply A3. rewrite S2. exact X. }
  split; [exact S7|]. split; [exact T|]. split; reflexivity.
Qed.
Lemma asked_stream eps cfg s p : In p (mx_requests eps cfg s) -> exists st b, stream_at cfg s (xr_stream p) st b /\
  xr_qty p = b_space b /\ xr_items p = xs_commods st /\ (forall sp, b_space b = Some sp -> eps < sp).
Proof.
  intro H. destruct (reqs_in _ _ _ _ _ H) as (k & st & b & E & A & B & C). simpl in E. rewrite E.
  exists st, b. split; [split; auto|exact C].
Qed.
Lemma deliveries_space eps cfg s e st b k sp : exchange_ok (mx_requests eps cfg s) st e ->
  nth_error (xs_bufs s) k = Some b -> b_space b = Some sp ->
  deliveries (mx_requests eps cfg s) (xe_receipts e) k <> [] ->
  qty_of (deliveries (mx_requests eps cfg s) (xe_receipts e) k) <= sp.
Proof.
  intros (E1 & E2 & E3 & E4) B SP NE.
  assert (EX : exists p, In p (mx_requests eps cfg s) /\ xr_stream p = k).
  { clear E1 E2 E3 E4. induction (xe_receipts e) as [|[j m] l IH]; [exfalso; apply NE; auto|].
    rewrite deliveries_cons in NE. cbn [fst snd] in NE.
    destruct (nth_error (asked (mx_requests eps cfg s)) j) as [[i c]|] eqn:E; [|auto].
    destruct (Nat.eqb_spec i k) as [->|]; [|auto]. eapply asked_in; eauto. }
  destruct EX as (p & P1 & P2). destruct (asked_stream _ _ _ _ P1) as (st' & b' & [A1 A2] & C & _).
  rewrite P2 in A2. assert (b' = b) by congruence. subst b'. rewrite <- P2. apply E3; auto. congruence.
Qed.
Lemma step_within eps cfg s e s' o : mx_inv cfg s -> caps_ok cfg s -> mx_within cfg s ->
  exchange_ok (xo_requests o) (b_qty (xs_output (xo_ticked o))) e ->
  mx_step eps cfg s e = Ok (s', o) -> mx_within cfg s'.
Proof.
  intros IV CO W EX H. pose proof EX as (E1 & E2 & E3 & E4 & E5).
  destruct (step_facts _ _ _ _ _ _ IV CO E2 E4 H) as (IV' & CO' & _ & OS & BK & OQ & T & RQ & _).
  destruct (tick_within _ _ _ _ _ IV CO W T) as (C1 & (W1 & W2)).
  split. { pose proof (mats_qty_nonneg _ OS). lra. }
  intros i st b' [A B] P.
  destruct (tick_facts _ _ _ _ _ IV T) as ((R1 & L1 & _) & _).
  destruct (nth_error (xs_bufs (xo_ticked o)) i) as [b|] eqn:E.
  2:{ apply nth_error_None in E. assert (i < List.length (xc_streams cfg))%nat by (apply nth_error_Some; congruence). lia. }
  rewrite (BK _ _ E) in B. injection B as <-. unfold b_qty. cbn [b_items]. rewrite qty_of_app. fold (b_qty b).
  assert (SA : stream_at cfg (xo_ticked o) i st b) by (split; auto).
  specialize (W2 i st b SA P). specialize (C1 i st b SA). pose proof P as P'. apply Qle_bool_iff in P'. rewrite P' in C1.
  destruct (deliveries (xo_requests o) (xe_receipts e) i) as [|d0 dl] eqn:D; [rewrite qty_of_nil; lra|].
  rewrite RQ in *. assert (SP : b_space b = Some (Qmax 0 (xs_size st - b_qty b))) by (unfold b_space; rewrite C1; auto).
  assert (NE : deliveries (mx_requests eps cfg (xo_ticked o)) (xe_receipts e) i <> []) by (rewrite D; discriminate).
  pose proof (deliveries_space eps cfg (xo_ticked o) e _ b i _ EX E SP NE) as DS. rewrite D in DS.
  rewrite Q.max_r in DS by lra. lra.
Qed.
Lemma step_ok eps cfg s e : 0 <= eps -> mx_sensible cfg -> mx_inv cfg s ->
  (forall s1 sup, mx_tick eps cfg s = Ok (s1, sup) -> exchange_ok (mx_requests eps cfg s1) (b_qty (xs_output s1)) e) ->
  exists s' o, mx_step eps cfg s e = Ok (s', o).
Proof.
  intros EP SE IV EX. destruct (tick_ok eps cfg s EP SE IV) as (s1 & sup & T). specialize (EX s1 sup T).
  pose proof EX as (E1 & E2 & E3 & E4 & E5).
  destruct (tick_facts _ _ _ _ _ IV T) as (IV1 & _). destruct IV1 as (R1 & L1 & OB1 & OO1 & OC1).
  destruct (sell_ok eps _ s1 EP OO1 E4 E5) as (s2 & ms & SL).
  destruct (sell_facts _ _ _ _ _ OO1 E4 SL) as (S1 & S2 & S3 & _).
  unfold mx_step. rewrite T. cbn [bind]. rewrite SL. cbn [bind]. unfold mx_accept.
  destruct (accept_loop_ok eps (mx_requests eps cfg s1) (xe_receipts e) EP (xs_bufs s2) E1 E2) as (bs & B).
  - intros p HP. destruct (asked_stream _ _ _ _ HP) as (st & b & [_ X] & _). rewrite S2. apply nth_error_Some. congruence.
  - intros k b sp X SP NE. rewrite S2 in X. eapply deliveries_space; eauto.
  - rewrite B. simpl. eauto.
Qed.

(** ** Histories *)
Lemma run_ok eps cfg es : 0 <= eps -> mx_sensible cfg -> forall s, mx_inv cfg s -> caps_ok cfg s -> mx_within cfg s ->
  exchanges_ok eps cfg s es -> exists s' os, mx_run eps cfg s es = Ok (s', os) /\ mx_within cfg s'.
Proof.
  intros EP SE. induction es as [|e es IH]; intros s IV CO W EX; [simpl; eauto|]. destruct EX as (X1 & X2).
  destruct (step_ok eps cfg s e EP SE IV X1) as (s1 & o & ST).
  assert (T : mx_tick eps cfg s = Ok (xo_ticked o, xo_supply o) /\ xo_requests o = mx_requests eps cfg (xo_ticked o)).
  { unfold mx_step in ST. apply bind_ok in ST as ([a b] & T & ST). apply bind_ok in ST as ([c d] & SL & ST).
    apply bind_ok in ST as (s3 & A & ST). injection ST as <- <-. auto. }
  destruct T as [T RQ]. specialize (X1 _ _ T). pose proof X1 as (E1 & E2 & E3 & E4 & E5).
  destruct (step_facts _ _ _ _ _ _ IV CO E2 E4 ST) as (IV' & CO' & _).
  rewrite <- RQ in X1. pose proof (step_within _ _ _ _ _ _ IV CO W X1 ST) as W'.
  destruct (IH s1 IV' CO' W' (X2 _ _ ST)) as (s' & os & R & WW).
  exists s', (o :: os). split; auto. simpl. rewrite ST. cbn [bind]. rewrite R. reflexivity.
Qed.
Lemma run_inv eps cfg es : forall s s' os, mx_inv cfg s -> caps_ok cfg s -> mx_sane es ->
  mx_run eps cfg s es = Ok (s', os) ->
  mx_inv cfg s' /\ caps_ok cfg s' /\
  (forall n, mass_in n (mx_held s') + mass_in n (mx_shipped os) == mass_in n (mx_held s) + mass_in n (mx_received es)).
Proof.
  induction es as [|e es IH]; intros s s' os IV CO HE R; simpl in R.
  - injection R as <- <-. split; [auto|]. split; [auto|]. intro n. reflexivity.
  - apply bind_ok in R as ([s1 o] & ST & R). apply bind_ok in R as ([s2 os2] & R & E). injection E as <- <-.
    inversion HE as [|? ? [H1 H2] H3]; subst.
    destruct (step_facts _ _ _ _ _ _ IV CO H1 H2 ST) as (IV1 & CO1 & M & _).
    destruct (IH _ _ _ IV1 CO1 H3 R) as (A & B & C). split; [auto|]. split; [auto|].
    intro n. specialize (M n). specialize (C n). unfold mx_shipped, mx_received in *. cbn [flat_map].
    rewrite !mass_in_app. lra.
Qed.

Lemma run_within eps cfg es : forall s s' os, mx_inv cfg s -> caps_ok cfg s -> mx_within cfg s ->
  exchanges_ok eps cfg s es -> mx_run eps cfg s es = Ok (s', os) -> mx_within cfg s'.
Proof.
  induction es as [|e es IH]; intros s s' os IV CO W EX R; simpl in R.
  - injection R as <- <-. auto.
  - apply bind_ok in R as ([s1 o] & ST & R). apply bind_ok in R as ([s2 os2] & R & E). injection E as <- <-.
    destruct EX as (X1 & X2).
    assert (T : mx_tick eps cfg s = Ok (xo_ticked o, xo_supply o) /\ xo_requests o = mx_requests eps cfg (xo_ticked o)).
    { unfold mx_step in ST. apply bind_ok in ST as ([a b] & T & ST). apply bind_ok in ST as ([c d] & SL & ST).
      apply bind_ok in ST as (s3 & A & ST). injection ST as <- <-. auto. }
    destruct T as [T RQ]. specialize (X1 _ _ T). pose proof X1 as (E1 & E2 & E3 & E4 & E5).
    destruct (step_facts _ _ _ _ _ _ IV CO E2 E4 ST) as (IV' & CO' & _).
    rewrite <- RQ in X1. pose proof (step_within _ _ _ _ _ _ IV CO W X1 ST) as W'.
    exact (IH s1 s2 os2 IV' CO' W' (X2 _ _ ST) R).
Qed.

(** ** The final forms *)
Lemma ratios_final eps cfg s s' : xc_streams cfg <> [] -> mx_enter eps cfg s = Ok s' ->
  List.length (xs_ratios s') = List.length (xc_streams cfg) /\ qsum (xs_ratios s') == 1 /\
  forall i st r, nth_error (xc_streams cfg) i = Some st -> nth_error (xs_ratios s') i = Some r -> share_of cfg st r.
Proof.
  intros N H. unfold mx_enter in H. apply bind_ok in H as (bs & _ & H). injection H as <-. cbn [xs_ratios].
  split; [rewrite norm_len; apply map_length|]. split.
  - apply norm_sum. destruct (xc_streams cfg); [congruence|discriminate].
  - intros i st r A B. destruct (ratio_share cfg i r B) as (st' & C & D). congruence.
Qed.
Lemma lived_inv eps cfg es s os : 0 <= eps -> mx_sane es -> mx_lived eps cfg es s os ->
  mx_inv cfg s /\ caps_ok cfg s /\
  (forall n, mass_in n (mx_held s) + mass_in n (mx_shipped os) == mass_in n (mx_received es)).
Proof.
  intros EP SA (s0 & E & R). rewrite enter_new in E by auto. injection E as <-.
  assert (IV : mx_inv cfg (mx_started cfg) /\ caps_ok cfg (mx_started cfg)).
  { split. { split; [auto|]. split; [apply map_length|]. split; [|split; [constructor|auto]].
      unfold mx_started, bs_ok. cbn [xs_bufs]. apply Forall_map, Forall_forall. intros. constructor. }
    intros i st b [A B]. unfold mx_started in B. cbn [xs_bufs] in B. rewrite nth_error_map, A in B. simpl in B.
    injection B as <-. reflexivity. }
  destruct IV as [IV CO]. destruct (run_inv _ _ _ _ _ _ IV CO SA R) as (A & B & C). split; [auto|]. split; [auto|].
  intro n. rewrite C. unfold mx_held, mx_started. cbn [xs_bufs xs_output b_items].
  rewrite mass_in_app. assert (Z : flat_map b_items (map (fun st : mx_stream => {| b_cap := if Qle_bool 0 (xs_size st) then Some (xs_size st) else None; b_items := [] |}) (xc_streams cfg)) = []).
  { induction (xc_streams cfg); simpl; auto. }
  rewrite Z, mass_in_nil. lra.
Qed.
Lemma mixing_final eps cfg es s os s' sup : 0 <= eps -> mx_sane es -> mx_lived eps cfg es s os ->
  Forall (fun st => 0 <= xs_ratio st) (xc_streams cfg) -> mx_tick eps cfg s = Ok (s', sup) ->
  exists t, mixable cfg s t /\ (forall t', mixable cfg s t' -> t' <= t) /\
    (t <= 0 -> s' = s) /\
    (0 < t -> exists m, m_qty m == t /\ b_items (xs_output s') = b_items (xs_output s) ++ [m] /\
       (forall i st b b' x, stream_at cfg s i st b -> stream_at cfg s' i st b' -> share_of cfg st x ->
          b_qty b' == b_qty b - x * t) /\
       (forall n, mass_of m n + mass_in n (flat_map b_items (xs_bufs s')) == mass_in n (flat_map b_items (xs_bufs s)))).
Proof.
  intros EP SA LV RN T. destruct (lived_inv _ _ _ _ _ EP SA LV) as (IV & CO & _).
  destruct (tick_facts _ _ _ _ _ IV T) as (IV' & _ & TF & TZ).
  destruct IV as (R & L & OB & OO & OC).
  pose proof (ratios_nonneg cfg RN) as RR. rewrite <- R in RR.
  set (t := Qmin (mx_target (xc_out_size cfg - b_qty (xs_output s)) (xs_ratios s) (xs_bufs s)) (xc_throughput cfg)) in *.
  assert (T1 : t <= mx_target (xc_out_size cfg - b_qty (xs_output s)) (xs_ratios s) (xs_bufs s)) by apply Q.le_min_l.
  pose proof (target_le (xs_ratios s) (xc_out_size cfg - b_qty (xs_output s)) (xs_bufs s)) as T2.
  assert (SH : forall i st b x, stream_at cfg s i st b -> share_of cfg st x ->
    exists r, nth_error (xs_ratios s) i = Some r /\ nth_error (xs_bufs s) i = Some b /\ r == x /\ 0 <= r).
  { intros i st b x [A B] S1. destruct (share_ratio cfg i st A) as (r & C & D). exists r. rewrite R.
    split; [auto|]. split; [auto|]. split.
    - apply (share_unique cfg st); auto. intro Z. rewrite Z in A. destruct i; discriminate.
    - rewrite Forall_forall in RR. apply RR. rewrite R. eapply nth_error_In; eauto. }
  exists t. split; [split; [apply Q.le_min_r|split; [lra|]]|split; [|split]].
  - intros i st b x SA1 SH1. destruct (SH _ _ _ _ SA1 SH1) as (r & A & B & C & D). rewrite <- C.
    pose proof (target_streams _ (xc_out_size cfg - b_qty (xs_output s)) _ RR (bs_qty_nonneg _ OB) i r b A B) as X. nra.
  - intros t' (M1 & M2 & M3). apply Q.min_glb; [|exact M1]. apply target_max; auto; [lra|].
    intros i r b A B. rewrite R in A. destruct (ratio_share cfg i r A) as (st & C & D).
    apply (M3 i st b r); [split|]; auto.
  - intro N. destruct TF as [E|(t0 & m & T0 & TE & _)]; [exact E|]. exfalso. lra.
  - intro P. destruct TF as [->|(t0 & m & T0 & TE & M1 & M2 & M3 & M4 & M5 & M6)].
    { specialize (TZ eq_refl). lra. }
    exists m. split; [rewrite M2; exact TE|]. split; [exact M3|]. split.
    + intros i st b b' x SB SB' SX. destruct (SH _ _ _ _ SB SX) as (r & A & B & C & D).
      destruct SB' as [_ B']. destruct (M5 i r b b' A B B') as [_ Q1]. rewrite Q1, TE, C. reflexivity.
    + intro n. rewrite <- !bs_mass_flat. apply M6.
Qed.
Lemma never_fails eps cfg es s0 : 0 <= eps -> mx_sensible cfg -> mx_enter eps cfg (mx_new cfg) = Ok s0 ->
  exchanges_ok eps cfg s0 es -> exists s os, mx_run eps cfg s0 es = Ok (s, os).
Proof.
  intros EP SE E EX. rewrite enter_new in E by auto. injection E as <-.
  destruct (started_inv cfg ltac:(apply SE)) as (A & B & C).
  destruct (run_ok eps cfg es EP SE _ A B C EX) as (s & os & R & _). eauto.
Qed.
Lemma sizes_final eps cfg es s0 s os : 0 <= eps -> 0 <= xc_out_size cfg -> mx_enter eps cfg (mx_new cfg) = Ok s0 ->
  exchanges_ok eps cfg s0 es -> mx_run eps cfg s0 es = Ok (s, os) -> mx_within cfg s.
Proof.
  intros EP OS E EX R. rewrite enter_new in E by auto. injection E as <-.
  destruct (started_inv cfg OS) as (A & B & C). exact (run_within _ _ _ _ _ _ A B C EX R).
Qed.
Lemma delivery_final eps cfg es e s os s' o : 0 <= eps -> mx_sane (es ++ [e]) -> mx_lived eps cfg es s os ->
  mx_step eps cfg s e = Ok (s', o) ->
  forall i st b, stream_at cfg (xo_ticked o) i st b ->
    stream_at cfg s' i st {| b_cap := b_cap b; b_items := b_items b ++ deliveries (xo_requests o) (xe_receipts e) i |}.
Proof.
  intros EP SA LV ST i st b [X Y]. apply Forall_app in SA as [S1 S2]. inversion S2 as [|? ? [H1 H2] _]; subst.
  destruct (lived_inv _ _ _ _ _ EP S1 LV) as (IV & CO & _).
  destruct (step_facts _ _ _ _ _ _ IV CO H1 H2 ST) as (_ & _ & _ & _ & BK & _). split; auto.
Qed.
Lemma requests_final eps cfg es e s os s' o : 0 <= eps -> mx_sane (es ++ [e]) -> mx_lived eps cfg es s os ->
  mx_step eps cfg s e = Ok (s', o) ->
  (forall p, In p (xo_requests o) -> exists st b, stream_at cfg (xo_ticked o) (xr_stream p) st b /\
     xr_items p = xs_commods st /\
     (xs_size st < 0 -> xr_qty p = None) /\
     (0 <= xs_size st -> exists q, xr_qty p = Some q /\ eps < q /\ q == Qmax 0 (xs_size st - b_qty b))) /\
  (forall i st b, stream_at cfg (xo_ticked o) i st b -> (xs_size st < 0 \/ eps < xs_size st - b_qty b) ->
     exists p, In p (xo_requests o) /\ xr_stream p = i).
Proof.
  intros EP SA LV ST. apply Forall_app in SA as [S1 S2]. inversion S2 as [|? ? [H1 H2] _]; subst.
  destruct (lived_inv _ _ _ _ _ EP S1 LV) as (IV & CO & _).
  destruct (step_facts _ _ _ _ _ _ IV CO H1 H2 ST) as (_ & _ & _ & _ & _ & _ & T & RQ & _).
  destruct (tick_facts _ _ _ _ _ IV T) as (IV1 & _ & TF & _).
  assert (C1 : caps_ok cfg (xo_ticked o)).
  { destruct TF as [->|(t & m & _ & _ & _ & _ & _ & _ & M5 & _)]; auto.
    intros i' st' b' [A' B']. destruct IV as (R & L & _). destruct IV1 as (R1 & L1 & _).
    destruct (nth_error (xs_bufs s) i') as [b0|] eqn:E'.
    2:{ apply nth_error_None in E'. assert (i' < List.length (xc_streams cfg))%nat by (apply nth_error_Some; congruence). lia. }
    destruct (share_ratio cfg i' st' A') as (r & RR & _). rewrite <- R in RR.
    destruct (M5 i' r b0 b' RR E' B') as [M _]. rewrite M. apply (CO i'). split; auto. }
  rewrite RQ. split.
  - intros p HP. destruct (asked_stream _ _ _ _ HP) as (st & b & SA1 & Q1 & I1 & L1). exists st, b.
    split; [exact SA1|]. split; [exact I1|]. specialize (C1 _ _ _ SA1). split; intro Z.
    + rewrite Q1. unfold b_space. rewrite C1. apply Qle_bool_false in Z. rewrite Z. reflexivity.
    + apply Qle_bool_iff in Z. rewrite Z in C1. unfold b_space in Q1, L1. rewrite C1 in Q1, L1.
      eexists. split; [exact Q1|]. split; [apply L1; reflexivity|reflexivity].
  - intros i st b SA1 H. specialize (C1 _ _ _ SA1).
    assert (HS : forall sp, b_space b = Some sp -> eps < sp).
    { intros sp E. unfold b_space in E. rewrite C1 in E. destruct (Qle_bool 0 (xs_size st)) eqn:Z; [|discriminate].
      injection E as <-. apply Qle_bool_iff in Z. destruct H as [H|H]; [lra|].
      eapply Qlt_le_trans; [exact H|]. apply Q.le_max_r. }
    destruct SA1 as [A B]. eexists. split; [apply (reqs_complete eps _ _ 0 i st b A B HS)|reflexivity].
Qed.
Lemma records_final eps cfg es e s os s' o : 0 <= eps -> mx_sane (es ++ [e]) -> mx_lived eps cfg es s os ->
  mx_step eps cfg s e = Ok (s', o) ->
  xo_supply o = (("supply" ++ xc_out_commod cfg)%string, qty_of (b_items (xs_output (xo_ticked o)))) /\
  qty_of (b_items (xs_output (xo_ticked o))) == qty_of (b_items (xs_output s')) + qty_of (xo_shipped o) /\
  (forall k v, In (k, v) (xo_demand o) <->
     exists i st b c pref, stream_at cfg (xo_ticked o) i st b /\ In (c, pref) (xs_commods st) /\
       k = ("demand" ++ c)%string /\ v = b_space b).
Proof.
  intros EP SA LV ST. apply Forall_app in SA as [S1 S2]. inversion S2 as [|? ? [H1 H2] _]; subst.
  destruct (lived_inv _ _ _ _ _ EP S1 LV) as (IV & CO & _).
  destruct (step_facts _ _ _ _ _ _ IV CO H1 H2 ST) as (_ & _ & _ & _ & _ & OQ & T & _ & DM).
  destruct (tick_facts _ _ _ _ _ IV T) as (_ & SU & _). split; [exact SU|]. split; [symmetry; exact OQ|].
  intros k v. rewrite DM. unfold mx_demand. rewrite in_flat_map. split.
  - intros ([st b] & A & B). apply in_map_iff in B as ([c pref] & E & C). cbn [fst snd] in *. injection E as <- <-.
    assert (N : exists i, stream_at cfg (xo_ticked o) i st b).
    { unfold stream_at. revert A. generalize (xc_streams cfg) (xs_bufs (xo_ticked o)). intro l.
      induction l as [|a l IH]; intros [|b0 l2] A; simpl in A; try tauto.
      destruct A as [E|A]; [injection E as -> ->; exists 0%nat; auto|].
      destruct (IH l2 A) as (i & X). exists (S i). exact X. }
    destruct N as (i & N). exists i, st, b, c, pref. auto.
  - intros (i & st & b & c & pref & [A B] & C & -> & ->). exists (st, b). split.
    + revert A B. generalize (xc_streams cfg) (xs_bufs (xo_ticked o)). intro l. revert i.
      induction l as [|a l IH]; intros [|i] [|b0 l2] A B; simpl in *; try discriminate.
      * left. congruence.
      * right. eauto.
    + apply in_map_iff. exists (c, pref). auto.
Qed.
Lemma push_all_ok eps strs : 0 <= eps -> forall inv,
  List.length inv = List.length strs ->
  (forall i st ms, nth_error strs i = Some st -> nth_error inv i = Some ms -> 0 <= xs_size st -> qty_of ms <= xs_size st) ->
  exists bs, mx_push_all eps inv (map (fun st => {| b_cap := if Qle_bool 0 (xs_size st) then Some (xs_size st) else None; b_items := [] |}) strs) = Ok bs /\
    map b_items bs = inv /\ List.length bs = List.length strs.
Proof.
  intro EP. induction strs as [|st strs IH]; intros [|ms inv] L H; try discriminate; [simpl; eauto|].
  injection L as L. destruct (IH inv L (fun i => H (S i))) as (bs & B1 & B2 & B3).
  cbn [map mx_push_all]. unfold b_pushv at 1. specialize (H 0%nat st ms eq_refl eq_refl).
  assert (F : b_fits eps {| b_cap := if Qle_bool 0 (xs_size st) then Some (xs_size st) else None; b_items := [] |} (qty_of ms) = true).
  { apply fits_iff. unfold b_space. cbn [b_cap]. destruct (Qle_bool 0 (xs_size st)) eqn:E; [|discriminate].
    intros sp X. injection X as <-. apply Qle_bool_iff in E. specialize (H E).
    unfold b_qty, qty_of at 2. cbn [b_items map qsum fold_right].
    pose proof (Q.le_max_r 0 (xs_size st - 0)). lra. }
  rewrite F. cbn [bind]. rewrite B1. cbn [bind]. eexists. split; [reflexivity|].
  cbn [map b_items app]. split; [f_equal; exact B2|simpl; congruence].
Qed.
Lemma restore_streams eps cfg es s0 s os : 0 <= eps -> 0 <= xc_out_size cfg -> mx_enter eps cfg (mx_new cfg) = Ok s0 ->
  exchanges_ok eps cfg s0 es -> mx_sane es -> mx_run eps cfg s0 es = Ok (s, os) ->
  exists s', mx_init_inv eps (mx_snapshot s) s0 = Ok s' /\
    map b_items (xs_bufs s') = map b_items (xs_bufs s) /\ b_items (xs_output s') = [] /\
    mx_snapshot s' = ([], map b_items (xs_bufs s)).
Proof.
  intros EP OS E EX SA R. pose proof (sizes_final _ _ _ _ _ _ EP OS E EX R) as (_ & W).
  assert (LV : mx_lived eps cfg es s os) by (exists s0; auto).
  destruct (lived_inv _ _ _ _ _ EP SA LV) as ((_ & L & _) & _).
  rewrite enter_new in E by auto. injection E as <-.
  unfold mx_init_inv, mx_snapshot, mx_started. cbn [snd xs_bufs xs_output xs_ratios xs_extra b_items].
  destruct (push_all_ok eps (xc_streams cfg) EP (map b_items (xs_bufs s))) as (bs & B1 & B2 & B3).
  - rewrite map_length. exact L.
  - intros i st ms A B P. rewrite nth_error_map in B. destruct (nth_error (xs_bufs s) i) as [b|] eqn:X; [|discriminate].
    injection B as <-. apply (W i st b); [split; auto|auto].
  - rewrite B1. cbn [bind]. eexists. split; [reflexivity|]. split; [exact B2|]. split; [reflexivity|].
    cbn [xs_extra xs_bufs]. rewrite <- B2. reflexivity.
Qed.

(** ** Deciding the hypotheses on concrete histories (for the examples) *)
Definition exchangeb (reqs : list mx_request) (stock : Q) (e : mx_env) : bool :=
  forallb (fun jm => Nat.ltb (fst jm) (List.length (asked reqs))) (xe_receipts e) &&
  forallb (fun jm => mat_okb (snd jm)) (xe_receipts e) &&
  forallb (fun p => match xr_qty p with
                    | None => true
                    | Some q => Qle_bool (qty_of (deliveries reqs (xe_receipts e) (xr_stream p))) q
                    end) reqs &&
  forallb (fun q => Qltb 0 q) (xe_sales e) && Qle_bool (qsum (xe_sales e)) stock.
Fixpoint exchangesb (eps : Q) (cfg : mx_cfg) (s : mx_state) (es : list mx_env) : bool :=
  match es with
  | [] => true
  | e :: es' =>
      match mx_tick eps cfg s with
      | Ok (s1, _) => exchangeb (mx_requests eps cfg s1) (b_qty (xs_output s1)) e
      | _ => true
      end &&
      match mx_step eps cfg s e with Ok (s', _) => exchangesb eps cfg s' es' | _ => true end
  end.
Lemma exchangeb_sound reqs stock e : exchangeb reqs stock e = true -> exchange_ok reqs stock e.
Proof.
  unfold exchangeb. intro H. apply andb_prop in H as [H H5]. apply andb_prop in H as [H H4].
  apply andb_prop in H as [H H3]. apply andb_prop in H as [H1 H2]. rewrite forallb_forall in H1, H2, H3, H4.
  split; [apply Forall_forall; intros x X; apply Nat.ltb_lt; auto|].
  split; [apply Forall_forall; intros x X; apply mat_okb_sound; auto|].
  split; [intros p q P E; specialize (H3 p P); rewrite E in H3; apply Qle_bool_iff; auto|].
  split; [apply Forall_forall; intros x X; apply Qltb_true; auto|apply Qle_bool_iff; auto].
Qed.
Lemma exchangesb_sound eps cfg es : forall s, exchangesb eps cfg s es = true -> exchanges_ok eps cfg s es.
Proof.
  induction es as [|e es IH]; intros s H; [exact I|]. simpl in H. apply andb_prop in H as [H1 H2]. split.
  - intros s1 sup T. rewrite T in H1. apply exchangeb_sound, H1.
  - intros s' o T. rewrite T in H2. apply IH, H2.
Qed.
Definition saneb (es : list mx_env) : bool :=
  forallb (fun e => forallb (fun jm => mat_okb (snd jm)) (xe_receipts e) && forallb (fun q => Qltb 0 q) (xe_sales e)) es.
Lemma saneb_sound es : saneb es = true -> mx_sane es.
Proof.
  unfold saneb. intro H. rewrite forallb_forall in H. apply Forall_forall. intros e E. specialize (H e E).
  apply andb_prop in H as [H1 H2]. rewrite forallb_forall in H1, H2.
  split; apply Forall_forall; intros x X; [apply mat_okb_sound|apply Qltb_true]; auto.
Qed.

Lemma conserved_final eps cfg es s os : 0 <= eps -> mx_sane es -> mx_lived eps cfg es s os ->
  forall n, mass_in n (mx_held s) + mass_in n (mx_shipped os) == mass_in n (mx_received es).
Proof. intros A B C. apply (lived_inv _ _ _ _ _ A B C). Qed.
