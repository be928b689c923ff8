(** Simulations that begin later (C139): the proofs. *)
From Coq Require Import Lia Lqa.
From Verif Require Import Outcome KernelMaterial KernelResBuf KernelBuf KernelFacts KernelMass NetworkSpec SimulationSpec SimulationProofs SimulationNetwork UnitSpec UnitProofs DelaySpec.
From Verif Require ReactorModel ReactorSpec StorageModel ConversionModel MixerModel SinkModel SinkSpec SourceModel SeparationsModel.
Local Open Scope Z_scope.

Lemma vec_at_later d (l : list Z) i : vec_at (map (Z.add d) l) i = match vec_at l i with Ok x => Ok (d + x) | Throw e => Throw e | UB u => UB u | Diverge => Diverge end.
Proof. unfold vec_at. rewrite nth_error_map. destruct (nth_error l i); reflexivity. Qed.
Lemma loop_ext {A S} (f g : S -> A -> outcome S) l : (forall s x, f s x = g s x) -> forall s, loop f l s = loop g l s.
Proof. intro H. induction l as [|x l IH]; intro s; [reflexivity|]. cbn [loop]. rewrite H. destruct (g s x); cbn [bind]; auto. Qed.
Lemma eqb_later d a b : (d + a =? d + b) = (a =? b).
Proof. destruct (Z.eqb_spec a b), (Z.eqb_spec (d + a) (d + b)); lia. Qed.

(** ** Storage *)
Section Storage.
Import StorageModel.
Variables (eps : Q) (cfg : st_cfg) (d : Z).
Hypothesis D : 0 <= d.
Definition ls (s : st_state) : st_state :=
  {| ss_inventory := ss_inventory s; ss_processing := ss_processing s; ss_entry_times := map (Z.add d) (ss_entry_times s); ss_ready := ss_ready s; ss_stocks := ss_stocks s |}.
Lemma begin_loop_later t inv : forall proc times, begin_loop (d + t) inv proc (map (Z.add d) times) = (fst (begin_loop t inv proc times), map (Z.add d) (snd (begin_loop t inv proc times))).
Proof. induction inv as [|m inv IH]; intros proc times; [reflexivity|]. cbn [begin_loop]. rewrite <- IH, map_app. reflexivity. Qed.
Lemma begin_later t s : begin_processing (d + t) (ls s) = ls (begin_processing t s).
Proof. unfold begin_processing. cbn [ss_inventory ss_processing ss_entry_times ls]. rewrite begin_loop_later. destruct (begin_loop t (ss_inventory s) (ss_processing s) (ss_entry_times s)). reflexivity. Qed.
Lemma ready_loop_later time : forall times n, ready_loop (d + time) (map (Z.add d) times) n = (map (Z.add d) (fst (ready_loop time times n)), snd (ready_loop time times n)).
Proof.
  induction times as [|x times IH]; intro n; [reflexivity|]. cbn [map ready_loop]. replace (d + x <=? d + time) with (x <=? time) by (destruct (Z.leb_spec x time), (Z.leb_spec (d + x) (d + time)); lia).
  destruct (x <=? time); [apply IH|reflexivity].
Qed.
Definition lo (o : outcome st_state) : outcome st_state := match o with Ok s => Ok (ls s) | Throw e => Throw e | UB u => UB u | Diverge => Diverge end.
Lemma ready_later time s : ready_matl (d + time) (ls s) = lo (ready_matl time s).
Proof.
  unfold ready_matl. cbn [ss_entry_times ls]. rewrite ready_loop_later. destruct (ready_loop time (ss_entry_times s) 0) as [ts n]. cbn [fst snd]. cbn [ss_processing ls]. destruct (Z.ltb _ _); reflexivity.
Qed.
(** Nothing is ready that was received at time 0 or later if only what was received before is ready. *)
Lemma ready_none time s : time < 0 -> Forall (fun x : Z => 0 <= x) (ss_entry_times s) -> ready_matl time s = Ok s.
Proof.
  intros T F. unfold ready_matl. assert (X : ready_loop time (ss_entry_times s) 0 = (ss_entry_times s, 0)).
  { destruct F as [|x l P F]; [reflexivity|]. cbn. destruct (Z.leb_spec x time); [lia|reflexivity]. }
  rewrite X. destruct (Z.ltb_spec (zlen (ss_processing s)) 0); [unfold zlen in *; lia|]. cbn. destruct s; cbn. rewrite app_nil_r. reflexivity.
Qed.
Definition lom {A} (o : outcome (st_state * A)) : outcome (st_state * A) := match o with Ok (s, x) => Ok (ls s, x) | Throw e => Throw e | UB u => UB u | Diverge => Diverge end.
Lemma process_later cap s : process_mat eps cfg cap (ls s) = lom (process_mat eps cfg cap s).
Proof.
  unfold process_mat. cbn [ss_ready ls]. destruct (ss_ready s) as [|m r]; [reflexivity|]. cbv zeta. destruct (sc_discrete cfg).
  - destruct (Qeq_bool _ _); cbn [bind]; [reflexivity|]. destruct (discrete_loop _ _ _ _); reflexivity.
  - destruct (items_pop_tol _ _ _) as [[x y]| | |]; reflexivity.
Qed.
Lemma begin_dated t s : 0 <= t -> Forall (fun x : Z => 0 <= x) (ss_entry_times s) -> Forall (fun x : Z => 0 <= x) (ss_entry_times (begin_processing t s)).
Proof.
  intros T. unfold begin_processing. assert (X : forall inv proc times, Forall (fun x : Z => 0 <= x) times -> Forall (fun x : Z => 0 <= x) (snd (begin_loop t inv proc times))).
  { induction inv as [|m inv IH]; intros proc times F; [exact F|]. cbn. apply IH. apply Forall_app. split; [exact F|repeat constructor; exact T]. }
  intro F. specialize (X (ss_inventory s) (ss_processing s) _ F). destruct (begin_loop _ _ _ _). exact X.
Qed.
Lemma st_tock_later t s : 0 <= t -> Forall (fun x : Z => 0 <= x) (ss_entry_times s) -> st_tock eps cfg (d + t) (ls s) = lom (st_tock eps cfg t s).
Proof.
  intros T F. unfold st_tock. cbv zeta. rewrite begin_later. pose proof (begin_dated t s T F) as F1. set (s1 := begin_processing t s) in *.
  assert (I : ss_inventory s1 = []) by (unfold s1, begin_processing; destruct (begin_loop _ _ _ _); reflexivity).
  assert (R : (if ((0 <=? ready_time cfg (d + t)) || ((sc_residence cfg =? 0) && negb (zlen (ss_inventory (ls s1)) =? 0)))%bool then ready_matl (ready_time cfg (d + t)) (ls s1) else Ok (ls s1)) =
              lo (if ((0 <=? ready_time cfg t) || ((sc_residence cfg =? 0) && negb (zlen (ss_inventory s1) =? 0)))%bool then ready_matl (ready_time cfg t) s1 else Ok s1)).
  { cbn [ss_inventory ls]. rewrite I. cbn [zlen List.length Z.of_nat Z.eqb negb]. rewrite !Bool.andb_false_r, !Bool.orb_false_r. replace (ready_time cfg (d + t)) with (d + ready_time cfg t) by (unfold ready_time; lia).
    rewrite ready_later. destruct (Z.leb_spec 0 (ready_time cfg t)).
    - destruct (Z.leb_spec 0 (d + ready_time cfg t)); [reflexivity|lia].
    - destruct (Z.leb_spec 0 (d + ready_time cfg t)); [|reflexivity]. rewrite ready_none by (lia || assumption). reflexivity. }
  rewrite R. match goal with |- bind (lo ?o) _ = _ => destruct o as [s2| | |] end; cbn [lo bind]; try reflexivity. rewrite process_later. destruct (process_mat eps cfg (sc_throughput cfg) s2) as [[s3 mv]| | |]; cbn [lom bind]; try reflexivity.
  destruct (vec_at (sc_in_commods cfg) _); cbn [bind]; try reflexivity. destruct (vec_at (sc_out_commods cfg) 0); cbn [bind]; reflexivity.
Qed.
Lemma add_later ms : forall s, fold_left st_add_mat ms (ls s) = ls (fold_left st_add_mat ms s).
Proof. induction ms as [|m ms IH]; intro s; [reflexivity|]. cbn [fold_left]. rewrite <- IH. reflexivity. Qed.
Lemma add_times ms : forall s, ss_entry_times (fold_left st_add_mat ms s) = ss_entry_times s.
Proof. induction ms as [|m ms IH]; intro s; [reflexivity|]. cbn [fold_left]. rewrite IH. reflexivity. Qed.
Lemma st_step_later t sales recs s : 0 <= t -> Forall (fun x : Z => 0 <= x) (ss_entry_times s) ->
  st_step eps cfg (ls s) {| se_time := d + t; se_sales := sales; se_receipts := recs |} = lom (st_step eps cfg s {| se_time := t; se_sales := sales; se_receipts := recs |}).
Proof.
  intros T F. unfold st_step, st_trade. cbn [se_sales se_receipts se_time ss_stocks ls]. destruct (sell_all eps sales (ss_stocks s) []) as [[st sold]| | |]; cbn [bind]; try reflexivity.
  match goal with |- context [fold_left st_add_mat recs ?x] => change x with (ls {| ss_inventory := ss_inventory s; ss_processing := ss_processing s; ss_entry_times := ss_entry_times s; ss_ready := ss_ready s; ss_stocks := st |}) at 1 end.
  rewrite add_later, st_tock_later by (try assumption; rewrite add_times; exact F). destruct (st_tock eps cfg t _) as [[s2 o]| | |]; reflexivity.
Qed.
Lemma ready_dated time s s' : ready_matl time s = Ok s' -> Forall (fun x : Z => 0 <= x) (ss_entry_times s) -> Forall (fun x : Z => 0 <= x) (ss_entry_times s').
Proof.
  unfold ready_matl. assert (X : forall times n, Forall (fun x : Z => 0 <= x) times -> Forall (fun x : Z => 0 <= x) (fst (ready_loop time times n))).
  { induction times as [|x times IH]; intros n F; [constructor|]. cbn. destruct (x <=? time); [apply IH; inversion F; assumption|exact F]. }
  intros H F. specialize (X (ss_entry_times s) 0 F). destruct (ready_loop _ _ _) as [ts n]. destruct (Z.ltb _ _); [discriminate|]. injection H as <-. exact X.
Qed.
Lemma process_times cap s s' mv : process_mat eps cfg cap s = Ok (s', mv) -> ss_entry_times s' = ss_entry_times s.
Proof.
  unfold process_mat. destruct (ss_ready s) as [|m r]; [intro H; injection H as <- <-; reflexivity|]. cbv zeta. destruct (sc_discrete cfg).
  - destruct (Qeq_bool _ _); cbn [bind]; [intro H; injection H as <- <-; reflexivity|]. destruct (discrete_loop _ _ _ _). intro H; injection H as <- <-; reflexivity.
  - destruct (items_pop_tol _ _ _) as [[x y]| | |]; cbn [bind]; try discriminate. intro H; injection H as <- <-; reflexivity.
Qed.
Lemma st_step_dated t sales recs s s' o : 0 <= t -> Forall (fun x : Z => 0 <= x) (ss_entry_times s) ->
  st_step eps cfg s {| se_time := t; se_sales := sales; se_receipts := recs |} = Ok (s', o) -> Forall (fun x : Z => 0 <= x) (ss_entry_times s').
Proof.
  intros T F H. unfold st_step, st_trade in H. cbn [se_sales se_receipts se_time] in H. destruct (sell_all eps sales (ss_stocks s) []) as [[st sold]| | |]; cbn [bind] in H; try discriminate.
  apply bind_ok in H as ([s2 to] & H & H2). injection H2 as <- <-. unfold st_tock in H. cbv zeta in H. apply bind_ok in H as (s3 & H3 & H). apply bind_ok in H as ([s4 mv] & H4 & H).
  apply bind_ok in H as (x & _ & H). apply bind_ok in H as (y & _ & H). injection H as <- _. rewrite (process_times _ _ _ _ H4).
  match type of H3 with context [begin_processing t ?z] => assert (F1 : Forall (fun x : Z => 0 <= x) (ss_entry_times (begin_processing t z))) by (apply begin_dated; [exact T|rewrite add_times; exact F]) end.
  destruct (_ || _)%bool in H3; [exact (ready_dated _ _ _ H3 F1)|injection H3 as <-; exact F1].
Qed.
End Storage.

(** ** Sink *)
Section Sink.
Import SinkModel.
Variable (d : Z).
Hypothesis D : 0 <= d.
Definition lk (s : sk_state) : sk_state := {| ks_prefs := ks_prefs s; ks_inv := ks_inv s; ks_amt := ks_amt s; ks_next := after d (ks_next s) |}.
Definition lkm {A} (o : outcome (sk_state * A)) : outcome (sk_state * A) := match o with Ok (s, x) => Ok (lk s, x) | Throw e => Throw e | UB u => UB u | Diverge => Diverge end.
Definition planned (z : Z) : Prop := z = -1 \/ 0 <= z.
Lemma next_planned c g t : 0 <= t -> SinkSpec.rng_ok g -> 0 <= kc_freq_min c <= kc_freq_max c -> planned (sk_next_buy c g t).
Proof.
  intros T (_ & _ & G1 & G2) [F1 F2]. unfold sk_next_buy. destruct (String.eqb _ _); [left; reflexivity|]. destruct (String.eqb _ _); [right; specialize (G1 _ _ F2); lia|].
  destruct (String.eqb _ _); [|left; reflexivity]. right. specialize (G2 (kc_freq_mean c) (kc_freq_stddev c) _ _ F2). lia.
Qed.
Lemma next_later c g t : 0 <= t -> SinkSpec.rng_ok g -> 0 <= kc_freq_min c <= kc_freq_max c -> sk_next_buy c g (d + t) = after d (sk_next_buy c g t).
Proof.
  intros T (_ & _ & G1 & G2) [F1 F2]. unfold sk_next_buy, after. destruct (String.eqb _ _); [reflexivity|]. destruct (String.eqb _ _).
  - specialize (G1 _ _ F2). destruct (Z.eqb_spec (t + g_uniform_int g (kc_freq_min c) (kc_freq_max c)) (-1)); lia.
  - destruct (String.eqb _ _); [|reflexivity]. specialize (G2 (kc_freq_mean c) (kc_freq_stddev c) _ _ F2). destruct (Z.eqb_spec (t + g_normal_int g (kc_freq_mean c) (kc_freq_stddev c) (kc_freq_min c) (kc_freq_max c)) (-1)); lia.
Qed.
Lemma sk_tick_later eg c g t s : 0 <= t -> SinkSpec.rng_ok g -> 0 <= kc_freq_min c <= kc_freq_max c -> planned (ks_next s) -> sk_tick eg c g (d + t) (lk s) = lkm (sk_tick eg c g t s).
Proof.
  intros T G F P. unfold sk_tick. cbv zeta.
  match goal with |- (if Qltb eg (ks_amt ?a) then _ else _) = lkm (if Qltb eg (ks_amt ?b) then _ else _) => assert (X : a = lk b) end.
  { cbn [ks_next lk]. unfold after at 1. destruct (Z.eqb_spec (ks_next s) (-1)) as [N|N].
    - cbn. unfold after. rewrite N. reflexivity.
    - destruct P as [P|P]; [contradiction|]. destruct (Z.eqb_spec (d + ks_next s) (-1)); [lia|].
      replace (after d (ks_next s) =? d + t) with (ks_next s =? t) by (unfold after; destruct (Z.eqb_spec (ks_next s) (-1)); [contradiction|]; rewrite eqb_later; reflexivity).
      destruct (ks_next s =? t); [|reflexivity]. unfold lk. cbn [ks_prefs ks_inv ks_amt ks_next]. rewrite next_later by assumption. reflexivity. }
  rewrite X. match goal with |- context [lk ?b] => set (s1 := b) end. cbn [ks_amt lk]. destruct (Qltb eg (ks_amt s1)); [|reflexivity]. destruct (vec_at (kc_commods c) 0); reflexivity.
Qed.
Lemma sk_mat_later eg rc c g s : sk_mat_requests eg rc c g (lk s) = lkm (sk_mat_requests eg rc c g s).
Proof.
  unfold sk_mat_requests. cbv zeta. change (sk_available c (lk s)) with (sk_available c s). cbn [ks_amt lk]. destruct (Qltb (sk_available c s) (ks_amt s)).
  - destruct (if String.eqb (kc_recipe c) "" then _ else _) as [x| | |]; cbn [bind]; try reflexivity. cbn [ks_amt]. change (sk_request_amt c g (lk s)) with (sk_request_amt c g s).
    destruct (Qltb eg (sk_request_amt c g s)); [|reflexivity]. cbn [ks_prefs lk]. match goal with |- bind ?o _ = _ => destruct o; reflexivity end.
  - destruct (if String.eqb (kc_recipe c) "" then _ else _) as [x| | |]; cbn [bind]; try reflexivity. cbn [ks_amt lk].
    destruct (Qltb eg (ks_amt s)); [|reflexivity]. cbn [ks_prefs lk]. match goal with |- bind ?o _ = _ => destruct o; reflexivity end.
Qed.
Definition lko (o : outcome sk_state) : outcome sk_state := match o with Ok s => Ok (lk s) | Throw e => Throw e | UB u => UB u | Diverge => Diverge end.
Lemma sk_accept_later eps c l : forall s, sk_accept eps c l (lk s) = lko (sk_accept eps c l s).
Proof.
  induction l as [|r l IH]; intro s; [reflexivity|]. cbn [sk_accept]. change (sk_space c (lk s)) with (sk_space c s). destruct (Qltb eps (r_qty r - sk_space c s)); [reflexivity|].
  rewrite <- IH. reflexivity.
Qed.
Lemma sk_step_later eps eg rc c t s e : 0 <= t -> SinkSpec.rng_ok (ke_rng e) -> 0 <= kc_freq_min c <= kc_freq_max c -> planned (ks_next s) -> sk_step eps eg rc c (d + t) (lk s) e = lkm (sk_step eps eg rc c t s e).
Proof.
  intros T G F P. unfold sk_step. rewrite sk_tick_later by assumption. destruct (sk_tick eg c (ke_rng e) t s) as [[s1 dm]| | |]; cbn [lkm bind]; try reflexivity.
  rewrite sk_mat_later. destruct (sk_mat_requests eg rc c (ke_rng2 e) s1) as [[s2 mr]| | |]; cbn [lkm bind]; try reflexivity. rewrite sk_accept_later.
  destruct (sk_accept eps c (map rsrc_of_mat (ke_mats e)) s2) as [s3| | |]; cbn [lko bind]; try reflexivity. rewrite sk_accept_later.
  destruct (sk_accept eps c (map rsrc_of_prod (ke_prods e)) s3) as [s4| | |]; cbn [lko bind]; reflexivity.
Qed.
Lemma tick_planned eg c g t s s' x : 0 <= t -> SinkSpec.rng_ok g -> 0 <= kc_freq_min c <= kc_freq_max c -> planned (ks_next s) -> sk_tick eg c g t s = Ok (s', x) -> planned (ks_next s').
Proof.
  intros T G F P. unfold sk_tick. cbv zeta. match goal with |- (if Qltb eg (ks_amt ?a) then _ else _) = _ -> _ => assert (X : planned (ks_next a)) end.
  { destruct (ks_next s =? -1); [exact P|]. destruct (ks_next s =? t); [|exact P]. cbn. apply next_planned; assumption. }
  destruct (Qltb _ _); [intro H; apply bind_ok in H as (y & _ & H)|intro H]; injection H as <- _; exact X.
Qed.
Lemma mat_next eg rc c g s s' x : sk_mat_requests eg rc c g s = Ok (s', x) -> ks_next s' = ks_next s.
Proof.
  unfold sk_mat_requests. cbv zeta. intro H. apply bind_ok in H as (y & _ & H).
  destruct (Qltb (sk_available c s) (ks_amt s)); (destruct (Qltb eg _); [apply bind_ok in H as (z & _ & H)|]; injection H as <- _; reflexivity).
Qed.
Lemma accept_next eps c l : forall s s', sk_accept eps c l s = Ok s' -> ks_next s' = ks_next s.
Proof.
  induction l as [|r l IH]; intros s s' H; [injection H as <-; reflexivity|]. cbn [sk_accept] in H. destruct (Qltb _ _); [discriminate|]. rewrite (IH _ _ H). reflexivity.
Qed.
Lemma sk_step_planned eps eg rc c t s e s' o : 0 <= t -> SinkSpec.rng_ok (ke_rng e) -> 0 <= kc_freq_min c <= kc_freq_max c -> planned (ks_next s) -> sk_step eps eg rc c t s e = Ok (s', o) -> planned (ks_next s').
Proof.
  intros T G F P H. unfold sk_step in H. apply bind_ok in H as ([s1 dm] & H1 & H). apply bind_ok in H as ([s2 mr] & H2 & H). apply bind_ok in H as (s3 & H3 & H). apply bind_ok in H as (s4 & H4 & H). injection H as <- _.
  rewrite (accept_next _ _ _ _ _ H4), (accept_next _ _ _ _ _ H3), (mat_next _ _ _ _ _ _ _ H2). eapply tick_planned; eauto.
Qed.
End Sink.

(** ** Reactor *)
Section Reactor.
Import ReactorModel.
Variables (eps : Q) (recipe : string -> option comp) (c : rx_cfg) (d : Z).
Hypothesis D : 0 <= d.
Hypothesis E : exit_t c = -1 \/ 0 <= exit_t c.
Let c' := later_reactor d c.
Lemma exit_never : (exit_t c' =? -1) = (exit_t c =? -1).
Proof. subst c'. cbn [exit_t later_reactor]. unfold after. destruct (Z.eqb_spec (exit_t c) (-1)) as [N|N]; [reflexivity|]. destruct (Z.eqb_spec (d + exit_t c) (-1)); lia. Qed.
Lemma exit_sometime : exit_t c <> -1 -> exit_t c' = d + exit_t c.
Proof. intro N. subst c'. cbn [exit_t later_reactor]. unfold after. destruct (Z.eqb_spec (exit_t c) (-1)); lia. Qed.
Lemma retired_later t : retired c' (d + t) = retired c t.
Proof.
  unfold retired. rewrite exit_never. destruct (Z.eqb_spec (exit_t c) (-1)) as [N|N]; [reflexivity|]. rewrite (exit_sometime N). cbn.
  destruct (Z.ltb_spec (d + exit_t c) (d + t)), (Z.ltb_spec (exit_t c) t); lia.
Qed.
Lemma changes_later t s : apply_changes c' (d + t) s = apply_changes c t s.
Proof.
  unfold apply_changes. subst c'. cbn [pc_times rc_times later_reactor]. rewrite !map_length.
  rewrite (loop_ext _ (pref_change c t)).
  - destruct (loop (pref_change c t) _ s); cbn [bind]; try reflexivity. apply loop_ext. intros s1 i. unfold recipe_change. cbn [rc_times later_reactor]. rewrite vec_at_later.
    destruct (vec_at (rc_times c) i); cbn [bind]; try reflexivity. rewrite eqb_later. reflexivity.
  - intros s1 i. unfold pref_change. cbn [pc_times later_reactor]. rewrite vec_at_later. destruct (vec_at (pc_times c) i); cbn [bind]; try reflexivity. rewrite eqb_later. reflexivity.
Qed.
Lemma discharge_later s : discharge eps c' s = discharge eps c s.
Proof. reflexivity. Qed.
Lemma drain_core_later n s : drain_core eps c' n s = drain_core eps c n s.
Proof. reflexivity. Qed.
Lemma drain_fresh_later n s : drain_fresh eps c' n s = drain_fresh eps c n s.
Proof. reflexivity. Qed.
Lemma tick_later t s : tick eps recipe c' (d + t) s = tick eps recipe c t s.
Proof.
  unfold tick. rewrite retired_later. destruct (retired c t) eqn:R.
  - unfold tick_retired. assert (N : exit_t c <> -1) by (unfold retired in R; destruct (Z.eqb_spec (exit_t c) (-1)); [discriminate|assumption]).
    rewrite (exit_sometime N). replace (d + exit_t c + 1) with (d + (exit_t c + 1)) by lia. rewrite eqb_later. change (decom_all c') with (decom_all c). change (n_core c') with (n_core c).
    match goal with |- bind ?o _ = _ => destruct o as [[s1 e1]| | |] end; cbn [bind]; try reflexivity.
  - change (cycle_t c') with (cycle_t c). change (n_batch c') with (n_batch c). match goal with |- bind ?o _ = _ => destruct o as [[s1 e1]| | |] end; cbn [bind]; try reflexivity. rewrite discharge_later.
    match goal with |- bind ?o _ = _ => destruct o as [[s2 e2]| | |] end; cbn [bind]; try reflexivity. change (load eps c' s2) with (load eps c s2). match goal with |- bind ?o _ = _ => destruct o as [[s3 e3]| | |] end; cbn [bind]; try reflexivity.
    rewrite changes_later. reflexivity.
Qed.
Lemma requests_later t s : get_requests recipe c' (d + t) s = get_requests recipe c t s.
Proof.
  unfold get_requests. rewrite exit_never, retired_later. destruct (Z.eqb_spec (exit_t c) (-1)) as [N|N]; [reflexivity|].
  assert (X : n_need c' (d + t) s = n_need c t s) by (unfold n_need; rewrite (exit_sometime N); replace (d + exit_t c - (d + t) + 1) with (exit_t c - t + 1) by lia; reflexivity).
  rewrite X. reflexivity.
Qed.
Lemma tock_later t s : tock c' (d + t) s = tock c t s.
Proof. unfold tock. rewrite retired_later. reflexivity. Qed.
Lemma rx_step_later t s e : rx_step eps recipe c' (d + t) s e = rx_step eps recipe c t s e.
Proof.
  unfold rx_step. rewrite tick_later. destruct (tick eps recipe c t s) as [[s1 e1]| | |]; cbn [bind]; try reflexivity. rewrite requests_later. destruct (get_requests recipe c t s1) as [[rs e2]| | |]; cbn [bind]; try reflexivity.
  change (get_bids eps c' s1 (e_reqs e)) with (get_bids eps c s1 (e_reqs e)). destruct (get_bids eps c s1 (e_reqs e)); cbn [bind]; try reflexivity.
  change (trade_phase eps c' (e_pick e) s1) with (trade_phase eps c (e_pick e) s1). destruct (trade_phase eps c (e_pick e) s1) as [[s2 sh]| | |]; cbn [bind]; try reflexivity.
  change (deliver_phase eps c' (e_deliv e) s2) with (deliver_phase eps c (e_deliv e) s2). destruct (deliver_phase eps c (e_deliv e) s2) as [[s3 e3]| | |]; cbn [bind]; try reflexivity.
  rewrite tock_later. reflexivity.
Qed.
End Reactor.

(** ** Separations *)
Section Separations.
Import SeparationsModel.
Lemma sp_requests_later d eps recipe c prefs t s : 0 <= d -> sp_requests eps recipe (later_separations d c) prefs (d + t) s = sp_requests eps recipe c prefs t s.
Proof.
  intro D. unfold sp_requests. cbn [pc_feed_size pc_feed_commods pc_exit pc_throughput pc_feed_recipe later_separations]. destruct (vec_at _ _); cbn [bind]; try reflexivity.
  destruct (Z.leb_spec 0 (pc_exit c)) as [P|P].
  - destruct (Z.leb_spec 0 (d + pc_exit c)); [|lia]. replace (d + pc_exit c - (d + t)) with (pc_exit c - t) by lia. reflexivity.
  - destruct (Z.leb_spec 0 (pc_exit c)); [lia|]. reflexivity.
Qed.
Lemma sp_step_later d eps recipe c prefs s e : 0 <= d -> sp_step eps recipe (later_separations d c) prefs s (later_env d e) = sp_step eps recipe c prefs s e.
Proof.
  intro D. unfold sp_step. change (sp_tick eps (later_separations d c) s) with (sp_tick eps c s). destruct (sp_tick eps c s) as [[s1 lg]| | |]; cbn [bind]; try reflexivity.
  cbn [pe_time later_env]. rewrite sp_requests_later by exact D. reflexivity.
Qed.
Lemma sp_run_later d eps recipe c prefs : 0 <= d -> forall es s, sp_run eps recipe (later_separations d c) prefs s (map (later_env d) es) = sp_run eps recipe c prefs s es.
Proof.
  intro D. induction es as [|e es IH]; intro s; [reflexivity|]. cbn [map sp_run]. rewrite sp_step_later by exact D. destruct (sp_step eps recipe c prefs s e) as [[s1 o]| | |]; cbn [bind]; try reflexivity. rewrite IH. reflexivity.
Qed.
End Separations.

(** ** Any facility *)
Lemma inside_later d f : inside (later d f) = inside f.
Proof. destruct f; reflexivity. Qed.
Lemma publish_later w d t g f : 0 <= d -> 0 <= t -> signal_ok g -> dated f -> publish w (d + t) g (later d f) = publish w t g f.
Proof.
  intros D T [G1 G2] F. destruct f as [c s|c s|c s|c s|c s|c s]; try reflexivity.
  - destruct F as [F P]. cbn [publish later]. change (SinkModel.Build_sk_state (SinkModel.ks_prefs s) (SinkModel.ks_inv s) (SinkModel.ks_amt s) (after d (SinkModel.ks_next s))) with (lk d s).
    rewrite sk_tick_later by assumption. destruct (SinkModel.sk_tick (w_eg w) c (g_rng g) t s) as [[s1 x]| | |]; cbn [lkm bind]; try reflexivity. rewrite sk_mat_later.
    destruct (SinkModel.sk_mat_requests (w_eg w) (w_recipe w) c (g_rng2 g) s1) as [[s2 r]| | |]; cbn [lkm bind]; reflexivity.
  - cbn [publish later]. rewrite tick_later by assumption. destruct (ReactorModel.tick (w_eps w) (w_recipe w) c t s) as [[s1 x]| | |]; cbn [bind]; try reflexivity. rewrite requests_later by assumption. reflexivity.
Qed.
Lemma fstep_later w d t g f S R : 0 <= d -> 0 <= t -> signal_ok g -> dated f -> fstep w (d + t) g (later d f) S R = later_step d (fstep w t g f S R).
Proof.
  intros D T [G1 G2] F. destruct f as [c s|c s|c s|c s|c s|c s]; cbn [fstep later].
  - destruct (ConversionModel.cv_step _ _ _ _) as [[s' o]| | |]; reflexivity.
  - change (StorageModel.Build_st_state _ _ _ _ _) with (ls d s). rewrite st_step_later by assumption. destruct (StorageModel.st_step _ _ _ _) as [[s' o]| | |]; reflexivity.
  - destruct (MixerModel.mx_step _ _ _ _) as [[s' o]| | |]; reflexivity.
  - destruct (SourceModel.sr_step _ _ _ _ _ _) as [[s' o]| | |]; reflexivity.
  - destruct F as [F P]. change (SinkModel.Build_sk_state (SinkModel.ks_prefs s) (SinkModel.ks_inv s) (SinkModel.ks_amt s) (after d (SinkModel.ks_next s))) with (lk d s). rewrite sk_step_later by assumption. destruct (SinkModel.sk_step _ _ _ _ _ _ _) as [[s' o]| | |]; reflexivity.
  - rewrite rx_step_later by assumption. destruct (ReactorModel.rx_step _ _ _ _ _ _) as [o| | |]; reflexivity.
Qed.
Lemma fstep_dated w t g f S R f' ms : 0 <= t -> signal_ok g -> dated f -> fstep w t g f S R = Ok (f', ms) -> dated f'.
Proof.
  intros T [G1 G2] F H. destruct f as [c s|c s|c s|c s|c s|c s]; cbn [fstep] in H; apply bind_ok in H as (x & H1 & H); try destruct x as [s' o]; injection H as <- _; try exact I.
  - exact (st_step_dated _ _ _ _ _ _ _ _ T F H1).
  - destruct F as [F P]. split; [exact F|]. refine (sk_step_planned _ _ _ _ _ _ _ _ _ T _ F P H1). exact G1.
  - exact F.
Qed.

(** ** Simulations *)
Lemma deployed_later w d t f : 0 <= d -> 0 <= t -> dated f -> deployed w t f -> deployed w (d + t) (later d f).
Proof.
  intros D T F H. destruct f as [c s|c s|c s|c s|c s|c s]; cbn [deployed later] in *; try exact H.
  - destruct H as (H1 & H2 & ->). split; [exact H1|]. split; [exact H2|]. reflexivity.
  - destruct H as (H1 & H2 & H3 & H4 & g & H5). split; [exact H1|]. split; [exact H2|]. split; [exact H3|]. split; [exact H4|]. destruct F as [F P].
    unfold SinkModel.sk_enter in H5. apply bind_ok in H5 as (ps & H5 & H6). injection H6 as <-. cbn [SinkModel.ks_next] in P.
    set (r := {| SinkModel.g_uniform_real := SinkModel.g_uniform_real g; SinkModel.g_normal_real := SinkModel.g_normal_real g;
                 SinkModel.g_uniform_int := fun lo hi => if SinkModel.sk_next_buy c g t =? -1 then SinkModel.g_uniform_int g lo hi - d else SinkModel.g_uniform_int g lo hi;
                 SinkModel.g_normal_int := fun a b lo hi => if SinkModel.sk_next_buy c g t =? -1 then SinkModel.g_normal_int g a b lo hi - d else SinkModel.g_normal_int g a b lo hi |}).
    exists r. unfold SinkModel.sk_enter. rewrite H5. cbn [bind SinkModel.ks_prefs SinkModel.ks_inv SinkModel.ks_amt SinkModel.ks_next].
    assert (X : SinkModel.sk_next_buy c r (d + t) = after d (SinkModel.sk_next_buy c g t)).
    { subst r. unfold after. destruct (Z.eqb_spec (SinkModel.sk_next_buy c g t) (-1)) as [N|N].
      - unfold SinkModel.sk_next_buy in *. cbn [SinkModel.g_uniform_int SinkModel.g_normal_int]. destruct (String.eqb (SinkModel.kc_freq_type c) "None"); [reflexivity|]. destruct (String.eqb _ _); [lia|]. destruct (String.eqb _ _); lia.
      - unfold SinkModel.sk_next_buy in *. cbn [SinkModel.g_uniform_int SinkModel.g_normal_int]. destruct (String.eqb (SinkModel.kc_freq_type c) "None"); [lia|]. destruct (String.eqb _ _); [lia|]. destruct (String.eqb _ _); lia. }
    rewrite X. reflexivity.
  - destruct H as (H1 & H2 & H3 & H4). split; [|split; [exact H2|]; split; [|exact H4]].
    + destruct H1; split; cbn; rewrite ?map_length; try assumption. unfold after. destruct (Z.eqb_spec (ReactorModel.exit_t c) (-1)) as [N|N]; [left; reflexivity|]. right. tauto.
    + destruct H3; split; assumption.
Qed.
Lemma plays_time w id0 ms t id fs : plays w id0 ms t id fs -> 0 <= t.
Proof. induction 1; lia. Qed.
Lemma plays_dated w id0 ms t id fs : plays w id0 ms t id fs -> Forall dated_move ms -> Forall dated fs.
Proof.
  induction 1 as [|ms t id fs f P IH H|ms t id a f b P IH|ms t id fs gs ds fs' sent P IH G O (_ & L & N)]; intro M; [constructor| | |]; apply Forall_app in M as [M1 M2].
  - apply Forall_app. split; [exact (IH M1)|]. constructor; [|constructor]. inversion M2; subst. assumption.
  - specialize (IH M1). apply Forall_app in IH as [A B]. apply Forall_app. split; [exact A|]. inversion B; assumption.
  - specialize (IH M1). apply Forall_forall. intros f' I. apply In_nth_error in I as [i I]. assert (K : nth_error fs i <> None) by (apply nth_error_Some; rewrite <- L; apply nth_error_Some; congruence).
    destruct (nth_error fs i) as [f|] eqn:E; [|congruence]. specialize (N i f f' E I). eapply fstep_dated; [exact (plays_time _ _ _ _ _ _ P)|apply G| |exact N]. rewrite Forall_forall in IH. apply IH. eapply nth_error_In; exact E.
Qed.
Lemma orderly_later w d t gs fs ds : 0 <= d -> 0 <= t -> (forall i, signal_ok (gs i)) -> Forall dated fs -> orderly w t gs fs ds -> orderly w (d + t) gs (map (later d) fs) ds.
Proof.
  intros D T G F [H1 H2]. split; [rewrite map_length; exact H1|]. intros i f' n I P. rewrite nth_error_map in I. destruct (nth_error fs i) as [f|] eqn:E; [|discriminate]. injection I as <-.
  rewrite publish_later in P; [exact (H2 i f n E P)|exact D|exact T|apply G|]. rewrite Forall_forall in F. apply F. eapply nth_error_In; exact E.
Qed.
Lemma nstep_later w d t id gs fs ds fs' sent : 0 <= d -> 0 <= t -> (forall i, signal_ok (gs i)) -> Forall dated fs -> nstep w t id gs fs ds fs' sent -> nstep w (d + t) id gs (map (later d) fs) ds (map (later d) fs') sent.
Proof.
  intros D T G F (H1 & H2 & H3). split; [exact H1|]. split; [rewrite !map_length; exact H2|]. intros i f1 f2 I J. rewrite nth_error_map in I, J. destruct (nth_error fs i) as [f|] eqn:E; [|discriminate]. injection I as <-.
  destruct (nth_error fs' i) as [f'|] eqn:E'; [|discriminate]. injection J as <-. rewrite fstep_later; [rewrite (H3 i f f' E E'); reflexivity|exact D|exact T|apply G|]. rewrite Forall_forall in F. apply F. eapply nth_error_In; exact E.
Qed.
Lemma plays_wait w id0 g n : signal_ok g -> plays w id0 (waits n g) (Z.of_nat n) id0 [].
Proof.
  intro G. induction n as [|n IH]; [apply pl_start|]. assert (X : waits (S n) g = waits n g ++ [Trade (fun _ => g) []]) by (unfold waits; change (S n) with (1 + n)%nat; rewrite Nat.add_comm, repeat_app; reflexivity).
  rewrite X. replace (Z.of_nat (S n)) with (Z.of_nat n + 1) by lia. replace id0 with (id0 + zlen (@nil trade)) at 2 by (cbn; lia). apply pl_trade with (fs := []) (sent := []); [exact IH|intros _; exact G| |].
  - split; [constructor|]. intros [|i] f k H; discriminate.
  - split; [reflexivity|]. split; [reflexivity|]. intros [|i] f k H; discriminate.
Qed.
Lemma plays_later w id0 d g : 0 <= d -> signal_ok g -> forall ms t id fs, plays w id0 ms t id fs -> Forall dated_move ms ->
  plays w id0 (waits (Z.to_nat d) g ++ map (later_move d) ms) (d + t) id (map (later d) fs).
Proof.
  intros D G. induction 1 as [|ms t id fs f P IH H|ms t id a f b P IH|ms t id fs gs ds fs' sent P IH S O N]; intro M.
  - cbn [map]. rewrite app_nil_r, Z.add_0_r. pose proof (plays_wait w id0 g (Z.to_nat d) G) as X. rewrite Z2Nat.id in X by exact D. exact X.
  - apply Forall_app in M as [M1 M2]. rewrite !map_app, app_assoc. cbn [map later_move]. apply pl_deploy; [exact (IH M1)|]. apply deployed_later; [exact D|exact (plays_time _ _ _ _ _ _ P)|inversion M2; assumption|exact H].
  - apply Forall_app in M as [M1 M2]. specialize (IH M1). rewrite map_app in IH. cbn [map] in IH. rewrite !map_app, app_assoc. cbn [map later_move]. rewrite <- (map_length (later d) a). eapply pl_retire. exact IH.
  - apply Forall_app in M as [M1 M2]. pose proof (plays_dated _ _ _ _ _ _ P M1) as F. pose proof (plays_time _ _ _ _ _ _ P) as T. rewrite map_app, app_assoc. cbn [map later_move]. rewrite Z.add_assoc.
    eapply pl_trade; [exact (IH M1)|exact S|apply orderly_later; assumption|apply nstep_later; eassumption].
Qed.
Lemma stock_later d fs : stock (map (later d) fs) = stock fs.
Proof. unfold stock. induction fs as [|f fs IH]; [reflexivity|]. cbn. rewrite inside_later, IH. reflexivity. Qed.
Lemma facility_later w d t g f sales got : 0 <= d -> 0 <= t -> signal_ok g -> dated f ->
  publish w (d + t) g (later d f) = publish w t g f /\ fstep w (d + t) g (later d f) sales got = later_step d (fstep w t g f sales got) /\ (forall f' ms, fstep w t g f sales got = Ok (f', ms) -> dated f') /\
  inside (later d f) = inside f.
Proof.
  intros D T G F. split; [apply publish_later; assumption|]. split; [apply fstep_later; assumption|]. split; [|apply inside_later]. intros f' ms H. eapply fstep_dated; [exact T|exact G|exact F|exact H].
Qed.
Lemma scenario_later w id0 d g ms t id fs : 0 <= d -> signal_ok g -> plays w id0 ms t id fs -> Forall dated_move ms ->
  plays w id0 (waits (Z.to_nat d) g ++ map (later_move d) ms) (d + t) id (map (later d) fs) /\ stock (map (later d) fs) = stock fs.
Proof. intros D G P M. split; [apply plays_later; assumption|apply stock_later]. Qed.
Lemma separations_later d eps recipe c prefs s es : 0 <= d ->
  SeparationsModel.sp_run eps recipe (later_separations d c) prefs s (map (later_env d) es) = SeparationsModel.sp_run eps recipe c prefs s es.
Proof. intro D. apply sp_run_later. exact D. Qed.
