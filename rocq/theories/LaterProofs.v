(** Proofs for C119. *)
From Verif Require Import Outcome KernelMaterial KernelResBuf KernelBuf KernelFacts LaterSpec.
From Verif Require ReactorModel StorageModel SinkModel SinkSpec SeparationsModel.
From Coq Require Import Lia.
Local Open Scope Z_scope.

Lemma bind_ext {A B} (o : outcome A) (f g : A -> outcome B) : (forall a, f a = g a) -> bind o f = bind o g.
Proof. intros H. destruct o; cbn; auto. Qed.
Lemma loop_ext {A B} (f g : A -> B -> outcome A) l : (forall a b, f a b = g a b) -> forall a, loop f l a = loop g l a.
Proof. intros H. induction l as [|x l IH]; intros a; [reflexivity|]. cbn. rewrite H. apply bind_ext, IH. Qed.
Lemma vec_at_later d (l : list Z) i : vec_at (map (fun t => t + d) l) i =
  match vec_at l i with Ok x => Ok (x + d) | Throw e => Throw e | UB u => UB u | Diverge => Diverge end.
Proof. unfold vec_at. rewrite nth_error_map. destruct (nth_error l i); reflexivity. Qed.
Lemma eqb_later d t x : (t + d =? x + d) = (t =? x).
Proof. destruct (Z.eqb_spec t x), (Z.eqb_spec (t + d) (x + d)); auto; lia. Qed.

(** ** Reactor *)
Section R.
Import ReactorModel.
Variables (eps : Q) (recipe : string -> option comp) (cfg : rx_cfg) (d : Z).
Hypotheses (D : 0 <= d) (E : is_end (exit_t cfg)).
Notation cfg' := (reactor_later d cfg).

Lemma end_none : (exit_t cfg' =? -1) = (exit_t cfg =? -1).
Proof.
  cbn. unfold end_later, is_end in *. destruct (Z.eqb_spec (exit_t cfg) (-1)); [reflexivity|].
  destruct (Z.eqb_spec (exit_t cfg + d) (-1)); auto; lia.
Qed.
Lemma end_some : exit_t cfg <> -1 -> exit_t cfg' = exit_t cfg + d.
Proof. intros N. cbn. unfold end_later. destruct (Z.eqb_spec (exit_t cfg) (-1)); [contradiction|reflexivity]. Qed.
Lemma retired_later t : retired cfg' (t + d) = retired cfg t.
Proof.
  unfold retired. rewrite end_none. destruct (Z.eqb_spec (exit_t cfg) (-1)) as [X|X]; [reflexivity|]. cbn [negb andb].
  rewrite (end_some X). destruct (Z.ltb_spec (exit_t cfg + d) (t + d)), (Z.ltb_spec (exit_t cfg) t); auto; lia.
Qed.
Lemma tick_retired_later t s : retired cfg t = true -> tick_retired eps recipe cfg' (t + d) s = tick_retired eps recipe cfg t s.
Proof.
  intros R. unfold tick_retired.
  assert (X : (t + d =? exit_t cfg' + 1) = (t =? exit_t cfg + 1)).
  { unfold retired in R. destruct (Z.eqb_spec (exit_t cfg) (-1)) as [X|X]; [discriminate|]. rewrite (end_some X).
    destruct (Z.eqb_spec (t + d) (exit_t cfg + d + 1)), (Z.eqb_spec t (exit_t cfg + 1)); auto; lia. }
  rewrite X. reflexivity.
Qed.
Lemma pref_change_later t s i : pref_change cfg' (t + d) s i = pref_change cfg t s i.
Proof.
  unfold pref_change. cbn [pc_times reactor_later]. rewrite vec_at_later.
  destruct (vec_at (pc_times cfg) i); cbn [bind]; auto. rewrite eqb_later. reflexivity.
Qed.
Lemma recipe_change_later t s i : recipe_change cfg' (t + d) s i = recipe_change cfg t s i.
Proof.
  unfold recipe_change. cbn [rc_times reactor_later]. rewrite vec_at_later.
  destruct (vec_at (rc_times cfg) i); cbn [bind]; auto. rewrite eqb_later. reflexivity.
Qed.
Lemma changes_later t s : apply_changes cfg' (t + d) s = apply_changes cfg t s.
Proof.
  unfold apply_changes. cbn [pc_times rc_times reactor_later]. rewrite !map_length.
  rewrite (loop_ext _ _ _ (pref_change_later t)). apply bind_ext. intros s1. apply loop_ext, recipe_change_later.
Qed.
Lemma tick_later t s : tick eps recipe cfg' (t + d) s = tick eps recipe cfg t s.
Proof.
  unfold tick. rewrite retired_later. destruct (retired cfg t) eqn:R; [apply tick_retired_later, R|].
  change (cycle_t cfg') with (cycle_t cfg). change (n_batch cfg') with (n_batch cfg).
  apply bind_ext. intros [s1 e1].
  change (discharge eps cfg') with (discharge eps cfg). apply bind_ext. intros [s2 e2].
  change (load eps cfg') with (load eps cfg). apply bind_ext. intros [s3 e3].
  rewrite changes_later. reflexivity.
Qed.
Lemma requests_later t s : get_requests recipe cfg' (t + d) s = get_requests recipe cfg t s.
Proof.
  unfold get_requests. rewrite end_none, retired_later.
  destruct (Z.eqb_spec (exit_t cfg) (-1)) as [X|X].
  - reflexivity.
  - assert (N : n_need cfg' (t + d) s = n_need cfg t s).
    { unfold n_need. rewrite (end_some X). replace (exit_t cfg + d - (t + d) + 1) with (exit_t cfg - t + 1) by lia. reflexivity. }
    rewrite N. reflexivity.
Qed.
Lemma tock_later t s : tock cfg' (t + d) s = tock cfg t s.
Proof. unfold tock. rewrite retired_later. reflexivity. Qed.
Lemma step_later t s e : rx_step eps recipe cfg' (t + d) s e = rx_step eps recipe cfg t s e.
Proof.
  unfold rx_step. rewrite tick_later. apply bind_ext. intros [s1 ev1]. rewrite requests_later. apply bind_ext. intros [rq ev2].
  change (get_bids eps cfg' s1) with (get_bids eps cfg s1). apply bind_ext. intros bids.
  change (trade_phase eps cfg') with (trade_phase eps cfg). apply bind_ext. intros [s2 sh].
  change (deliver_phase eps cfg') with (deliver_phase eps cfg). apply bind_ext. intros [s3 ev3].
  rewrite tock_later. reflexivity.
Qed.
Lemma run_later es : forall t s, rx_run eps recipe cfg' (t + d) s es = rx_run eps recipe cfg t s es.
Proof.
  induction es as [|e es IH]; intros t s; [reflexivity|]. cbn [rx_run]. rewrite step_later. apply bind_ext. intros o.
  replace (t + d + 1) with (t + 1 + d) by lia. rewrite IH. reflexivity.
Qed.
Lemma reactor_life_later t new es : reactor_life eps recipe cfg' (t + d) new es = reactor_life eps recipe cfg t new es.
Proof.
  unfold reactor_life.
  assert (N : enter_notify cfg' new = enter_notify cfg new).
  { unfold enter_notify. cbn [pc_times rc_times pc_commods pc_vals rc_commods rc_in rc_out outcommods side_products reactor_later].
    rewrite !map_length. reflexivity. }
  rewrite N. destruct (enter_notify cfg new); auto. apply run_later.
Qed.
End R.

(** ** Separations *)
Section P.
Import SeparationsModel.
Variables (eps : Q) (recipe : string -> option comp) (cfg : sp_cfg) (d : Z).
Hypotheses (D : 0 <= d) (E : is_end (pc_exit cfg)).
Notation cfg' := (separations_later d cfg).
Lemma sp_requests_later prefs t s : sp_requests eps recipe cfg' prefs (t + d) s = sp_requests eps recipe cfg prefs t s.
Proof.
  unfold sp_requests. cbn [pc_feed_size pc_feed_commods pc_throughput pc_feed_recipe pc_exit separations_later].
  apply bind_ext. intros dn.
  assert (X : (Z.leb 0 (end_later d (pc_exit cfg)) &&
      Qle_bool (inject_Z (end_later d (pc_exit cfg) - (t + d)) * pc_throughput cfg)%Q (b_qty (ps_feed s)))%bool =
    (Z.leb 0 (pc_exit cfg) && Qle_bool (inject_Z (pc_exit cfg - t) * pc_throughput cfg)%Q (b_qty (ps_feed s)))%bool).
  { unfold end_later, is_end in *. destruct (Z.eqb_spec (pc_exit cfg) (-1)) as [X|X]; [rewrite X; reflexivity|].
    replace (pc_exit cfg + d - (t + d)) with (pc_exit cfg - t) by lia.
    destruct (Z.leb_spec 0 (pc_exit cfg + d)), (Z.leb_spec 0 (pc_exit cfg)); auto; lia. }
  rewrite X. reflexivity.
Qed.
Lemma sp_run_later prefs es : forall s,
  sp_run eps recipe cfg' prefs s (map (separations_step_later d) es) = sp_run eps recipe cfg prefs s es.
Proof.
  induction es as [|e es IH]; intros s; [reflexivity|]. cbn [sp_run map].
  assert (S1 : sp_step eps recipe cfg' prefs s (separations_step_later d e) = sp_step eps recipe cfg prefs s e).
  { unfold sp_step. cbn [pe_time pe_reqs pe_trades pe_receipts separations_step_later].
    change (sp_tick eps cfg' s) with (sp_tick eps cfg s). apply bind_ext. intros [s1 lg].
    rewrite sp_requests_later. reflexivity. }
  rewrite S1. apply bind_ext. intros [s1 o]. rewrite IH. reflexivity.
Qed.
Lemma separations_life_later es :
  separations_life eps recipe cfg' (map (separations_step_later d) es) = separations_life eps recipe cfg es.
Proof.
  unfold separations_life. change (sp_enter eps cfg' (sp_new cfg')) with (sp_enter eps cfg (sp_new cfg)).
  destruct (sp_enter eps cfg (sp_new cfg)) as [[s prefs]| | |]; auto. rewrite sp_run_later. reflexivity.
Qed.
End P.

(** ** Storage: the entry times move, and no material that matured before time 0 exists *)
Section S.
Import StorageModel.
Variables (eps : Q) (cfg : st_cfg) (d : Z).
Hypotheses (D : 0 <= d).
Definition moved (s : st_state) : st_state :=
  {| ss_inventory := ss_inventory s; ss_processing := ss_processing s;
     ss_entry_times := map (fun t => t + d) (ss_entry_times s); ss_ready := ss_ready s; ss_stocks := ss_stocks s |}.
Definition mapped {A B} (f : A -> B) (o : outcome A) : outcome B :=
  match o with Ok a => Ok (f a) | Throw e => Throw e | UB u => UB u | Diverge => Diverge end.
Definition from0 (s : st_state) : Prop := Forall (fun t => 0 <= t) (ss_entry_times s).

Lemma ready_loop_later x times : forall n,
  ready_loop (x + d) (map (fun t => t + d) times) n = (map (fun t => t + d) (fst (ready_loop x times n)), snd (ready_loop x times n)).
Proof.
  induction times as [|y times IH]; intros n; [reflexivity|]. cbn [map ready_loop].
  replace (y + d <=? x + d) with (y <=? x) by (destruct (Z.leb_spec y x), (Z.leb_spec (y + d) (x + d)); auto; lia).
  destruct (y <=? x); [apply IH|reflexivity].
Qed.
Lemma ready_loop_from0 x times : Forall (fun t => 0 <= t) times -> forall n, Forall (fun t => 0 <= t) (fst (ready_loop x times n)).
Proof.
  induction times as [|y times IH]; intros F n; [constructor|]. cbn. destruct (y <=? x); [|exact F].
  apply IH. inversion F; assumption.
Qed.
Lemma ready_matl_later x s : ready_matl (x + d) (moved s) = mapped moved (ready_matl x s).
Proof.
  unfold ready_matl. cbn [ss_entry_times moved]. rewrite ready_loop_later. destruct (ready_loop x (ss_entry_times s) 0) as [times n].
  cbn [fst snd ss_processing moved]. destruct (zlen (ss_processing s) <? n); reflexivity.
Qed.
Lemma ready_matl_from0 x s s' : from0 s -> ready_matl x s = Ok s' -> from0 s'.
Proof.
  intros F H. unfold ready_matl in H. pose proof (ready_loop_from0 x _ F 0) as G. destruct (ready_loop x (ss_entry_times s) 0) as [times n].
  destruct (zlen (ss_processing s) <? n); [discriminate|]. injection H as <-. exact G.
Qed.
Lemma ready_matl_early x s : from0 s -> x < 0 -> ready_matl x s = Ok s.
Proof.
  intros F X. unfold ready_matl, from0 in *. destruct s as [inv proc times rd st]. cbn [ss_entry_times] in *.
  assert (L : ready_loop x times 0 = (times, 0)).
  { destruct times as [|y times]; [reflexivity|]. cbn. inversion F; subst. destruct (Z.leb_spec y x); [lia|reflexivity]. }
  rewrite L. cbn. destruct (Z.ltb_spec (zlen proc) 0) as [Z0|Z0]; [unfold zlen in Z0; lia|]. cbn. rewrite app_nil_r. reflexivity.
Qed.
Lemma begin_loop_later t inv : forall proc times,
  begin_loop (t + d) inv proc (map (fun t => t + d) times) =
  (fst (begin_loop t inv proc times), map (fun t => t + d) (snd (begin_loop t inv proc times))).
Proof.
  induction inv as [|m inv IH]; intros proc times; [reflexivity|]. cbn [begin_loop].
  change [t + d] with (map (fun t => t + d) [t]). rewrite <- map_app. apply IH.
Qed.
Lemma begin_loop_from0 t inv : 0 <= t -> forall proc times, Forall (fun t => 0 <= t) times ->
  Forall (fun t => 0 <= t) (snd (begin_loop t inv proc times)).
Proof.
  intros T. induction inv as [|m inv IH]; intros proc times F; [exact F|]. cbn. apply IH, Forall_app. split; auto.
Qed.
Lemma begin_later t s : begin_processing (t + d) (moved s) = moved (begin_processing t s).
Proof.
  unfold begin_processing. cbn [ss_inventory ss_processing ss_entry_times moved]. rewrite begin_loop_later.
  destruct (begin_loop t (ss_inventory s) (ss_processing s) (ss_entry_times s)). reflexivity.
Qed.
Lemma begin_from0 t s : 0 <= t -> from0 s -> from0 (begin_processing t s).
Proof.
  intros T F. unfold begin_processing, from0 in *. pose proof (begin_loop_from0 t (ss_inventory s) T (ss_processing s) _ F) as G.
  destruct (begin_loop t (ss_inventory s) (ss_processing s) (ss_entry_times s)). exact G.
Qed.
Lemma process_later cap s : process_mat eps cfg cap (moved s) = mapped (fun p => (moved (fst p), snd p)) (process_mat eps cfg cap s).
Proof.
  unfold process_mat. cbn [ss_ready moved]. destruct (ss_ready s) as [|m0 l]; [reflexivity|].
  destruct (if sc_discrete cfg then _ else _) as [[mv rest]| | |]; reflexivity.
Qed.
Lemma process_from0 cap s s' o : from0 s -> process_mat eps cfg cap s = Ok (s', o) -> from0 s'.
Proof.
  intros F H. unfold process_mat in H. destruct (ss_ready s) as [|m0 l]; [injection H as <- <-; exact F|].
  destruct (if sc_discrete cfg then _ else _) as [[mv rest]| | |]; [|discriminate..]. injection H as <- <-. exact F.
Qed.
(** Whether the maturing is called at all does not matter. *)
Lemma ready_either t s (b : bool) : from0 s -> (0 <= ready_time cfg t -> b = true) ->
  (if b then ready_matl (ready_time cfg t) s else Ok s) = ready_matl (ready_time cfg t) s.
Proof.
  intros F B. destruct b; [reflexivity|]. symmetry. apply ready_matl_early; [exact F|].
  destruct (Z.le_gt_cases 0 (ready_time cfg t)) as [L|L]; [discriminate (B L)|exact L].
Qed.
Lemma ready_either_later t s (b : bool) : from0 s -> (0 <= ready_time cfg (t + d) -> b = true) ->
  (if b then ready_matl (ready_time cfg (t + d)) (moved s) else Ok (moved s)) = mapped moved (ready_matl (ready_time cfg t) s).
Proof.
  intros F B.
  assert (R : ready_time cfg (t + d) = ready_time cfg t + d) by (unfold ready_time; lia).
  rewrite R in *. rewrite ready_matl_later. destruct b; [reflexivity|]. rewrite ready_matl_early; [reflexivity|exact F|].
  destruct (Z.le_gt_cases 0 (ready_time cfg t + d)) as [L|L]; [discriminate (B L)|lia].
Qed.
Lemma tock_storage_later t s : 0 <= t -> from0 s ->
  st_tock eps cfg (t + d) (moved s) = mapped (fun p => (moved (fst p), snd p)) (st_tock eps cfg t s) /\
  (forall s' o, st_tock eps cfg t s = Ok (s', o) -> from0 s').
Proof.
  intros T F. unfold st_tock. rewrite begin_later. pose proof (begin_from0 t s T F) as G.
  set (s1 := begin_processing t s) in *.
  rewrite (ready_either_later t s1) by (first [exact G|intros L; apply Z.leb_le in L; rewrite L; reflexivity]).
  rewrite (ready_either t s1) by (first [exact G|intros L; apply Z.leb_le in L; rewrite L; reflexivity]).
  destruct (ready_matl (ready_time cfg t) s1) as [s2| | |] eqn:M; cbn [bind mapped]; try (split; [reflexivity|discriminate]).
  pose proof (ready_matl_from0 _ _ _ G M) as G2. rewrite process_later.
  destruct (process_mat eps cfg (sc_throughput cfg) s2) as [[s3 mv]| | |] eqn:P; cbn [bind mapped fst snd]; try (split; [reflexivity|discriminate]).
  pose proof (process_from0 _ _ _ _ G2 P) as G3. split.
  - destruct (vec_at (sc_in_commods cfg) (max_index (sc_in_prefs cfg))); cbn [bind mapped]; auto.
    destruct (vec_at (sc_out_commods cfg) 0); cbn [bind mapped]; auto.
  - intros s' o H. destruct (vec_at (sc_in_commods cfg) (max_index (sc_in_prefs cfg))); cbn [bind] in H; try discriminate.
    destruct (vec_at (sc_out_commods cfg) 0); cbn [bind] in H; try discriminate. injection H as <- <-. exact G3.
Qed.
Lemma add_later ms : forall s, fold_left st_add_mat ms (moved s) = moved (fold_left st_add_mat ms s).
Proof. induction ms as [|m ms IH]; intros s; [reflexivity|]. cbn. rewrite <- IH. reflexivity. Qed.
Lemma add_from0 ms : forall s, from0 s -> from0 (fold_left st_add_mat ms s).
Proof. induction ms as [|m ms IH]; intros s F; [exact F|]. cbn. apply IH. exact F. Qed.
Lemma trade_later e s : st_trade eps (storage_step_later d e) (moved s) = mapped (fun p => (moved (fst p), snd p)) (st_trade eps e s).
Proof.
  unfold st_trade. cbn [se_sales se_receipts storage_step_later ss_stocks moved].
  destruct (sell_all eps (se_sales e) (ss_stocks s) []) as [[stk sold]| | |]; cbn [bind mapped]; auto.
  cbn [fst snd]. rewrite <- add_later. reflexivity.
Qed.
Lemma trade_from0 e s s' o : from0 s -> st_trade eps e s = Ok (s', o) -> from0 s'.
Proof.
  intros F H. unfold st_trade in H. destruct (sell_all eps (se_sales e) (ss_stocks s) []) as [[stk sold]| | |]; cbn [bind] in H; try discriminate.
  injection H as <- <-. apply add_from0. exact F.
Qed.
Lemma st_step_later e s : 0 <= se_time e -> from0 s ->
  st_step eps cfg (moved s) (storage_step_later d e) = mapped (fun p => (moved (fst p), snd p)) (st_step eps cfg s e) /\
  (forall s' o, st_step eps cfg s e = Ok (s', o) -> from0 s').
Proof.
  intros T F. unfold st_step. rewrite trade_later. destruct (st_trade eps e s) as [[s1 sold]| | |] eqn:TR; cbn [bind mapped fst snd]; try (split; [reflexivity|discriminate]).
  pose proof (trade_from0 _ _ _ _ F TR) as F1. cbn [se_time storage_step_later].
  destruct (tock_storage_later (se_time e) s1 T F1) as [H1 H2]. rewrite H1. destruct (st_tock eps cfg (se_time e) s1) as [[s2 o]| | |]; cbn [bind mapped fst snd]; try (split; [reflexivity|discriminate]).
  split; [reflexivity|]. intros s' o' H. injection H as <- <-. exact (H2 _ _ eq_refl).
Qed.
Lemma st_run_later es : Forall (fun e => 0 <= se_time e) es -> forall s, from0 s ->
  st_run eps cfg (moved s) (map (storage_step_later d) es) = mapped (fun p => (moved (fst p), snd p)) (st_run eps cfg s es).
Proof.
  induction es as [|e es IH]; intros FT s F; [reflexivity|]. inversion FT as [|? ? T FT']; subst. cbn [st_run map].
  destruct (st_step_later e s T F) as [H1 H2]. rewrite H1. destruct (st_step eps cfg s e) as [[s1 o]| | |]; cbn [bind mapped fst snd]; auto.
  rewrite IH by (auto; exact (H2 _ _ eq_refl)). destruct (st_run eps cfg s1 es) as [[s2 os]| | |]; reflexivity.
Qed.
Lemma storage_life_later es : Forall (fun e => 0 <= se_time e) es ->
  seen (st_run eps cfg st_empty (map (storage_step_later d) es)) = seen (st_run eps cfg st_empty es).
Proof.
  intros F. change st_empty with (moved st_empty) at 1. rewrite st_run_later; [|exact F|constructor].
  destruct (st_run eps cfg st_empty es) as [[s os]| | |]; reflexivity.
Qed.
End S.

(** ** Sink *)
Section K.
Import SinkModel SinkSpec.
Variables (eps eg : Q) (recipe : string -> option comp) (cfg : sk_cfg) (d : Z).
Hypotheses (D : 0 <= d) (B : random_frequency cfg -> 0 <= kc_freq_min cfg <= kc_freq_max cfg).
Definition kmoved (s : sk_state) : sk_state :=
  {| ks_prefs := ks_prefs s; ks_inv := ks_inv s; ks_amt := ks_amt s; ks_next := end_later d (ks_next s) |}.
Lemma next_later g t : rng_ok g -> 0 <= t ->
  sk_next_buy cfg g (t + d) = end_later d (sk_next_buy cfg g t) /\ is_end (sk_next_buy cfg g t).
Proof.
  intros (_ & _ & U & N) T. unfold sk_next_buy, end_later, is_end.
  destruct (String.eqb (kc_freq_type cfg) "None"); [split; [reflexivity|left; reflexivity]|].
  destruct (String.eqb_spec (kc_freq_type cfg) "UniformInt") as [Y|Y].
  - specialize (B (or_introl Y)). specialize (U _ _ (proj2 B)).
    destruct (Z.eqb_spec (t + g_uniform_int g (kc_freq_min cfg) (kc_freq_max cfg)) (-1)); lia.
  - destruct (String.eqb_spec (kc_freq_type cfg) "NormalInt") as [Y'|Y']; [|split; [reflexivity|left; reflexivity]].
    specialize (B (or_intror Y')). specialize (N (kc_freq_mean cfg) (kc_freq_stddev cfg) _ _ (proj2 B)).
    destruct (Z.eqb_spec (t + g_normal_int g (kc_freq_mean cfg) (kc_freq_stddev cfg) (kc_freq_min cfg) (kc_freq_max cfg)) (-1)); lia.
Qed.
Lemma amt_moved g s : sk_request_amt cfg g (kmoved s) = sk_request_amt cfg g s.
Proof. reflexivity. Qed.
Definition kend (s : sk_state) : Prop := is_end (ks_next s).
Lemma sk_tick_later g t s : rng_ok g -> 0 <= t -> kend s ->
  sk_tick eg cfg g (t + d) (kmoved s) = mapped (fun p => (kmoved (fst p), snd p)) (sk_tick eg cfg g t s) /\
  (forall s' o, sk_tick eg cfg g t s = Ok (s', o) -> kend s').
Proof.
  intros G T K. unfold sk_tick. destruct (next_later g t G T) as [N1 N2]. unfold kend in *.
  set (s1 := if ks_next s =? -1 then _ else _).
  assert (E1 : (if ks_next (kmoved s) =? -1 then
      {| ks_prefs := ks_prefs (kmoved s); ks_inv := ks_inv (kmoved s); ks_amt := sk_request_amt cfg g (kmoved s); ks_next := ks_next (kmoved s) |}
    else if ks_next (kmoved s) =? t + d then
      {| ks_prefs := ks_prefs (kmoved s); ks_inv := ks_inv (kmoved s); ks_amt := sk_request_amt cfg g (kmoved s); ks_next := sk_next_buy cfg g (t + d) |}
    else {| ks_prefs := ks_prefs (kmoved s); ks_inv := ks_inv (kmoved s); ks_amt := 0; ks_next := ks_next (kmoved s) |}) = kmoved s1 /\ kend s1).
  { subst s1. unfold kmoved at 1 3 4 5 6 7. cbn [ks_next ks_prefs ks_inv ks_amt].
    assert (X : (end_later d (ks_next s) =? -1) = (ks_next s =? -1)).
    { unfold end_later, is_end in *. destruct (Z.eqb_spec (ks_next s) (-1)); [reflexivity|]. destruct (Z.eqb_spec (ks_next s + d) (-1)); auto; lia. }
    rewrite X. destruct (Z.eqb_spec (ks_next s) (-1)) as [Y|Y].
    - split; [reflexivity|exact K].
    - assert (X2 : (end_later d (ks_next s) =? t + d) = (ks_next s =? t)).
      { unfold end_later. destruct (Z.eqb_spec (ks_next s) (-1)); [contradiction|]. apply eqb_later. }
      rewrite X2. destruct (ks_next s =? t).
      + rewrite N1. split; [reflexivity|exact N2].
      + split; [reflexivity|exact K]. }
  destruct E1 as [E1 E2]. cbn zeta. rewrite E1. change (ks_amt (kmoved s1)) with (ks_amt s1).
  destruct (Qltb eg (ks_amt s1)).
  - destruct (vec_at (kc_commods cfg) 0); cbn [bind mapped]; (split; [reflexivity|]); try discriminate. intros s' o H. injection H as <- <-. exact E2.
  - split; [reflexivity|]. intros s' o H. injection H as <- <-. exact E2.
Qed.
Lemma mat_requests_later g s :
  sk_mat_requests eg recipe cfg g (kmoved s) = mapped (fun p => (kmoved (fst p), snd p)) (sk_mat_requests eg recipe cfg g s) /\
  (forall s' o, sk_mat_requests eg recipe cfg g s = Ok (s', o) -> ks_next s' = ks_next s).
Proof.
  unfold sk_mat_requests. change (sk_available cfg (kmoved s)) with (sk_available cfg s). change (ks_amt (kmoved s)) with (ks_amt s).
  set (s1 := if Qltb (sk_available cfg s) (ks_amt s) then _ else s).
  match goal with |- context [if Qltb (sk_available cfg s) (ks_amt s) then ?a else kmoved s] =>
    assert (E1 : (if Qltb (sk_available cfg s) (ks_amt s) then a else kmoved s) = kmoved s1) by (subst s1; destruct (Qltb (sk_available cfg s) (ks_amt s)); reflexivity) end.
  assert (E2 : ks_next s1 = ks_next s) by (subst s1; destruct (Qltb (sk_available cfg s) (ks_amt s)); reflexivity).
  cbn zeta. rewrite E1. change (ks_amt (kmoved s1)) with (ks_amt s1). change (ks_prefs (kmoved s1)) with (ks_prefs s1).
  destruct (if String.eqb (kc_recipe cfg) "" then _ else _); cbn [bind mapped]; try (split; [reflexivity|discriminate]).
  destruct (Qltb eg (ks_amt s1)).
  - destruct (loop _ _ _); cbn [bind mapped]; (split; [reflexivity|]); try discriminate. intros s' o H. injection H as <- <-. exact E2.
  - split; [reflexivity|]. intros s' o H. injection H as <- <-. exact E2.
Qed.
Lemma accept_later rs : forall s,
  sk_accept eps cfg rs (kmoved s) = mapped kmoved (sk_accept eps cfg rs s) /\
  (forall s', sk_accept eps cfg rs s = Ok s' -> ks_next s' = ks_next s).
Proof.
  induction rs as [|r rs IH]; intros s.
  - split; [reflexivity|]. intros s' H. injection H as <-. reflexivity.
  - cbn [sk_accept]. change (sk_space cfg (kmoved s)) with (sk_space cfg s). destruct (Qltb eps (r_qty r - sk_space cfg s)); [split; [reflexivity|discriminate]|].
    destruct (IH {| ks_prefs := ks_prefs s; ks_inv := ks_inv s ++ [r]; ks_amt := ks_amt s; ks_next := ks_next s |}) as [H1 H2].
    split; [exact H1|exact H2].
Qed.
Lemma sk_step_later t s e : rng_ok (ke_rng e) -> 0 <= t -> kend s ->
  sk_step eps eg recipe cfg (t + d) (kmoved s) e = mapped (fun p => (kmoved (fst p), snd p)) (sk_step eps eg recipe cfg t s e) /\
  (forall s' o, sk_step eps eg recipe cfg t s e = Ok (s', o) -> kend s').
Proof.
  intros G T K. unfold sk_step. destruct (sk_tick_later (ke_rng e) t s G T K) as [A1 A2]. rewrite A1.
  destruct (sk_tick eg cfg (ke_rng e) t s) as [[s1 dm]| | |]; cbn [bind mapped fst snd]; try (split; [reflexivity|discriminate]).
  specialize (A2 _ _ eq_refl). destruct (mat_requests_later (ke_rng2 e) s1) as [B1 B2]. rewrite B1.
  destruct (sk_mat_requests eg recipe cfg (ke_rng2 e) s1) as [[s2 mr]| | |]; cbn [bind mapped fst snd]; try (split; [reflexivity|discriminate]).
  specialize (B2 _ _ eq_refl). destruct (accept_later (map rsrc_of_mat (ke_mats e)) s2) as [C1 C2]. rewrite C1.
  destruct (sk_accept eps cfg (map rsrc_of_mat (ke_mats e)) s2) as [s3| | |]; cbn [bind mapped fst snd]; try (split; [reflexivity|discriminate]).
  specialize (C2 _ eq_refl). destruct (accept_later (map rsrc_of_prod (ke_prods e)) s3) as [F1 F2]. rewrite F1.
  destruct (sk_accept eps cfg (map rsrc_of_prod (ke_prods e)) s3) as [s4| | |]; cbn [bind mapped fst snd]; try (split; [reflexivity|discriminate]).
  specialize (F2 _ eq_refl). split; [reflexivity|]. intros s' o H. injection H as <- <-. unfold kend in *. congruence.
Qed.
Lemma sk_run_later es : rngs_ok es -> forall t s, 0 <= t -> kend s ->
  sk_run eps eg recipe cfg (t + d) (kmoved s) es = mapped (fun p => (kmoved (fst p), snd p)) (sk_run eps eg recipe cfg t s es).
Proof.
  induction es as [|e es IH]; intros R t s T K; [reflexivity|]. inversion R as [|? ? [R1 _] R2]; subst. cbn [sk_run].
  destruct (sk_step_later t s e R1 T K) as [A1 A2]. rewrite A1.
  destruct (sk_step eps eg recipe cfg t s e) as [[s1 o]| | |]; cbn [bind mapped fst snd]; auto.
  replace (t + d + 1) with (t + 1 + d) by lia. rewrite IH; [|exact R2|lia|exact (A2 _ _ eq_refl)].
  destruct (sk_run eps eg recipe cfg (t + 1) s1 es) as [[s2 os]| | |]; reflexivity.
Qed.
Lemma sink_life_later t g es : 0 <= t -> rng_ok g -> rngs_ok es ->
  sink_life eps eg recipe cfg (t + d) g es = sink_life eps eg recipe cfg t g es.
Proof.
  intros T G R. unfold sink_life.
  destruct (next_later g t G T) as [N1 N2].
  assert (H : sk_enter cfg g (t + d) (sk_new cfg) = mapped kmoved (sk_enter cfg g t (sk_new cfg)) /\
    (forall s, sk_enter cfg g t (sk_new cfg) = Ok s -> kend s)).
  { unfold sk_enter. destruct (match ks_prefs (sk_new cfg) with [] => _ | _ => _ end); cbn [bind mapped]; try (split; [reflexivity|discriminate]).
    rewrite N1. split; [reflexivity|]. intros s E. injection E as <-. exact N2. }
  destruct H as [H1 H2]. rewrite H1. destruct (sk_enter cfg g t (sk_new cfg)) as [s| | |]; cbn [mapped]; auto.
  rewrite sk_run_later; [|exact R|exact T|exact (H2 _ eq_refl)].
  destruct (sk_run eps eg recipe cfg t s es) as [[s' os]| | |]; reflexivity.
Qed.
End K.
