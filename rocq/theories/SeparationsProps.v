(** Properties of the separations facility (C21-C29, C63-C65, C72). *)
From Coq Require Import Lqa.
From Verif Require Import Outcome KernelMaterial KernelResBuf KernelBuf KernelFacts KernelMass KernelBufFacts
  SeparationsModel SeparationsSpec SeparationsProofs SeparationsGlue SeparationsRun.
Local Open Scope Q_scope.

(** ** A worked case: spent fuel, a plutonium stream with a small buffer, an
    unlimited uranium stream with a nuclide-specific efficiency. *)
Definition sx_comp : comp := [(551370000%Z, 2); (922350000%Z, 1); (922380000%Z, 94); (942390000%Z, 3)].
Definition sx_cfg_of (pu_cap : Q) : sp_cfg :=
  {| pc_feed_commods := ["spent"; "old"]%string; pc_feed_prefs := [1; 2]; pc_feed_recipe := "";
     pc_feed_size := 100; pc_throughput := 10; pc_leftover_commod := "waste"; pc_leftover_size := 50;
     pc_streams := [ {| st_name := "pu"; st_cap := pu_cap; st_effs := [(940000000%Z, 9 # 10)] |};
                     {| st_name := "u"; st_cap := -1; st_effs := [(922350000%Z, 1 # 2); (920000000%Z, 1)] |} ];
     pc_exit := 20 |}.
(** The same with no preferences given. *)
Definition sx_noprefs_of (pu_cap : Q) : sp_cfg :=
  {| pc_feed_commods := ["spent"; "old"]%string; pc_feed_prefs := []; pc_feed_recipe := "";
     pc_feed_size := 100; pc_throughput := 10; pc_leftover_commod := "waste"; pc_leftover_size := 50;
     pc_streams := [ {| st_name := "pu"; st_cap := pu_cap; st_effs := [(940000000%Z, 9 # 10)] |};
                     {| st_name := "u"; st_cap := -1; st_effs := [(922350000%Z, 1 # 2); (920000000%Z, 1)] |} ];
     pc_exit := 20 |}.
Definition sx_cfg : sp_cfg := sx_cfg_of 2.
Definition sx_noprefs : sp_cfg := sx_noprefs_of 2.
Definition sx_tight : sp_cfg := sx_cfg_of (1 # 10).
Definition sx_full : sp_cfg := sx_cfg_of 0.
Definition sx_state_of (pu_cap : Q) : sp_state :=
  {| ps_feed := {| b_cap := Some 100; b_items := [Mat 1 8 sx_comp; Mat 2 6 sx_comp] |};
     ps_left := {| b_cap := Some 50; b_items := [Mat 3 5 sx_comp] |};
     ps_streams := [("pu"%string, {| b_cap := Some pu_cap; b_items := [] |})] |}.
Definition sx_state : sp_state := sx_state_of 2.
Lemma sx_sane c : efficiencies_sane (sx_cfg_of c).
Proof.
  split.
  - intros st e [<-|[<-|[]]] H; simpl in H; repeat destruct H as [<-|H]; try contradiction; discriminate.
  - intro n. unfold efficiency, given. remember (element n) as e eqn:He.
    cbn [map pc_streams sx_cfg_of st_effs find fst snd].
    destruct (Z.eqb_spec 940000000 n), (Z.eqb_spec 922350000 n), (Z.eqb_spec 920000000 n),
      (Z.eqb_spec 940000000 e), (Z.eqb_spec 922350000 e), (Z.eqb_spec 920000000 e);
      try congruence; try (subst n; vm_compute in He; congruence); vm_compute; discriminate.
Qed.
Lemma sx_names c : NoDup (map st_name (pc_streams (sx_cfg_of c))).
Proof. repeat constructor; simpl; intuition discriminate. Qed.
Definition sx_eps : Q := 1 # 1000000.
(** the material taken from the feed in the first tick, and the rest of the feed *)
Definition sx_pop : mat * buf :=
  match b_pop_tol (ps_feed sx_state) 10 sx_eps with Ok r => r | _ => (Mat 0 0 [], new_buf) end.
(** Three steps: receive fuel; process and sell; process and sell. *)
Definition sx_es : list sp_env :=
  [ {| pe_time := 0; pe_reqs := fun _ => []; pe_trades := []; pe_receipts := [Mat 1 8 sx_comp; Mat 2 6 sx_comp] |};
    {| pe_time := 1; pe_reqs := fun _ => [1; 2]; pe_trades := [("u"%string, 3); ("waste"%string, 1 # 10)];
       pe_receipts := [Mat 5 4 sx_comp] |};
    {| pe_time := 2; pe_reqs := fun _ => [4]; pe_trades := [("pu"%string, 1 # 10); ("u"%string, 4)]; pe_receipts := [] |} ].

(** ** C21: total mass.  In every tick, whatever the efficiencies, limits and contents. *)
Theorem C21_total_mass : forall eps cfg s s' lg, 0 <= pc_throughput cfg ->
  Forall (fun m => 0 <= m_qty m) (parcels s) -> sp_tick eps cfg s = Ok (s', lg) ->
  qty_of (parcels s') == qty_of (parcels s).
Proof. exact (fun eps cfg s s' lg Ht Hs H => proj1 (tick_total eps cfg s s' lg Ht Hs H)). Qed.
Print Assumptions C21_total_mass.
(** Over every history: what arrived is held or was shipped. *)
Theorem C21_history_mass : forall eps recipe cfg es s0 prefs s' os,
  NoDup (map st_name (pc_streams cfg)) -> 0 <= pc_throughput cfg -> Forall env_sane es ->
  sp_enter eps cfg (sp_new cfg) = Ok (s0, prefs) -> sp_run eps recipe cfg prefs s0 es = Ok (s', os) ->
  qty_of (parcels s') + qty_of (shipped os) == qty_of (received es).
Proof. exact history_total. Qed.
Print Assumptions C21_history_mass.
(** Every nuclide, over every history, when the resource tolerance is zero. *)
Theorem C21_history_nuclides_partial : forall recipe cfg es s0 prefs s' os,
  NoDup (map st_name (pc_streams cfg)) -> 0 <= pc_throughput cfg -> Forall env_sane es ->
  sp_enter 0 cfg (sp_new cfg) = Ok (s0, prefs) -> sp_run 0 recipe cfg prefs s0 es = Ok (s', os) ->
  forall n, mass_in n (parcels s') + mass_in n (shipped os) == mass_in n (received es).
Proof. exact history_mass0. Qed.
Print Assumptions C21_history_nuclides_partial.
Example C21_history_nontrivial : exists s0 prefs s' os,
  sp_enter 0 sx_cfg (sp_new sx_cfg) = Ok (s0, prefs) /\
  sp_run 0 (fun _ => None) sx_cfg prefs s0 sx_es = Ok (s', os) /\
  0 < qty_of (parcels s') /\ 0 < qty_of (shipped os) /\ qty_of (received sx_es) == 18.
Proof.
  do 2 eexists. do 2 eexists. split; [vm_compute; reflexivity|]. split; [vm_compute; reflexivity|].
  vm_compute. auto.
Qed.
Example C21_env_nontrivial : Forall env_sane sx_es.
Proof.
  repeat constructor; simpl; try discriminate; try (vm_compute; discriminate);
    repeat (constructor; simpl; try discriminate; try (vm_compute; discriminate)).
Qed.
(** Every nuclide in one tick, when no trace below the tolerance is left behind. *)
Theorem C21_nuclides_partial : forall eps cfg s s' lg,
  0 <= eps -> 0 <= pc_throughput cfg -> NoDup (map st_name (pc_streams cfg)) -> efficiencies_sane cfg ->
  mats_ok (b_items (ps_feed s)) -> sp_tick eps cfg s = Ok (s', lg) ->
  (forall m feed1 f, b_pop_tol (ps_feed s) (Qmin (pc_throughput cfg) (b_qty (ps_feed s))) eps = Ok (m, feed1) ->
     processable cfg s m f -> no_traces eps cfg m f) ->
  forall n, mass_in n (parcels s') == mass_in n (parcels s).
Proof. exact tick_nuclides_exact. Qed.
Print Assumptions C21_nuclides_partial.
(** In general a nuclide drifts by at most the tolerance per stream and nuclide. *)
Theorem C21_nuclides_bounded : forall eps cfg s s' lg m feed1, 0 <= eps -> 0 <= pc_throughput cfg ->
  mats_ok (b_items (ps_feed s)) -> sp_tick eps cfg s = Ok (s', lg) ->
  b_pop_tol (ps_feed s) (Qmin (pc_throughput cfg) (b_qty (ps_feed s))) eps = Ok (m, feed1) ->
  forall n, Qabs (mass_in n (parcels s') - mass_in n (parcels s)) <=
    eps * inject_Z (zlen (pc_streams cfg)) * inject_Z (zlen (nuclides m)).
Proof. exact nuclide_drift. Qed.
Print Assumptions C21_nuclides_bounded.
Example C21_nontrivial : exists s' lg, sp_tick sx_eps sx_cfg sx_state = Ok (s', Some lg) /\
  mats_ok (b_items (ps_feed sx_state)) /\ no_traces sx_eps sx_cfg (fst sx_pop) 1 /\
  0 < mass_in 942390000 (parcels s') /\ 0 < mass_in 922350000 (b_items (ps_left s')).
Proof.
  do 2 eexists. split; [vm_compute; reflexivity|]. split; [apply mats_okb_sound; reflexivity|].
  split; [apply no_traces_check; reflexivity|]. vm_compute. auto.
Qed.
(** The exact claim is false for a positive tolerance: a trace left behind by
    a stream is dropped and its mass is turned into the other nuclides. *)
Definition sx_trace_cfg : sp_cfg :=
  {| pc_feed_commods := ["spent"]%string; pc_feed_prefs := [1]; pc_feed_recipe := "";
     pc_feed_size := 100; pc_throughput := 10; pc_leftover_commod := "waste"; pc_leftover_size := 50;
     pc_streams := [ {| st_name := "pu"; st_cap := -1; st_effs := [(940000000%Z, 1 # 2)] |} ]; pc_exit := -1 |}.
Definition sx_trace_state : sp_state :=
  {| ps_feed := {| b_cap := Some 100; b_items := [Mat 1 1 [(922380000%Z, 999999 # 1000000); (942390000%Z, 1 # 1000000)]] |};
     ps_left := {| b_cap := Some 50; b_items := [] |}; ps_streams := [] |}.
Theorem C21_nuclides_refuted : exists cfg s s' lg n, mats_ok (b_items (ps_feed s)) /\
  parcels s = b_items (ps_feed s) /\
  sp_tick sx_eps cfg s = Ok (s', lg) /\ mass_in n (parcels s') == (1 # 2) * mass_in n (parcels s) /\
  0 < mass_in n (parcels s).
Proof.
  exists sx_trace_cfg, sx_trace_state. do 2 eexists. exists 942390000%Z.
  split; [apply mats_okb_sound; reflexivity|]. split; [reflexivity|].
  split; [vm_compute; reflexivity|]. vm_compute. auto.
Qed.
Print Assumptions C21_nuclides_refuted.

(** ** C22: when no stream buffer limits the step, stream [st] gets the fraction
    [efficiency] of each nuclide of the processed material [m], the leftover the
    rest, and the feed keeps what was not taken.  Without traces (see C21). *)
Theorem C22_split : forall eps cfg s s' lg m feed1,
  0 <= eps -> 0 <= pc_throughput cfg -> NoDup (map st_name (pc_streams cfg)) -> efficiencies_sane cfg ->
  mats_ok (b_items (ps_feed s)) -> b_items (ps_feed s) <> [] ->
  b_pop_tol (ps_feed s) (Qmin (pc_throughput cfg) (b_qty (ps_feed s))) eps = Ok (m, feed1) ->
  (forall st sp, In st (pc_streams cfg) -> b_space (stream_buf s (st_name st)) = Some sp -> share (st_effs st) m <= sp) ->
  no_traces eps cfg m 1 -> sp_tick eps cfg s = Ok (s', lg) ->
  ps_feed s' = feed1 /\
  (forall st, In st (pc_streams cfg) ->
     gained (stream_items s (st_name st)) (stream_items s' (st_name st))
            (share (st_effs st) m) (fun n => efficiency (st_effs st) n * mass_of m n)) /\
  gained (b_items (ps_left s)) (b_items (ps_left s'))
     (m_qty m - qsum (map (fun st => share (st_effs st) m) (pc_streams cfg)))
     (fun n => mass_of m n * (1 - qsum (map (fun st => efficiency (st_effs st) n) (pc_streams cfg)))).
Proof. exact tick_split. Qed.
Print Assumptions C22_split.
Example C22_nontrivial : exists s' lg,
  b_pop_tol (ps_feed sx_state) (Qmin (pc_throughput sx_cfg) (b_qty (ps_feed sx_state))) sx_eps =
    Ok (fst sx_pop, snd sx_pop) /\
  (forall st sp, In st (pc_streams sx_cfg) -> b_space (stream_buf sx_state (st_name st)) = Some sp ->
     share (st_effs st) (fst sx_pop) <= sp) /\
  sp_tick sx_eps sx_cfg sx_state = Ok (s', lg) /\
  mass_in 942390000 (stream_items s' "pu") == 27 # 100 /\ mass_in 922350000 (stream_items s' "u") == 5 # 100 /\
  mass_in 922380000 (stream_items s' "u") == 94 # 10.
Proof.
  do 2 eexists. split; [vm_compute; reflexivity|]. split.
  { intros st sp [<-|[<-|[]]] E; vm_compute in E; [injection E as <-; vm_compute; discriminate|discriminate]. }
  split; [vm_compute; reflexivity|]. vm_compute. auto.
Qed.
(** In general the step processes only the fraction [f] that fits. *)
Theorem C22_split_limited : forall eps cfg s s' lg,
  0 <= eps -> 0 <= pc_throughput cfg -> NoDup (map st_name (pc_streams cfg)) -> efficiencies_sane cfg ->
  mats_ok (b_items (ps_feed s)) -> b_items (ps_feed s) <> [] -> sp_tick eps cfg s = Ok (s', lg) ->
  exists m feed1 f,
    b_pop_tol (ps_feed s) (Qmin (pc_throughput cfg) (b_qty (ps_feed s))) eps = Ok (m, feed1) /\
    m_qty m == Qmin (pc_throughput cfg) (b_qty (ps_feed s)) /\
    (forall n, mass_of m n + mass_in n (b_items feed1) == mass_in n (b_items (ps_feed s))) /\
    processable cfg s m f /\
    (forall st, In st (pc_streams cfg) ->
     gained (stream_items s (st_name st)) (stream_items s' (st_name st))
            (f * share (st_effs st) m) (fun n => f * efficiency (st_effs st) n * mass_of m n)) /\
    (forall name, ~ In name (map st_name (pc_streams cfg)) -> stream_items s' name = stream_items s name) /\
    b_qty (ps_feed s') == b_qty (ps_feed s) - f * m_qty m /\
    b_qty (ps_left s') == b_qty (ps_left s) +
      f * (m_qty m - qsum (map (fun st => share (st_effs st) m) (pc_streams cfg))).
Proof. exact tick_limited. Qed.
Print Assumptions C22_split_limited.
Example C22_limited_nontrivial : exists s' lg, sp_tick sx_eps sx_tight (sx_state_of (1 # 10)) = Ok (s', Some lg) /\
  b_qty (stream_buf s' "pu") == 1 # 10 /\ b_qty (ps_feed s') == 14 - (10 # 27) * 10.
Proof. do 2 eexists. split; [vm_compute; reflexivity|]. vm_compute. auto. Qed.

(** ** C23: at most the throughput leaves the feed... *)
Theorem C23_throughput : forall eps cfg s s' lg, 0 <= pc_throughput cfg ->
  Forall (fun m => 0 <= m_qty m) (parcels s) -> sp_tick eps cfg s = Ok (s', lg) ->
  b_qty (ps_feed s) - pc_throughput cfg <= b_qty (ps_feed s').
Proof. exact (fun eps cfg s s' lg Ht Hs H => proj1 (proj2 (proj2 (tick_total eps cfg s s' lg Ht Hs H)))). Qed.
Print Assumptions C23_throughput.
(** ... and no stream buffer is ever above its size, in any history. *)
Theorem C23_stream_sizes : forall eps recipe cfg es s0 prefs s' os,
  NoDup (map st_name (pc_streams cfg)) -> 0 <= pc_throughput cfg -> Forall env_sane es ->
  sp_enter eps cfg (sp_new cfg) = Ok (s0, prefs) -> sp_run eps recipe cfg prefs s0 es = Ok (s', os) ->
  within cfg s' /\ Forall (fun o => within cfg (po_ticked o)) os.
Proof. exact history_sizes. Qed.
Print Assumptions C23_stream_sizes.
Example C23_nontrivial : exists s0 prefs s' os, sp_enter sx_eps sx_tight (sp_new sx_tight) = Ok (s0, prefs) /\
  sp_run sx_eps (fun _ => None) sx_tight prefs s0 (firstn 2 sx_es) = Ok (s', os) /\
  Forall2 Qeq (map (fun o => b_qty (stream_buf (po_ticked o) "pu")) os) [0; 1 # 10].
Proof.
  do 4 eexists. split; [vm_compute; reflexivity|]. split; [vm_compute; reflexivity|].
  vm_compute. repeat constructor.
Qed.

(** ** C24 is false: with a full leftover buffer the tick aborts. *)
Definition sx_no_room : sp_state :=
  {| ps_feed := ps_feed sx_state; ps_left := {| b_cap := Some 50; b_items := [Mat 3 50 sx_comp] |};
     ps_streams := ps_streams sx_state |}.
Theorem C24_pauses_refuted : exists eps cfg s, 0 <= eps /\ 0 < pc_throughput cfg /\ efficiencies_sane cfg /\
  mats_ok (parcels s) /\ b_space (ps_left s) = Some 0 /\ sp_tick eps cfg s = Throw ValueError.
Proof.
  exists sx_eps, sx_cfg, sx_no_room. split; [discriminate|]. split; [reflexivity|]. split; [apply sx_sane|].
  split; [apply mats_okb_sound; reflexivity|]. split; reflexivity.
Qed.
Print Assumptions C24_pauses_refuted.
(** What holds: the tick succeeds when the leftover of the processable fraction fits. *)
Theorem C24_enough_room_partial : forall eps cfg s, 0 <= eps -> 0 < pc_throughput cfg ->
  NoDup (map st_name (pc_streams cfg)) -> efficiencies_sane cfg -> mats_ok (b_items (ps_feed s)) ->
  b_items (ps_feed s) <> [] ->
  match b_cap (ps_feed s) with None => True | Some c => b_qty (ps_feed s) <= c + eps end ->
  (forall m feed1 f, b_pop_tol (ps_feed s) (Qmin (pc_throughput cfg) (b_qty (ps_feed s))) eps = Ok (m, feed1) ->
     processable cfg s m f -> no_traces eps cfg m f /\
     match b_space (ps_left s) with
     | None => True
     | Some sp => f * (m_qty m - qsum (map (fun st => share (st_effs st) m) (pc_streams cfg))) <= sp + eps
     end) ->
  exists s' lg, sp_tick eps cfg s = Ok (s', Some lg).
Proof. exact enough_room. Qed.
Print Assumptions C24_enough_room_partial.
Example C24_nontrivial : let m := fst sx_pop in
  no_traces sx_eps sx_cfg m 1 /\ processable sx_cfg sx_state m 1 /\
  m_qty m - qsum (map (fun st => share (st_effs st) m) (pc_streams sx_cfg)) == 28 # 100 /\
  b_space (ps_left sx_state) = Some 45.
Proof.
  cbv zeta. split; [apply no_traces_check; reflexivity|]. split.
  { split; [split; discriminate|]. split; [|left; reflexivity].
    intros st sp [<-|[<-|[]]] E; vm_compute in E; [injection E as <-; vm_compute; discriminate|discriminate]. }
  split; vm_compute; reflexivity.
Qed.

(** ** C25: a nuclide taken completely by some stream is not added to the
    leftover, when no stream buffer limits the step and there are no traces... *)
Theorem C25_fully_separated_partial : forall eps cfg s s' lg m feed1 n st,
  0 <= eps -> 0 <= pc_throughput cfg -> NoDup (map st_name (pc_streams cfg)) -> efficiencies_sane cfg ->
  mats_ok (b_items (ps_feed s)) -> b_items (ps_feed s) <> [] ->
  b_pop_tol (ps_feed s) (Qmin (pc_throughput cfg) (b_qty (ps_feed s))) eps = Ok (m, feed1) ->
  (forall st sp, In st (pc_streams cfg) -> b_space (stream_buf s (st_name st)) = Some sp -> share (st_effs st) m <= sp) ->
  no_traces eps cfg m 1 -> sp_tick eps cfg s = Ok (s', lg) ->
  In st (pc_streams cfg) -> efficiency (st_effs st) n == 1 ->
  mass_in n (b_items (ps_left s')) == mass_in n (b_items (ps_left s)).
Proof. exact fully_separated. Qed.
Print Assumptions C25_fully_separated_partial.
Example C25_nontrivial : exists st, In st (pc_streams sx_cfg) /\ efficiency (st_effs st) 922380000 == 1 /\
  0 < mass_of (fst sx_pop) 922380000.
Proof. eexists. split; [right; left; reflexivity|]. vm_compute. auto. Qed.
(** ... but false when a buffer limits the step. *)
Theorem C25_fully_separated_refuted : exists eps cfg s s' lg st n, 0 <= eps /\ efficiencies_sane cfg /\
  mats_ok (parcels s) /\ In st (pc_streams cfg) /\ efficiency (st_effs st) n == 1 /\
  sp_tick eps cfg s = Ok (s', lg) /\
  mass_in n (b_items (ps_left s)) + (9 # 100) < mass_in n (b_items (ps_left s')).
Proof.
  exists sx_eps, sx_tight, (sx_state_of (1 # 10)). do 3 eexists. exists 922380000%Z.
  split; [discriminate|]. split; [apply sx_sane|]. split; [apply mats_okb_sound; reflexivity|].
  split; [right; left; reflexivity|]. split; [reflexivity|]. split; [vm_compute; reflexivity|]. vm_compute. reflexivity.
Qed.
Print Assumptions C25_fully_separated_refuted.

(** ** C26 is false when one stream names an element and another one of its nuclides. *)
Definition sx_mixed : sp_cfg :=
  {| pc_feed_commods := ["spent"]%string; pc_feed_prefs := [1]; pc_feed_recipe := "";
     pc_feed_size := 100; pc_throughput := 10; pc_leftover_commod := "waste"; pc_leftover_size := 50;
     pc_streams := [ {| st_name := "a"; st_cap := -1; st_effs := [(920000000%Z, 9 # 10)] |};
                     {| st_name := "b"; st_cap := -1; st_effs := [(922350000%Z, 9 # 10)] |} ]; pc_exit := -1 |}.
Theorem C26_validation_refuted : exists eps cfg s r n, sp_enter eps cfg s = Ok r /\
  keys_unique cfg /\ 1 < qsum (map (fun st => efficiency (st_effs st) n) (pc_streams cfg)).
Proof.
  exists 0, sx_mixed, (sp_new sx_mixed). eexists. exists 922350000%Z. split; [vm_compute; reflexivity|].
  split; [|reflexivity]. split; [repeat constructor; simpl; intuition discriminate|].
  intros st [<-|[<-|[]]]; repeat constructor; simpl; intuition.
Qed.
Print Assumptions C26_validation_refuted.
(** What holds: the claim, when no nuclide is addressed both by itself and by its element. *)
Theorem C26_validation_partial : forall eps cfg s r n, keys_unique cfg -> keys_unmixed cfg ->
  sp_enter eps cfg s = Ok r ->
  qsum (map (fun st => efficiency (st_effs st) n) (pc_streams cfg)) <= 1.
Proof. exact validation_unmixed. Qed.
Print Assumptions C26_validation_partial.
Definition sx_unmixed : sp_cfg :=
  {| pc_feed_commods := ["spent"]%string; pc_feed_prefs := [1]; pc_feed_recipe := "";
     pc_feed_size := 100; pc_throughput := 10; pc_leftover_commod := "waste"; pc_leftover_size := 50;
     pc_streams := [ {| st_name := "a"; st_cap := -1; st_effs := [(920000000%Z, 9 # 10); (942390000%Z, 1 # 2)] |};
                     {| st_name := "b"; st_cap := 7; st_effs := [(920000000%Z, 1 # 10); (942410000%Z, 1)] |} ]; pc_exit := -1 |}.
Example C26_nontrivial : keys_unique sx_unmixed /\ keys_unmixed sx_unmixed /\
  exists r, sp_enter 0 sx_unmixed (sp_new sx_unmixed) = Ok r.
Proof.
  split. { split; [repeat constructor; simpl; intuition discriminate|].
    intros st [<-|[<-|[]]]; repeat constructor; simpl; intuition discriminate. }
  split; [|eexists; vm_compute; reflexivity].
  intros st1 st2 n [<-|[<-|[]]] [<-|[<-|[]]] I1 I2; simpl in I1;
    repeat destruct I1 as [<-|I1]; try contradiction; try reflexivity; vm_compute in I2;
    repeat destruct I2 as [I2|I2]; try contradiction; discriminate.
Qed.

(** ** C27: the feed, leftover and stream contents are restored... *)
Theorem C27_restart_partial : forall eps cfg s s0 prefs, 0 <= eps ->
  NoDup (map st_name (pc_streams cfg)) -> NoDup (map fst (ps_streams s)) ->
  ~ In "leftover-inv-name"%string (map fst (ps_streams s)) -> ~ In "feed-inv-name"%string (map fst (ps_streams s)) ->
  ~ In "leftover-inv-name"%string (map st_name (pc_streams cfg)) -> ~ In "feed-inv-name"%string (map st_name (pc_streams cfg)) ->
  sp_enter eps cfg (sp_new cfg) = Ok (s0, prefs) ->
  b_qty (ps_feed s) <= pc_feed_size cfg + eps -> b_qty (ps_left s) <= pc_leftover_size cfg + eps ->
  (forall st, In st (pc_streams cfg) -> 0 <= st_cap st -> b_qty (stream_buf s (st_name st)) <= st_cap st + eps) ->
  exists s1, sp_init_inv eps (sp_snapshot s) s0 = Ok s1 /\
    b_items (ps_feed s1) = b_items (ps_feed s) /\ b_items (ps_left s1) = b_items (ps_left s) /\
    (forall k, k <> "leftover-inv-name"%string -> k <> "feed-inv-name"%string -> stream_items s1 k = stream_items s k) /\
    stream_items s1 "leftover-inv-name" = b_items (ps_left s) /\
    stream_items s1 "feed-inv-name" = b_items (ps_feed s).
Proof. exact restart_partial. Qed.
Print Assumptions C27_restart_partial.
Example C27_nontrivial : exists s0 prefs, sp_enter sx_eps sx_cfg (sp_new sx_cfg) = Ok (s0, prefs) /\
  b_qty (ps_feed sx_state) == 14 /\ b_qty (ps_left sx_state) == 5.
Proof. do 2 eexists. split; [vm_compute; reflexivity|]. vm_compute. auto. Qed.
(** ... but the feed and the leftover are also duplicated into two additional
    streams, which never empty, so a restored facility that should be
    decommissioned is not. *)
Theorem C27_restart_refuted : exists eps cfg s s0 prefs s1, sp_enter eps cfg (sp_new cfg) = Ok (s0, prefs) /\
  mats_ok (parcels s) /\ sp_init_inv eps (sp_snapshot s) s0 = Ok s1 /\
  qty_of (parcels s) == 14 /\ qty_of (parcels s1) == 28 /\
  sp_check_decom s = true /\ sp_check_decom s1 = false.
Proof.
  exists sx_eps, sx_cfg, {| ps_feed := ps_feed sx_state; ps_left := {| b_cap := Some 50; b_items := [] |};
     ps_streams := ps_streams sx_state |}. do 3 eexists.
  split; [vm_compute; reflexivity|]. split; [apply mats_okb_sound; reflexivity|].
  split; [vm_compute; reflexivity|]. vm_compute. auto.
Qed.
Print Assumptions C27_restart_refuted.

(** ** C28: trades within what is held are filled exactly, each from the
    inventory of its commodity. *)
Theorem C28_trades : forall eps cfg trades s, 0 <= eps ->
  Forall (fun t => 0 < snd t) trades -> mats_ok (parcels s) ->
  (forall t, In t trades -> fst t = pc_leftover_commod cfg \/ In (fst t) (map fst (ps_streams s))) ->
  (forall c, sold c trades <= qty_of (stock cfg s c)) ->
  exists s' ms, sp_trades eps cfg trades s = Ok (s', ms) /\
    Forall2 (fun t m => m_qty m == snd t) trades ms /\ mats_ok ms /\
    ps_feed s' = ps_feed s /\
    (forall c, qty_of (stock cfg s' c) == qty_of (stock cfg s c) - sold c trades) /\
    (forall c n, mass_in n (stock cfg s' c) + mass_in n (shipped_on c trades ms) == mass_in n (stock cfg s c)).
Proof. exact (fun eps cfg trades s He => trades_ok eps cfg trades He s []). Qed.
Print Assumptions C28_trades.
Definition sx_stocked : sp_state :=
  {| ps_feed := ps_feed sx_state; ps_left := ps_left sx_state;
     ps_streams := [("pu"%string, {| b_cap := Some 2; b_items := [Mat 7 1 [(942390000%Z, 1)]; Mat 8 1 [(942410000%Z, 1)]] |})] |}.
Definition sx_trades : list (string * Q) := [("pu", 3 # 2); ("waste", 2); ("pu", 1 # 2)]%string.
Example C28_nontrivial : Forall (fun t => 0 < snd t) sx_trades /\ mats_ok (parcels sx_stocked) /\
  (forall t, In t sx_trades -> fst t = pc_leftover_commod sx_cfg \/ In (fst t) (map fst (ps_streams sx_stocked))) /\
  forall c, sold c sx_trades <= qty_of (stock sx_cfg sx_stocked c).
Proof.
  split; [repeat constructor|]. split; [apply mats_okb_sound; reflexivity|]. split.
  - intros t [<-|[<-|[<-|[]]]]; simpl; auto.
  - intro c. unfold sold, sx_trades, stock. cbn [filter fst].
    rewrite (String.eqb_sym "pu" c), (String.eqb_sym "waste" c).
    destruct (String.eqb_spec c "pu") as [->|N]; [vm_compute; discriminate|].
    destruct (String.eqb_spec c "waste") as [->|N2]; [vm_compute; discriminate|].
    change (pc_leftover_commod sx_cfg) with "waste"%string. rewrite (proj2 (String.eqb_neq _ _) N2).
    unfold stream_items, stream_buf, bm_get, bm_find. cbn [ps_streams sx_stocked].
    rewrite (String.eqb_sym "pu" c), (proj2 (String.eqb_neq _ _) N). discriminate.
Qed.

(** ** C29: feed is requested exactly when there is space and the feed does not
    already cover the remaining lifetime; the request is for the whole space, on
    every feed commodity with its preference. *)
Theorem C29_requests : forall eps recipe cfg prefs t s,
  pc_feed_commods cfg <> [] -> List.length prefs = List.length (pc_feed_commods cfg) ->
  (pc_feed_recipe cfg = ""%string \/ exists c, recipe (pc_feed_recipe cfg) = Some c) ->
  exists dname rq, sp_requests eps recipe cfg prefs t s =
     Ok ((("demand" ++ dname)%string, Qmax 0 (pc_feed_size cfg - b_qty (ps_feed s))), rq) /\
   In dname (pc_feed_commods cfg) /\
   ((0 <= pc_exit cfg)%Z /\ inject_Z (pc_exit cfg - t) * pc_throughput cfg <= b_qty (ps_feed s) \/
    Qmax 0 (pc_feed_size cfg - b_qty (ps_feed s)) < eps -> rq = None) /\
   (~ ((0 <= pc_exit cfg)%Z /\ inject_Z (pc_exit cfg - t) * pc_throughput cfg <= b_qty (ps_feed s)) /\
    eps <= Qmax 0 (pc_feed_size cfg - b_qty (ps_feed s)) ->
    exists r, rq = Some r /\ rq_qty r = Qmax 0 (pc_feed_size cfg - b_qty (ps_feed s)) /\
      rq_items r = combine (pc_feed_commods cfg) prefs /\
      rq_comp r = (if String.eqb (pc_feed_recipe cfg) "" then None else recipe (pc_feed_recipe cfg))).
Proof. exact requests_ok. Qed.
Print Assumptions C29_requests.
Example C29_nontrivial :
  (exists d r, sp_requests sx_eps (fun _ => None) sx_cfg [1; 2] 3 sx_state = Ok (d, Some r) /\
     rq_qty r == 86 /\ map fst (rq_items r) = ["spent"; "old"]%string /\ fst d = "demandold"%string) /\
  (exists d, sp_requests sx_eps (fun _ => None) sx_cfg [1; 2] 19 sx_state = Ok (d, None)).
Proof. split; repeat (eexists; try reflexivity). Qed.
(** Preferences left out at start-up are one for every feed commodity. *)
Theorem C29_default_preferences : forall eps cfg s s0 prefs, sp_enter eps cfg s = Ok (s0, prefs) ->
  (pc_feed_prefs cfg = [] -> prefs = repeat 1 (List.length (pc_feed_commods cfg))) /\
  (pc_feed_prefs cfg <> [] -> prefs = pc_feed_prefs cfg).
Proof. exact enter_prefs. Qed.
Print Assumptions C29_default_preferences.
Example C29_default_nontrivial : exists s0, sp_enter 0 sx_noprefs (sp_new sx_noprefs) = Ok (s0, [1; 1]).
Proof. eexists. vm_compute. reflexivity. Qed.
(** A preference list of another length is not rejected at start-up and makes
    the request read outside the list. *)
Theorem C29_length_mismatch_refuted : exists eps cfg s0 prefs, sp_enter eps cfg (sp_new cfg) = Ok (s0, prefs) /\
  sp_requests eps (fun _ => None) cfg prefs 0 s0 = UB OutOfBounds.
Proof.
  exists 0, {| pc_feed_commods := ["a"; "b"]%string; pc_feed_prefs := [1]; pc_feed_recipe := "";
     pc_feed_size := 100; pc_throughput := 10; pc_leftover_commod := "waste"; pc_leftover_size := 50;
     pc_streams := []; pc_exit := -1 |}.
  do 2 eexists. split; vm_compute; reflexivity.
Qed.
Print Assumptions C29_length_mismatch_refuted.

(** ** C63: the recorded separated amounts are what the streams gained, the supply series
    what the buffers hold.  Missing: the amount recorded as being separated is
    what was taken from the feed, including what is put back. *)
Theorem C63_records_partial : forall eps cfg s s' lg,
  0 <= eps -> 0 <= pc_throughput cfg -> NoDup (map st_name (pc_streams cfg)) -> efficiencies_sane cfg ->
  mats_ok (b_items (ps_feed s)) -> sp_tick eps cfg s = Ok (s', Some lg) ->
  lg_processed lg == Qmin (pc_throughput cfg) (b_qty (ps_feed s)) /\
  (forall st, In st (pc_streams cfg) ->
    qsum (map snd (filter (fun e => String.eqb (fst e) (st_name st)) (lg_separated lg))) ==
    b_qty (stream_buf s' (st_name st)) - b_qty (stream_buf s (st_name st))) /\
  lg_supply lg = map (fun st => (st_name st, b_qty (stream_buf s' (st_name st)))) (pc_streams cfg) ++
                 [(pc_leftover_commod cfg, b_qty (ps_left s'))].
Proof. exact tick_records. Qed.
Print Assumptions C63_records_partial.
Example C63_nontrivial : exists s' lg, sp_tick sx_eps sx_cfg sx_state = Ok (s', Some lg) /\
  map fst (lg_separated lg) = ["pu"; "u"]%string /\ Forall2 Qeq (map snd (lg_separated lg)) [27 # 100; 945 # 100].
Proof. do 2 eexists. split; [vm_compute; reflexivity|]. split; [reflexivity|]. vm_compute. repeat constructor. Qed.
Theorem C63_processed_refuted : exists eps cfg s s' lg, efficiencies_sane cfg /\ mats_ok (parcels s) /\
  sp_tick eps cfg s = Ok (s', Some lg) /\ lg_processed lg == 10 /\
  b_qty (ps_feed s) - b_qty (ps_feed s') < 4.
Proof.
  exists sx_eps, sx_tight, (sx_state_of (1 # 10)). do 2 eexists. split; [apply sx_sane|].
  split; [apply mats_okb_sound; reflexivity|]. split; [vm_compute; reflexivity|]. vm_compute. auto.
Qed.
Print Assumptions C63_processed_refuted.

(** ** C64: offers.  Each commodity with requests and a stock above the
    tolerance is bid on; every portfolio offers only parcels of the inventory of
    its commodity, in order until the request is covered, and is limited by the
    inventory's quantity. *)
Theorem C64_offers : forall eps cfg s reqs, NoDup (map fst (ps_streams s)) ->
  (forall p, In p (sp_bids eps cfg s reqs) ->
   exists b, (bd_commod p = pc_leftover_commod cfg /\ b = ps_left s \/
             In (bd_commod p) (map fst (ps_streams s)) /\ b = stream_buf s (bd_commod p)) /\
   bd_cap p = b_qty b /\ eps <= b_qty b /\
   (forall j m, In (j, m) (bd_bids p) -> (j < List.length (reqs (bd_commod p)))%nat) /\
   (forall j target, nth_error (reqs (bd_commod p)) j = Some target ->
     offers_for eps target (b_items b) (map snd (filter (fun x => Nat.eqb (fst x) j) (bd_bids p))))) /\
  (forall c, reqs c <> [] -> eps <= qty_of (stock cfg s c) ->
   c = pc_leftover_commod cfg \/ In c (map fst (ps_streams s)) ->
   exists p, In p (sp_bids eps cfg s reqs) /\ bd_commod p = c).
Proof. exact offers_found. Qed.
Print Assumptions C64_offers.
Example C64_nontrivial :
  let reqs := fun c => if String.eqb c "pu" then [1 # 2; 3 # 2] else [] in
  NoDup (map fst (ps_streams sx_stocked)) /\
  map (fun p => (bd_commod p, map (fun b => (fst b, m_id (snd b))) (bd_bids p))) (sp_bids sx_eps sx_cfg sx_stocked reqs) =
  [("pu"%string, [(0%nat, 7%Z); (1%nat, 7%Z); (1%nat, 8%Z)])].
Proof. cbv zeta. split; [repeat constructor; simpl; intuition|vm_compute; reflexivity]. Qed.

(** ** C65: a stream buffer without space for a positive share pauses the
    facility: no quantity changes in that tick. *)
Theorem C65_full_stream_pauses : forall eps cfg s s' lg m feed1 st,
  0 <= eps -> 0 <= pc_throughput cfg -> NoDup (map st_name (pc_streams cfg)) -> efficiencies_sane cfg ->
  mats_ok (b_items (ps_feed s)) -> b_items (ps_feed s) <> [] ->
  b_pop_tol (ps_feed s) (Qmin (pc_throughput cfg) (b_qty (ps_feed s))) eps = Ok (m, feed1) ->
  In st (pc_streams cfg) -> b_space (stream_buf s (st_name st)) = Some 0 -> 0 < share (st_effs st) m ->
  sp_tick eps cfg s = Ok (s', lg) ->
  b_qty (ps_feed s') == b_qty (ps_feed s) /\ b_qty (ps_left s') == b_qty (ps_left s) /\
  forall name, b_qty (stream_buf s' name) == b_qty (stream_buf s name).
Proof. exact full_stream_pauses. Qed.
Print Assumptions C65_full_stream_pauses.
Example C65_nontrivial : exists st s' lg, In st (pc_streams sx_full) /\
  b_space (stream_buf (sx_state_of 0) (st_name st)) = Some 0 /\ 0 < share (st_effs st) (fst sx_pop) /\
  sp_tick sx_eps sx_full (sx_state_of 0) = Ok (s', lg).
Proof.
  do 3 eexists. split; [left; reflexivity|]. split; [reflexivity|]. split; [reflexivity|]. vm_compute. reflexivity.
Qed.

(** ** C72: the end of life.  The facility reports that it can be
    decommissioned exactly when neither product nor leftover is waiting... *)
Theorem C72_decommission_partial : forall s, sp_check_decom s = true <->
  b_items (ps_left s) = [] /\ forall name b, In (name, b) (ps_streams s) -> b_items b = [].
Proof. exact check_decom_spec. Qed.
Print Assumptions C72_decommission_partial.
(** ... but unprocessed feed does not hold it back: fourteen units just received
    are in the feed store when it reports to be ready. *)
Theorem C72_decommission_refuted : exists eps cfg es s0 prefs s os, Forall env_sane es /\
  sp_enter eps cfg (sp_new cfg) = Ok (s0, prefs) /\ sp_run eps (fun _ => None) cfg prefs s0 es = Ok (s, os) /\
  sp_check_decom s = true /\ b_qty (ps_feed s) == 14.
Proof.
  exists 0, sx_cfg, (firstn 1 sx_es). do 4 eexists.
  split; [|split; [vm_compute; reflexivity|split; [vm_compute; reflexivity|split; [vm_compute; reflexivity|reflexivity]]]].
  repeat constructor; cbn; try lra; try discriminate.
Qed.
Print Assumptions C72_decommission_refuted.
(** The check does hold it back while a product is waiting. *)
Example C72_nontrivial : sp_check_decom sx_state = false.
Proof. reflexivity. Qed.
