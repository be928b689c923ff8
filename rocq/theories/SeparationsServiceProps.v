(** Properties C101 and C102 of the separations facility: sizes of the feed and
    leftover stores, and operation with room for the products.  Statements use
    SeparationsSpec.v. *)
From Coq Require Import Lqa.
From Verif Require Import Outcome KernelMaterial KernelResBuf KernelBuf KernelFacts KernelMass KernelBufFacts
  SeparationsModel SeparationsSpec SeparationsProofs SeparationsGlue SeparationsRun SeparationsProps SeparationsSizes SeparationsTolerance.
Local Open Scope Q_scope.

(** ** C101: over every history the feed store stays within its size when
    deliveries stay within the orders, and the leftover store exceeds its size by
    at most the resource tolerance per step. *)
Theorem C101_store_sizes : forall eps recipe cfg es s0 prefs s' os, NoDup (map st_name (pc_streams cfg)) ->
  0 <= eps -> 0 <= pc_throughput cfg -> 0 <= pc_feed_size cfg -> 0 <= pc_leftover_size cfg -> Forall env_sane es ->
  sp_enter eps cfg (sp_new cfg) = Ok (s0, prefs) -> sp_run eps recipe cfg prefs s0 es = Ok (s', os) ->
  b_qty (ps_left s') <= pc_leftover_size cfg + inject_Z (zlen es) * eps /\
  (Forall2 feed_within es os -> b_qty (ps_feed s') <= pc_feed_size cfg).
Proof. exact history_store_sizes. Qed.
Print Assumptions C101_store_sizes.
Example C101_nontrivial : exists s0 prefs s' os, sp_enter sx_eps sx_cfg (sp_new sx_cfg) = Ok (s0, prefs) /\
  sp_run sx_eps (fun _ => None) sx_cfg prefs s0 (firstn 2 sx_es) = Ok (s', os) /\
  Forall2 feed_within (firstn 2 sx_es) os /\ b_qty (ps_feed s') == 8 /\ 0 < b_qty (ps_left s').
Proof.
  do 4 eexists. split; [vm_compute; reflexivity|]. split; [vm_compute; reflexivity|].
  split; [|vm_compute; auto]. repeat constructor; vm_compute; discriminate.
Qed.

(** ** C102: with room for the products a step never fails, processes the full
    throughput, ships exactly what is traded and takes in what is delivered.
    Here with exact arithmetic (tolerance zero); with a tolerance see
    C102_keeps_working_tolerance_partial. *)
Theorem C102_keeps_working_partial : forall recipe cfg es e s0 prefs s os, NoDup (map st_name (pc_streams cfg)) ->
  0 < pc_throughput cfg -> 0 <= pc_feed_size cfg -> efficiencies_sane cfg -> pc_feed_commods cfg <> [] ->
  (pc_feed_prefs cfg = [] \/ List.length (pc_feed_prefs cfg) = List.length (pc_feed_commods cfg)) ->
  (pc_feed_recipe cfg = ""%string \/ exists c, recipe (pc_feed_recipe cfg) = Some c) ->
  Forall env_sane es -> sp_enter 0 cfg (sp_new cfg) = Ok (s0, prefs) ->
  sp_run 0 recipe cfg prefs s0 es = Ok (s, os) -> room cfg s ->
  exists s1 lg, sp_tick 0 cfg s = Ok (s1, lg) /\
    b_qty (ps_feed s1) == b_qty (ps_feed s) - Qmin (pc_throughput cfg) (b_qty (ps_feed s)) /\
    (Forall (fun t => 0 < snd t) (pe_trades e) -> (forall c, sold c (pe_trades e) <= qty_of (stock cfg s1 c)) ->
     Forall mat_ok (pe_receipts e) -> qty_of (pe_receipts e) <= pc_feed_size cfg - b_qty (ps_feed s1) ->
     exists s' o, sp_step 0 recipe cfg prefs s e = Ok (s', o) /\ po_ticked o = s1 /\
       Forall2 (fun t m => m_qty m == snd t) (pe_trades e) (po_shipped o) /\
       b_items (ps_feed s') = b_items (ps_feed s1) ++ pe_receipts e).
Proof. exact keeps_working. Qed.
Print Assumptions C102_keeps_working_partial.
(** Two steps of the worked case (plutonium store of 12): room for a third. *)
Definition sx_wide : sp_cfg := sx_cfg_of 12.
Example C102_nontrivial : exists s0 prefs s os, sp_enter 0 sx_wide (sp_new sx_wide) = Ok (s0, prefs) /\
  sp_run 0 (fun _ => None) sx_wide prefs s0 (firstn 2 sx_es) = Ok (s, os) /\ room sx_wide s /\ b_qty (ps_feed s) == 8.
Proof.
  do 4 eexists. split; [vm_compute; reflexivity|]. split; [vm_compute; reflexivity|].
  split; [|vm_compute; reflexivity]. split; [vm_compute; discriminate|].
  intros st [<-|[<-|[]]] K; [vm_compute; discriminate|]. exfalso. revert K. vm_compute. auto.
Qed.

(** With a resource tolerance, likewise for every history whose deliveries stay
    within the orders, when the feed consists of sane materials and the batch of
    the next step leaves no traces below the tolerance (C102_keeps_working_refuted
    shows that this is needed).  Missing: batches with such traces. *)
Theorem C102_keeps_working_tolerance_partial : forall eps recipe cfg es e s0 prefs s os, 0 <= eps ->
  NoDup (map st_name (pc_streams cfg)) ->
  0 < pc_throughput cfg -> 0 <= pc_feed_size cfg -> efficiencies_sane cfg -> pc_feed_commods cfg <> [] ->
  (pc_feed_prefs cfg = [] \/ List.length (pc_feed_prefs cfg) = List.length (pc_feed_commods cfg)) ->
  (pc_feed_recipe cfg = ""%string \/ exists c, recipe (pc_feed_recipe cfg) = Some c) ->
  Forall env_sane es -> sp_enter eps cfg (sp_new cfg) = Ok (s0, prefs) ->
  sp_run eps recipe cfg prefs s0 es = Ok (s, os) -> Forall2 feed_within es os ->
  room cfg s -> mats_ok (b_items (ps_feed s)) -> quiet eps cfg s ->
  exists s1 lg, sp_tick eps cfg s = Ok (s1, lg) /\
    b_qty (ps_feed s1) == b_qty (ps_feed s) - Qmin (pc_throughput cfg) (b_qty (ps_feed s)) /\
    (Forall (fun t => 0 < snd t) (pe_trades e) -> (forall c, sold c (pe_trades e) <= qty_of (stock cfg s1 c)) ->
     Forall mat_ok (pe_receipts e) -> qty_of (pe_receipts e) <= pc_feed_size cfg - b_qty (ps_feed s1) ->
     exists s' o, sp_step eps recipe cfg prefs s e = Ok (s', o) /\ po_ticked o = s1 /\
       Forall2 (fun t m => m_qty m == snd t) (pe_trades e) (po_shipped o) /\
       b_items (ps_feed s') = b_items (ps_feed s1) ++ pe_receipts e).
Proof. exact keeps_working_tol. Qed.
Print Assumptions C102_keeps_working_tolerance_partial.
Example C102_tolerance_nontrivial : exists s0 prefs s os, sp_enter sx_eps sx_wide (sp_new sx_wide) = Ok (s0, prefs) /\
  sp_run sx_eps (fun _ => None) sx_wide prefs s0 (firstn 2 sx_es) = Ok (s, os) /\
  Forall2 feed_within (firstn 2 sx_es) os /\ room sx_wide s /\ mats_ok (b_items (ps_feed s)) /\
  quiet sx_eps sx_wide s /\ b_qty (ps_feed s) == 8.
Proof.
  do 4 eexists. split; [vm_compute; reflexivity|]. split; [vm_compute; reflexivity|].
  split; [repeat constructor; vm_compute; discriminate|].
  split.
  { split; [vm_compute; discriminate|].
    intros st [<-|[<-|[]]] K; [vm_compute; discriminate|]. exfalso. revert K. vm_compute. auto. }
  split; [apply mats_okb_sound; reflexivity|]. split; [|vm_compute; reflexivity].
  intros m rest P. vm_compute in P. injection P as <- <-. apply no_traces_check. reflexivity.
Qed.

(** With the tolerance of 1e-6 it is false, although every buffer is ample and
    the efficiencies of each nuclide add to one: two traces of 1.8e-6 are halved
    between the first two streams.  What is left of them after the first stream is
    below the tolerance and is dropped; when the second stream takes it again the
    remaining composition is scaled down, so that the third stream finds less
    plutonium than it is due and the tick aborts. *)
Definition sx_traces : sp_cfg :=
  {| pc_feed_commods := ["spent"]%string; pc_feed_prefs := []; pc_feed_recipe := "";
     pc_feed_size := 1000; pc_throughput := 1000; pc_leftover_commod := "waste"; pc_leftover_size := 2000;
     pc_streams := [ {| st_name := "a"; st_cap := -1; st_effs := [(551340000%Z, 1 # 2); (551370000%Z, 1 # 2)] |};
                     {| st_name := "b"; st_cap := -1; st_effs := [(551340000%Z, 1 # 2); (551370000%Z, 1 # 2); (920000000%Z, 1)] |};
                     {| st_name := "c"; st_cap := -1; st_effs := [(940000000%Z, 1)] |} ];
     pc_exit := -1 |}.
Definition sx_trace_feed : mat :=
  Mat 1 (250000009 # 2500000) [(551340000%Z, 18); (551370000%Z, 18); (922380000%Z, 900000000); (942390000%Z, 100000000)].
Theorem C102_keeps_working_refuted : exists cfg e s0 prefs s os,
  NoDup (map st_name (pc_streams cfg)) /\ 0 < pc_throughput cfg /\ 0 <= pc_feed_size cfg /\ efficiencies_sane cfg /\
  env_sane e /\ sp_enter sx_eps cfg (sp_new cfg) = Ok (s0, prefs) /\
  sp_run sx_eps (fun _ => None) cfg prefs s0 [e] = Ok (s, os) /\ Forall2 feed_within [e] os /\ room cfg s /\
  sp_tick sx_eps cfg s = Throw ValueError.
Proof.
  exists sx_traces, {| pe_time := 0; pe_reqs := fun _ => []; pe_trades := []; pe_receipts := [sx_trace_feed] |}.
  do 4 eexists.
  split; [repeat constructor; simpl; intuition discriminate|]. split; [reflexivity|]. split; [discriminate|].
  split.
  { split.
    - intros st e [<-|[<-|[<-|[]]]] H; simpl in H; repeat destruct H as [<-|H]; try contradiction; discriminate.
    - intro n. unfold efficiency, given. remember (element n) as e eqn:He.
      cbn [map pc_streams sx_traces st_effs find fst snd].
      destruct (Z.eqb_spec 551340000 n), (Z.eqb_spec 551370000 n), (Z.eqb_spec 920000000 n), (Z.eqb_spec 940000000 n),
        (Z.eqb_spec 551340000 e), (Z.eqb_spec 551370000 e), (Z.eqb_spec 920000000 e), (Z.eqb_spec 940000000 e);
        try congruence; try (subst n; vm_compute in He; congruence); vm_compute; discriminate. }
  split; [split; [constructor|apply mats_okb_sound; reflexivity]|].
  split; [vm_compute; reflexivity|]. split; [vm_compute; reflexivity|].
  split; [repeat constructor; vm_compute; discriminate|].
  split; [|vm_compute; reflexivity]. split; [vm_compute; discriminate|].
  intros st [<-|[<-|[<-|[]]]] K; exfalso; revert K; vm_compute; auto.
Qed.
Print Assumptions C102_keeps_working_refuted.
