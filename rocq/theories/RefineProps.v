(** C124: the exact models and the double-precision models of the same code do the same, as long as all amounts are multiples
    of a power of two and none exceeds 2 ^ 53 such units. *)
From Coq Require Import ZArith Reals QArith Qreals List Lia Lra.
From Flocq Require Import Core.Core IEEE754.BinarySingleNaN.
From Verif Require Import Outcome KernelMaterial KernelResBuf KernelBuf DoubleModel SourceDoubleModel SinkDoubleModel StorageDoubleModel ConversionDoubleModel
  RefineSpec RefineProofs RefineFacilities.
From Verif Require ConversionModel SourceModel SinkModel StorageModel.
Import ListNotations.
Local Open Scope R_scope.

Section CONVERSION.
Import ConversionModel.
(** The whole life of a Conversion facility: with doubles it fails exactly when it does with exact amounts, with the same error;
    otherwise both buffers, every limit of bids and every request have the same value. *)
Theorem C124_conversion e eps eps_d cfg thr_d cap_d es eds : (-1074 <= e <= 900)%Z ->
  stands_for eps_d eps -> stands_for thr_d (vc_throughput cfg) -> multiple_of e (vc_throughput cfg) ->
  stands_for cap_d (vc_capacity cfg) -> plain_amount e (vc_capacity cfg) ->
  Forall2 (conversion_step_like e) es eds -> Q2R (conversion_received es) <= bpow radix2 (e + 53) ->
  agree (fun r x => conversion_like e (fst r) (fst x) /\ Forall2 conversion_out_like (snd r) (snd x))
    (cv_run eps cfg cv_empty es) (conv_life_d eps_d thr_d cap_d conv_empty_d eds).
Proof. exact (conversion_refines e eps eps_d cfg thr_d cap_d es eds). Qed.
Print Assumptions C124_conversion.

(** Deliveries of 30 and 50, and a sale of 10, in three time steps. *)
Example C124_conversion_case : let u := [(92%Z, 1%Q)] in let cfg := {| vc_incommods := ["in"%string]; vc_outcommod := "out"; vc_throughput := inject_Z 20; vc_capacity := inject_Z 100 |} in
  let es := [{| ve_reqs := []; ve_sales := []; ve_receipts := [Mat 1 (inject_Z 30) u; Mat 2 (inject_Z 50) u] |}; {| ve_reqs := [inject_Z 10]; ve_sales := [inject_Z 10]; ve_receipts := [] |};
    {| ve_reqs := []; ve_sales := []; ve_receipts := [] |}] in
  let eds := [{| ce_sales := []; ce_receipts := [of_int 30; of_int 50] |}; {| ce_sales := [of_int 10]; ce_receipts := [] |}; {| ce_sales := []; ce_receipts := [] |}] in
  (Forall2 (conversion_step_like 0) es eds /\ plain_amount 0 (vc_capacity cfg) /\ Q2R (conversion_received es) <= bpow radix2 (0 + 53)) /\
  match cv_run 0 cfg cv_empty es with Ok (s, _) => (qty_of (vs_input s) == inject_Z 40)%Q /\ (qty_of (vs_output s) == inject_Z 30)%Q | _ => False end /\
  match conv_life_d (of_int 0) (of_int 20) (of_int 100) conv_empty_d eds with Ok (d, _) => Beqb (cd_in d) (of_int 40) && Beqb (cd_out d) (of_int 30) | _ => false end = true.
Proof.
  cbv zeta. split; [|split; [vm_compute; split; reflexivity|vm_compute; reflexivity]]. split; [|split].
  - repeat (apply Forall2_cons; [split; [|split]; cbn [ve_sales ve_receipts ce_sales ce_receipts map m_qty]; repeat first [apply Forall2_nil|apply Forall_nil|apply Forall2_cons; [apply la_int; lia|]
      |apply Forall_cons; [split; [cbn; discriminate|split; [repeat constructor; cbn; discriminate|left; reflexivity]]|]]|]). apply Forall2_nil.
  - apply pa_int. lia.
  - change (conversion_received _) with (inject_Z 30 + (inject_Z 50 + 0))%Q. rewrite !Q2R_plus, !q2r_int, zero_val. change (bpow radix2 (0 + 53)) with (IZR (2 ^ 53)). lra.
Qed.

(** The limit is needed: after receiving 2 ^ 53 and then 1, the double-precision facility has lost the last unit. *)
Theorem C124_limit_refuted : exists eps eps_d cfg thr_d cap_d es eds,
  stands_for eps_d eps /\ stands_for thr_d (vc_throughput cfg) /\ multiple_of 0 (vc_throughput cfg) /\
  stands_for cap_d (vc_capacity cfg) /\ plain_amount 0 (vc_capacity cfg) /\ Forall2 (conversion_step_like 0) es eds /\
  Q2R (conversion_received es) = bpow radix2 (0 + 53) + 1 /\
  ~ agree (fun r x => conversion_like 0 (fst r) (fst x)) (cv_run eps cfg cv_empty es) (conv_life_d eps_d thr_d cap_d conv_empty_d eds).
Proof.
  pose (n := (2 ^ 53 - 1)%Z). pose (h := (2 ^ 52)%Z). pose (u := [(92%Z, 1%Q)]).
  exists 0%Q, (of_int 0), {| vc_incommods := ["in"%string]; vc_outcommod := "out"; vc_throughput := inject_Z n; vc_capacity := inject_Z n |}, (of_int n), (of_int n),
    (map (fun k => {| ve_reqs := []; ve_sales := []; ve_receipts := [Mat 1 (inject_Z k) u] |}) [h; h; 1%Z; 0%Z]), (map (fun k => {| ce_sales := []; ce_receipts := [of_int k] |}) [h; h; 1%Z; 0%Z]).
  assert (A : (Z.abs n < 2 ^ 53)%Z) by (unfold n; lia). cbn [vc_throughput vc_capacity].
  split; [exact sf_zero|]. split; [apply sf_int, A|]. split; [apply mo_int|]. split; [apply sf_int, A|]. split; [apply pa_int; unfold n; lia|]. split; [|split].
  - cbn [map]. repeat (apply Forall2_cons; [split; [apply Forall2_nil|split; [|apply Forall2_cons; [apply la_int; unfold h; lia|apply Forall2_nil]]];
      apply Forall_cons; [split; [cbn; discriminate|split; [repeat constructor; cbn; discriminate|left; reflexivity]]|apply Forall_nil]|]). apply Forall2_nil.
  - change (conversion_received _) with (inject_Z h + (inject_Z h + (inject_Z 1 + (inject_Z 0 + 0))))%Q. rewrite !Q2R_plus, !q2r_int, zero_val. change (bpow radix2 (0 + 53)) with (IZR (2 ^ 53)). unfold h. lra.
  - intro G. match type of G with agree _ ?x ?y =>
      assert (X : match x with Ok (s, _) => Qeq_bool (qty_of (vs_output s)) (inject_Z (2 ^ 53 + 1)) | _ => false end = true) by (vm_compute; reflexivity);
      assert (Y : match y with Ok (d, _) => Beqb (cd_out d) (dplus (of_int h) (of_int h)) | _ => false end = true) by (vm_compute; reflexivity);
      destruct x as [[s os]|? | |], y as [[d ds]|? | |]; try discriminate end.
    cbn [agree fst] in G. destruct G as (_ & V & _). apply Qeq_bool_iff in X.
    assert (B : (Z.abs h < 2 ^ 53)%Z) by (unfold h; lia). assert (D : Rabs (Q2R (inject_Z h) + Q2R (inject_Z h)) <= bpow radix2 (0 + 53)).
    { rewrite q2r_int. change (bpow radix2 (0 + 53)) with (IZR (2 ^ 53)). rewrite Rabs_pos_eq; unfold h; lra. }
    rewrite (sf_eqb _ _ _ _ V (sf_plus 0 _ _ _ _ ltac:(lia) (sf_int h B) (sf_int h B) (mo_int h) (mo_int h) D)), X in Y. vm_compute in Y. discriminate Y.
Qed.
Print Assumptions C124_limit_refuted.
End CONVERSION.

Section SOURCE.
Import SourceModel.
(** The whole life of a Source that does not package and whose transport is not limited: the supply recorded in every step and
    the inventory have the same value, or both fail with the same error. *)
Theorem C124_source e eps eg recipe cfg thr_d es steps s stock : (-1074 <= e <= 900)%Z -> (0 <= eg)%Q ->
  (sc_recipe cfg = ""%string \/ recipe (sc_recipe cfg) <> None) -> stands_for thr_d (sc_throughput cfg) ->
  Forall2 (source_step_like e) es steps -> source_like e s stock ->
  agree (fun r x => source_like e (fst r) (snd x) /\ Forall2 (fun o y => stands_for y (so_supply o)) (snd r) (fst x))
    (sr_run eps eg recipe cfg s es) (source_life_d thr_d steps stock).
Proof. exact (fun E He Hr St F R => sr_run_agree e E eps eg recipe cfg thr_d He Hr St es steps s stock F R). Qed.
Print Assumptions C124_source.

(** An inventory of 100, sales of 30 and 20, then of 60 that fails. *)
Example C124_source_case : let env amts := {| se_fill_bids := fun _ q => [q]; se_fill := fun _ q => [q]; se_ship := fun n => n; se_reqs := []; se_trades := map (fun k => (inject_Z k, Mat 0 0 [])) amts |} in
  let s := {| ss_inv := {| b_cap := None; b_items := [Mat 0 (inject_Z 100) [(92%Z, 1%Q)]] |} |} in
  let cfg := {| sc_commod := "u"; sc_recipe := ""; sc_inv_size := inject_Z 100; sc_throughput := inject_Z 50 |} in
  Forall2 (source_step_like 0) [env [30; 20]%Z; env [60]%Z] [[of_int 30; of_int 20]; [of_int 60]] /\ source_like 0 s (of_int 100) /\
  sr_run 0 0 (fun _ => None) cfg s [env [30; 20]%Z; env [60]%Z] = Throw ValueError /\
  (match sr_run 0 0 (fun _ => None) cfg s [env [30; 20]%Z] with Ok (s', _) => (b_qty (ss_inv s') == inject_Z 50)%Q | _ => False end) /\
  source_life_d (of_int 50) [[of_int 30; of_int 20]; [of_int 60]] (of_int 100) = Throw ValueError.
Proof.
  cbv zeta. split; [|split; [|split; [vm_compute; reflexivity|split; vm_compute; reflexivity]]].
  - repeat (apply Forall2_cons; [split; [reflexivity|split; [cbn; lia|cbn [se_trades map fst]; repeat (apply Forall2_cons; [apply la_int; lia|]); apply Forall2_nil]]|]). apply Forall2_nil.
  - unfold source_like. change (b_qty _) with (inject_Z 100 + 0)%Q. assert (H : (inject_Z 100 == inject_Z 100 + 0)%Q) by reflexivity. split; [|split].
    + apply (sf_eq _ _ _ (sf_int 100 ltac:(lia)) H).
    + destruct (pa_int 100 ltac:(lia)) as [M B]. split; [exact (mo_eq _ _ _ M H)|rewrite <- (Qeq_eqR _ _ H); exact B].
    + cbn [ss_inv b_items]. repeat constructor; cbn; try discriminate.
Qed.
End SOURCE.

Section SINK.
Import SinkModel.
(** The whole life of a Sink that buys in every time step and requests all that it has room for. *)
Theorem C124_sink e eps eps_d eg eg_d recipe cfg cap_d size_d es eds t s q_d : (-1074 <= e <= 900)%Z ->
  stands_for eps_d eps -> stands_for eg_d eg -> stands_for cap_d (kc_capacity cfg) -> stands_for size_d (kc_max_inv cfg) -> plain_amount e (kc_max_inv cfg) ->
  kc_size_type cfg = "None"%string -> kc_commods cfg <> [] -> (kc_recipe cfg = ""%string \/ recipe (kc_recipe cfg) <> None) ->
  Forall2 (sink_step_like e) es eds -> sink_ready cfg s -> sink_like e s q_d -> Q2R (rsrcs_qty (ks_inv s)) + Q2R (sink_received es) <= bpow radix2 (e + 53) ->
  agree (fun r x => sink_like e (fst r) (fst x) /\ Forall2 sink_out_like (snd r) (snd x))
    (sk_run eps eg recipe cfg t s es) (sink_life_d eps_d eg_d cap_d size_d q_d eds).
Proof.
  exact (fun E Se Sg Sc Ss Ps Ht Hc Hr F Rd R T => sk_run_agree e E eps eps_d eg eg_d recipe cfg cap_d size_d Se Sg Sc Ss Ps Ht Hc Hr es eds t s q_d F Rd R T).
Qed.
Print Assumptions C124_sink.

(** A sink for 100 in all, 60 a time step, that has received 70 of material and 10 of a product; then it asks for 20. *)
Example C124_sink_case : let cfg := {| kc_commods := ["w"%string]; kc_prefs := []; kc_recipe := ""; kc_max_inv := inject_Z 100; kc_capacity := inject_Z 60; kc_size_type := "None"; kc_size_mean := 0;
    kc_size_stddev := 0; kc_freq_type := "None"; kc_freq_mean := 0; kc_freq_stddev := 0; kc_freq_min := 0; kc_freq_max := 0 |} in
  let g := {| g_uniform_real := fun _ _ => 0%Q; g_normal_real := fun _ _ _ _ => 0%Q; g_uniform_int := fun _ _ => 0%Z; g_normal_int := fun _ _ _ _ => 0%Z |} in
  let env ms ps := {| ke_rng := g; ke_rng2 := g; ke_mats := map (fun k => Mat 0 (inject_Z k) [(92%Z, 1%Q)]) ms; ke_prods := map inject_Z ps |} in
  let envd ms ps := {| sd_buys := true; sd_draw := None; sd_mats := map of_int ms; sd_prods := map of_int ps |} in
  let es := [env [50] []; env [20] [10]; env [] []]%Z in let eds := [envd [50] []; envd [20] [10]; envd [] []]%Z in
  match sk_enter cfg g 0 (sk_new cfg) with
  | Ok s => sink_ready cfg s /\ sink_like 0 s (of_int 0) /\ Forall2 (sink_step_like 0) es eds /\ Q2R (rsrcs_qty (ks_inv s)) + Q2R (sink_received es) <= bpow radix2 (0 + 53) /\
      match sk_run 0 0 (fun _ => None) cfg 0 s es with Ok (_, [o1; o2; o3]) => option_map mq_qty (ko_mat o1) = Some (inject_Z 60) /\ option_map mq_qty (ko_mat o3) = Some (inject_Z 20) | _ => False end
  | _ => False
  end /\
  match sink_life_d (of_int 0) (of_int 0) (of_int 60) (of_int 100) (of_int 0) eds with
  | Ok (_, [o1; o2; o3]) => match so_request o1, so_request o3 with Some a, Some b => Beqb a (of_int 60) && Beqb b (of_int 20) | _, _ => false end | _ => false end = true.
Proof.
  cbv zeta. split; [|vm_compute; reflexivity]. cbn [sk_enter sk_new ks_prefs kc_prefs bind kc_commods map]. split; [split; reflexivity|]. split; [|split; [|split; [|vm_compute; split; reflexivity]]].
  - split; [apply sf_zero|]. apply (pa_int 0). lia.
  - repeat (apply Forall2_cons; [unfold sink_step_like; cbn [sd_buys sd_draw sd_mats sd_prods ke_mats ke_prods map m_qty]; split; [reflexivity|]; split; [reflexivity|];
      split; [repeat (apply Forall2_cons; [apply la_int; lia|]); apply Forall2_nil|]; split; [repeat (apply Forall2_cons; [apply la_int; lia|]); apply Forall2_nil|];
      split; repeat (apply Forall_cons; [cbn; discriminate|]); apply Forall_nil|]). apply Forall2_nil.
  - match goal with |- Q2R ?q + _ <= _ => change q with 0%Q end. change (sink_received _) with (inject_Z 50 + (inject_Z 20 + (inject_Z 10 + 0)))%Q. rewrite !Q2R_plus, !q2r_int, zero_val.
    change (bpow radix2 (0 + 53)) with (IZR (2 ^ 53)). lra.
Qed.
End SINK.

Section STORAGE.
Import StorageModel.
(** The parcels that a Storage with discrete handling releases in a time step, and those that wait, are the same in both. *)
Theorem C124_storage e eps cfg cap cap_d s ready_q ready_d : (-1074 <= e <= 900)%Z -> sc_discrete cfg = true -> stands_for cap_d cap -> stands_for ready_q (qty_of (ss_ready s)) ->
  Forall2 (like_amount e) (map m_qty (ss_ready s)) ready_d -> Forall mat_ok (ss_ready s) -> Q2R (qty_of (ss_ready s)) <= bpow radix2 (e + 53) ->
  exists s' moved, process_mat eps cfg cap s = Ok (s', moved) /\
  Forall2 (like_amount e) (map m_qty moved) (fst (release_d cap_d ready_q ready_d)) /\
  Forall2 (like_amount e) (map m_qty (ss_ready s')) (snd (release_d cap_d ready_q ready_d)).
Proof. exact (fun E D Sc Sr F O T => release_agree e E eps cfg cap cap_d s ready_q ready_d D Sc Sr F O T). Qed.
Print Assumptions C124_storage.

(** Parcels of 10, 20 and 30 are ready; with a throughput of 30 the first two go. *)
Example C124_storage_case : let ms := map (fun k => Mat 0 (inject_Z k) [(92%Z, 1%Q)]) [10; 20; 30]%Z in let ds := map of_int [10; 20; 30]%Z in
  let s := {| ss_inventory := []; ss_processing := []; ss_entry_times := []; ss_ready := ms; ss_stocks := [] |} in
  let cfg := {| sc_in_commods := ["a"%string]; sc_in_prefs := []; sc_out_commods := ["b"%string]; sc_in_recipe := ""; sc_residence := 0; sc_throughput := inject_Z 30; sc_max_inv := inject_Z 100;
    sc_discrete := true; sc_package := ""; sc_transport_unit := ""; sc_reorder_point := 0; sc_reorder_quantity := 0; sc_cumulative_cap := 0 |} in
  (stands_for (of_int 60) (qty_of (ss_ready s)) /\ Forall2 (like_amount 0) (map m_qty (ss_ready s)) ds /\ Forall mat_ok (ss_ready s) /\ Q2R (qty_of (ss_ready s)) <= bpow radix2 (0 + 53)) /\
  match process_mat 0 cfg (inject_Z 30) s with Ok (s', moved) => moved = firstn 2 ms /\ ss_ready s' = skipn 2 ms | _ => False end /\
  (List.length (fst (release_d (of_int 30) (of_int 60) ds)), List.length (snd (release_d (of_int 30) (of_int 60) ds))) = (2, 1)%nat.
Proof.
  cbv zeta. split; [|split; [vm_compute; split; reflexivity|vm_compute; reflexivity]]. cbn [ss_ready map].
  assert (H : (inject_Z 60 == qty_of [Mat 0 (inject_Z 10) [(92%Z, 1%Q)]; Mat 0 (inject_Z 20) [(92%Z, 1%Q)]; Mat 0 (inject_Z 30) [(92%Z, 1%Q)]])%Q) by (vm_compute; reflexivity). split; [|split; [|split]].
  - apply (sf_eq _ _ _ (sf_int 60 ltac:(lia)) H).
  - cbn [m_qty]. repeat (apply Forall2_cons; [apply la_int; lia|]). apply Forall2_nil.
  - repeat (apply Forall_cons; [split; [cbn; discriminate|split; [repeat constructor; cbn; discriminate|left; reflexivity]]|]). apply Forall_nil.
  - rewrite <- (Qeq_eqR _ _ H), q2r_int. change (bpow radix2 (0 + 53)) with (IZR (2 ^ 53)). apply IZR_le. lia.
Qed.
End STORAGE.
