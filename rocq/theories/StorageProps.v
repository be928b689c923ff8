(** Properties C14-C20, C58, C59 of the Storage facility.  Statements use
    StorageSpec.v; proofs are a single [exact] or a computed witness. *)
From Coq Require Import Lqa Sorting.Sorted.
From Verif Require Import Outcome KernelMaterial KernelResBuf KernelFacts KernelMass
  StorageModel StorageSpec StorageProofs StorageGlue.
Local Open Scope Q_scope.

(** ** A worked history: residence 2, throughput 5, six steps with two kinds
    of material, oversized deliveries and sales. *)
Definition sx_cfg (discrete : bool) : st_cfg := {|
  sc_in_commods := ["spent"; "scrap"]%string; sc_in_prefs := [1; 2];
  sc_out_commods := ["aged"]%string; sc_in_recipe := ""; sc_residence := 2; sc_throughput := 5;
  sc_max_inv := 40; sc_discrete := discrete; sc_package := "unpackaged";
  sc_transport_unit := "unrestricted"; sc_reorder_point := -(1); sc_reorder_quantity := 0;
  sc_cumulative_cap := 0 |}.
Definition sx_a : comp := [(922350000%Z, 1); (922380000%Z, 3)].
Definition sx_b : comp := [(942390000%Z, 2)].
Definition sx_es : list st_env :=
  [ {| se_time := 0; se_sales := []; se_receipts := [Mat 1 3 sx_a; Mat 2 1 sx_b] |};
    {| se_time := 1; se_sales := []; se_receipts := [Mat 3 4 sx_b] |};
    {| se_time := 2; se_sales := []; se_receipts := [Mat 4 5 sx_a] |};
    {| se_time := 3; se_sales := [2]; se_receipts := [] |};
    {| se_time := 4; se_sales := [1 # 2; 3]; se_receipts := [Mat 5 2 sx_a] |} ].
Definition sx_e : st_env := {| se_time := 6; se_sales := [1]; se_receipts := [Mat 6 1 sx_b] |}.
Definition sx_run (d : bool) := st_run 0 (sx_cfg d) st_empty sx_es.
Definition sx_state (d : bool) : st_state := match sx_run d with Ok (s, _) => s | _ => st_empty end.
Definition sx_outs (d : bool) : list st_out := match sx_run d with Ok (_, os) => os | _ => [] end.

Example sx_history : st_history (sx_es ++ [sx_e]).
Proof. apply st_historyb_sound. vm_compute. reflexivity. Qed.
Example sx_history0 : st_history sx_es.
Proof. exact (history_prefix _ _ sx_history). Qed.
Example sx_ran d : st_run 0 (sx_cfg d) st_empty sx_es = Ok (sx_state d, sx_outs d) /\
  (3 < qty_of (all_sold (sx_outs d))) /\ (0 < qty_of (ss_processing (sx_state d))).
Proof. destruct d; vm_compute; repeat split; reflexivity. Qed.
Example sx_stepped d : exists s' o, st_step 0 (sx_cfg d) (sx_state d) sx_e = Ok (s', o) /\
  0 < qty_of (to_released (so_tock o)).
Proof. destruct d; vm_compute; eexists; eexists; split; reflexivity. Qed.
Example sx_cfg_sane d : st_cfg_ok (sx_cfg d).
Proof. repeat split; try discriminate. Qed.
Example sx_fit d : purchases_fit 0 (sx_cfg d) st_empty (sx_es ++ [sx_e]).
Proof. destruct d; vm_compute; repeat split; discriminate. Qed.

(** ** C14: after the tock of time [t], what is still held back is exactly what
    arrived at a time [u] with [t < u + residence_time], untouched and in order;
    what has been queued (released or still queued) is exactly, up to
    regrouping, what arrived at [u] with [u + residence_time <= t]; and only
    released material is sold. *)
Theorem C14_residence_exact : forall eps cfg es s os, st_history es ->
  st_run eps cfg st_empty es = Ok (s, os) ->
  let t := last (map se_time es) (-1)%Z in
  ss_inventory s = [] /\
  ss_processing s = held (sc_residence cfg) t (arrivals es) /\
  regroup (due (sc_residence cfg) t (arrivals es)) (all_released os ++ ss_ready s) /\
  regroup (all_released os) (all_sold os ++ ss_stocks s).
Proof. exact residence_exact. Qed.
Print Assumptions C14_residence_exact.
Example C14_nontrivial : st_history sx_es /\
  st_run 0 (sx_cfg false) st_empty sx_es = Ok (sx_state false, sx_outs false) /\
  held 2 4 (arrivals sx_es) = [Mat 5 2 sx_a] /\
  due 2 4 (arrivals sx_es) = [Mat 1 3 sx_a; Mat 2 1 sx_b; Mat 3 4 sx_b; Mat 4 5 sx_a].
Proof. exact (conj sx_history0 (conj (proj1 (sx_ran false)) (conj eq_refl eq_refl))). Qed.

(** ** C15: arrival order and conservation *)
Theorem C15_arrival_order : forall eps cfg es s os, st_history es ->
  st_run eps cfg st_empty es = Ok (s, os) ->
  regroup (map snd (arrivals es))
    (all_sold os ++ ss_stocks s ++ ss_ready s ++ ss_processing s ++ ss_inventory s).
Proof. exact regroup_arrivals. Qed.
Print Assumptions C15_arrival_order.

Theorem C15_conserved : forall eps cfg es s os, st_history es ->
  st_run eps cfg st_empty es = Ok (s, os) ->
  qty_of (all_sold os) + qty_of (ss_stocks s) + qty_of (ss_ready s) + qty_of (ss_processing s)
    + qty_of (ss_inventory s) == qty_of (map snd (arrivals es)) /\
  forall n, mass_in n (all_sold os) + mass_in n (ss_stocks s) + mass_in n (ss_ready s)
    + mass_in n (ss_processing s) + mass_in n (ss_inventory s) == mass_in n (map snd (arrivals es)).
Proof. exact conserved. Qed.
Print Assumptions C15_conserved.
Example C15_nontrivial : st_history sx_es /\
  st_run 0 (sx_cfg false) st_empty sx_es = Ok (sx_state false, sx_outs false) /\
  mass_in 942390000 (all_sold (sx_outs false)) == 10 # 4 /\
  map m_qty (all_sold (sx_outs false)) <> [].
Proof. repeat split; try (exact sx_history0 || apply sx_history0 || exact (proj1 (sx_ran false))); vm_compute; congruence. Qed.

(** ** C16: throughput *)
Theorem C16_throughput : forall eps cfg es e s os s' o,
  0 <= sc_throughput cfg -> st_history (es ++ [e]) ->
  st_run eps cfg st_empty es = Ok (s, os) -> st_step eps cfg s e = Ok (s', o) ->
  qty_of (to_released (so_tock o)) <= sc_throughput cfg /\
  (sc_discrete cfg = false ->
   qty_of (to_released (so_tock o)) ==
   Qmin (sc_throughput cfg) (qty_of (to_released (so_tock o) ++ ss_ready s'))).
Proof. exact throughput_limit. Qed.
Print Assumptions C16_throughput.
Example C16_nontrivial : exists s' o, 0 <= sc_throughput (sx_cfg false) /\ st_history (sx_es ++ [sx_e]) /\
  st_step 0 (sx_cfg false) (sx_state false) sx_e = Ok (s', o) /\
  0 < qty_of (to_released (so_tock o)).
Proof.
  destruct (sx_stepped false) as (s' & o & A & B). exists s', o.
  split; [discriminate|]. split; [exact sx_history|]. split; assumption.
Qed.

(** ** C17: discrete handling *)
Theorem C17_never_split_or_joined : forall eps cfg es s os,
  sc_discrete cfg = true -> st_history es ->
  st_run eps cfg st_empty es = Ok (s, os) ->
  all_released os ++ ss_ready s ++ ss_processing s ++ ss_inventory s = map snd (arrivals es).
Proof. exact discrete_exact. Qed.
Print Assumptions C17_never_split_or_joined.

Theorem C17_longest_prefix : forall eps cfg es e s os s' o,
  0 <= sc_throughput cfg -> sc_discrete cfg = true -> st_history (es ++ [e]) ->
  st_run eps cfg st_empty es = Ok (s, os) -> st_step eps cfg s e = Ok (s', o) ->
  let queue := to_released (so_tock o) ++ ss_ready s' in
  forall k, (List.length (to_released (so_tock o)) < k)%nat -> (k <= List.length queue)%nat ->
    sc_throughput cfg < qty_of (firstn k queue).
Proof. exact discrete_longest. Qed.
Print Assumptions C17_longest_prefix.
Example C17_nontrivial :
  sc_discrete (sx_cfg true) = true /\ st_history (sx_es ++ [sx_e]) /\
  st_run 0 (sx_cfg true) st_empty sx_es = Ok (sx_state true, sx_outs true) /\
  map (fun o => map m_id (to_released (so_tock o))) (sx_outs true) = [[]; []; [1; 2]; [3]; [4]]%Z.
Proof. split; [reflexivity|]. split; [exact sx_history|]. split; [exact (proj1 (sx_ran true))|]. vm_compute. reflexivity. Qed.

(** ** C18: progress.  The unrestricted claim is false for discrete handling:
    a parcel larger than the throughput blocks the queue forever, whatever
    happens afterwards. *)
Definition sx_big : st_env := {| se_time := 0; se_sales := []; se_receipts := [Mat 1 10 sx_a; Mat 2 1 sx_b] |}.
Definition sx_wait t : st_env := {| se_time := t; se_sales := []; se_receipts := [] |}.
Definition sx_stuck_es := [sx_big; sx_wait 1; sx_wait 2].
Definition sx_stuck : st_state := match st_run 0 (sx_cfg true) st_empty sx_stuck_es with Ok (s, _) => s | _ => st_empty end.
Definition sx_stuck_o : list st_out := match st_run 0 (sx_cfg true) st_empty sx_stuck_es with Ok (_, o) => o | _ => [] end.
Theorem C18_progress_refuted :
  exists cfg es s os, 0 < sc_throughput cfg /\ st_history es /\
    st_run 0 cfg st_empty es = Ok (s, os) /\ ss_ready s <> [] /\
    forall es' s' os', st_history (es ++ es') -> st_run 0 cfg s es' = Ok (s', os') ->
      all_released os' = [].
Proof.
  exact (ex_intro _ (sx_cfg true) (ex_intro _ sx_stuck_es (ex_intro _ sx_stuck (ex_intro _ sx_stuck_o
    (conj (eq_refl : 0 < 5) (conj (st_historyb_sound sx_stuck_es eq_refl) (conj eq_refl
      (conj (fun E : [Mat 1 10 sx_a; Mat 2 1 sx_b] = [] => match E with eq_refl => I end)
      (fun es' s' os' H R => proj1 (stuck 0 (sx_cfg true) es' sx_stuck_es sx_stuck sx_stuck_o s' os'
         (Mat 1 10 sx_a) [Mat 2 1 sx_b]
         (Qlt_le_weak 0 5 eq_refl) eq_refl H eq_refl (eq_refl : 5 < 10) eq_refl R)))))))))).
Qed.
Print Assumptions C18_progress_refuted.

(** What does hold.  Missing for the full claim: parcels larger than the
    throughput with discrete handling (refuted above). *)
Theorem C18_progress_discrete_partial : forall eps cfg es done s os s' os',
  0 <= sc_throughput cfg -> sc_discrete cfg = true -> st_history (done ++ es) ->
  Forall (fun m => m_qty m <= sc_throughput cfg) (map snd (arrivals (done ++ es))) ->
  st_run eps cfg st_empty done = Ok (s, os) -> st_run eps cfg s es = Ok (s', os') ->
  exists rest, all_released os' = firstn (List.length es) (ss_ready s) ++ rest.
Proof. exact progress_discrete. Qed.
Print Assumptions C18_progress_discrete_partial.

Theorem C18_progress_continuous : forall eps cfg es done s os s' os',
  0 <= sc_throughput cfg -> sc_discrete cfg = false -> st_history (done ++ es) ->
  st_run eps cfg st_empty done = Ok (s, os) -> st_run eps cfg s es = Ok (s', os') ->
  Qmin (inject_Z (zlen es) * sc_throughput cfg) (qty_of (ss_ready s)) <= qty_of (all_released os').
Proof. exact progress_continuous. Qed.
Print Assumptions C18_progress_continuous.
Definition sx_three : st_env :=
  {| se_time := 0; se_sales := []; se_receipts := [Mat 1 3 sx_a; Mat 2 4 sx_b; Mat 3 5 sx_a] |}.
Example C18_nontrivial : exists s os s' os',
  st_history ([sx_three; sx_wait 1; sx_wait 2] ++ [sx_wait 3; sx_wait 4]) /\
  Forall (fun m => m_qty m <= 5) (map snd (arrivals ([sx_three; sx_wait 1; sx_wait 2] ++ [sx_wait 3; sx_wait 4]))) /\
  st_run 0 (sx_cfg true) st_empty [sx_three; sx_wait 1; sx_wait 2] = Ok (s, os) /\
  st_run 0 (sx_cfg true) s [sx_wait 3; sx_wait 4] = Ok (s', os') /\
  ss_ready s = [Mat 2 4 sx_b; Mat 3 5 sx_a] /\ all_released os' = [Mat 2 4 sx_b; Mat 3 5 sx_a].
Proof.
  do 4 eexists. split; [apply st_historyb_sound; vm_compute; reflexivity|].
  split; [repeat constructor; discriminate|].
  split; [vm_compute; reflexivity|]. split; [vm_compute; reflexivity|]. split; reflexivity.
Qed.

(** ** C19: capacity *)
Theorem C19_capacity : forall eps cfg es s os, 0 <= sc_max_inv cfg -> st_history es ->
  purchases_fit eps cfg st_empty es -> st_run eps cfg st_empty es = Ok (s, os) ->
  qty_of (ss_inventory s ++ ss_processing s ++ ss_ready s ++ ss_stocks s) <= sc_max_inv cfg.
Proof. exact capacity. Qed.
Print Assumptions C19_capacity.
Example C19_nontrivial : exists s os, 0 <= sc_max_inv (sx_cfg false) /\ st_history (sx_es ++ [sx_e]) /\
  purchases_fit 0 (sx_cfg false) st_empty (sx_es ++ [sx_e]) /\
  st_run 0 (sx_cfg false) st_empty (sx_es ++ [sx_e]) = Ok (s, os) /\
  8 < qty_of (ss_inventory s ++ ss_processing s ++ ss_ready s ++ ss_stocks s).
Proof.
  do 2 eexists. split; [discriminate|]. split; [exact sx_history|]. split; [exact (sx_fit false)|].
  split; [vm_compute; reflexivity|]. vm_compute. reflexivity.
Qed.

(** ** C20: start-up *)
Theorem C20_startup_exact : forall recipe package unit cfg p c prefs o,
  st_input_ok recipe package unit cfg p c prefs o <->
  exists en, st_enter recipe package unit cfg = Ok en /\ en_policy en = p /\ en_comp en = c /\
    en_prefs en = prefs /\ en_sells en = o /\ en_buys en = combine (sc_in_commods cfg) prefs /\
    en_throughput en = sc_throughput cfg /\ en_capacity en = sc_max_inv cfg /\
    List.length prefs = List.length (sc_in_commods cfg).
Proof. exact enter_exact. Qed.
Print Assumptions C20_startup_exact.
Theorem C20_startup_rejects : forall recipe package unit cfg,
  (exists en, st_enter recipe package unit cfg = Ok en) \/
  (exists e, st_enter recipe package unit cfg = Throw e).
Proof. exact enter_never_ub. Qed.
Print Assumptions C20_startup_rejects.
Example C20_nontrivial :
  st_input_ok (fun _ => None) (fun _ => true) (fun _ => true) (sx_cfg true) BuyActiveDormant [] [1; 2] "aged".
Proof.
  split; [constructor; [reflexivity|discriminate]|]. split; [left; auto|].
  split; [right; repeat split; discriminate|]. auto.
Qed.

(** ** C58: a time step of a running storage facility never fails (when what is
    sold does not exceed the stock)... *)
Theorem C58_step_never_fails_partial : forall eps cfg es e s os, 0 <= eps -> st_cfg_ok cfg ->
  (sc_discrete cfg = true \/ 0 < sc_throughput cfg) -> st_history (es ++ [e]) ->
  st_run eps cfg st_empty es = Ok (s, os) ->
  Forall (fun q => 0 < q) (se_sales e) -> qsum (se_sales e) <= qty_of (ss_stocks s) ->
  exists s' o, st_step eps cfg s e = Ok (s', o).
Proof. exact step_ok. Qed.
Print Assumptions C58_step_never_fails_partial.
Example C58_nontrivial : st_cfg_ok (sx_cfg false) /\ 0 < sc_throughput (sx_cfg false) /\
  st_history (sx_es ++ [sx_e]) /\ Forall (fun q => 0 < q) (se_sales sx_e) /\
  qsum (se_sales sx_e) <= qty_of (ss_stocks (sx_state false)).
Proof.
  split; [exact (sx_cfg_sane false)|]. split; [reflexivity|]. split; [exact sx_history|].
  split; [repeat constructor|]. vm_compute. discriminate.
Qed.
(** ... except that a throughput of zero (within the documented range) without
    discrete handling aborts the simulation as soon as something is queued. *)
Definition sx_zero : st_cfg := {|
  sc_in_commods := ["spent"]%string; sc_in_prefs := [1]; sc_out_commods := ["aged"]%string;
  sc_in_recipe := ""; sc_residence := 0; sc_throughput := 0; sc_max_inv := 40; sc_discrete := false;
  sc_package := "unpackaged"; sc_transport_unit := "unrestricted"; sc_reorder_point := -(1);
  sc_reorder_quantity := 0; sc_cumulative_cap := 0 |}.
Theorem C58_step_never_fails_refuted :
  exists cfg e, st_cfg_ok cfg /\ 0 <= sc_throughput cfg /\ 0 <= sc_max_inv cfg /\ st_history [e] /\
    se_sales e = [] /\ st_step 0 cfg st_empty e = Throw ZeroPop.
Proof.
  exact (ex_intro _ sx_zero (ex_intro _ sx_big (conj (conj eq_refl (conj (fun E : ["spent"%string] = [] => match E with eq_refl => I end) eq_refl))
    (conj (Qle_refl 0) (conj (Qlt_le_weak 0 40 eq_refl) (conj (st_historyb_sound [sx_big] eq_refl) (conj eq_refl eq_refl))))))).
Qed.
Print Assumptions C58_step_never_fails_refuted.

(** ** C59: reported demand and supply *)
Theorem C59_reports : forall eps cfg es e s os s' o, st_cfg_ok cfg -> st_history (es ++ [e]) ->
  st_run eps cfg st_empty es = Ok (s, os) -> st_step eps cfg s e = Ok (s', o) ->
  (exists i c p, nth_error (sc_in_commods cfg) i = Some c /\ nth_error (sc_in_prefs cfg) i = Some p /\
     (forall j p', nth_error (sc_in_prefs cfg) j = Some p' -> p' <= p) /\
     (forall j p', (j < i)%nat -> nth_error (sc_in_prefs cfg) j = Some p' -> p' < p) /\
     to_demand (so_tock o) = (("demand" ++ c)%string,
       Qmax 0 (sc_max_inv cfg - (qty_of (ss_inventory s') + qty_of (ss_stocks s') +
                                 qty_of (ss_ready s') + qty_of (ss_processing s'))))) /\
  (exists c, sc_out_commods cfg = [c] /\
     to_supply (so_tock o) = (("supply" ++ c)%string, qty_of (ss_stocks s'))).
Proof. exact records. Qed.
Print Assumptions C59_reports.
Example C59_nontrivial : exists s' o, st_step 0 (sx_cfg false) (sx_state false) sx_e = Ok (s', o) /\
  fst (to_demand (so_tock o)) = "demandscrap"%string /\ fst (to_supply (so_tock o)) = "supplyaged"%string.
Proof. vm_compute. do 2 eexists. repeat split. Qed.
