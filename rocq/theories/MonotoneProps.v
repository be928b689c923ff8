(** Property C121.  Statements use MonotoneSpec.v and BacklogSpec.v; proofs are a single [exact] or a computed case. *)
From Coq Require Import Lqa.
From Verif Require Import Outcome KernelMaterial KernelResBuf KernelMass ConversionModel ConversionSpec StorageModel StorageSpec BacklogSpec MonotoneSpec MonotoneProofs.
From Verif Require ConversionProps StorageProps.
Local Open Scope Q_scope.

(** ** C121: a faster facility never delivers less
    Two conversion facilities: the second has at least the throughput of the first and had received at least as much before
    every step.  Then it has converted at least as much, whatever the two sell, however large their inputs may be. *)
Theorem C121_conversion : forall eps eps' cfg cfg' es es' s os s' os', 0 <= vc_throughput cfg <= vc_throughput cfg' ->
  mats_ok (cv_received es) -> mats_ok (cv_received es') -> received_as_much es es' ->
  cv_run eps cfg cv_empty es = Ok (s, os) -> cv_run eps' cfg' cv_empty es' = Ok (s', os') -> converted s os <= converted s' os'.
Proof. exact conversion_monotone. Qed.
Print Assumptions C121_conversion.

(** Two stores with the same arrivals: the second has no less throughput and no longer residence time, and may split parcels.
    Then it has released at least as much, whether or not the first may split parcels. *)
Theorem C121_storage : forall eps eps' cfg cfg' es es' s os s' os', as_fast cfg cfg' -> sc_discrete cfg' = false ->
  st_history es -> same_arrivals es es' -> st_run eps cfg st_empty es = Ok (s, os) -> st_run eps' cfg' st_empty es' = Ok (s', os') ->
  qty_of (all_released os) <= qty_of (all_released os').
Proof. exact continuous_no_less. Qed.
Print Assumptions C121_storage.

(** Two stores that keep parcels whole: the faster one has released every parcel the slower one has, in the same order. *)
Theorem C121_storage_discrete : forall eps eps' cfg cfg' es es' s os s' os', as_fast cfg cfg' -> sc_discrete cfg = true -> sc_discrete cfg' = true ->
  st_history es -> same_arrivals es es' -> st_run eps cfg st_empty es = Ok (s, os) -> st_run eps' cfg' st_empty es' = Ok (s', os') ->
  exists more, all_released os' = all_released os ++ more.
Proof. exact discrete_monotone. Qed.
Print Assumptions C121_storage_discrete.

(** ** Cases: 6 kg a step instead of 4 converts 12 kg instead of 8. *)
Definition fast_conversion : cv_cfg := {| vc_incommods := ["uox"; "scrap"]%string; vc_outcommod := "uf6"; vc_throughput := 6; vc_capacity := 30 |}.
Example C121_conversion_case : let es := ConversionProps.vx_es in let es' := map (fun e => Build_cv_env [] [] (ve_receipts e)) es in
  vc_throughput ConversionProps.vx_cfg <= vc_throughput fast_conversion /\ received_as_much es es' /\
  converted ConversionProps.vx_state ConversionProps.vx_outs == 8 /\
  exists s' os', cv_run 0 fast_conversion cv_empty es' = Ok (s', os') /\ converted s' os' == 12.
Proof.
  cbv zeta. split; [vm_compute; discriminate|]. split.
  - split; [reflexivity|]. intro n. assert (E : cv_received (firstn n (map (fun e => Build_cv_env [] [] (ve_receipts e)) ConversionProps.vx_es)) = cv_received (firstn n ConversionProps.vx_es)); [|rewrite E; apply Qle_refl].
    do 5 (destruct n as [|n]; [reflexivity|]). reflexivity.
  - split; [vm_compute; reflexivity|]. do 2 eexists. split; [vm_compute; reflexivity|vm_compute; reflexivity].
Qed.
(** A residence time of 0 instead of 2 and 6 kg a step instead of 5. *)
Definition fast_store (d : bool) : st_cfg := {|
  sc_in_commods := ["spent"; "scrap"]%string; sc_in_prefs := [1; 2];
  sc_out_commods := ["aged"]%string; sc_in_recipe := ""; sc_residence := 0; sc_throughput := 6;
  sc_max_inv := 40; sc_discrete := d; sc_package := "unpackaged";
  sc_transport_unit := "unrestricted"; sc_reorder_point := -(1); sc_reorder_quantity := 0;
  sc_cumulative_cap := 0 |}.
Definition no_sales : list st_env := map (fun e => Build_st_env (se_time e) [] (se_receipts e)) StorageProps.sx_es.
Example C121_storage_case : as_fast (StorageProps.sx_cfg true) (fast_store false) /\ as_fast (StorageProps.sx_cfg true) (fast_store true) /\
  st_history StorageProps.sx_es /\ same_arrivals StorageProps.sx_es no_sales /\
  map m_id (all_released (StorageProps.sx_outs true)) <> [] /\
  exists s' os' s2 os2, st_run 0 (fast_store true) st_empty no_sales = Ok (s', os') /\ st_run 0 (fast_store false) st_empty no_sales = Ok (s2, os2) /\
    qty_of (all_released (StorageProps.sx_outs true)) < qty_of (all_released os') <= qty_of (all_released os2).
Proof.
  split; [repeat split; vm_compute; congruence|]. split; [repeat split; vm_compute; congruence|]. split; [exact StorageProps.sx_history0|].
  split; [repeat constructor|]. split; [vm_compute; discriminate|].
  do 4 eexists. split; [vm_compute; reflexivity|]. split; [vm_compute; reflexivity|]. split; vm_compute; congruence.
Qed.
