(** C118: facilities with a throughput never idle while there is work. *)
From Coq Require Import Lqa.
From Verif Require Import Outcome KernelMaterial KernelResBuf KernelMass ConversionModel ConversionSpec StorageModel StorageSpec BacklogSpec BacklogProofs.
From Verif Require KernelMass ConversionProps StorageProps.
Local Open Scope Q_scope.

(** ** C118.  What a conversion facility has converted is never more than what it had received before some step plus full
    throughput in the steps after that, and it is exactly that for one of its steps. *)
Theorem C118_conversion : forall eps cfg es s os,
  0 <= vc_throughput cfg -> mats_ok (cv_received es) -> es <> [] -> cv_run eps cfg cv_empty es = Ok (s, os) ->
  (forall before e after, es = before ++ e :: after -> converted s os <= qty_of (cv_received before) + at_full (vc_throughput cfg) after) /\
  (exists before e after, es = before ++ e :: after /\ converted s os == qty_of (cv_received before) + at_full (vc_throughput cfg) after).
Proof. intros eps cfg es s os T M N R. exact (conversion_upto eps cfg es T s os M R N). Qed.
Print Assumptions C118_conversion.

(** Without deliveries the input shrinks by the throughput in each step, down to nothing. *)
Theorem C118_conversion_clears : forall eps cfg es quiet s os s' os',
  0 <= vc_throughput cfg -> mats_ok (cv_received es) -> cv_run eps cfg cv_empty es = Ok (s, os) ->
  Forall (fun e => ve_receipts e = []) quiet -> cv_run eps cfg s quiet = Ok (s', os') ->
  qty_of (vs_input s') == Qmax 0 (qty_of (vs_input s) - at_full (vc_throughput cfg) quiet).
Proof. exact conversion_clears. Qed.
Print Assumptions C118_conversion_clears.

(** Three steps at 4 kg a step: the first delivery of 8 kg keeps the facility busy for the next two.  Two more steps empty it. *)
Example C118_conversion_case : let quiet := [Build_cv_env [] [] []; Build_cv_env [] [] []] in
  mats_ok (cv_received ConversionProps.vx_es) /\
  cv_run 0 ConversionProps.vx_cfg cv_empty ConversionProps.vx_es = Ok (ConversionProps.vx_state, ConversionProps.vx_outs) /\
  converted ConversionProps.vx_state ConversionProps.vx_outs == 8 /\ qty_of (vs_input ConversionProps.vx_state) == 5 /\
  exists s' os', cv_run 0 ConversionProps.vx_cfg ConversionProps.vx_state quiet = Ok (s', os') /\ qty_of (vs_input s') == 0.
Proof.
  split; [apply KernelMass.mats_okb_sound; reflexivity|]. split; [exact (proj1 ConversionProps.vx_ran)|]. split; [vm_compute; reflexivity|]. split; [vm_compute; reflexivity|].
  do 2 eexists. split; [vm_compute; reflexivity|vm_compute; reflexivity].
Qed.

(** Storage without discrete handling: what it has released is never more than what had matured (been kept for the residence
    time) at the end of some step plus full throughput in the steps after that, and it is exactly that for one moment. *)
Theorem C118_storage : forall eps cfg es s os,
  0 <= sc_throughput cfg -> sc_discrete cfg = false -> st_history es -> st_run eps cfg st_empty es = Ok (s, os) ->
  (forall before after, es = before ++ after -> qty_of (all_released os) <= matured (sc_residence cfg) before + at_full (sc_throughput cfg) after) /\
  (exists before after, es = before ++ after /\ qty_of (all_released os) == matured (sc_residence cfg) before + at_full (sc_throughput cfg) after).
Proof. intros eps cfg es s os T D H R. exact (storage_upto eps cfg es T D s os H R). Qed.
Print Assumptions C118_storage.
(** Residence time 2 and 5 kg a step: 4 kg matured at time 2, 8 kg at time 3, 13 kg at time 4; 13 kg were released. *)
Example C118_storage_case : st_history StorageProps.sx_es /\
  st_run 0 (StorageProps.sx_cfg false) st_empty StorageProps.sx_es = Ok (StorageProps.sx_state false, StorageProps.sx_outs false) /\
  map (fun n => Qred (matured 2 (firstn n StorageProps.sx_es))) [1; 2; 3; 4; 5]%nat = [0; 0; 4; 8; 13] /\
  qty_of (all_released (StorageProps.sx_outs false)) == 13.
Proof.
  split; [exact StorageProps.sx_history0|]. split; [exact (proj1 (StorageProps.sx_ran false))|]. split; [vm_compute; reflexivity|vm_compute; reflexivity].
Qed.
