(** Property C127: what a facility requests, offers and ships in a time step is settled before anything is delivered in it.
    Statements use CausalitySpec.v; proofs are a single [exact] or a computed witness.  The examples use the facilities of ScaleProps.v. *)
From Verif Require Import Outcome KernelMaterial KernelResBuf KernelBuf KernelFacts CausalitySpec CausalityProofs.
From Verif Require ConversionModel StorageModel SinkModel MixerModel SeparationsModel ReactorModel EnrichmentModel FuelFabModel.
From Verif Require Import ScaleProps.
From Verif Require EnrichmentProps FuelFabProps.
Local Open Scope Q_scope.

(** Two histories which agree until a time step, and in that step differ only in the deliveries, show the same until and including
    that step, whatever follows. *)
Section Conversion.
Import ConversionModel.
Theorem C127_conversion : forall eps c s es e e' r r' s1 os s2 os', cv_same e e' ->
  cv_run eps c s (es ++ e :: r) = Ok (s1, os) -> cv_run eps c s (es ++ e' :: r') = Ok (s2, os') -> agree_until (S (List.length es)) os os'.
Proof. exact cv_causal. Qed.
Definition ca_cv (d : list mat) : cv_env := {| ve_reqs := [2]; ve_sales := [2]; ve_receipts := d |}.
Example C127_conversion_case : cv_same (ca_cv []) (ca_cv [Mat 7 3 un_pu]) /\
  map (fun d => map (fun o => map m_qty (vo_shipped o)) (seen (cv_run (1 # 10) (un_cv 1) cv_empty (firstn 1 (un_cv_es 1) ++ ca_cv d :: [])))) [[]; [Mat 7 3 un_pu]] =
  [[[]; [2]]; [[]; [2]]].
Proof. split; [split; reflexivity|vm_compute; reflexivity]. Qed.
End Conversion.
Print Assumptions C127_conversion.

Section Storage.
Import StorageModel.
(** The log of what is processed is written after the deliveries; what is sold is not affected by them (nor by the time of the step). *)
Theorem C127_storage : forall eps c s es e e' r r' s1 os s2 os', st_same e e' ->
  st_run eps c s (es ++ e :: r) = Ok (s1, os) -> st_run eps c s (es ++ e' :: r') = Ok (s2, os') ->
  agree_until (S (List.length es)) (map so_sold os) (map so_sold os').
Proof. exact st_causal. Qed.
Definition ca_st (d : list mat) : st_env := {| se_time := 2; se_sales := [3]; se_receipts := d |}.
Example C127_storage_case : st_same (ca_st []) (ca_st [Mat 7 3 un_pu]) /\
  map (fun d => map (fun o => map m_qty (so_sold o)) (seen (st_run (1 # 10) (un_st 1) st_empty (firstn 2 (un_st_es 1) ++ ca_st d :: [])))) [[]; [Mat 7 3 un_pu]] =
  [[[]; []; [3]]; [[]; []; [3]]].
Proof. split; [reflexivity|vm_compute; reflexivity]. Qed.
End Storage.
Print Assumptions C127_storage.

Section Mixer.
Import MixerModel.
Theorem C127_mixer : forall eps c s es e e' r r' s1 os s2 os', mx_same e e' ->
  mx_run eps c s (es ++ e :: r) = Ok (s1, os) -> mx_run eps c s (es ++ e' :: r') = Ok (s2, os') -> agree_until (S (List.length es)) os os'.
Proof. exact mx_causal. Qed.
Definition ca_mx (d : list (nat * mat)) : mx_env := {| xe_sales := [3]; xe_receipts := d |}.
Example C127_mixer_case : mx_same (ca_mx []) (ca_mx [(1%nat, Mat 7 3 un_pu)]) /\
  map (fun d => map (fun o => map (fun m => Qeq_bool (m_qty m) 3) (xo_shipped o)) (seen (mx_run (1 # 10) (un_mx 1) (un_mx0 1) (firstn 1 (un_mx_es 1) ++ ca_mx d :: [])))) [[]; [(1%nat, Mat 7 3 un_pu)]] =
  [[[]; [true]]; [[]; [true]]].
Proof. split; [reflexivity|vm_compute; reflexivity]. Qed.
End Mixer.
Print Assumptions C127_mixer.

Section Separations.
Import SeparationsModel.
Theorem C127_separations : forall eps recipe c prefs s es e e' r r' s1 os s2 os', sp_same e e' ->
  sp_run eps recipe c prefs s (es ++ e :: r) = Ok (s1, os) -> sp_run eps recipe c prefs s (es ++ e' :: r') = Ok (s2, os') ->
  agree_until (S (List.length es)) os os'.
Proof. exact sp_causal. Qed.
Definition ca_sp (d : list mat) : sp_env :=
  {| pe_time := 1; pe_reqs := fun k => if String.eqb k "pu" then [1] else []; pe_trades := [("pu"%string, 1)]; pe_receipts := d |}.
Example C127_separations_case : sp_same (ca_sp []) (ca_sp [Mat 7 3 un_mix]) /\
  map (fun d => map (fun o => map (fun m => Qeq_bool (m_qty m) 1) (po_shipped o))
    (seen (sp_run (1 # 10) (fun _ => None) (un_sp 1) [1] (un_sp0 1) (firstn 1 (un_sp_es 1) ++ ca_sp d :: [])))) [[]; [Mat 7 3 un_mix]] =
  [[[]; [true]]; [[]; [true]]].
Proof. split; [repeat split|vm_compute; reflexivity]. Qed.
End Separations.
Print Assumptions C127_separations.

Section FuelFab.
Import FuelFabModel.
Theorem C127_fuel_fab : forall eps nz D recipe c prefs s es e e' r r' s1 os s2 os', ff_same e e' ->
  ff_run eps nz D recipe c prefs s (es ++ e :: r) = Ok (s1, os) -> ff_run eps nz D recipe c prefs s (es ++ e' :: r') = Ok (s2, os') ->
  agree_until (S (List.length es)) os os'.
Proof. exact ff_causal. Qed.
Definition ca_ff (d : list (nat * mat)) : ff_env :=
  {| fe_reqs := [(FuelFabProps.fx_low, 4)]; fe_trades := [(0%nat, 4)]; fe_receipts := d |}.
Example C127_fuel_fab_case : ff_same (ca_ff []) (ca_ff [(1%nat, Mat 7 1 FuelFabProps.fx_fiss)]) /\
  map (fun d => map (fun o => map (fun m => Qeq_bool (m_qty m) 4) (fo_shipped o))
    (seen (ff_run 0 FuelFabProps.fx_nz FuelFabProps.fx_D FuelFabProps.fx_recipe (un_ff 1) FuelFabProps.fx_prefs (un_ff0 1) ([] ++ ca_ff d :: []))))
    [[]; [(1%nat, Mat 7 1 FuelFabProps.fx_fiss)]] = [[[true]]; [[true]]].
Proof. split; [split; reflexivity|vm_compute; reflexivity]. Qed.
End FuelFab.
Print Assumptions C127_fuel_fab.

Section Enrichment.
Import EnrichmentModel.
(** For enrichment this includes the separative work and the feed recorded at the end of the step. *)
Theorem C127_enrichment : forall eps eg V aw recipe c s es e e' r r' s1 os s2 os', en_same e e' ->
  en_run eps eg V aw recipe c s (es ++ e :: r) = Ok (s1, os) -> en_run eps eg V aw recipe c s (es ++ e' :: r') = Ok (s2, os') ->
  agree_until (S (List.length es)) os os'.
Proof. exact en_causal. Qed.
Definition ca_en (d : list mat) : en_env := {| ee_treqs := []; ee_preqs := [un_offer 3];
  ee_trades := [ {| et_commod := "leu"; et_offer := un_offer 3; et_amt := 3 |} ]; ee_receipts := d |}.
Example C127_enrichment_case : en_same (ca_en []) (ca_en [Mat 7 2 EnrichmentProps.nx_feed]) /\
  map (fun d => map (fun o => map (fun m => Qeq_bool (m_qty m) 3) (eo_shipped o))
    (seen (en_run 0 (1 # 1000) EnrichmentProps.nx_V EnrichmentProps.nx_aw EnrichmentProps.nx_recipe (un_en 1) (un_en0 1) ([] ++ ca_en d :: []))))
    [[]; [Mat 7 2 EnrichmentProps.nx_feed]] = [[[true]]; [[true]]].
Proof. split; [repeat split|vm_compute; reflexivity]. Qed.
End Enrichment.
Print Assumptions C127_enrichment.

Section Sink.
Import SinkModel.
(** The demand reported, the materials and the products requested (the exchange of products comes after that of materials). *)
Theorem C127_sink : forall eps eg recipe c t s es e e' r r' s1 os s2 os', sk_same e e' ->
  sk_run eps eg recipe c t s (es ++ e :: r) = Ok (s1, os) -> sk_run eps eg recipe c t s (es ++ e' :: r') = Ok (s2, os') ->
  agree_until (S (List.length es)) os os'.
Proof. exact (fun eps eg rc c t s es => sk_causal eps eg rc c es t s). Qed.
Definition ca_sk (d : list mat) : sk_env := {| ke_rng := un_rng; ke_rng2 := un_rng; ke_mats := d; ke_prods := [] |}.
Definition ca_sk0 : sk_state := {| ks_prefs := [1]; ks_inv := []; ks_amt := 0; ks_next := -1 |}.
Definition ca_sk_run (c : sk_cfg) (d : list mat) := sk_run (1 # 10) (1 # 10) (fun _ => None) c 0 ca_sk0 (firstn 1 (un_sk_es 1) ++ ca_sk d :: []).
Example C127_sink_case : sk_same (ca_sk []) (ca_sk [Mat 7 1 un_pu]) /\
  map (fun d => map (fun o => match ko_mat o with Some r => Qeq_bool (mq_qty r) (3 # 2) | None => false end) (seen (ca_sk_run (un_sk 1) d))) [[]; [Mat 7 1 un_pu]] =
  [[true; true]; [true; true]].
Proof. split; [split; reflexivity|vm_compute; reflexivity]. Qed.
End Sink.
Print Assumptions C127_sink.

Section Reactor.
Import ReactorModel.
(** The fuel moved at the beginning of the step, the requests, the offers and the assemblies shipped. *)
Theorem C127_reactor : forall eps recipe c t s es e e' r r' os os', rx_same e e' ->
  rx_run eps recipe c t s (es ++ e :: r) = Ok os -> rx_run eps recipe c t s (es ++ e' :: r') = Ok os' ->
  agree_until (S (List.length es)) (map rx_shown os) (map rx_shown os').
Proof. exact (fun eps rc c t s es => rx_causal eps rc c es t s). Qed.
Definition ca_rx (d : list (string * mat)) : rx_env := {| e_reqs := fun _ => [3]; e_pick := ["out"]%string; e_deliv := d |}.
Example C127_reactor_case : rx_same (ca_rx []) (ca_rx [("in"%string, Mat 7 3 un_mix)]) /\
  map (fun d => un_sent (rx_run (1 # 10) un_rec (un_rx 1) 0 (un_rx0 1) (firstn 1 (un_rx_es 1) ++ ca_rx d :: []))) [[]; [("in"%string, Mat 7 3 un_mix)]] =
  [[[]; ["out"%string]]; [[]; ["out"%string]]].
Proof. split; [split; reflexivity|vm_compute; reflexivity]. Qed.
(** The power of the same step does depend on it: a delivered assembly is loaded and burned in the step in which it arrives. *)
Definition ca_power (os : outcome (list rx_out)) : list Q :=
  match os with Ok (o :: _) => flat_map (fun ev => match ev with EvPower q => [q] | _ => [] end) (o_events o) | _ => [] end.
Theorem C127_reactor_power_refuted : exists recipe c s e e' os os', rx_same e e' /\
  rx_run 0 recipe c 0 s [e] = Ok os /\ rx_run 0 recipe c 0 s [e'] = Ok os' /\ ca_power (Ok os) = [0] /\ ca_power (Ok os') = [7].
Proof.
  exists un_rec, (un_rx 1), (un_rx0 1), {| e_reqs := fun _ => []; e_pick := []; e_deliv := [] |}, {| e_reqs := fun _ => []; e_pick := []; e_deliv := [("in"%string, Mat 1 3 un_mix)] |}.
  do 2 eexists. split; [split; reflexivity|]. split; [vm_compute; reflexivity|]. split; [vm_compute; reflexivity|]. split; vm_compute; reflexivity.
Qed.
End Reactor.
Print Assumptions C127_reactor.
Print Assumptions C127_reactor_power_refuted.
