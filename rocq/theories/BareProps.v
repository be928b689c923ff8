(** Property C122.  Statements use BareSpec.v; proofs are a single [exact]. *)
From Verif Require Import Outcome KernelMaterial KernelResBuf KernelBuf BareSpec BareReactor BareProofs.
From Verif Require ReactorModel ReactorExample LaterProps StorageModel StorageProps SinkModel SinkProps SourceModel SourceProps
  ConversionModel ConversionProps MixerModel MixerProps.
Local Open Scope Q_scope.

(** ** C122: what material is made of never influences amounts or timing

    Two lives of the same facility that differ only in compositions - of what it starts with, of what is delivered, of what
    others ask for and of the recipes - do the same things: equal outputs and final states up to compositions, or the same failure. *)
Theorem C122_reactor : forall eps recipe recipe' cfg t s s' es es', same_names recipe recipe' -> bare_reactor s' = bare_reactor s ->
  map bare_reactor_step es' = map bare_reactor_step es ->
  on (map bare_reactor_out) (ReactorModel.rx_run eps recipe' cfg t s' es') = on (map bare_reactor_out) (ReactorModel.rx_run eps recipe cfg t s es).
Proof. exact reactor_bare. Qed.
Print Assumptions C122_reactor.

Theorem C122_storage : forall eps cfg s s' es es', bare_storage s' = bare_storage s -> map bare_storage_step es' = map bare_storage_step es ->
  on (bare_life bare_storage bare_storage_out) (StorageModel.st_run eps cfg s' es') =
  on (bare_life bare_storage bare_storage_out) (StorageModel.st_run eps cfg s es).
Proof. exact storage_bare. Qed.
Print Assumptions C122_storage.

Theorem C122_conversion : forall eps cfg s s' es es', bare_conversion s' = bare_conversion s ->
  map bare_conversion_step es' = map bare_conversion_step es ->
  on (bare_life bare_conversion bare_conversion_out) (ConversionModel.cv_run eps cfg s' es') =
  on (bare_life bare_conversion bare_conversion_out) (ConversionModel.cv_run eps cfg s es).
Proof. exact conversion_bare. Qed.
Print Assumptions C122_conversion.

Theorem C122_mixer : forall eps cfg s s' es es', bare_mixer s' = bare_mixer s -> map bare_mixer_step es' = map bare_mixer_step es ->
  on (bare_life bare_mixer bare_mixer_out) (MixerModel.mx_run eps cfg s' es') =
  on (bare_life bare_mixer bare_mixer_out) (MixerModel.mx_run eps cfg s es).
Proof. exact mixer_bare. Qed.
Print Assumptions C122_mixer.

(** From its construction on: its recipe may be any, and what is asked of it may be made of anything. *)
Theorem C122_source : forall eps eg recipe recipe' cfg es es', same_names recipe recipe' ->
  map bare_source_step es' = map bare_source_step es ->
  on (bare_life bare_source bare_source_out) (let* s := SourceModel.sr_build eps recipe' cfg in SourceModel.sr_run eps eg recipe' cfg s es') =
  on (bare_life bare_source bare_source_out) (let* s := SourceModel.sr_build eps recipe cfg in SourceModel.sr_run eps eg recipe cfg s es).
Proof. exact source_bare. Qed.
Print Assumptions C122_source.

Theorem C122_sink : forall eps eg recipe recipe' cfg t s s' es es', same_names recipe recipe' -> bare_sink s' = bare_sink s ->
  map bare_sink_step es' = map bare_sink_step es ->
  on (bare_life bare_sink bare_sink_out) (SinkModel.sk_run eps eg recipe' cfg t s' es') =
  on (bare_life bare_sink bare_sink_out) (SinkModel.sk_run eps eg recipe cfg t s es).
Proof. exact sink_bare. Qed.
Print Assumptions C122_sink.

(** Everything replaced by iron. *)
Definition iron : comp := [(260560000%Z, 1)].
Definition cast (m : mat) : mat := Mat (m_id m) (m_qty m) iron.
Definition iron_recipe (recipe : string -> option comp) (r : string) : option comp := option_map (fun _ => iron) (recipe r).
Example iron_names recipe : same_names recipe (iron_recipe recipe).
Proof. intro r. unfold iron_recipe. destruct (recipe r); split; intro H; try discriminate H; reflexivity. Qed.
Definition all_iron (ms : list mat) : bool := forallb (fun m => match m_comp m with [(n, _)] => Z.eqb n 260560000 | _ => false end) ms.
Example C122_reactor_case : let es := LaterProps.lr_es in
  let es' := map (fun e => ReactorModel.Build_rx_env (ReactorModel.e_reqs e) (ReactorModel.e_pick e)
                             (map (fun d => (fst d, cast (snd d))) (ReactorModel.e_deliv e))) es in
  same_names ReactorExample.ex_recipe (iron_recipe ReactorExample.ex_recipe) /\ map bare_reactor_step es' = map bare_reactor_step es /\
  match ReactorModel.rx_run 0 ReactorExample.ex_recipe LaterProps.lr_cfg 3 LaterProps.lr_new es,
        ReactorModel.rx_run 0 (iron_recipe ReactorExample.ex_recipe) LaterProps.lr_cfg 3 LaterProps.lr_new es' with
  | Ok os, Ok os' => let sh := map snd (flat_map ReactorModel.o_shipped os) in let sh' := map snd (flat_map ReactorModel.o_shipped os') in
      (1 < List.length sh)%nat /\ all_iron sh = false /\ all_iron sh' = true /\ map m_qty sh' = map m_qty sh
  | _, _ => False
  end.
Proof. cbv zeta. split; [apply iron_names|]. split; [vm_compute; reflexivity|]. vm_compute. repeat split; repeat constructor. Qed.
Example C122_storage_case : let es := StorageProps.sx_es in
  let es' := map (fun e => StorageModel.Build_st_env (StorageModel.se_time e) (StorageModel.se_sales e) (map cast (StorageModel.se_receipts e))) es in
  map bare_storage_step es' = map bare_storage_step es /\
  match StorageModel.st_run 0 (StorageProps.sx_cfg true) StorageModel.st_empty es, StorageModel.st_run 0 (StorageProps.sx_cfg true) StorageModel.st_empty es' with
  | Ok (_, os), Ok (_, os') => let sh := flat_map StorageModel.so_sold os in let sh' := flat_map StorageModel.so_sold os' in
      (0 < List.length sh)%nat /\ all_iron sh = false /\ all_iron sh' = true /\ map m_qty sh' = map m_qty sh
  | _, _ => False
  end.
Proof. cbv zeta. split; [vm_compute; reflexivity|]. vm_compute. repeat split; repeat constructor. Qed.
Example C122_conversion_case : let es := ConversionProps.vx_es in
  let es' := map (fun e => ConversionModel.Build_cv_env (ConversionModel.ve_reqs e) (ConversionModel.ve_sales e) (map cast (ConversionModel.ve_receipts e))) es in
  map bare_conversion_step es' = map bare_conversion_step es /\
  match ConversionModel.cv_run 0 ConversionProps.vx_cfg ConversionModel.cv_empty es, ConversionModel.cv_run 0 ConversionProps.vx_cfg ConversionModel.cv_empty es' with
  | Ok (_, os), Ok (_, os') => let sh := flat_map ConversionModel.vo_shipped os in let sh' := flat_map ConversionModel.vo_shipped os' in
      (0 < List.length sh)%nat /\ all_iron sh = false /\ all_iron sh' = true /\ map m_qty sh' = map m_qty sh
  | _, _ => False
  end.
Proof. cbv zeta. split; [vm_compute; reflexivity|]. vm_compute. repeat split; repeat constructor. Qed.
Example C122_mixer_case : let es := MixerProps.xx_es ++ [MixerProps.xx_e] in
  let es' := map (fun e => MixerModel.Build_mx_env (MixerModel.xe_sales e) (map (fun r => (fst r, cast (snd r))) (MixerModel.xe_receipts e))) es in
  map bare_mixer_step es' = map bare_mixer_step es /\
  match MixerModel.mx_run 0 MixerProps.xx_cfg MixerProps.xx_s0 es, MixerModel.mx_run 0 MixerProps.xx_cfg MixerProps.xx_s0 es' with
  | Ok (_, os), Ok (_, os') => let sh := flat_map MixerModel.xo_shipped os in let sh' := flat_map MixerModel.xo_shipped os' in
      (0 < List.length sh)%nat /\ all_iron sh = false /\ all_iron sh' = true /\ map m_qty sh' = map m_qty sh
  | _, _ => False
  end.
Proof. cbv zeta. split; [vm_compute; reflexivity|]. vm_compute. repeat split; repeat constructor. Qed.
Example C122_source_case : let es := SourceProps.rx_es in let cfg := SourceProps.rx_cfg "nat_u" in
  same_names SourceProps.rx_recipe (iron_recipe SourceProps.rx_recipe) /\
  match (let* s := SourceModel.sr_build 0 SourceProps.rx_recipe cfg in SourceModel.sr_run 0 0 SourceProps.rx_recipe cfg s es),
        (let* s := SourceModel.sr_build 0 (iron_recipe SourceProps.rx_recipe) cfg in SourceModel.sr_run 0 0 (iron_recipe SourceProps.rx_recipe) cfg s es) with
  | Ok (_, os), Ok (_, os') => let sh := map snd (flat_map SourceModel.so_sent os) in let sh' := map snd (flat_map SourceModel.so_sent os') in
      (1 < List.length sh)%nat /\ all_iron sh = false /\ all_iron sh' = true /\ map m_qty sh' = map m_qty sh
  | _, _ => False
  end.
Proof. cbv zeta. split; [apply iron_names|]. vm_compute. repeat split; repeat constructor. Qed.
Example C122_sink_case : let es := SinkProps.kx_es in let cfg := SinkProps.kx_c1 in
  let es' := map (fun e => SinkModel.Build_sk_env (SinkModel.ke_rng e) (SinkModel.ke_rng2 e) (map cast (SinkModel.ke_mats e)) (SinkModel.ke_prods e)) es in
  same_names SinkProps.kx_recipe (iron_recipe SinkProps.kx_recipe) /\ map bare_sink_step es' = map bare_sink_step es /\
  match (let* s := SinkModel.sk_enter cfg SinkProps.kx_low 4 (SinkModel.sk_new cfg) in SinkModel.sk_run 0 0 SinkProps.kx_recipe cfg 4 s es),
        (let* s := SinkModel.sk_enter cfg SinkProps.kx_low 4 (SinkModel.sk_new cfg) in SinkModel.sk_run 0 0 (iron_recipe SinkProps.kx_recipe) cfg 4 s es') with
  | Ok (s, os), Ok (s', os') => (1 < List.length (SinkModel.ks_inv s))%nat /\ map SinkModel.r_comp (SinkModel.ks_inv s') <> map SinkModel.r_comp (SinkModel.ks_inv s) /\
      map SinkModel.r_qty (SinkModel.ks_inv s') = map SinkModel.r_qty (SinkModel.ks_inv s)
  | _, _ => False
  end.
Proof. cbv zeta. split; [apply iron_names|]. split; [reflexivity|]. vm_compute. repeat split; repeat constructor. discriminate. Qed.
