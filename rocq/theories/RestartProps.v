(** Properties C87-C92: a simulation that is stopped, saved and restarted goes on
    as if it had not been interrupted.  The saved form of a facility and loading
    it are RestartModel.v; proofs are a single [exact] or a computed witness. *)
From Coq Require Import Lia Lqa.
From Verif Require Import Outcome KernelMaterial KernelResBuf KernelBuf.
From Verif Require Import FuelFabModel EnrichmentModel SinkModel StorageModel RestartModel RestartProofs.
From Verif Require ReactorModel ReactorSpec ReactorHistory ReactorExample ReactorProps RestartReactor.
From Verif Require SourceModel SourceSpec SourceProps StorageProps FuelFabSpec FuelFabProps.
From Verif Require EnrichmentSpec EnrichmentBids EnrichmentProps SinkSpec SinkProofs SinkProps.
Local Open Scope Q_scope.

(** ** C87.  Reactor: saving succeeds in every state it reaches and leaves it as it
    is; the loaded reactor is in the same state and the rest of the history repeats
    itself exactly: orders, offers, shipments, records, power. *)
Theorem C87_reactor_restart : forall eps recipe cfg inr outr pf c t0 s0 es os k,
  ReactorModel.enter_notify cfg (ReactorModel.rx_new cfg inr outr pf c) = Ok s0 ->
  ReactorSpec.rx_history eps recipe cfg t0 s0 es os -> (k <= List.length os)%nat ->
  exists v, rx_save eps (ReactorSpec.state_before s0 os k) = Ok (v, ReactorSpec.state_before s0 os k) /\
    exists s', rx_load eps cfg v = Ok s' /\ s' = ReactorSpec.state_before s0 os k /\
    ReactorModel.rx_run eps recipe cfg (t0 + Z.of_nat k) s' (skipn k es) = Ok (skipn k os).
Proof. exact RestartReactor.restart_final. Qed.
Print Assumptions C87_reactor_restart.
(** After 10 of the 26 steps of the worked history the core and the full pool block
    the outage, one scheduled change of either kind is behind. *)
Example C87_case : ReactorModel.enter_notify ReactorExample.ex_cfg
    (ReactorModel.rx_new ReactorExample.ex_cfg ["fresh_a"; "fresh_b"]%string ["spent_a"; "spent_b"]%string [1; 2] 0) = Ok ReactorExample.ex_start /\
  ReactorSpec.rx_history 0 ReactorExample.ex_recipe ReactorExample.ex_cfg 0 ReactorExample.ex_start ReactorExample.ex_envs ReactorExample.ex_outs /\
  (10 <= List.length ReactorExample.ex_outs)%nat /\
  exists v, rx_save 0 (ReactorSpec.state_before ReactorExample.ex_start ReactorExample.ex_outs 10) = Ok v /\
    map (@List.length mat) [xv_fresh (fst v); xv_core (fst v); xv_spent (fst v)] = [1; 2; 2]%nat /\
    xv_outrecipes (fst v) = ["spent_a2"; "spent_b"]%string /\ map Qred (xv_prefs (fst v)) = [1; 9].
Proof.
  split; [vm_compute; reflexivity|]. split; [exact ReactorProps.ex_history|]. split; [vm_compute; lia|].
  eexists. do 3 (split; [vm_compute; reflexivity|]). vm_compute. reflexivity.
Qed.

(** ** C88.  Storage (what its buying policy remembers aside). *)
Theorem C88_storage_restart : forall eps recipe package unit cfg en es1 es2 s os,
  st_enter recipe package unit cfg = Ok en -> st_run eps cfg st_empty (es1 ++ es2) = Ok (s, os) ->
  exists s1 os1 os2, st_run eps cfg st_empty es1 = Ok (s1, os1) /\ os = os1 ++ os2 /\
    exists en' s1', st_load recipe package unit cfg (st_save (en_prefs en) s1) = Ok (en', s1') /\ en' = en /\ s1' = s1 /\
      st_run eps (st_with_prefs cfg (en_prefs en')) s1' es2 = Ok (s, os2).
Proof. exact storage_final. Qed.
Print Assumptions C88_storage_restart.
Example C88_case : (exists en, st_enter (fun _ => None) (fun _ => true) (fun _ => true) (StorageProps.sx_cfg false) = Ok en) /\
  st_run 0 (StorageProps.sx_cfg false) st_empty (firstn 3 StorageProps.sx_es ++ skipn 3 StorageProps.sx_es) =
    Ok (StorageProps.sx_state false, StorageProps.sx_outs false) /\
  exists s1 os1, st_run 0 (StorageProps.sx_cfg false) st_empty (firstn 3 StorageProps.sx_es) = Ok (s1, os1) /\
    List.length (ss_processing s1) = 2%nat /\ ss_entry_times s1 = [1; 2]%Z.
Proof.
  split; [eexists; vm_compute; reflexivity|]. split; [exact (proj1 (StorageProps.sx_ran false))|].
  do 2 eexists. do 2 (split; [vm_compute; reflexivity|]). vm_compute. reflexivity.
Qed.

(** ** C89.  Fuel fabrication. *)
Theorem C89_fuel_fab_restart : forall eps nz D recipe cfg prefs es1 es2 s os, 0 <= eps -> FuelFabSpec.ff_sane (es1 ++ es2) ->
  ff_enter cfg = Ok prefs -> ff_run eps nz D recipe cfg prefs (ff_new cfg) (es1 ++ es2) = Ok (s, os) ->
  exists s1 os1 os2, ff_run eps nz D recipe cfg prefs (ff_new cfg) es1 = Ok (s1, os1) /\ os = os1 ++ os2 /\
    exists v, ff_save eps prefs s1 = Ok (v, s1) /\
    exists prefs' s1', ff_load eps cfg v = Ok (prefs', s1') /\ prefs' = prefs /\ s1' = s1 /\
      ff_run eps nz D recipe (ff_with_prefs cfg prefs') prefs' s1' es2 = Ok (s, os2).
Proof. exact fuelfab_final. Qed.
Print Assumptions C89_fuel_fab_restart.
Example C89_case : FuelFabSpec.ff_sane (FuelFabProps.fx_es ++ [FuelFabProps.fx_e]) /\ ff_enter FuelFabProps.fx_cfg = Ok FuelFabProps.fx_prefs /\
  exists v, ff_run 0 FuelFabProps.fx_nz FuelFabProps.fx_D FuelFabProps.fx_recipe FuelFabProps.fx_cfg FuelFabProps.fx_prefs
    (ff_new FuelFabProps.fx_cfg) (FuelFabProps.fx_es ++ [FuelFabProps.fx_e]) = Ok v /\
    map (fun o => List.length (fo_shipped o)) (snd v) = [0; 2]%nat /\
  exists w, ff_save 0 FuelFabProps.fx_prefs FuelFabProps.fx_s = Ok w /\
    map (@List.length mat) [fv_fill (fst w); fv_fiss (fst w); fv_topup (fst w)] = [1; 1; 1]%nat.
Proof.
  split; [exact FuelFabProps.fx_sane|]. split; [exact FuelFabProps.fx_entered|].
  eexists. split; [vm_compute; reflexivity|]. split; [vm_compute; reflexivity|]. eexists. split; vm_compute; reflexivity.
Qed.

(** ** C90.  Enrichment: the inventories, and everything requested, offered,
    shipped and recorded per enrichment, are as without the interruption.  The
    time series of SWU and feed used are so from the first step with trades on;
    before it, what is recorded is not determined.  Missing: those steps. *)
Theorem C90_enrichment_restart_partial : forall eps eg V aw recipe cfg es1 es2 s0 s os,
  0 <= eps -> EnrichmentSpec.recipes_ok recipe -> 0 <= ec_max_feed cfg ->
  EnrichmentSpec.en_sane (es1 ++ es2) -> EnrichmentSpec.en_fair (es1 ++ es2) os ->
  EnrichmentSpec.en_lived eps eg V aw recipe cfg (es1 ++ es2) s0 s os ->
  exists s1 os1 os2, EnrichmentSpec.en_lived eps eg V aw recipe cfg es1 s0 s1 os1 /\ os = os1 ++ os2 /\
    exists v, en_save eps s1 = Ok (v, s1) /\
    exists s1', en_load eps cfg v = Ok s1' /\ es_inv s1' = es_inv s1 /\ es_tails s1' = es_tails s1 /\
    exists s' os2', en_run eps eg V aw recipe cfg s1' es2 = Ok (s', os2') /\
      es_inv s' = es_inv s /\ es_tails s' = es_tails s /\
      Forall2 (fun o o' => eo_request o' = eo_request o /\ eo_bids o' = eo_bids o /\ eo_shipped o' = eo_shipped o /\ eo_records o' = eo_records o) os2 os2' /\
      (forall j k e, nth_error es2 j = Some e -> ee_trades e <> [] -> (j <= k)%nat -> nth_error os2' k = nth_error os2 k) /\
      (forall k, Forall (fun e => ee_trades e = []) (firstn (S k) es2) -> (k < List.length es2)%nat ->
         exists o', nth_error os2' k = Some o' /\ eo_recorded o' = (None, None)).
Proof. exact enrichment_final. Qed.
Print Assumptions C90_enrichment_restart_partial.
Definition nz_es : list en_env := EnrichmentProps.nx_es ++ [EnrichmentProps.nx_e].
Definition nz_run := en_run 0 EnrichmentProps.nx_eg EnrichmentProps.nx_V EnrichmentProps.nx_aw EnrichmentProps.nx_recipe EnrichmentProps.nx_cfg
  EnrichmentProps.nx_s0 (nz_es ++ [EnrichmentProps.nx_idle]).
Definition nz_s : en_state := match nz_run with Ok (s, _) => s | _ => EnrichmentProps.nx_s0 end.
Definition nz_os : list en_out := match nz_run with Ok (_, os) => os | _ => [] end.
Example nz_lived : EnrichmentSpec.en_lived 0 EnrichmentProps.nx_eg EnrichmentProps.nx_V EnrichmentProps.nx_aw EnrichmentProps.nx_recipe
  EnrichmentProps.nx_cfg (nz_es ++ [EnrichmentProps.nx_idle]) EnrichmentProps.nx_s0 nz_s nz_os.
Proof. split; [exact EnrichmentProps.nx_built|]. vm_compute. reflexivity. Qed.
Example C90_case : EnrichmentSpec.recipes_ok EnrichmentProps.nx_recipe /\ 0 <= ec_max_feed EnrichmentProps.nx_cfg /\
  EnrichmentSpec.en_sane (EnrichmentProps.nx_es ++ [EnrichmentProps.nx_e; EnrichmentProps.nx_idle]) /\
  EnrichmentSpec.en_fair (EnrichmentProps.nx_es ++ [EnrichmentProps.nx_e; EnrichmentProps.nx_idle]) nz_os /\
  EnrichmentSpec.en_lived 0 EnrichmentProps.nx_eg EnrichmentProps.nx_V EnrichmentProps.nx_aw EnrichmentProps.nx_recipe
    EnrichmentProps.nx_cfg (EnrichmentProps.nx_es ++ [EnrichmentProps.nx_e; EnrichmentProps.nx_idle]) EnrichmentProps.nx_s0 nz_s nz_os /\
  map (fun o => List.length (eo_shipped o)) nz_os = [0; 2; 0]%nat.
Proof.
  split; [exact EnrichmentProps.nx_recipes|]. split; [discriminate|].
  split; [apply EnrichmentBids.en_saneb_sound; reflexivity|]. split; [apply EnrichmentBids.en_fairb_sound; vm_compute; reflexivity|].
  split; [exact nz_lived|]. vm_compute. reflexivity.
Qed.
(** After the restart, a step without trades records an indeterminate usage, where
    the facility that was not interrupted records a number. *)
Theorem C90_recorded_usage_refuted : exists eps eg V aw recipe cfg es1 e s0 s1 s os1 o v s1' s' o' x y,
  0 <= eps /\ EnrichmentSpec.recipes_ok recipe /\ 0 <= ec_max_feed cfg /\ EnrichmentSpec.en_sane (es1 ++ [e]) /\
  EnrichmentSpec.en_lived eps eg V aw recipe cfg es1 s0 s1 os1 /\
  en_run eps eg V aw recipe cfg s1 [e] = Ok (s, [o]) /\
  en_save eps s1 = Ok (v, s1) /\ en_load eps cfg v = Ok s1' /\ en_run eps eg V aw recipe cfg s1' [e] = Ok (s', [o']) /\
  eo_recorded o = (Some x, Some y) /\ 0 < x /\ 0 < y /\ eo_recorded o' = (None, None).
Proof.
  exists 0, EnrichmentProps.nx_eg, EnrichmentProps.nx_V, EnrichmentProps.nx_aw, EnrichmentProps.nx_recipe, EnrichmentProps.nx_cfg, nz_es, EnrichmentProps.nx_idle, EnrichmentProps.nx_s0.
  do 10 eexists.
  split; [apply Qle_refl|]. split; [exact EnrichmentProps.nx_recipes|]. split; [discriminate|].
  split; [apply EnrichmentBids.en_saneb_sound; reflexivity|].
  split; [split; [exact EnrichmentProps.nx_built|vm_compute; reflexivity]|].
  do 7 (split; [vm_compute; reflexivity|]). vm_compute. reflexivity.
Qed.
Print Assumptions C90_recorded_usage_refuted.

(** ** C91.  Sink: without a random buying frequency the interruption changes
    nothing, whatever the generator draws on entering again.  Missing: random
    frequencies, see the counterexample. *)
Theorem C91_sink_restart_partial : forall eps eg recipe cfg g t0 es1 es2 s os, 0 <= eps -> 0 <= kc_capacity cfg -> 0 <= kc_max_inv cfg ->
  ~ SinkSpec.random_frequency cfg -> SinkSpec.rngs_ok (es1 ++ es2) -> SinkSpec.fair (es1 ++ es2) os ->
  SinkSpec.sk_lived eps eg recipe cfg g t0 (es1 ++ es2) s os ->
  exists s1 os1 os2, SinkSpec.sk_lived eps eg recipe cfg g t0 es1 s1 os1 /\ os = os1 ++ os2 /\
    exists v, sk_save eps cfg s1 = Ok (v, s1) /\
    forall g', exists s1', sk_load eps cfg g' (SinkSpec.now t0 es1) v = Ok s1' /\
      ks_inv s1' = ks_inv s1 /\ ks_prefs s1' = ks_prefs s1 /\
      exists s', sk_run eps eg recipe cfg (SinkSpec.now t0 es1) s1' es2 = Ok (s', os2) /\ ks_inv s' = ks_inv s /\ (es2 <> [] -> s' = s).
Proof. exact sink_final. Qed.
Print Assumptions C91_sink_restart_partial.
Example C91_case : ~ SinkSpec.random_frequency SinkProps.kx_c1 /\ SinkSpec.rngs_ok (firstn 2 SinkProps.kx_es ++ skipn 2 SinkProps.kx_es) /\
  SinkSpec.fair SinkProps.kx_es (SinkProps.kx_os SinkProps.kx_c1) /\
  SinkSpec.sk_lived 0 0 SinkProps.kx_recipe SinkProps.kx_c1 SinkProps.kx_low 4 (firstn 2 SinkProps.kx_es ++ skipn 2 SinkProps.kx_es)
    (SinkProps.kx_s SinkProps.kx_c1) (SinkProps.kx_os SinkProps.kx_c1) /\
  map SinkSpec.requested (SinkProps.kx_os SinkProps.kx_c1) = [5; 5; 5].
Proof.
  split; [intros [H|H]; discriminate H|]. split; [exact SinkProps.kx_rngs0|].
  split; [apply SinkProofs.fairb_sound; vm_compute; reflexivity|].
  split; [exact SinkProps.kx_lived1|]. vm_compute. reflexivity.
Qed.
Definition kz_cfg : sk_cfg := SinkProps.kx_cfg "None" "UniformInt" 3.
Definition kz_es : list sk_env := [SinkProps.kx_env SinkProps.kx_low [] []; SinkProps.kx_env SinkProps.kx_low [] []].
Definition kz_at (a : Q) : sk_state := {| ks_prefs := [2; 3]; ks_inv := []; ks_amt := a; ks_next := 7 |}.
(** With a random frequency the waiting starts anew: here a purchase every third
    step; restarted in the third step, the sink skips its purchase. *)
Theorem C91_random_frequency_refuted : exists eps eg recipe cfg g t0 es1 es2 s1 os1 s os2 v s1' s' os2',
  0 <= eps /\ SinkSpec.rngs_ok (es1 ++ es2) /\ SinkSpec.rng_ok g /\
  SinkSpec.sk_lived eps eg recipe cfg g t0 es1 s1 os1 /\ sk_run eps eg recipe cfg (SinkSpec.now t0 es1) s1 es2 = Ok (s, os2) /\
  sk_save eps cfg s1 = Ok (v, s1) /\ sk_load eps cfg g (SinkSpec.now t0 es1) v = Ok s1' /\
  sk_run eps eg recipe cfg (SinkSpec.now t0 es1) s1' es2 = Ok (s', os2') /\
  map SinkSpec.requested os2 = [0; 5] /\ map SinkSpec.requested os2' = [0; 0].
Proof.
  exists 0, 0, SinkProps.kx_recipe, kz_cfg, SinkProps.kx_low, 4%Z, kz_es, kz_es, (kz_at 0), [Build_sk_out [] None None; Build_sk_out [] None None].
  do 6 eexists. split; [apply Qle_refl|].
  split; [repeat (apply Forall_cons || apply Forall_nil); split; exact SinkProps.kx_low_ok|]. split; [exact SinkProps.kx_low_ok|].
  split; [exists (kz_at 5); split; [vm_compute; reflexivity|vm_compute; reflexivity]|].
  do 5 (split; [vm_compute; reflexivity|]). vm_compute. reflexivity.
Qed.
Print Assumptions C91_random_frequency_refuted.

(** ** C92.  Source: the inventory is not filled again. *)
Theorem C92_source_restart : forall eps eg recipe cfg es1 es2 s os, SourceSpec.sr_lived eps eg recipe cfg (es1 ++ es2) s os ->
  exists s1 os1 os2, SourceSpec.sr_lived eps eg recipe cfg es1 s1 os1 /\ os = os1 ++ os2 /\
    exists v, sr_save eps s1 = Ok (v, s1) /\
    exists s1', sr_load eps v = Ok s1' /\ s1' = s1 /\ SourceModel.sr_run eps eg recipe cfg s1' es2 = Ok (s, os2).
Proof. exact source_final. Qed.
Print Assumptions C92_source_restart.
Example C92_case : SourceSpec.sr_lived 0 0 SourceProps.rx_recipe (SourceProps.rx_cfg "nat_u") ([SourceProps.rx_e1] ++ [SourceProps.rx_e2])
    (SourceProps.rx_s "nat_u") (SourceProps.rx_os "nat_u") /\ Qred (SourceSpec.held (SourceProps.rx_s "nat_u")) = 25 # 2.
Proof. split; [exact SourceProps.rx_lived_r|]. vm_compute. reflexivity. Qed.
