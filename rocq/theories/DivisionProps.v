(** Property C125: how deliveries are divided into parcels does not matter.  Statements use DivisionSpec.v; proofs are a single
    [exact] or a computed witness. *)
From Coq Require Import Lia Lqa.
From Verif Require Import Outcome KernelMaterial KernelResBuf KernelBuf KernelFacts KernelMass
  SeparationsModel ConversionModel EnrichmentModel MixerModel MixerSpec
  DivisionSpec DivisionProofs DivisionComp DivisionSeparations DivisionConversion DivisionEnrichment DivisionMixer.
From Verif Require SeparationsProps ConversionProps EnrichmentProps MixerProps.
Local Open Scope Q_scope.

(** A separations facility that gets the same material in the same order, however divided, behaves the same in every time step:
    the same records, request, offers and shipments.  The deliveries of a step stay within the request, and what the facility puts
    back into its feed is proper material. *)
Theorem C125_separations : forall eps recipe cfg prefs es es' s s' s2 os,
  0 <= eps -> Forall2 same_deliveries es es' -> same_plant s s' -> b_cap (ps_feed s) = Some (pc_feed_size cfg) ->
  sp_run eps recipe cfg prefs s es = Ok (s2, os) ->
  Forall2 (fun e o => qty_of (pe_receipts e) <= asked_for o) es os ->
  Forall (fun o => Forall mat_ok (b_items (ps_feed (po_ticked o)))) os ->
  exists s2' os', sp_run eps recipe cfg prefs s' es' = Ok (s2', os') /\ same_plant s2 s2' /\ Forall2 same_step os os'.
Proof. exact (fun eps recipe cfg prefs es es' s s' s2 os He F => run_same eps recipe cfg prefs He es es' F s s' s2 os). Qed.
Print Assumptions C125_separations.

(** The final state and the observations of a run. *)
Definition state_of {A B} (d : A) (r : outcome (A * list B)) : A := match r with Ok (s, _) => s | _ => d end.
Definition seen {A B} (r : outcome (A * list B)) : list B := match r with Ok (_, os) => os | _ => [] end.
(** Two parcels of different material, the first of them cut in two; then a step in which the first batch is processed. *)
Definition dv_mix : comp := [(922380000%Z, 1); (942390000%Z, 1)].
Definition dv_pu : comp := [(942390000%Z, 1)].
Definition dv_one : list mat := [Mat 1 (3 + 5) dv_mix] ++ [Mat 2 6 dv_pu].
Definition dv_two : list mat := [Mat 7 3 dv_mix; Mat 8 5 dv_mix] ++ [Mat 9 6 dv_pu].
Definition dv_es (l : list mat) : list sp_env :=
  [ {| pe_time := 0; pe_reqs := fun _ => []; pe_trades := []; pe_receipts := l |};
    {| pe_time := 1; pe_reqs := fun k => if String.eqb k "pu" then [1] else []; pe_trades := [("pu"%string, 1)]; pe_receipts := [] |} ].
Definition dv_cfg : sp_cfg :=
  {| pc_feed_commods := ["spent"]%string; pc_feed_prefs := [1]; pc_feed_recipe := "";
     pc_feed_size := 100; pc_throughput := 10; pc_leftover_commod := "waste"; pc_leftover_size := 50;
     pc_streams := [ {| st_name := "pu"; st_cap := 3; st_effs := [(940000000%Z, 1 # 1)] |} ]; pc_exit := 20 |}.
Definition dv_s0 : sp_state := {| ps_feed := {| b_cap := Some 100; b_items := [] |}; ps_left := {| b_cap := Some 50; b_items := [] |};
  ps_streams := [("pu"%string, {| b_cap := Some 3; b_items := [] |})] |}.
Definition dv_run := sp_run (1 # 10) (fun _ => None) dv_cfg [1] dv_s0 (dv_es dv_one).
Definition dv_end : sp_state := state_of dv_s0 dv_run.
Definition dv_os : list sp_out := seen dv_run.
Lemma dv_solid l : forallb mat_okb l = true -> forallb (fun m => Qltb 0 (m_qty m)) l = true -> solid l.
Proof.
  intros A B. apply Forall_forall. intros m I. split.
  - exact (proj1 (Forall_forall _ _) (mats_okb_sound l A) m I).
  - apply Qltb_true. exact (proj1 (forallb_forall (fun m => Qltb 0 (m_qty m)) l) B m I).
Qed.
Lemma dv_layers : same_layers dv_one dv_two.
Proof.
  assert (A : mats_ok dv_one) by (apply mats_okb_sound; vm_compute; reflexivity).
  assert (B : mats_ok dv_two) by (apply mats_okb_sound; vm_compute; reflexivity).
  apply Forall_app in A as [A1 A2]. apply Forall_app in B as [B1 B2]. apply layers_app; auto.
  - apply layers_split; [reflexivity|reflexivity|]. inversion A1; assumption.
  - inversion A2. inversion B2. apply layers_one; auto. split; [reflexivity|]. intro n. reflexivity.
Qed.
Example C125_separations_case : dv_run = Ok (dv_end, dv_os) /\ Forall2 same_deliveries (dv_es dv_one) (dv_es dv_two) /\
  same_plant dv_s0 dv_s0 /\ b_cap (ps_feed dv_s0) = Some (pc_feed_size dv_cfg) /\
  Forall2 (fun e o => qty_of (pe_receipts e) <= asked_for o) (dv_es dv_one) dv_os /\
  Forall (fun o => Forall mat_ok (b_items (ps_feed (po_ticked o)))) dv_os /\
  List.length dv_one = 2%nat /\ List.length dv_two = 3%nat /\ (exists o, In o dv_os /\ po_shipped o <> []) /\
  exists o, In o dv_os /\ exists lg, po_log o = Some lg /\ Qeq_bool (lg_processed lg) 10 = true.
Proof.
  split; [vm_compute; reflexivity|]. split.
  { constructor; [|constructor; [|constructor]]; (split; [reflexivity|]; split; [reflexivity|]; split; [reflexivity|]).
    - split; [exact dv_layers|]. split; (apply dv_solid; vm_compute; reflexivity).
    - split; [apply layers_refl|]. split; constructor. }
  split; [repeat split; repeat constructor|]. split; [reflexivity|]. split; [vm_compute; repeat constructor; discriminate|].
  split.
  { assert (A : forallb (fun o => forallb mat_okb (b_items (ps_feed (po_ticked o)))) dv_os = true) by (vm_compute; reflexivity).
    apply Forall_forall. intros o Io. apply mats_okb_sound. exact (proj1 (forallb_forall _ _) A o Io). }
  split; [reflexivity|]. split; [reflexivity|]. split; (eexists; split; [vm_compute; right; left; reflexivity|]); [vm_compute; discriminate|]. eexists. split; [vm_compute; reflexivity|]. vm_compute. reflexivity.
Qed.

(** A conversion facility blends what it holds: the order of the deliveries does not matter either. *)
Theorem C125_conversion : forall eps cfg es es' s s' s2 os,
  0 <= eps -> Forall2 same_supply es es' -> same_converter s s' -> cv_run eps cfg s es = Ok (s2, os) ->
  Forall2 (fun e o => qty_of (ve_receipts e) <= wanted o) es os ->
  exists s2' os', cv_run eps cfg s' es' = Ok (s2', os') /\ same_converter s2 s2' /\ Forall2 same_conversion os os'.
Proof. exact (fun eps cfg es es' s s' s2 os He F => cv_run_same eps cfg He es es' F s s' s2 os). Qed.
Print Assumptions C125_conversion.

(** The worked history of C52, with the first delivery cut into three and turned around. *)
Definition dv_feed (a : list mat) : list cv_env :=
  [ {| ve_reqs := [3]; ve_sales := []; ve_receipts := a |};
    {| ve_reqs := [3; 0; 20]; ve_sales := [3]; ve_receipts := [Mat 3 1 ConversionProps.vx_a] |};
    {| ve_reqs := []; ve_sales := []; ve_receipts := [] |} ].
Definition dv_pure : comp := [(922350000%Z, 3); (922380000%Z, 2)].
Definition dv_a : list mat := [Mat 1 (5 + 1) ConversionProps.vx_a; Mat 2 2 dv_pure].
Definition dv_b : list mat := [Mat 1 2 dv_pure; Mat 2 5 ConversionProps.vx_a; Mat 3 1 ConversionProps.vx_a].
Definition dv_crun := cv_run 0 ConversionProps.vx_cfg cv_empty (dv_feed dv_a).
Definition dv_cend : cv_state := state_of cv_empty dv_crun.
Definition dv_cos : list cv_out := seen dv_crun.
Lemma dv_turned i j k l m a b c d : comp_ok c -> same_content [Mat i (a + b) c; Mat j d dv_pure] [Mat k d dv_pure; Mat l a c; Mat m b c].
Proof.
  intro C. split; [unfold qty_of, qsum; cbn [map fold_right m_qty]; ring|]. intro n. unfold mass_in, qsum. cbn [map fold_right].
  pose proof (mass_split l m i a b (a + b) c n C (Qeq_refl _)) as E. change (mass_of (Mat j d dv_pure) n) with (mass_of (Mat k d dv_pure) n). lra.
Qed.
Lemma dv_content : same_content dv_a dv_b.
Proof. apply dv_turned. repeat constructor; discriminate. Qed.
Example C125_conversion_case : dv_crun = Ok (dv_cend, dv_cos) /\ Forall2 same_supply (dv_feed dv_a) (dv_feed dv_b) /\ same_converter cv_empty cv_empty /\
  Forall2 (fun e o => qty_of (ve_receipts e) <= wanted o) (dv_feed dv_a) dv_cos /\ exists o, In o dv_cos /\ vo_shipped o <> [].
Proof.
  split; [vm_compute; reflexivity|]. split.
  { constructor; [|constructor; [|constructor; [|constructor]]]; (split; [reflexivity|]; split; [reflexivity|]).
    - split; [exact dv_content|]. split; (apply dv_solid; vm_compute; reflexivity).
    - split; [split; [reflexivity|intro; reflexivity]|]. split; (apply dv_solid; vm_compute; reflexivity).
    - split; [split; [reflexivity|intro; reflexivity]|]. split; constructor. }
  split; [repeat split; constructor|]. split; [vm_compute; repeat constructor; discriminate|].
  eexists. split; [vm_compute; right; left; reflexivity|]. vm_compute. discriminate.
Qed.

(** So does an enrichment facility (for any value function). *)
Theorem C125_enrichment : forall eps eg V aw recipe cfg es es' s s' s2 os,
  0 <= eps -> (forall x y, x == y -> V x == V y) -> Forall2 same_feeding es es' -> same_enricher s s' ->
  b_cap (es_inv s) = Some (ec_max_feed cfg) -> en_run eps eg V aw recipe cfg s es = Ok (s2, os) ->
  Forall2 (fun e o => qty_of (ee_receipts e) <= feed_wanted o) es os ->
  exists s2' os', en_run eps eg V aw recipe cfg s' es' = Ok (s2', os') /\ same_enricher s2 s2' /\ Forall2 same_enrichment os os'.
Proof. exact (fun eps eg V aw recipe cfg es es' s s' s2 os He HV F => en_run_same eps eg V aw recipe cfg He HV es es' F s s' s2 os). Qed.
Print Assumptions C125_enrichment.

(** Natural and depleted feed, cut and turned around; then product and tails are sold. *)
Definition dv_ne (a : list mat) : list en_env :=
  [ {| ee_treqs := []; ee_preqs := []; ee_trades := []; ee_receipts := a |}; EnrichmentProps.nx_e ].
Definition dv_na : list mat := [Mat 1 (12 + 8) EnrichmentProps.nx_feed; Mat 2 4 dv_pure].
Definition dv_nb : list mat := [Mat 1 4 dv_pure; Mat 2 12 EnrichmentProps.nx_feed; Mat 3 8 EnrichmentProps.nx_feed].
Definition dv_nrun := en_run 0 EnrichmentProps.nx_eg EnrichmentProps.nx_V EnrichmentProps.nx_aw EnrichmentProps.nx_recipe EnrichmentProps.nx_cfg
  EnrichmentProps.nx_s0 (dv_ne dv_na).
Definition dv_nend : en_state := state_of EnrichmentProps.nx_s0 dv_nrun.
Definition dv_nos : list en_out := seen dv_nrun.
Lemma dv_ncontent : same_content dv_na dv_nb.
Proof. apply dv_turned. repeat constructor; discriminate. Qed.
Example C125_enrichment_case : dv_nrun = Ok (dv_nend, dv_nos) /\ Forall2 same_feeding (dv_ne dv_na) (dv_ne dv_nb) /\
  (forall x y, x == y -> EnrichmentProps.nx_V x == EnrichmentProps.nx_V y) /\
  same_enricher EnrichmentProps.nx_s0 EnrichmentProps.nx_s0 /\ b_cap (es_inv EnrichmentProps.nx_s0) = Some (ec_max_feed EnrichmentProps.nx_cfg) /\
  Forall2 (fun e o => qty_of (ee_receipts e) <= feed_wanted o) (dv_ne dv_na) dv_nos /\ exists o, In o dv_nos /\ List.length (eo_shipped o) = 2%nat.
Proof.
  split; [vm_compute; reflexivity|]. split.
  { constructor; [|constructor; [|constructor]]; (split; [reflexivity|]; split; [reflexivity|]; split; [reflexivity|]).
    - split; [exact dv_ncontent|]. split; (apply dv_solid; vm_compute; reflexivity).
    - split; [split; [reflexivity|intro; reflexivity]|]. split; (apply dv_solid; vm_compute; reflexivity). }
  split; [intros x y E; unfold EnrichmentProps.nx_V; rewrite E; reflexivity|].
  split; [let v := eval vm_compute in EnrichmentProps.nx_s0 in change EnrichmentProps.nx_s0 with v; repeat split; constructor|]. split; [reflexivity|]. split; [vm_compute; repeat constructor; discriminate|].
  eexists. split; [vm_compute; right; left; reflexivity|]. vm_compute. reflexivity.
Qed.

(** A mixer whose streams get the same material in the same order, however divided. *)
Theorem C125_mixer : forall eps cfg es es' s s' s2 os,
  0 <= eps -> same_mixer s s' -> mx_run eps cfg s es = Ok (s2, os) -> streams_fed os es es' ->
  exists s2' os', mx_run eps cfg s' es' = Ok (s2', os') /\ same_mixer s2 s2' /\ Forall2 same_mixing os os'.
Proof. exact (fun eps cfg es es' s s' s2 os He => mx_run_same eps cfg He es es' s s' s2 os). Qed.
Print Assumptions C125_mixer.

(** The worked history of C30, with the first delivery of the first stream cut in two. *)
Definition dv_xe (l : list (nat * mat)) : list mx_env :=
  [ {| xe_sales := []; xe_receipts := l |}; {| xe_sales := [1]; xe_receipts := [] |} ].
Definition dv_xa : list (nat * mat) := [(0%nat, Mat 1 (4 + 5) MixerProps.xx_a); (1%nat, Mat 2 2 MixerProps.xx_a); (2%nat, Mat 3 2 MixerProps.xx_b)].
Definition dv_xb : list (nat * mat) :=
  [(0%nat, Mat 5 4 MixerProps.xx_a); (1%nat, Mat 6 2 MixerProps.xx_a); (2%nat, Mat 7 2 MixerProps.xx_b); (0%nat, Mat 8 5 MixerProps.xx_a)].
Definition dv_xrun := mx_run 0 MixerProps.xx_cfg MixerProps.xx_s0 (dv_xe dv_xa).
Definition dv_xend : mx_state := state_of MixerProps.xx_s0 dv_xrun.
Definition dv_xos : list mx_out := seen dv_xrun.
Lemma dv_layers_u : same_layers [Mat 1 (4 + 5) MixerProps.xx_a] [Mat 5 4 MixerProps.xx_a; Mat 8 5 MixerProps.xx_a].
Proof. apply layers_split; [reflexivity|reflexivity|]. assert (A : mats_ok [Mat 1 (4 + 5) MixerProps.xx_a]) by (apply mats_okb_sound; vm_compute; reflexivity). inversion A; assumption. Qed.
Lemma dv_layers_p : same_layers [Mat 2 2 MixerProps.xx_a; Mat 3 2 MixerProps.xx_b] [Mat 6 2 MixerProps.xx_a; Mat 7 2 MixerProps.xx_b].
Proof.
  assert (A : mats_ok [Mat 2 2 MixerProps.xx_a; Mat 3 2 MixerProps.xx_b; Mat 6 2 MixerProps.xx_a; Mat 7 2 MixerProps.xx_b]) by (apply mats_okb_sound; vm_compute; reflexivity).
  inversion A as [|? ? A1 A']; subst. inversion A' as [|? ? A2 A'']; subst. inversion A'' as [|? ? A3 A4']; subst. inversion A4' as [|? ? A4 ?]; subst.
  apply (layers_app [_] [_] [_] [_]); try (constructor; auto; constructor); apply layers_one; auto; (split; [reflexivity|intro; reflexivity]).
Qed.
Example C125_mixer_case : dv_xrun = Ok (dv_xend, dv_xos) /\ same_mixer MixerProps.xx_s0 MixerProps.xx_s0 /\ streams_fed dv_xos (dv_xe dv_xa) (dv_xe dv_xb) /\
  exists o, In o dv_xos /\ xo_shipped o <> [].
Proof.
  split; [vm_compute; reflexivity|]. split.
  { split; [reflexivity|]. split; [|split; [reflexivity|constructor]].
    let v := eval vm_compute in (xs_bufs MixerProps.xx_s0) in change (xs_bufs MixerProps.xx_s0) with v.
    repeat (apply Forall2_cons || apply Forall2_nil); (split; [reflexivity|]; split; [apply layers_refl|split; constructor]). }
  split.
  { let v := eval vm_compute in dv_xos in change dv_xos with v. cbn [streams_fed dv_xe]. split; [|split; [|exact I]]; (split; [reflexivity|]).
    - split; [vm_compute; repeat constructor|]. split; [apply dv_solid; vm_compute; reflexivity|]. split; [apply dv_solid; vm_compute; reflexivity|]. split.
      + intro i. destruct i as [|[|i]]; [exact dv_layers_u|exact dv_layers_p|exact (layers_refl [])].
      + intros p q Ip Eq. destruct Ip as [<-|[<-|[]]]; cbn [xr_qty] in Eq; (discriminate Eq || (injection Eq as <-; vm_compute; discriminate)).
    - split; [constructor|]. split; [constructor|]. split; [constructor|]. split; [intro i; exact (layers_refl [])|].
      intros p q Ip Eq. destruct Ip as [<-|[<-|[]]]; cbn [xr_qty] in Eq; (discriminate Eq || (injection Eq as <-; vm_compute; discriminate)). }
  eexists. split; [vm_compute; right; left; reflexivity|]. vm_compute. discriminate.
Qed.

(** Beyond the request division matters, because every parcel may exceed the space that is left by the tolerance: a full feed store
    refuses one parcel of twice the tolerance, but takes the same material in two parcels. *)
Theorem C125_limit_refuted : exists eps recipe cfg prefs s e e', 0 < eps /\ same_deliveries e e' /\ same_plant s s /\
  b_cap (ps_feed s) = Some (pc_feed_size cfg) /\
  sp_step eps recipe cfg prefs s e = Throw ValueError /\
  exists s1 o, sp_step eps recipe cfg prefs s e' = Ok (s1, o) /\ qty_of (b_items (ps_feed s1)) == pc_feed_size cfg + 2 * eps.
Proof.
  exists (1 # 10), (fun _ => None), dv_cfg, [1], dv_s0,
    {| pe_time := 0; pe_reqs := fun _ => []; pe_trades := []; pe_receipts := [Mat 1 100 dv_mix] ++ [Mat 2 ((1 # 10) + (1 # 10)) dv_mix] |},
    {| pe_time := 0; pe_reqs := fun _ => []; pe_trades := []; pe_receipts := [Mat 1 100 dv_mix] ++ [Mat 2 (1 # 10) dv_mix; Mat 3 (1 # 10) dv_mix] |}.
  split; [reflexivity|]. split.
  { split; [reflexivity|]. split; [reflexivity|]. split; [reflexivity|]. split; [|split; (apply dv_solid; vm_compute; reflexivity)].
    assert (A : mats_ok [Mat 1 100 dv_mix]) by (apply mats_okb_sound; vm_compute; reflexivity).
    cbn [pe_receipts]. apply layers_app; auto using layers_refl. apply layers_split; [reflexivity|reflexivity|].
    assert (B : mats_ok [Mat 2 ((1 # 10) + (1 # 10)) dv_mix]) by (apply mats_okb_sound; vm_compute; reflexivity). inversion B; assumption. }
  split; [repeat split; repeat constructor|]. split; [reflexivity|]. split; [vm_compute; reflexivity|].
  eexists. eexists. split; [vm_compute; reflexivity|]. vm_compute. reflexivity.
Qed.
Print Assumptions C125_limit_refuted.
