(** Every facility that can be started has a counterpart in the other unit (C138). *)
From Coq Require Import Lia Lqa.
From Verif Require Import Outcome KernelMaterial KernelResBuf KernelBuf KernelFacts KernelMass NetworkSpec SimulationSpec ScaleSpec ScaleProofs UnitSpec UnitProofs.
From Verif Require ReactorModel ReactorSpec StorageModel StorageSpec ConversionModel MixerModel MixerSpec SinkModel SinkSpec SourceModel ScaleSimple ScaleFlow ScaleReactor EnrichmentSpec.
Local Open Scope Q_scope.

Lemma t_k k x : times k x (k * x). Proof. unfold times. reflexivity. Qed.
Lemma deployed_more k w w' t f : 0 < k -> world_ok w -> world_more k w w' -> deployed w t f -> exists f', scaled k f f' /\ deployed w' t f'.
Proof.
  intros K W WM. pose proof (recipes_real w W) as RR. destruct WM as (E & Eg & Er). destruct f as [c s|c s|c s|c s|c s|c s]; cbn [deployed].
  - intros [A ->]. exists (Conv {| ConversionModel.vc_incommods := ConversionModel.vc_incommods c; ConversionModel.vc_outcommod := ConversionModel.vc_outcommod c;
      ConversionModel.vc_throughput := k * ConversionModel.vc_throughput c; ConversionModel.vc_capacity := k * ConversionModel.vc_capacity c |} ConversionModel.cv_empty).
    split; [split; [repeat split; cbn; apply t_k|split; constructor]|]. cbn. split; [apply Qmult_lt_0_compat; assumption|reflexivity].
  - intros (A & B & ->). exists (Stor {| StorageModel.sc_in_commods := StorageModel.sc_in_commods c; StorageModel.sc_in_prefs := StorageModel.sc_in_prefs c; StorageModel.sc_out_commods := StorageModel.sc_out_commods c;
      StorageModel.sc_in_recipe := StorageModel.sc_in_recipe c; StorageModel.sc_residence := StorageModel.sc_residence c; StorageModel.sc_throughput := k * StorageModel.sc_throughput c;
      StorageModel.sc_max_inv := k * StorageModel.sc_max_inv c; StorageModel.sc_discrete := StorageModel.sc_discrete c; StorageModel.sc_package := StorageModel.sc_package c;
      StorageModel.sc_transport_unit := StorageModel.sc_transport_unit c; StorageModel.sc_reorder_point := StorageModel.sc_reorder_point c; StorageModel.sc_reorder_quantity := StorageModel.sc_reorder_quantity c; StorageModel.sc_cumulative_cap := StorageModel.sc_cumulative_cap c |} StorageModel.st_empty).
    split; [split; [repeat split; cbn; apply t_k|repeat split; constructor]|]. cbn. split; [exact A|]. split; [|reflexivity]. destruct B as [B|B]; [left; exact B|right; apply Qmult_lt_0_compat; assumption].
  - intros [(A1 & A2 & A3) B]. set (c' := {| MixerModel.xc_streams := map (fun x => {| MixerModel.xs_ratio := MixerModel.xs_ratio x; MixerModel.xs_size := k * MixerModel.xs_size x; MixerModel.xs_commods := MixerModel.xs_commods x |}) (MixerModel.xc_streams c);
      MixerModel.xc_out_commod := MixerModel.xc_out_commod c; MixerModel.xc_out_size := k * MixerModel.xc_out_size c; MixerModel.xc_throughput := k * MixerModel.xc_throughput c |}).
    assert (C : mx_cfg_more k c c').
    { split; [|repeat split; cbn; apply t_k]. cbn. clear. induction (MixerModel.xc_streams c) as [|x l IH]; [constructor|]. cbn. constructor; [|exact IH]. repeat split. }
    pose proof (ScaleFlow.mx_enter_more k K _ _ _ _ _ _ E C (ScaleFlow.mx_new_more k _ _ C)) as M. rewrite B in M. destruct (MixerModel.mx_enter (w_eps w') c' (MixerModel.mx_new c')) as [s'| | |] eqn:X; try contradiction.
    exists (Mixr c' s'). split; [split; [exact C|exact M]|]. split; [|exact X]. split; [cbn; destruct (MixerModel.xc_streams c); [congruence|discriminate]|]. split; [cbn; apply Qmult_le_0_compat; lra|].
    cbn. destruct A3 as [A3|A3]; [left|right]; rewrite Forall_map; exact A3.
  - intros [A B]. set (c' := {| SourceModel.sc_commod := SourceModel.sc_commod c; SourceModel.sc_recipe := SourceModel.sc_recipe c; SourceModel.sc_inv_size := k * SourceModel.sc_inv_size c; SourceModel.sc_throughput := k * SourceModel.sc_throughput c |}).
    assert (C : sr_cfg_more k c c') by (repeat split; cbn; apply t_k). pose proof (ScaleFlow.sr_build_more k K _ RR _ _ _ _ E C) as M. rewrite B in M.
    destruct (SourceModel.sr_build (w_eps w') (w_recipe w) c') as [s'| | |] eqn:X; try contradiction. exists (Srce c' s'). split; [split; [exact C|exact M]|]. cbn [deployed]. rewrite Er. split; [cbn; apply Qmult_le_0_compat; lra|exact X].
  - intros (A1 & A2 & A3 & A4 & g & B). set (c' := {| SinkModel.kc_commods := SinkModel.kc_commods c; SinkModel.kc_prefs := SinkModel.kc_prefs c; SinkModel.kc_recipe := SinkModel.kc_recipe c;
      SinkModel.kc_max_inv := k * SinkModel.kc_max_inv c; SinkModel.kc_capacity := k * SinkModel.kc_capacity c; SinkModel.kc_size_type := SinkModel.kc_size_type c; SinkModel.kc_size_mean := SinkModel.kc_size_mean c;
      SinkModel.kc_size_stddev := SinkModel.kc_size_stddev c; SinkModel.kc_freq_type := SinkModel.kc_freq_type c; SinkModel.kc_freq_mean := SinkModel.kc_freq_mean c; SinkModel.kc_freq_stddev := SinkModel.kc_freq_stddev c;
      SinkModel.kc_freq_min := SinkModel.kc_freq_min c; SinkModel.kc_freq_max := SinkModel.kc_freq_max c |}).
    assert (C : sk_cfg_more k c c') by (repeat split; cbn; apply t_k).
    set (amt := SinkModel.sk_available c (SinkModel.sk_new c)).
    set (g' := {| SinkModel.g_uniform_real := fun _ _ => k * SinkModel.g_uniform_real g 0 amt;
                  SinkModel.g_normal_real := fun _ _ _ _ => k * SinkModel.g_normal_real g (amt * SinkModel.kc_size_mean c) (amt * SinkModel.kc_size_stddev c) 0 amt;
                  SinkModel.g_uniform_int := SinkModel.g_uniform_int g; SinkModel.g_normal_int := SinkModel.g_normal_int g |}).
    pose proof (ScaleSimple.sk_av_more k K _ _ _ _ C (ScaleSimple.sk_new_more k _ _ C)) as AV. fold amt in AV.
    unfold SinkModel.sk_enter in B. destruct (match SinkModel.ks_prefs (SinkModel.sk_new c) with [] => _ | _ => _ end) as [p| | |] eqn:P; try discriminate B. cbn [bind] in B.
    assert (S' : exists s', SinkModel.sk_enter c' g' t (SinkModel.sk_new c') = Ok s' /\ sk_more k s s').
    { unfold SinkModel.sk_enter. change (SinkModel.ks_prefs (SinkModel.sk_new c')) with (SinkModel.ks_prefs (SinkModel.sk_new c)). change (SinkModel.kc_commods c') with (SinkModel.kc_commods c). rewrite P. cbn [bind].
      eexists. split; [reflexivity|]. injection B as <-. split; [reflexivity|]. split; [constructor|]. split; [|reflexivity]. cbn [SinkModel.ks_amt]. unfold SinkModel.sk_request_amt. cbv zeta.
      change (SinkModel.kc_size_type c') with (SinkModel.kc_size_type c).
      change (SinkModel.sk_available c {| SinkModel.ks_prefs := p; SinkModel.ks_inv := SinkModel.ks_inv (SinkModel.sk_new c); SinkModel.ks_amt := SinkModel.ks_amt (SinkModel.sk_new c); SinkModel.ks_next := SinkModel.ks_next (SinkModel.sk_new c) |}) with amt.
      destruct (String.eqb (SinkModel.kc_size_type c) "None"); [exact AV|]. destruct (String.eqb (SinkModel.kc_size_type c) "UniformReal"); [apply t_k|]. destruct (String.eqb (SinkModel.kc_size_type c) "NormalReal"); [apply t_k|exact AV]. }
    destruct S' as (s' & X & M). exists (Snk c' s'). split; [split; [exact C|exact M]|]. cbn [deployed]. rewrite Er. split; [cbn; apply Qmult_le_0_compat; lra|]. split; [cbn; apply Qmult_le_0_compat; lra|].
    split; [exact A3|]. split; [exact A4|]. exists g'. exact X.
  - intros (A1 & A2 & A3 & A4).
    set (c' := {| ReactorModel.n_batch := ReactorModel.n_batch c; ReactorModel.n_core := ReactorModel.n_core c; ReactorModel.n_fresh := ReactorModel.n_fresh c; ReactorModel.n_spent := ReactorModel.n_spent c;
      ReactorModel.assem := k * ReactorModel.assem c; ReactorModel.cycle_t := ReactorModel.cycle_t c; ReactorModel.refuel_t := ReactorModel.refuel_t c;
      ReactorModel.power_cap := ReactorModel.power_cap c; ReactorModel.incommods := ReactorModel.incommods c; ReactorModel.outcommods := ReactorModel.outcommods c;
      ReactorModel.side_products := ReactorModel.side_products c; ReactorModel.side_qty := ReactorModel.side_qty c; ReactorModel.decom_all := ReactorModel.decom_all c;
      ReactorModel.pc_times := ReactorModel.pc_times c; ReactorModel.pc_commods := ReactorModel.pc_commods c; ReactorModel.pc_vals := ReactorModel.pc_vals c;
      ReactorModel.rc_times := ReactorModel.rc_times c; ReactorModel.rc_commods := ReactorModel.rc_commods c; ReactorModel.rc_in := ReactorModel.rc_in c; ReactorModel.rc_out := ReactorModel.rc_out c;
      ReactorModel.exit_t := ReactorModel.exit_t c |}).
    set (bb := fun b : resbuf => {| rb_cap := k * rb_cap b; rb_items := [] |}).
    set (s' := {| ReactorModel.fresh := bb (ReactorModel.fresh s); ReactorModel.core := bb (ReactorModel.core s); ReactorModel.spent := bb (ReactorModel.spent s);
      ReactorModel.inrecipes := ReactorModel.inrecipes s; ReactorModel.outrecipes := ReactorModel.outrecipes s; ReactorModel.prefs := ReactorModel.prefs s;
      ReactorModel.cyc := ReactorModel.cyc s; ReactorModel.disch := ReactorModel.disch s; ReactorModel.idx := ReactorModel.idx s; ReactorModel.hybrid := ReactorModel.hybrid s |}).
    unfold ReactorSpec.assemblies in A4. apply app_eq_nil in A4 as [N1 A4]. apply app_eq_nil in A4 as [N2 N3].
    exists (Reac c' s'). split.
    { split; [split; [apply t_k|reflexivity]|]. unfold rx_more, more_resbuf. cbn. rewrite N1, N2, N3. repeat split; try constructor; apply t_k. }
    cbn [deployed]. rewrite Er. split; [|split; [exact A2|split; [|reflexivity]]].
    + destruct A1 as [C1 C2 C3 C4 C5 C6 C7 C8 C9 C10 C11 C12 C13 C14]. constructor; cbn; try assumption. apply Qmult_lt_0_compat; assumption.
    + destruct A3 as [L C _ _ T R _]. destruct C as (X1 & X2 & X3). constructor.
      * destruct L as (L1 & L2 & L3). rewrite N1 in L1. rewrite N2 in L2. rewrite N3 in L3. split; [exact L1|]. split; [exact L2|exact L3].
      * cbn. split; [rewrite X1; ring|]. split; [rewrite X2; ring|rewrite X3; ring].
      * constructor.
      * constructor.
      * exact T.
      * exact R.
      * constructor.
Qed.

(** ** Every scenario has a counterpart *)
Definition big_rng (k : Q) (g : SinkModel.rng) : SinkModel.rng :=
  {| SinkModel.g_uniform_real := fun a b => k * SinkModel.g_uniform_real g (a / k) (b / k);
     SinkModel.g_normal_real := fun m s a b => k * SinkModel.g_normal_real g (m / k) (s / k) (a / k) (b / k);
     SinkModel.g_uniform_int := SinkModel.g_uniform_int g; SinkModel.g_normal_int := SinkModel.g_normal_int g |}.
Lemma big_rng_more k g : 0 < k -> plain_rng g -> rng_more k g (big_rng k g).
Proof.
  intros K [P1 P2]. assert (D : forall a a', times k a a' -> a' / k == a) by (intros a a' H; unfold times in H; rewrite H; field; lra).
  split; [|split; [|split; reflexivity]].
  - intros a b a' b' A B. cbn. unfold times. rewrite (P1 (a' / k) (b' / k) a b) by auto. reflexivity.
  - intros m s a b m' s' a' b' M S A B. cbn. unfold times. rewrite (P2 (m' / k) (s' / k) (a' / k) (b' / k) m s a b) by auto. reflexivity.
Qed.
Definition big_signal (k : Q) (g : signal) : signal :=
  {| g_reqs := fun c => map (Qmult k) (g_reqs g c); g_wants := map (fun r => (fst r, Mat (m_id (snd r)) (k * m_qty (snd r)) (m_comp (snd r)))) (g_wants g);
     g_rng := big_rng k (g_rng g); g_rng2 := big_rng k (g_rng2 g) |}.
Definition big_trade (k : Q) (d : trade) : trade :=
  {| t_from := t_from d; t_to := t_to d; t_commod := t_commod d; t_slot := t_slot d; t_amt := k * t_amt d; t_want := t_want d |}.
Lemma big_signal_more k g : 0 < k -> plain_rng (g_rng g) -> plain_rng (g_rng2 g) -> Forall (fun r => ~ csum (m_comp (snd r)) == 0) (g_wants g) -> signal_more k g (big_signal k g).
Proof.
  intros K P1 P2 P3. split; [|split; [|split; apply big_rng_more; assumption]].
  - intro c. cbn. induction (g_reqs g c) as [|q l IH]; [constructor|]. cbn. constructor; [apply t_k|exact IH].
  - cbn. induction P3 as [|r l H _ IH]; [constructor|]. cbn. constructor; [|exact IH]. split; [reflexivity|]. split; cbn; [apply t_k|]. apply mix_refl; assumption.
Qed.
Lemma counterpart k w w' : 0 < k -> world_ok w -> world_more k w w' -> forall id0 ms t id fs, plays w id0 ms t id fs -> Forall plain ms ->
  exists ms' fs', Forall2 (move_more k w') ms ms' /\ plays w' id0 ms' t id fs' /\ Forall2 (scaled k) fs fs'.
Proof.
  intros K W WM id0 ms t id fs P PL.
  assert (X : exists ms', Forall2 (move_more k w') ms ms').
  { revert PL. induction P as [|ms t id fs f P IH D|ms t id a f b P IH|ms t id fs gs ds fs1 sent P IH G O N]; intro PL.
    - exists []. constructor.
    - apply Forall_app in PL as [PL _]. destruct (IH PL) as (ms' & M). destruct (deployed_more k w w' t f K W WM D) as (f' & F1 & F2). exists (ms' ++ [Deploy t f']). apply Forall2_app; [exact M|].
      constructor; [|constructor]. repeat split; assumption.
    - apply Forall_app in PL as [PL _]. destruct (IH PL) as (ms' & M). exists (ms' ++ [Retire (List.length a)]). apply Forall2_app; [exact M|]. constructor; [reflexivity|constructor].
    - apply Forall_app in PL as [PL PT]. inversion PT as [|? ? PX _]; subst. cbn in PX. destruct (IH PL) as (ms' & M). exists (ms' ++ [Trade (fun i => big_signal k (gs i)) (map (big_trade k) ds)]). apply Forall2_app; [exact M|].
      constructor; [|constructor]. split; [intro i; destruct (PX i) as (P1 & P2 & P3); apply big_signal_more; assumption|]. clear. induction ds as [|d l IH]; [constructor|]. cbn. constructor; [|exact IH]. repeat split. }
  destruct X as (ms' & M). destruct (scenario k w w' id0 ms ms' t id fs K W WM P M) as (fs' & P' & S & _). exists ms', fs'. auto.
Qed.
