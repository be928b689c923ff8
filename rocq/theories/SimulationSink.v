(** C128: the sink in an orderly exchange. *)
From Coq Require Import Lia Lqa.
From Verif Require Import Outcome KernelMaterial KernelResBuf KernelBuf KernelFacts KernelMass NetworkSpec SimulationSpec SimulationProofs.
From Verif Require Import SinkModel SinkSpec SinkProofs.
Local Open Scope Q_scope.

Lemma sunk_mats (ms : list mat) : sunk (map rsrc_of_mat ms) = map (fun m => Mat 0 (m_qty m) (m_comp m)) ms.
Proof. induction ms as [|m ms IH]; [reflexivity|]. cbn. f_equal. exact IH. Qed.
Lemma nameless_qty (ms : list mat) : qty_of (map (fun m => Mat 0 (m_qty m) (m_comp m)) ms) == qty_of ms.
Proof. induction ms as [|m ms IH]; [reflexivity|]. cbn [map]. rewrite !qty_of_cons, IH. reflexivity. Qed.
Lemma nameless_mass n (ms : list mat) : mass_in n (map (fun m => Mat 0 (m_qty m) (m_comp m)) ms) == mass_in n ms.
Proof. induction ms as [|m ms IH]; [reflexivity|]. cbn [map]. rewrite !mass_in_cons, IH. reflexivity. Qed.

Lemma sink_works w t id id' g c s : world_ok w -> signal_ok g -> good w t id (Snk c s) -> works w t id id' g (Snk c s).
Proof.
  intros (EP & EG & _) (G1 & G2) (HC & HM & CN & RC & [P1 P2] & B & OI).
  set (a := amount c (g_rng g) t s). pose proof (amount_range c HC (g_rng g) t s G1) as [A0 A]. fold a in A0, A.
  assert (TK : exists s1 d, sk_tick (w_eg w) c (g_rng g) t s = Ok (s1, d)).
  { unfold sk_tick. set (s1 := if Z.eqb (ks_next s) (-1) then _ else _). destruct (Qltb (w_eg w) (ks_amt s1)); [|eauto].
    destruct (kc_commods c); [congruence|]. cbn. eauto. }
  destruct TK as (s1 & d & T).
  pose proof (tick_facts _ _ _ _ _ _ _ T) as (TP & TI & (TA & TN) & _). fold (buying t s) in TA. fold (amount c (g_rng g) t s) in TA. fold a in TA.
  destruct (request_same c (g_rng g) s s1 TI) as [AV _].
  assert (E : Qltb (sk_available c s1) (ks_amt s1) = false) by (unfold Qltb; apply negb_false_iff, Qle_bool_iff; rewrite AV, TA; exact A).
  assert (RQ : exists mr, sk_mat_requests (w_eg w) (w_recipe w) c (g_rng2 g) s1 = Ok (s1, mr)).
  { unfold sk_mat_requests. rewrite E.
    assert (X : exists k, (if String.eqb (kc_recipe c) "" then Ok None
             else match w_recipe w (kc_recipe c) with Some k => Ok (Some k) | None => Throw KeyError end) = Ok k).
    { destruct (String.eqb (kc_recipe c) "") eqn:Z; [eauto|]. destruct RC as [RC|RC]; [rewrite RC in Z; discriminate|].
      destruct (w_recipe w (kc_recipe c)); [eauto|congruence]. }
    destruct X as (k & ->). cbn [bind]. destruct (Qltb (w_eg w) (ks_amt s1)); [|eauto].
    rewrite (requests_items Q) by (rewrite TP; exact P2). cbn [bind]. eauto. }
  destruct RQ as (mr & RQ).
  assert (ME : match mr with Some r => mq_qty r = a | None => True end).
  { apply mat_requests_facts in RQ as [_ ->]; [|rewrite AV, TA; exact A|rewrite TP; exact P2]. destruct (Qltb (w_eg w) (ks_amt s1)); [exact TA|exact I]. }
  unfold works. cbn [publish]. rewrite T. cbn [bind]. rewrite RQ. cbn [bind]. eexists. split; [reflexivity|]. intros S R HS HR AR _.
  rewrite (sales_none _ _ HS eq_refl) in *. clear HS.
  assert (L : map snd R = [] \/ qty_of (map snd R) <= a).
  { destruct mr as [r|].
    - destruct (buys_one _ _ _ _ HR eq_refl eq_refl) as [N|L]; [left; destruct R; [reflexivity|discriminate]|right]. rewrite ME in L. rewrite (got_total _ _ _ AR). exact L.
    - left. pose proof (buys_none _ _ HR eq_refl). destruct R; [reflexivity|discriminate]. }
  pose proof (got_ok _ _ _ AR) as OR.
  assert (NM : Forall (fun r => 0 <= r_qty r) (map rsrc_of_mat (map snd R))).
  { apply Forall_map. eapply Forall_impl; [|exact OR]. intros m (X & _). exact X. }
  assert (QE : qsum (map r_qty (map rsrc_of_mat (map snd R))) = qty_of (map snd R)) by (rewrite map_map; reflexivity).
  assert (SP : qty_of (map snd R) <= kc_max_inv c - held s).
  { destruct L as [->|L]; [rewrite qty_of_nil; lra|]. rewrite available_eq in A by exact HC.
    assert (FF : free c s <= kc_max_inv c - held s) by apply Q.le_min_r.
    destruct (Q.max_spec 0 (free c s)) as [[Y Z]|[Y Z]]; rewrite Z in A; lra. }
  destruct (accept_ok (w_eps w) c _ EP NM s1) as (s3 & A1). { unfold held. rewrite TI. fold (held s). rewrite QE. exact SP. }
  set (e := {| ke_rng := g_rng g; ke_rng2 := g_rng2 g; ke_mats := map snd R; ke_prods := [] |}).
  assert (ST : sk_step (w_eps w) (w_eg w) (w_recipe w) c t s e = Ok (s3, {| ko_demand := d; ko_mat := mr; ko_gen := sk_gen_requests (w_eg w) c s3 |})).
  { unfold sk_step. cbn [ke_rng ke_rng2 ke_mats ke_prods e]. rewrite T. cbn [bind]. rewrite RQ. cbn [bind]. rewrite A1. reflexivity. }
  destruct (step_facts _ _ _ _ HC t s e _ _ G1 G2 (conj P1 P2) ST) as (PR & IN & _).
  assert (AE : arrivals e = map rsrc_of_mat (map snd R)) by (unfold arrivals; cbn; rewrite app_nil_r; reflexivity).
  exists (Snk c s3), []. cbn [fstep]. fold e. rewrite ST. cbn [bind]. split; [reflexivity|]. split; [constructor|]. split; [|split; [cbn; tauto|]].
  - split; [exact HC|]. split; [exact HM|]. split; [exact CN|]. split; [exact RC|]. split; [exact PR|].
    split; [unfold held; rewrite IN, AE, map_app, SinkProofs.qsum_app, QE; fold (held s); lra|].
    cbn [inside] in *. rewrite IN, AE. unfold sunk. rewrite flat_map_app. fold (sunk (ks_inv s)). fold (sunk (map rsrc_of_mat (map snd R))). rewrite sunk_mats.
    apply Forall_app. split; [exact OI|]. apply Forall_map. exact OR.
  - cbn [inside]. rewrite IN, AE. unfold sunk. rewrite flat_map_app. fold (sunk (ks_inv s)). fold (sunk (map rsrc_of_mat (map snd R))). rewrite sunk_mats. split.
    + rewrite qty_of_app, qty_of_nil, nameless_qty. ring.
    + intros _ n. rewrite mass_in_app, mass_in_nil, nameless_mass. ring.
Qed.
