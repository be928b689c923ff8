(** Proofs for C70: when a fabrication facility makes offers at all. *)
From Coq Require Import Lqa.
From Verif Require Import Outcome KernelMaterial KernelResBuf KernelFacts KernelMass KernelBuf FuelFabModel FuelFabSpec FuelFabMath FuelFabProofs.
Local Open Scope Q_scope.

Lemma offer_answers nz D cfg st k tgt q : exists o, ff_offer nz D cfg st k tgt q = Ok o.
Proof.
  unfold ff_offer. cbv zeta. destruct (valid_weights (fs_wfill st) _ (fs_wfiss st)) eqn:V1.
  - apply valid_iff in V1. destruct (high_frac_ok nz _ _ _ V1) as (f & HF & _). rewrite HF. eexists. reflexivity.
  - destruct (Nat.ltb 0 k); cbn [andb]; [|eexists; reflexivity]. destruct (valid_weights (fs_wfiss st) _ (fs_wtopup st)) eqn:V2; [|eexists; reflexivity].
    apply valid_iff in V2. destruct (high_frac_ok nz _ _ _ V2) as (f & HF & _). rewrite HF. eexists. reflexivity.
Qed.
Lemma offers_answer nz D cfg st k : forall reqs j, exists os, ff_offers nz D cfg st k j reqs = Ok os.
Proof.
  induction reqs as [|[tgt q] reqs IH]; intro j; [eexists; reflexivity|]. cbn [ff_offers]. destruct (offer_answers nz D cfg st k tgt q) as (o & ->). destruct (IH (S j)) as (os & X). cbn [bind]. rewrite X. eexists. reflexivity.
Qed.
Lemma weigh_answers D recipe cfg s : (b_items (fb_fill s) = [] -> recipe (fc_fill_recipe cfg) <> None) -> (fc_fiss_recipe cfg <> ""%string -> recipe (fc_fiss_recipe cfg) <> None) ->
  (fc_topup_recipe cfg <> ""%string -> recipe (fc_topup_recipe cfg) <> None) -> exists st, ff_weigh D recipe cfg s = Ok st.
Proof.
  intros A B C. unfold ff_weigh, get_recipe. cbv zeta.
  destruct (b_items (fb_fill s)) as [|ml ?]; [destruct (recipe (fc_fill_recipe cfg)) as [cl|]; [|exfalso; apply A; reflexivity]|]; cbn [bind];
  (destruct (b_items (fb_topup s)) as [|mt ?]; [destruct (String.eqb_spec (fc_topup_recipe cfg) "") as [_|N]; [|specialize (C N); destruct (recipe (fc_topup_recipe cfg)); [|congruence]]|]); cbn [bind];
  (destruct (b_items (fb_fiss s)) as [|mf ?]; [destruct (String.eqb_spec (fc_fiss_recipe cfg) "") as [_|N']; [|specialize (B N'); destruct (recipe (fc_fiss_recipe cfg)); [|congruence]]|]); cbn [bind];
  eexists; reflexivity.
Qed.
Lemma when_final nz D recipe cfg s reqs : (b_items (fb_fill s) = [] -> recipe (fc_fill_recipe cfg) <> None) -> (fc_fiss_recipe cfg <> ""%string -> recipe (fc_fiss_recipe cfg) <> None) ->
  (fc_topup_recipe cfg <> ""%string -> recipe (fc_topup_recipe cfg) <> None) ->
  (~ fc_throughput cfg == 0 /\ reqs <> [] -> exists B, ff_get_bids nz D recipe cfg s reqs = Ok (Some B)) /\
  (fc_throughput cfg == 0 \/ reqs = [] -> ff_get_bids nz D recipe cfg s reqs = Ok None).
Proof.
  intros A B C. unfold ff_get_bids. destruct (Qeq_bool (fc_throughput cfg) 0) eqn:E.
  - apply Qeq_bool_iff in E. split; [intros [N _]; contradiction|reflexivity].
  - apply Qeq_bool_neq in E. split.
    + intros [_ N]. destruct reqs as [|r reqs]; [contradiction|]. destruct (weigh_answers D recipe cfg s A B C) as (st & ->). cbn [bind].
      destruct (offers_answer nz D cfg st (b_count (fb_topup s)) (r :: reqs) 0) as (os & ->). cbn [bind]. eexists. reflexivity.
    + intros [Z|Z]; [contradiction|]. subst reqs. reflexivity.
Qed.
