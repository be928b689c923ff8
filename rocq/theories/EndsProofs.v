(** Proofs for C149. *)
From Coq Require Import Lia Lqa List.
From Verif Require Import Outcome KernelMaterial KernelResBuf KernelBuf KernelFacts KernelMass NetworkSpec NetworkProofs SimulationSpec SimulationProofs SimulationNetwork LedgerSpec LedgerProofs CareerSpec CareerProofs PassProofs.
From Verif Require ReactorModel ReactorSpec SourceModel SinkModel SinkProofs.
Import ListNotations.
Local Open Scope Q_scope.

Lemma nameless P : forall ds sent id, map (fun x : trade * mat => Mat 0 (m_qty (snd x)) (m_comp (snd x))) (filter (fun x => P (fst x)) (combine ds (renumber id sent))) =
  map (fun x : trade * mat => Mat 0 (m_qty (snd x)) (m_comp (snd x))) (filter (fun x => P (fst x)) (combine ds sent)).
Proof.
  induction ds as [|d ds IH]; intros [|m sent] id; try reflexivity. cbn [renumber combine filter fst]. destruct (P d); cbn [map snd m_qty m_comp]; rewrite IH; reflexivity.
Qed.
Lemma sunk_mats ms : sunk (map SinkModel.rsrc_of_mat ms) = map (fun m => Mat 0 (m_qty m) (m_comp m)) ms.
Proof. induction ms as [|m ms IH]; [reflexivity|]. cbn. f_equal. exact IH. Qed.
Lemma mat_requests_inv eg recipe cfg g s s' r : SinkModel.sk_mat_requests eg recipe cfg g s = Ok (s', r) -> SinkModel.ks_inv s' = SinkModel.ks_inv s.
Proof.
  unfold SinkModel.sk_mat_requests. intro H. apply bind_ok in H as (c & _ & H). revert H.
  set (s1 := if Qltb (SinkModel.sk_available cfg s) (SinkModel.ks_amt s) then _ else s). assert (E : SinkModel.ks_inv s1 = SinkModel.ks_inv s) by (unfold s1; destruct (Qltb _ _); reflexivity).
  destruct (Qltb eg (SinkModel.ks_amt s1)); intro H; [apply bind_ok in H as (items & _ & H)|]; injection H as <- _; exact E.
Qed.
Lemma sink_publish w t g c s n : publish w t g (Snk c s) = Ok n -> n_offers n = [].
Proof. cbn [publish]. intro H. apply bind_ok in H as ([s1 d] & _ & H). apply bind_ok in H as ([s2 r] & _ & H). injection H as <-. reflexivity. Qed.
Lemma source_publish w t g c s n : publish w t g (Srce c s) = Ok n -> n_asks n = [].
Proof. cbn [publish]. intro H. apply bind_ok in H as ([s1 p] & _ & H). injection H as <-. reflexivity. Qed.
Lemma none_sold n ds : n_offers n = [] -> sales_ok n ds -> ds = [].
Proof. intros E [F _]. destruct ds as [|d ds]; [reflexivity|]. inversion F as [|? ? (_ & _ & _ & o & I & _) _]; subst. rewrite E in I. destruct I. Qed.
Lemma none_bought n ds : n_asks n = [] -> buys_ok n ds -> ds = [].
Proof. intros E [F _]. destruct ds as [|d ds]; [reflexivity|]. inversion F as [|? ? X _]; subst. rewrite E in X. cbn in X. destruct (t_slot d); discriminate X. Qed.
Lemma sink_step w t id gs fs ds fs' sent i c s : world_ok w -> reached w t id fs -> (forall j, signal_ok (gs j)) -> orderly w t gs fs ds -> nstep w t id gs fs ds fs' sent -> nth_error fs i = Some (Snk c s) ->
  sold_by i ds = [] /\ exists s', nth_error fs' i = Some (Snk c s') /\
    inside (Snk c s') = inside (Snk c s) ++ map (fun x => Mat 0 (m_qty (snd x)) (m_comp (snd x))) (filter (fun x => Nat.eqb (t_to (fst x)) i) (combine ds sent)).
Proof.
  intros W H G O N Nf. destruct (step_each w t id gs fs ds fs' sent i _ W H G O N Nf) as (n & f' & R & A' & PB & SO & _).
  split; [exact (none_sold n _ (sink_publish _ _ _ _ _ _ PB) SO)|]. destruct N as (_ & _ & ST). specialize (ST i _ _ Nf A'). cbn [fstep] in ST.
  apply bind_ok in ST as ([s' o] & ST & X). injection X as X _. exists s'. split; [rewrite A', <- X; reflexivity|].
  unfold SinkModel.sk_step in ST. cbn [SinkModel.ke_rng SinkModel.ke_rng2 SinkModel.ke_mats SinkModel.ke_prods] in ST.
  apply bind_ok in ST as ([s1 d] & T & ST). apply bind_ok in ST as ([s2 r] & Q & ST). apply bind_ok in ST as (s3 & A & ST). apply bind_ok in ST as (s4 & B & ST). injection ST as <- _.
  apply SinkProofs.tick_facts in T as (_ & T & _). apply mat_requests_inv in Q. apply SinkProofs.accept_facts in A as (_ & _ & _ & A). cbn in B. injection B as <-.
  cbn [inside]. rewrite A, Q, T, sunk_app, sunk_mats, map_map, (nameless (fun d => Nat.eqb (t_to d) i)). reflexivity.
Qed.
Lemma source_step w t id gs fs ds fs' sent i c s : world_ok w -> reached w t id fs -> (forall j, signal_ok (gs j)) -> orderly w t gs fs ds -> nstep w t id gs fs ds fs' sent -> nth_error fs i = Some (Srce c s) ->
  bought_by i ds = [] /\ exists s', nth_error fs' i = Some (Srce c s') /\ qty_of (inside (Srce c s')) + total (sold_by i ds) == qty_of (inside (Srce c s)).
Proof.
  intros W H G O N Nf. destruct (step_each w t id gs fs ds fs' sent i _ W H G O N Nf) as (n & f' & R & A' & PB & SO & BO & RB & AG & ND & ST & AS & GD & (_ & BL & _)).
  rewrite RB in BO. pose proof (none_bought n _ (source_publish _ _ _ _ _ _ PB) BO) as E. split; [exact E|]. cbn [fstep] in ST.
  apply bind_ok in ST as ([s' o] & _ & X). assert (Y : Srce c s' = f') by congruence. subst f'. exists s'. split; [exact A'|].
  rewrite (sold_qty _ _ AS) in BL. rewrite (got_total _ _ _ AG), RB, E in BL. change (total []) with 0 in BL. lra.
Qed.
Lemma life_of_ends w t0 t id fs i f0 got sold : world_ok w -> career w t0 t id fs i f0 got sold ->
  match f0 with
  | Snk c _ => sold == 0 /\ exists s, nth_error fs i = Some (Snk c s) /\ qty_of (inside (Snk c s)) == got
  | Srce c _ => got == 0 /\ exists s, nth_error fs i = Some (Srce c s) /\ qty_of (inside (Srce c s)) == SourceModel.sc_inv_size c - sold /\ sold <= SourceModel.sc_inv_size c
  | _ => True
  end.
Proof.
  intros W H. assert (K : match f0 with Snk c _ => sold == 0 /\ exists s, nth_error fs i = Some (Snk c s) | Srce c _ => got == 0 /\ exists s, nth_error fs i = Some (Srce c s) | _ => True end).
  { induction H as [t id fs f H D|t0 t id fs i f0 got sold f H IH D|t0 t id a f b i f0 got sold H IH L|t0 t id a f b i f0 got sold H IH L|t0 t id fs i f0 got sold gs ds fs' sent H IH G O N].
    - destruct f as [c s|c s|c s|c s|c s|c s]; try exact I; (split; [reflexivity|]; exists s; rewrite nth_error_app2 by lia; rewrite Nat.sub_diag; reflexivity).
    - destruct f0 as [c s|c s|c s|c s|c s|c s]; try exact I; destruct IH as (A & s' & B); (split; [exact A|]; exists s'; rewrite nth_error_app1; [exact B|apply nth_error_Some; congruence]).
    - destruct f0 as [c s|c s|c s|c s|c s|c s]; try exact I; destruct IH as (A & s' & B); (split; [exact A|]; exists s'; rewrite (nth_drop a f b i L); exact B).
    - destruct f0 as [c s|c s|c s|c s|c s|c s]; try exact I; destruct IH as (A & s' & B); (split; [exact A|]; exists s'; rewrite nth_error_app1 in B |- * by exact L; exact B).
    - pose proof (career_reached _ _ _ _ _ _ _ _ _ H) as RE. destruct f0 as [c s|c s|c s|c s|c s|c s]; try exact I; destruct IH as (A & s' & B).
      + destruct (source_step _ _ _ _ _ _ _ _ _ _ _ W RE G O N B) as (E & s2 & C & _). rewrite E. change (total []) with 0. split; [lra|]. exists s2. exact C.
      + destruct (sink_step _ _ _ _ _ _ _ _ _ _ _ W RE G O N B) as (E & s2 & C & _). rewrite E. change (total []) with 0. split; [lra|]. exists s2. exact C. }
  destruct (account _ _ _ _ _ _ _ _ _ W H) as (f & A & B). destruct f0 as [c s|c s|c s|c s|c s|c s]; try exact I; destruct K as (K & s' & C); rewrite A in C; injection C as ->; cbn [declared] in B.
  - split; [exact K|]. exists s'. split; [exact A|]. pose proof (career_reached _ _ _ _ _ _ _ _ _ H) as RE. destruct (reached_good w W _ _ _ RE) as [_ AG]. unfold all_good in AG. rewrite Forall_forall in AG.
    pose proof (inside_nonneg _ _ _ _ (AG _ (nth_error_In _ _ A))). split; lra.
  - split; [exact K|]. exists s'. split; [exact A|]. lra.
Qed.
