(** Proofs for C151. *)
From Coq Require Import Lia Lqa List ZArith Sorted.
From Verif Require Import Outcome KernelMaterial KernelResBuf KernelBuf KernelFacts KernelMass NetworkSpec SimulationSpec LifeSpec LifeProofs CoolSpec.
From Verif Require Import StorageModel StorageSpec StorageProofs StorageGlue.
Import ListNotations.
Local Open Scope Q_scope.

Lemma due_more r T U arr : (T <= U)%Z -> mats_ok (map snd arr) -> qty_of (due r T arr) <= qty_of (due r U arr) /\ forall n, mass_in n (due r T arr) <= mass_in n (due r U arr).
Proof.
  intros L. induction arr as [|[u m] arr IH]; intro O; [split; [|intro n]; apply Qle_refl|]. inversion O as [|? ? O1 O2]; subst. destruct (IH O2) as [A B]. unfold due in *. cbn [filter fst].
  pose proof (mats_qty_nonneg [m] (Forall_cons _ O1 (Forall_nil _))) as Z1. rewrite qty_of_cons, qty_of_nil in Z1.
  destruct (Z.leb_spec (u + r) T), (Z.leb_spec (u + r) U); try lia; cbn [map snd]; rewrite ?qty_of_cons.
  - split; [lra|]. intro n. rewrite !mass_in_cons. specialize (B n). lra.
  - split; [cbn [snd] in Z1; lra|]. intro n. rewrite mass_in_cons. specialize (B n). pose proof (mass_nonneg m n O1). lra.
  - split; [lra|exact B].
Qed.
Lemma history_front es e : st_history (es ++ [e]) -> st_history es /\ (last (map se_time es) (-1) < se_time e)%Z.
Proof.
  intros (A & B & C). rewrite map_app in A. unfold arrivals in C. rewrite flat_map_app, map_app in C. apply Forall_app in C as [C _]. apply Forall_app in B as [B B2]. inversion B2 as [|? ? B3 _]; subst.
  assert (X : StronglySorted Z.lt (map se_time es) /\ Forall (fun x => (x < se_time e)%Z) (map se_time es)).
  { clear -A. induction (map se_time es) as [|x l IH]; [split; constructor|]. cbn in A. inversion A as [|? ? A1 A2]; subst. destruct (IH A1) as [P Q]. apply Forall_app in A2 as [A2 A3]. inversion A3; subst. split; constructor; assumption. }
  destruct X as [X Y]. split; [split; [exact X|split; [exact B|exact C]]|]. destruct (map se_time es) as [|x l] eqn:E; [cbn; lia|]. rewrite Forall_forall in Y. apply Y.
  assert (N : x :: l <> []) by discriminate. destruct (exists_last N) as (l' & z & ->). rewrite last_last. apply in_or_app. right. left. reflexivity.
Qed.
Lemma sold_cooled eps cfg es e s os : st_history (es ++ [e]) -> st_run eps cfg st_empty (es ++ [e]) = Ok (s, os) ->
  qty_of (all_sold os) <= qty_of (due (sc_residence cfg) (se_time e - 1) (arrivals es)) /\ forall n, mass_in n (all_sold os) <= mass_in n (due (sc_residence cfg) (se_time e - 1) (arrivals es)).
Proof.
  intros H R. destruct (history_front _ _ H) as [H1 TL]. rewrite run_app in R. apply bind_ok in R as ([s1 os1] & R1 & R). apply bind_ok in R as ([s2 os2] & R2 & R). injection R as <- <-.
  cbn [st_run] in R2. apply bind_ok in R2 as ([s3 o] & ST & R2). cbn [bind] in R2. injection R2 as <- <-.
  destruct (residence_exact _ _ _ _ _ H1 R1) as (_ & _ & G1 & G2). set (T := last (map se_time es) (-1)%Z) in *.
  assert (OK : mats_ok (map snd (arrivals es))) by apply H1.
  assert (OD : mats_ok (due (sc_residence cfg) T (arrivals es))).
  { unfold mats_ok in *. rewrite Forall_forall in *. intros x X. apply OK. apply in_map_iff in X as (y & <- & Y). apply filter_In in Y as [Y _]. apply in_map, Y. }
  destruct (regroup_facts _ _ G1 OD) as (O1 & Q1 & M1). apply Forall_app in O1 as [O1 O1']. destruct (regroup_facts _ _ G2 O1) as (O2 & Q2 & M2). apply Forall_app in O2 as [O2 O2'].
  unfold st_step in ST. apply bind_ok in ST as ([s4 sold] & TR & ST). apply bind_ok in ST as ([s5 o'] & _ & ST). injection ST as _ <-. unfold st_trade in TR. apply bind_ok in TR as ([st1 sold1] & SA & TR). injection TR as _ <-.
  apply sell_all_regroup in SA as (new & -> & G3); [|exact O2']. destruct (regroup_facts _ _ G3 O2') as (O3 & Q3 & M3). apply Forall_app in O3 as [O3 O3'].
  destruct (due_more (sc_residence cfg) T (se_time e - 1) (arrivals es) ltac:(lia) OK) as [D1 D2].
  unfold all_sold. rewrite flat_map_app. cbn [flat_map so_sold app]. rewrite app_nil_r. fold (all_sold os1). split.
  - pose proof (mats_qty_nonneg _ O1'). pose proof (mats_qty_nonneg _ O3'). rewrite qty_of_app in Q1, Q2, Q3. rewrite qty_of_app. lra.
  - intro n. specialize (D2 n). specialize (M1 n). specialize (M2 n). specialize (M3 n). rewrite mass_in_app in M1, M2, M3. rewrite mass_in_app. pose proof (mass_in_nonneg n _ O1'). pose proof (mass_in_nonneg n _ O3'). lra.
Qed.
Lemma aged_due r t ps : due r (t - 1) (arrivals (map stor_day ps)) = aged r t ps.
Proof.
  unfold due, arrivals, aged. induction ps as [|p ps IH]; [reflexivity|]. cbn [map flat_map]. rewrite filter_app, map_app, IH. f_equal. cbn [stor_day se_time se_receipts].
  assert (E : (Z.leb (pg_time p + r) (t - 1)) = (Z.ltb (pg_time p + r) t)) by (destruct (Z.leb_spec (pg_time p + r) (t - 1)), (Z.ltb_spec (pg_time p + r) t); lia || reflexivity).
  induction (map snd (pg_got p)) as [|m l IHl]; [destruct (Z.ltb (pg_time p + r) t); reflexivity|]. cbn [map filter fst]. rewrite E in *. destruct (Z.ltb (pg_time p + r) t); cbn [map snd]; [f_equal|]; exact IHl.
Qed.
Lemma dispatched_sold ps os : map pg_sent ps = map so_sold os -> dispatched ps = all_sold os.
Proof. intro E. unfold dispatched, all_sold. rewrite !flat_map_concat_map, E. reflexivity. Qed.
Lemma received_arrivals ps : map snd (arrivals (map stor_day ps)) = received ps.
Proof. unfold arrivals, received. induction ps as [|p ps IH]; [reflexivity|]. cbn [map flat_map]. rewrite map_app, IH, map_map. f_equal. cbn. apply map_id. Qed.
Lemma cooled w t0 t id fs i c s0 ps p : world_ok w -> diary w t0 t id fs i (Stor c s0) (ps ++ [p]) ->
  qty_of (dispatched (ps ++ [p])) <= qty_of (aged (sc_residence c) (pg_time p) ps) /\ forall n, mass_in n (dispatched (ps ++ [p])) <= mass_in n (aged (sc_residence c) (pg_time p) ps).
Proof.
  intros W D. destruct (stor_life _ _ _ _ _ _ _ _ _ W D) as (s & os & R & H & _ & _ & E). rewrite (dispatched_sold _ _ E), <- aged_due. rewrite map_app in R, H. exact (sold_cooled _ _ _ _ _ _ H R).
Qed.
Lemma first_in w t0 t id fs i c s0 ps : world_ok w -> diary w t0 t id fs i (Stor c s0) ps -> exists f, nth_error fs i = Some f /\ regroup (received ps) (dispatched ps ++ inside f).
Proof.
  intros W D. destruct (stor_life _ _ _ _ _ _ _ _ _ W D) as (s & os & R & H & _ & N & E). exists (Stor c s). split; [exact N|]. rewrite (dispatched_sold _ _ E), <- received_arrivals. exact (regroup_arrivals _ _ _ _ _ H R).
Qed.
