(** Proofs for C111. *)
From Coq Require Import Lia.
From Verif Require Import Outcome KernelMaterial KernelResBuf ReactorMachineModel StorageModel SinkModel SinkSpec ClockModel ClockSpec.
Local Open Scope Z_scope.

Lemma mk_int_ok n : fits n -> mk_int n = Ok n.
Proof. intros [A B]. unfold mk_int. destruct (Z.leb_spec (- 2 ^ 31) n); [|lia]. destruct (Z.ltb_spec n (2 ^ 31)); [reflexivity|lia]. Qed.

(** ** Storage *)
Lemma ready_loop_same time times : forall k, 0 <= k -> k + zlen times < 2 ^ 31 ->
  m_ready_loop time times k = Ok (ready_loop time times k).
Proof.
  induction times as [|x l IH]; intros k K L; cbn [m_ready_loop ready_loop]; [reflexivity|].
  unfold zlen in *. cbn [List.length] in L. destruct (x <=? time); [|reflexivity]. rewrite mk_int_ok by (unfold fits; lia). cbn [bind]. apply IH; lia.
Qed.
Lemma ready_matl_same time s : zlen (ss_entry_times s) < 2 ^ 31 -> m_ready_matl time s = ready_matl time s.
Proof. intro L. unfold m_ready_matl, ready_matl. rewrite ready_loop_same by lia. cbn [bind]. reflexivity. Qed.
Lemma tock_same eps cfg t s : 0 <= t < 2 ^ 31 -> 0 <= sc_residence cfg < 2 ^ 31 ->
  zlen (ss_entry_times (begin_processing t s)) < 2 ^ 31 -> m_st_tock eps cfg t s = st_tock eps cfg t s.
Proof.
  intros T R L. unfold m_st_tock, st_tock. cbv zeta. unfold m_ready_time. rewrite mk_int_ok by (unfold fits; lia). cbn [bind].
  fold (ready_time cfg t). rewrite ready_matl_same by exact L. reflexivity.
Qed.
Lemma begin_times t inv : forall proc times, zlen (snd (begin_loop t inv proc times)) = zlen times + zlen inv.
Proof.
  induction inv as [|m l IH]; intros; cbn [begin_loop]; unfold zlen in *; [cbn; lia|]. rewrite IH, app_length. cbn [List.length]. lia.
Qed.
Lemma begin_len t s : zlen (ss_entry_times (begin_processing t s)) = zlen (ss_entry_times s) + zlen (ss_inventory s) /\ ss_inventory (begin_processing t s) = [].
Proof.
  unfold begin_processing. pose proof (begin_times t (ss_inventory s) (ss_processing s) (ss_entry_times s)) as H.
  destruct (begin_loop _ _ _ _) as [p ts]. cbn in *. split; [exact H|reflexivity].
Qed.
Lemma ready_loop_len time times : forall k, zlen (fst (ready_loop time times k)) <= zlen times.
Proof. induction times as [|x l IH]; intro k; cbn [ready_loop]; unfold zlen in *; [cbn; lia|]. destruct (x <=? time); [specialize (IH (k + 1)); cbn [List.length]; lia|cbn; lia]. Qed.
Lemma tock_len eps cfg t s s' o : st_tock eps cfg t s = Ok (s', o) ->
  zlen (ss_entry_times s') + zlen (ss_inventory s') <= zlen (ss_entry_times s) + zlen (ss_inventory s).
Proof.
  unfold st_tock. cbv zeta. destruct (begin_len t s) as [B1 B2]. set (s1 := begin_processing t s) in *.
  match goal with |- context [bind (if ?b then ?x else ?y) _] => destruct (if b then x else y) as [s2|e|u|] eqn:E2 end; cbn [bind]; try discriminate.
  assert (A : zlen (ss_entry_times s2) <= zlen (ss_entry_times s1) /\ ss_inventory s2 = []).
  { match type of E2 with (if ?b then _ else _) = _ => destruct b end; [|injection E2 as <-; split; [lia|exact B2]]. unfold ready_matl in E2.
    pose proof (ready_loop_len (ready_time cfg t) (ss_entry_times s1) 0) as R. destruct (ready_loop _ _ _) as [ts n]. cbn [fst] in R.
    destruct (_ <? _); [discriminate|]. injection E2 as <-. cbn. auto. }
  destruct (process_mat _ _ _ _) as [[s3 mv]|e|u|] eqn:E3; cbn [bind]; try discriminate.
  assert (P : ss_entry_times s3 = ss_entry_times s2 /\ ss_inventory s3 = ss_inventory s2).
  { unfold process_mat in E3. destruct (ss_ready s2) as [|m0 l]; [injection E3 as <- _; auto|].
    destruct (sc_discrete cfg); [|destruct (items_pop_tol _ _ _) as [[x y]|e|u|]; cbn [bind] in E3; try discriminate; injection E3 as <- _; cbn; auto].
    destruct (Qeq_bool _ _); cbn [bind] in E3; [injection E3 as <- _; cbn; auto|].
    destruct (discrete_loop _ _ _ _) as [x y]; cbn [bind] in E3; injection E3 as <- _; cbn; auto. }
  destruct (vec_at _ _) as [d|e|u|]; cbn [bind]; try discriminate. destruct (vec_at _ _) as [d'|e|u|]; cbn [bind]; try discriminate.
  intro E. injection E as <- _. destruct P as [P1 P2], A as [A1 A2]. rewrite P1, P2, A2. unfold zlen in *. cbn. lia.
Qed.
Lemma add_len rs : forall s, ss_entry_times (fold_left st_add_mat rs s) = ss_entry_times s /\
  zlen (ss_inventory (fold_left st_add_mat rs s)) = zlen (ss_inventory s) + zlen rs.
Proof.
  induction rs as [|r l IH]; intro s; cbn [fold_left]; [unfold zlen; cbn; split; [reflexivity|lia]|].
  destruct (IH (st_add_mat s r)) as [A B]. rewrite A, B. cbn. split; [reflexivity|]. unfold zlen. rewrite app_length. cbn. lia.
Qed.
Lemma trade_len eps e s s' sold : st_trade eps e s = Ok (s', sold) ->
  zlen (ss_entry_times s') + zlen (ss_inventory s') = zlen (ss_entry_times s) + zlen (ss_inventory s) + zlen (se_receipts e).
Proof.
  unfold st_trade. destruct (sell_all _ _ _ _) as [[st so]|er|u|]; cbn [bind]; try discriminate. intro E. injection E as <- _.
  match goal with |- context [fold_left st_add_mat _ ?x] => destruct (add_len (se_receipts e) x) as [A B] end.
  rewrite A, B. cbn. lia.
Qed.
Lemma storage_same eps cfg es : forall s, 0 <= sc_residence cfg < 2 ^ 31 -> Forall (fun e => 0 <= se_time e < 2 ^ 31) es ->
  parcels_ever s es < 2 ^ 31 -> m_st_run eps cfg s es = st_run eps cfg s es.
Proof.
  induction es as [|e es IH]; intros s R T P; cbn [m_st_run st_run]; [reflexivity|]. inversion T as [|? ? T1 T2]; subst.
  assert (P0 : 0 <= zlen (List.concat (map se_receipts es))) by (unfold zlen; lia).
  assert (P1 : zlen (ss_entry_times s) + zlen (ss_inventory s) + zlen (se_receipts e) + zlen (List.concat (map se_receipts es)) < 2 ^ 31).
  { unfold parcels_ever in P. cbn [map List.concat] in P. unfold zlen in *. rewrite app_length in P. lia. }
  unfold m_st_step, st_step. destruct (st_trade eps e s) as [[s1 sold]|er|u|] eqn:E1; cbn [bind]; try reflexivity.
  apply trade_len in E1. rewrite tock_same; [|exact T1|exact R|destruct (begin_len (se_time e) s1) as [B _]; rewrite B; lia].
  destruct (st_tock eps cfg (se_time e) s1) as [[s2 o]|er|u|] eqn:E2; cbn [bind]; try reflexivity.
  apply tock_len in E2. rewrite IH; [reflexivity|exact R|exact T2|]. unfold parcels_ever. lia.
Qed.

(** ** Sink *)
Lemma next_same cfg g t last : 0 <= t <= last -> rng_ok g -> calendar_fits cfg last -> m_sk_next_buy cfg g t = Ok (sk_next_buy cfg g t).
Proof.
  intros T (_ & _ & U & N) C. unfold m_sk_next_buy, sk_next_buy. destruct (String.eqb _ "None"); [reflexivity|].
  destruct (String.eqb_spec (kc_freq_type cfg) "UniformInt") as [E|_].
  - destruct (C (or_introl E)) as (L & [F1 F2] & M). specialize (U _ _ L). apply mk_int_ok. unfold fits. lia.
  - destruct (String.eqb_spec (kc_freq_type cfg) "NormalInt") as [E|_]; [|reflexivity].
    destruct (C (or_intror E)) as (L & [F1 F2] & M). specialize (N (kc_freq_mean cfg) (kc_freq_stddev cfg) _ _ L). apply mk_int_ok. unfold fits. lia.
Qed.
Lemma enter_same cfg g t s : 0 <= t -> rng_ok g -> calendar_fits cfg t -> m_sk_enter cfg g t s = sk_enter cfg g t s.
Proof. intros T G C. unfold m_sk_enter, sk_enter. rewrite (next_same cfg g t t) by (auto; lia). reflexivity. Qed.
Lemma step_same eps eg recipe cfg t s e last : 0 <= t <= last -> rng_ok (ke_rng e) -> calendar_fits cfg last ->
  m_sk_step eps eg recipe cfg t s e = sk_step eps eg recipe cfg t s e.
Proof.
  intros T G C. unfold m_sk_step, sk_step, m_sk_tick, sk_tick. rewrite (next_same cfg (ke_rng e) t last) by auto. cbn [bind].
  destruct (ks_next s =? -1); [reflexivity|]. destruct (ks_next s =? t); reflexivity.
Qed.
Lemma sink_same eps eg recipe cfg es : forall t s last, 0 <= t -> t + zlen es <= last + 1 -> rngs_ok es -> calendar_fits cfg last ->
  m_sk_run eps eg recipe cfg t s es = sk_run eps eg recipe cfg t s es.
Proof.
  induction es as [|e es IH]; intros t s last T L G C; cbn [m_sk_run sk_run]; [reflexivity|]. inversion G as [|? ? [G1 _] G2]; subst.
  unfold zlen in L. cbn [List.length] in L. rewrite (step_same eps eg recipe cfg t s e last) by (auto; lia).
  destruct (sk_step _ _ _ _ _ _ _) as [[s1 o]|er|u|]; cbn [bind]; try reflexivity. rewrite (IH (t + 1) s1 last); [reflexivity|lia|unfold zlen; lia|exact G2|exact C].
Qed.
Lemma calendar_mono cfg a b : a <= b -> calendar_fits cfg b -> calendar_fits cfg a.
Proof. intros L C R. destruct (C R) as (A & B & D). repeat split; try apply B; lia. Qed.
Lemma sink_final eps eg recipe cfg g t s es : 0 <= t -> rng_ok g -> rngs_ok es -> calendar_fits cfg (t + zlen es) ->
  m_sk_enter cfg g t s = sk_enter cfg g t s /\ forall s1, m_sk_run eps eg recipe cfg t s1 es = sk_run eps eg recipe cfg t s1 es.
Proof.
  intros T G GS C. split.
  - apply enter_same; auto. eapply calendar_mono; [|exact C]. unfold zlen. lia.
  - intro s1. apply (sink_same eps eg recipe cfg es t s1 (t + zlen es)); auto. lia.
Qed.
