(** Proofs for the second restart of the Separations facility (C27). *)
From Coq Require Import Lia Lqa.
From Verif Require Import Outcome KernelMaterial KernelResBuf KernelBuf KernelFacts KernelMass KernelBufFacts SeparationsModel SeparationsSpec SeparationsProofs SeparationsGlue SeparationsRun SepRestartSpec.
Local Open Scope Q_scope.

Section K.
Variables (eps : Q) (cfg : sp_cfg) (k : string).
Hypothesis K : ~ In k (map st_name (pc_streams cfg)).
(** Nothing happens to the entry [k], and names stay distinct. *)
Definition same (bm bm' : bmap) : Prop := bm_find k bm' = bm_find k bm /\ (NoDup (map fst bm) -> NoDup (map fst bm')).
Lemma same_refl bm : same bm bm. Proof. split; auto. Qed.
Lemma same_trans a b c : same a b -> same b c -> same a c.
Proof. intros [A1 A2] [B1 B2]. split; [congruence|auto]. Qed.
Lemma same_set c b bm : c <> k -> same bm (bm_set c b bm).
Proof. intro N. split; [apply bm_find_set_other; auto|apply bm_nodup_set]. Qed.
Lemma enter_same s s' prefs : sp_enter eps cfg s = Ok (s', prefs) -> same (ps_streams s) (ps_streams s') /\ ps_feed s' = ps_feed s /\ ps_left s' = ps_left s.
Proof.
  unfold sp_enter. intro H. apply bind_ok in H as (bm & L & H). cbv zeta in H. destruct (existsb _ _); [discriminate|]. injection H as <- _. split; [|auto]. cbn [ps_streams].
  revert L. generalize (ps_streams s). assert (I : incl (map st_name (pc_streams cfg)) (map st_name (pc_streams cfg))) by apply incl_refl. revert I.
  generalize (pc_streams cfg) at 1 3. intros l. induction l as [|st l IH]; intros I b0 L; [injection L as <-; apply same_refl|]. cbn [loop] in L. apply bind_ok in L as (b1 & A & L).
  apply (same_trans _ b1).
  - destruct (Qle_bool 0 (st_cap st)); [|injection A as <-; apply same_refl]. apply bind_ok in A as (b & _ & A). injection A as <-. apply same_set. intros <-. apply K, I. left. reflexivity.
  - apply IH; [|exact L]. intros x X. apply I. right. exact X.
Qed.
Lemma stage_names s m strs : forall st staged f, loop (stage_one s m) strs st = Ok (staged, f) -> map fst staged = map fst (fst st) ++ map st_name strs.
Proof.
  induction strs as [|str strs IH]; intros [a f0] staged f H; [injection H as <- _; cbn; rewrite app_nil_r; reflexivity|]. cbn [loop] in H. apply bind_ok in H as ([a1 f1] & S1 & H).
  rewrite (IH _ _ _ H). cbn [fst]. unfold stage_one in S1. apply bind_ok in S1 as (x & _ & S1). injection S1 as <- _. rewrite map_app, <- app_assoc. reflexivity.
Qed.
Lemma extract_same f l : ~ In k (map fst l) -> forall st m bm se sr, loop (extract_one eps f) l st = Ok (m, bm, se, sr) -> same (snd (fst (fst st))) bm.
Proof.
  induction l as [|[name x] l IH]; intros N [[[m0 bm0] se0] sr0] m bm se sr H; [injection H as _ <- _ _; apply same_refl|]. cbn [loop] in H. apply bind_ok in H as (st1 & S1 & H).
  assert (Nn : name <> k) by (intros ->; apply N; left; reflexivity).
  apply (same_trans _ (snd (fst (fst st1)))); [|apply (IH (fun I => N (or_intror I)) st1 m bm se sr H)].
  unfold extract_one in S1. apply bind_ok in S1 as ([[m1 bm1] se1] & A & S1). injection S1 as <-. cbn [fst snd]. apply (same_trans _ bm1); [|apply same_set; exact Nn].
  destruct (Qltb 0 (m_qty x)); [|injection A as _ <- _; apply same_refl]. cbv zeta in A. apply bind_ok in A as ([o r] & _ & A). apply bind_ok in A as (b & _ & A). injection A as _ <- _. apply same_set; exact Nn.
Qed.
Lemma tick_same s s' lg : sp_tick eps cfg s = Ok (s', lg) -> same (ps_streams s) (ps_streams s').
Proof.
  unfold sp_tick. destruct (b_items (ps_feed s)) as [|m0 ms]; [intro H; injection H as <- _; apply same_refl|]. cbv zeta. intro H.
  apply bind_ok in H as ([mt f1] & _ & H). apply bind_ok in H as ([st mf] & St & H). apply bind_ok in H as ([[[m1 bm] se] sr] & X & H).
  apply bind_ok in H as ([m2 f2] & _ & H). apply bind_ok in H as (lf & _ & H). injection H as <- _. cbn [ps_streams].
  refine (extract_same _ _ _ _ _ _ _ _ X). rewrite (stage_names _ _ _ _ _ _ St). exact K.
Qed.
Lemma trades_same trs : Forall (fun t => fst t <> k) trs -> forall st s' ms, loop (trade_one eps cfg) trs st = Ok (s', ms) -> same (ps_streams (fst st)) (ps_streams s').
Proof.
  induction 1 as [|[c q] trs N F IH]; intros [s r] s' ms H; [injection H as <- _; apply same_refl|]. cbn [loop] in H. apply bind_ok in H as ([s1 r1] & T & H).
  apply (same_trans _ (ps_streams s1)); [|exact (IH (s1, r1) s' ms H)]. apply trade_inv in T as (m & b & b' & _ & _ & [(_ & _ & ->)|(_ & _ & ->)]); cbn [fst ps_streams]; [apply same_refl|apply same_set; exact N].
Qed.
Lemma run_same recipe prefs es : Forall (fun e => Forall (fun t => fst t <> k) (pe_trades e)) es -> forall s s' os,
  sp_run eps recipe cfg prefs s es = Ok (s', os) -> same (ps_streams s) (ps_streams s').
Proof.
  induction 1 as [|e es F Fs IH]; intros s s' os H; [injection H as <- _; apply same_refl|]. cbn [sp_run] in H. apply bind_ok in H as ([s1 o] & S1 & H). apply bind_ok in H as ([s2 os2] & R & H).
  injection H as <- _. apply (same_trans _ (ps_streams s1)); [|exact (IH _ _ _ R)]. unfold sp_step in S1. apply bind_ok in S1 as ([a lg] & T & S1). apply bind_ok in S1 as ([dm rq] & _ & S1).
  apply bind_ok in S1 as ([b sh] & Tr & S1). apply bind_ok in S1 as (c & A & S1). injection S1 as <- _. apply (same_trans _ (ps_streams a)); [exact (tick_same _ _ _ T)|].
  unfold sp_accept in A. apply bind_ok in A as (f & _ & A). injection A as <-. exact (trades_same _ F (a, []) b sh Tr).
Qed.

End K.

(** ** Saving and loading *)
Lemma inv_set_keys v j inv : forall x, In x (map fst (inv_set j v inv)) <-> x = j \/ In x (map fst inv).
Proof.
  induction inv as [|[k' v'] inv IH]; intro x; cbn; [intuition|]. destruct (String.eqb_spec k' j) as [->|N]; cbn; [intuition|]. rewrite IH. intuition.
Qed.
Lemma inv_set_nodup v j inv : NoDup (map fst inv) -> NoDup (map fst (inv_set j v inv)).
Proof.
  induction inv as [|[k' v'] inv IH]; intro H; cbn; [repeat constructor; auto|]. inversion H as [|a b A B]; subst. destruct (String.eqb_spec k' j) as [->|N]; cbn; constructor; auto.
  rewrite inv_set_keys. intros [E|I]; [congruence|contradiction].
Qed.
Lemma fold_nodup (l : bmap) : forall inv, NoDup (map fst inv) -> NoDup (map fst (fold_left (fun inv e => inv_set (fst e) (b_items (snd e)) inv) l inv)).
Proof. induction l as [|e l IH]; intros inv H; [exact H|]. cbn. apply IH, inv_set_nodup, H. Qed.
Section L.
Variables (eps : Q) (k : string).
Lemma inv_get_same v inv : inv_get k (inv_set k v inv) = v.
Proof. induction inv as [|[k' v'] inv IH]; cbn; [rewrite String.eqb_refl; reflexivity|]. destruct (String.eqb k' k) eqn:E; cbn; rewrite E; auto. Qed.
Lemma inv_get_other v j inv : j <> k -> inv_get k (inv_set j v inv) = inv_get k inv.
Proof.
  intro N. induction inv as [|[k' v'] inv IH]; cbn; [destruct (String.eqb_spec j k); [contradiction|reflexivity]|].
  destruct (String.eqb_spec k' j) as [->|M]; cbn; [destruct (String.eqb_spec j k); [contradiction|reflexivity]|]. destruct (String.eqb k' k); [reflexivity|exact IH].
Qed.
Lemma fold_get (l : bmap) : NoDup (map fst l) -> forall inv,
  inv_get k (fold_left (fun inv e => inv_set (fst e) (b_items (snd e)) inv) l inv) = match bm_find k l with Some b => b_items b | None => inv_get k inv end.
Proof.
  induction l as [|[k' b'] l IH]; intros N inv; [reflexivity|]. inversion N as [|x y A B]; subst. cbn [fold_left fst snd bm_find]. rewrite (IH B). destruct (String.eqb_spec k' k) as [->|M].
  - destruct (bm_find k l) as [b|] eqn:F; [exfalso; apply A; apply bm_find_in in F; apply in_map_iff; exists (k, b); auto|]. apply inv_get_same.
  - destruct (bm_find k l); [reflexivity|]. apply inv_get_other. exact M.
Qed.
Lemma in_inv_get inv : In k (map fst inv) -> In (k, inv_get k inv) inv.
Proof.
  induction inv as [|[k' v'] inv IH]; cbn; [tauto|]. destruct (String.eqb_spec k' k) as [->|N]; [auto|]. intros [E|I]; [contradiction|right; auto].
Qed.
Lemma init_find inv : forall bm bm', loop (fun bm e => let* b := b_pushv eps (bm_get (fst e) bm) (snd e) in Ok (bm_set (fst e) b bm)) inv bm = Ok bm' ->
  (In k (map fst inv) \/ bm_find k bm <> None -> bm_find k bm' <> None) /\ (NoDup (map fst bm) -> NoDup (map fst bm')).
Proof.
  induction inv as [|[j v] inv IH]; intros bm bm' H; [injection H as <-; split; [intros [[]|X]; exact X|auto]|]. cbn [loop fst snd] in H. apply bind_ok in H as (b1 & A & H).
  apply bind_ok in A as (b & _ & A). injection A as <-. destruct (IH _ _ H) as [P1 P2]. split; [|intro N; apply P2, bm_nodup_set, N].
  intros C. apply P1. destruct (string_dec j k) as [->|N]; [right; rewrite bm_find_set_same; discriminate|]. rewrite bm_find_set_other by auto. destruct C as [[E|I]|F]; [contradiction|auto|auto].
Qed.
Lemma load_find inv s s' : NoDup (map fst inv) -> In k (map fst inv) -> bm_find k (ps_streams s) = None -> sp_init_inv eps inv s = Ok s' ->
  (exists b, bm_find k (ps_streams s') = Some b /\ b_items b = inv_get k inv) /\ (NoDup (map fst (ps_streams s)) -> NoDup (map fst (ps_streams s'))).
Proof.
  intros N I F H. unfold sp_init_inv in H. apply bind_ok in H as (l & _ & H). apply bind_ok in H as (f & _ & H). apply bind_ok in H as (bm & L & H). injection H as <-. cbn [ps_streams].
  destruct (init_find _ _ _ L) as [P1 P2]. split; [|exact P2]. destruct (bm_find k bm) as [b|] eqn:E; [|exfalso; exact (P1 (or_introl I) eq_refl)]. exists b. split; [reflexivity|].
  destruct (init_loop eps inv _ _ N L) as [_ B]. specialize (B k (inv_get k inv) (in_inv_get _ I)). rewrite (find_get _ _ _ E) in B. rewrite B. unfold bm_get. rewrite F. reflexivity.
Qed.
End L.

Lemma pushv_items eps b ms b' : b_pushv eps b ms = Ok b' -> b_items b' = b_items b ++ ms.
Proof. unfold b_pushv. destruct (b_fits _ _ _); [|discriminate]. intro H. injection H as <-. reflexivity. Qed.
Lemma init_feed eps inv s s' : sp_init_inv eps inv s = Ok s' ->
  b_items (ps_feed s') = b_items (ps_feed s) ++ inv_get "feed-inv-name" inv /\ b_items (ps_left s') = b_items (ps_left s) ++ inv_get "leftover-inv-name" inv.
Proof.
  unfold sp_init_inv. intro H. apply bind_ok in H as (l & L & H). apply bind_ok in H as (f & F & H). apply bind_ok in H as (bm & _ & H). injection H as <-.
  split; [exact (pushv_items _ _ _ _ F)|exact (pushv_items _ _ _ _ L)].
Qed.
Lemma saved_nodup s : NoDup (map fst (sp_snapshot s)).
Proof. unfold sp_snapshot. apply fold_nodup. cbn. apply NoDup_cons; [intros [E|[]]; discriminate|]. apply NoDup_cons; [intros []|apply NoDup_nil]. Qed.
Lemma fold_keys (l : bmap) : forall inv k, In k (map fst inv) -> In k (map fst (fold_left (fun inv e => inv_set (fst e) (b_items (snd e)) inv) l inv)).
Proof. induction l as [|e l IH]; intros inv k H; [exact H|]. cbn. apply IH, inv_set_keys. auto. Qed.
Lemma saved_keys s k : reserved k -> In k (map fst (sp_snapshot s)).
Proof. intros [->| ->]; unfold sp_snapshot; apply fold_keys; cbn; auto. Qed.
(** What comes back under the name [k]. *)
Definition back (k : string) (s : sp_state) : list mat := if String.eqb k "feed-inv-name" then b_items (ps_feed s) else b_items (ps_left s).
Lemma reload_back eps cfg saved s' : reloaded eps cfg saved s' -> (forall k, reserved k -> ~ In k (map st_name (pc_streams cfg))) ->
  b_items (ps_feed s') = inv_get "feed-inv-name" saved /\ b_items (ps_left s') = inv_get "leftover-inv-name" saved.
Proof.
  intros [(s1 & p & I & E)|(s1 & p & E & I)] N.
  - destruct (enter_same eps cfg "feed-inv-name" (N _ (or_intror eq_refl)) _ _ _ E) as (_ & -> & ->). exact (init_feed _ _ _ _ I).
  - destruct (enter_same eps cfg "feed-inv-name" (N _ (or_intror eq_refl)) _ _ _ E) as (_ & A & B). destruct (init_feed _ _ _ _ I) as [C D]. rewrite A in C. rewrite B in D. auto.
Qed.
Lemma reload_find eps cfg saved s' k : reloaded eps cfg saved s' -> ~ In k (map st_name (pc_streams cfg)) -> NoDup (map fst saved) -> In k (map fst saved) ->
  (exists b, bm_find k (ps_streams s') = Some b /\ b_items b = inv_get k saved) /\ NoDup (map fst (ps_streams s')).
Proof.
  intros [(s1 & p & I & E)|(s1 & p & E & I)] N D M.
  - destruct (load_find eps k saved (sp_new cfg) _ D M eq_refl I) as [(b & B1 & B2) Nd]. destruct (enter_same eps cfg k N _ _ _ E) as ([F G] & _). split; [exists b; rewrite F; auto|apply G, Nd; constructor].
  - destruct (enter_same eps cfg k N _ _ _ E) as ([F G] & _). destruct (load_find eps k saved _ _ D M F I) as [B Nd]. split; [exact B|apply Nd, G; constructor].
Qed.
Lemma lived_plain eps recipe cfg s k : lived eps recipe cfg s -> reserved k -> ~ In k (map st_name (pc_streams cfg)) ->
  bm_find k (ps_streams s) = None /\ NoDup (map fst (ps_streams s)).
Proof.
  intros (s0 & p & es & os & E & R & F) Rk N. destruct (enter_same eps cfg k N _ _ _ E) as ([A1 A2] & _).
  assert (F' : Forall (fun e => Forall (fun t => fst t <> k) (pe_trades e)) es).
  { eapply Forall_impl; [|exact F]. intros e Fe. eapply Forall_impl; [|exact Fe]. intros t Nt E0. cbv beta in Nt. rewrite E0 in Nt. exact (Nt Rk). }
  destruct (run_same eps cfg k N recipe _ _ F' _ _ _ R) as [B1 B2]. split; [rewrite B1, A1; reflexivity|apply B2, A2; constructor].
Qed.
Lemma second_restart eps recipe cfg prefs s s1 es s2 os s3 :
  (forall k, reserved k -> ~ In k (map st_name (pc_streams cfg))) -> lived eps recipe cfg s ->
  reloaded eps cfg (sp_snapshot s) s1 ->
  Forall (fun e => Forall (fun t => ~ reserved (fst t)) (pe_trades e)) es -> sp_run eps recipe cfg prefs s1 es = Ok (s2, os) ->
  reloaded eps cfg (sp_snapshot s2) s3 ->
  b_items (ps_feed s3) = b_items (ps_feed s) /\ b_items (ps_left s3) = b_items (ps_left s).
Proof.
  intros N L R1 F R R2. destruct (reload_back _ _ _ _ R2 N) as [-> ->].
  assert (P : forall k, reserved k -> inv_get k (sp_snapshot s2) = inv_get k (sp_snapshot s)).
  { intros k Rk. destruct (reload_find _ _ _ _ k R1 (N k Rk) (saved_nodup s) (saved_keys s k Rk)) as [(b & B1 & B2) Nd].
    assert (F' : Forall (fun e => Forall (fun t => fst t <> k) (pe_trades e)) es).
    { eapply Forall_impl; [|exact F]. intros e Fe. eapply Forall_impl; [|exact Fe]. intros t Nt E0. cbv beta in Nt. rewrite E0 in Nt. exact (Nt Rk). }
    destruct (run_same eps cfg k (N k Rk) recipe _ _ F' _ _ _ R) as [C1 C2]. unfold sp_snapshot at 1. rewrite (fold_get k _ (C2 Nd)), C1, B1. exact B2. }
  rewrite !P by (unfold reserved; auto). unfold sp_snapshot. destruct (lived_plain eps recipe cfg s "feed-inv-name" L (or_intror eq_refl) (N _ (or_intror eq_refl))) as [A1 A2].
  destruct (lived_plain eps recipe cfg s "leftover-inv-name" L (or_introl eq_refl) (N _ (or_introl eq_refl))) as [B1 _]. rewrite !fold_get by exact A2. rewrite A1, B1. split; reflexivity.
Qed.
