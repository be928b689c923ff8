(** Proofs for a restart of the Mixer. *)
From Coq Require Import Lia Lqa.
From Verif Require Import Outcome KernelMaterial KernelResBuf KernelFacts KernelMass KernelBuf MixerModel MixerSpec MixerProofs MixerRun MixerRestartSpec.
Local Open Scope Q_scope.

(** ** The extra buffer is only read by a snapshot *)
Definition wx (x : option (list mat)) (s : mx_state) : mx_state :=
  {| xs_ratios := xs_ratios s; xs_bufs := xs_bufs s; xs_output := xs_output s; xs_extra := x |}.
Definition ox (x : option (list mat)) (o : mx_out) : mx_out :=
  {| xo_ticked := wx x (xo_ticked o); xo_supply := xo_supply o; xo_demand := xo_demand o; xo_requests := xo_requests o; xo_shipped := xo_shipped o |}.
Lemma tick_wx eps cfg x s : mx_tick eps cfg (wx x s) = let* '(s1, sup) := mx_tick eps cfg s in Ok (wx x s1, sup).
Proof.
  unfold mx_tick. cbn [wx xs_output xs_ratios xs_bufs xs_extra].
  destruct (Qltb (b_qty (xs_output s)) (xc_out_size cfg)); [|reflexivity].
  destruct (Qltb 0 (Qmin _ (xc_throughput cfg))); [|reflexivity].
  destruct (mx_blend _ _ _ _ _) as [[acc bs]| | |]; [|reflexivity ..]. cbn [bind]. destruct acc as [m|]; [|reflexivity].
  destruct (b_push eps (xs_output s) m); reflexivity.
Qed.
Lemma sell_wx eps sales x s : mx_sell eps sales (wx x s) = let* '(s1, ms) := mx_sell eps sales s in Ok (wx x s1, ms).
Proof. unfold mx_sell. cbn [wx xs_output xs_ratios xs_bufs xs_extra]. destruct (loop _ sales (xs_output s, [])) as [[o l]| | |]; reflexivity. Qed.
Lemma accept_wx eps invs rs x s : mx_accept eps invs rs (wx x s) = let* s1 := mx_accept eps invs rs s in Ok (wx x s1).
Proof. unfold mx_accept. cbn [wx xs_output xs_ratios xs_bufs xs_extra]. destruct (loop _ rs (xs_bufs s)); reflexivity. Qed.
Lemma step_wx eps cfg x s e : mx_step eps cfg (wx x s) e = let* '(s1, o) := mx_step eps cfg s e in Ok (wx x s1, ox x o).
Proof.
  unfold mx_step. rewrite tick_wx. destruct (mx_tick eps cfg s) as [[s1 sup]| | |]; [|reflexivity ..]. cbn [bind].
  rewrite sell_wx. destruct (mx_sell eps (xe_sales e) s1) as [[s2 ms]| | |]; [|reflexivity ..]. cbn [bind].
  unfold mx_requests. cbn [wx xs_bufs]. rewrite accept_wx. destruct (mx_accept eps _ (xe_receipts e) s2) as [s3| | |]; reflexivity.
Qed.
Lemma run_wx eps cfg x es : forall s, mx_run eps cfg (wx x s) es = let* '(s1, os) := mx_run eps cfg s es in Ok (wx x s1, map (ox x) os).
Proof.
  induction es as [|e es IH]; intro s; [reflexivity|]. cbn [mx_run]. rewrite step_wx. destruct (mx_step eps cfg s e) as [[s1 o]| | |]; [|reflexivity ..].
  cbn [bind]. rewrite IH. destruct (mx_run eps cfg s1 es) as [[s2 os]| | |]; reflexivity.
Qed.
Lemma step_extra eps cfg s e s' o : mx_step eps cfg s e = Ok (s', o) -> xs_extra s' = xs_extra s.
Proof.
  intro H. assert (W : wx (xs_extra s) s = s) by (destruct s; reflexivity). rewrite <- W, step_wx in H.
  destruct (mx_step eps cfg s e) as [[s1 o1]| | |]; cbn [bind] in H; try discriminate. injection H as <- _. reflexivity.
Qed.
Lemma run_extra eps cfg es : forall s s' os, mx_run eps cfg s es = Ok (s', os) -> xs_extra s' = xs_extra s.
Proof.
  intros s s' os H. assert (W : wx (xs_extra s) s = s) by (destruct s; reflexivity). rewrite <- W, run_wx in H.
  destruct (mx_run eps cfg s es) as [[s1 o1]| | |]; cbn [bind] in H; try discriminate. injection H as <- _. reflexivity.
Qed.

(** ** The restored state *)
Definition restored (cfg : mx_cfg) (s : mx_state) : mx_state :=
  {| xs_ratios := xs_ratios s; xs_bufs := xs_bufs s; xs_output := {| b_cap := Some (xc_out_size cfg); b_items := [] |}; xs_extra := Some [] |}.
Definition cap_of (st : mx_stream) : option Q := if Qle_bool 0 (xs_size st) then Some (xs_size st) else None.
Lemma push_fresh eps strs : 0 <= eps -> forall bs, List.length bs = List.length strs ->
  (forall i st b, nth_error strs i = Some st -> nth_error bs i = Some b -> b_cap b = cap_of st /\ (0 <= xs_size st -> b_qty b <= xs_size st)) ->
  mx_push_all eps (map b_items bs) (map (fun st => {| b_cap := cap_of st; b_items := [] |}) strs) = Ok bs.
Proof.
  intro EP. induction strs as [|st strs IH]; intros [|b bs] L H; try discriminate; [reflexivity|]. injection L as L.
  destruct (H 0%nat st b eq_refl eq_refl) as [C W]. cbn [map mx_push_all]. unfold b_pushv at 1.
  assert (F : b_fits eps {| b_cap := cap_of st; b_items := [] |} (qty_of (b_items b)) = true).
  { apply fits_iff. unfold b_space, cap_of. cbn [b_cap]. destruct (Qle_bool 0 (xs_size st)) eqn:E; [|discriminate].
    intros sp X. injection X as <-. apply Qle_bool_iff in E. specialize (W E). unfold b_qty at 1, qty_of at 2. cbn [b_items map qsum fold_right].
    pose proof (Q.le_max_r 0 (xs_size st - 0)). unfold b_qty in W. lra. }
  rewrite F. cbn [bind]. rewrite (IH bs L (fun i => H (S i))). cbn [bind b_cap b_items app]. rewrite <- C. destruct b; reflexivity.
Qed.
Lemma push_blank eps strs : forall bs, List.length bs = List.length strs ->
  mx_push_all eps (map b_items bs) (map (fun _ : mx_stream => new_buf) strs) = Ok (map (fun b => {| b_cap := None; b_items := b_items b |}) bs).
Proof.
  induction strs as [|st strs IH]; intros [|b bs] L; try discriminate; [reflexivity|]. injection L as L. cbn [map mx_push_all]. unfold b_pushv at 1.
  assert (F : b_fits eps new_buf (qty_of (b_items b)) = true) by (apply fits_iff; unfold b_space; cbn; discriminate).
  rewrite F. cbn [bind]. rewrite (IH bs L). reflexivity.
Qed.
Lemma caps_back eps strs : 0 <= eps -> forall bs, List.length bs = List.length strs ->
  (forall i st b, nth_error strs i = Some st -> nth_error bs i = Some b -> b_cap b = cap_of st /\ (0 <= xs_size st -> b_qty b <= xs_size st)) ->
  mx_caps eps strs (map (fun b => {| b_cap := None; b_items := b_items b |}) bs) = Ok bs.
Proof.
  intro EP. induction strs as [|st strs IH]; intros [|b bs] L H; try discriminate; [reflexivity|]. injection L as L.
  destruct (H 0%nat st b eq_refl eq_refl) as [C W]. cbn [map mx_caps]. rewrite (IH bs L (fun i => H (S i))). unfold cap_of in C.
  destruct (Qle_bool 0 (xs_size st)) eqn:E.
  - unfold mx_set_cap. apply Qle_bool_iff in E. specialize (W E). assert (Q1 : Qltb eps (b_qty {| b_cap := None; b_items := b_items b |} - xs_size st) = false).
    { apply Qltb_false. unfold b_qty in *. cbn [b_items]. lra. }
    rewrite Q1. cbn [bind b_items]. rewrite <- C. destruct b; reflexivity.
  - cbn [bind]. rewrite <- C. destruct b; reflexivity.
Qed.
Lemma reload_state eps cfg es s0 s os s' : 0 <= eps -> 0 <= xc_out_size cfg -> mx_enter eps cfg (mx_new cfg) = Ok s0 ->
  exchanges_ok eps cfg s0 es -> mx_sane es -> mx_run eps cfg s0 es = Ok (s, os) ->
  reloaded eps cfg (mx_snapshot s) s' <-> s' = restored cfg s.
Proof.
  intros EP OS E EX SA R. pose proof (sizes_final _ _ _ _ _ _ EP OS E EX R) as (_ & W).
  assert (LV : mx_lived eps cfg es s os) by (exists s0; auto).
  destruct (lived_inv _ _ _ _ _ EP SA LV) as ((RA & L & _) & CO & _).
  assert (H : forall i st b, nth_error (xc_streams cfg) i = Some st -> nth_error (xs_bufs s) i = Some b -> b_cap b = cap_of st /\ (0 <= xs_size st -> b_qty b <= xs_size st)).
  { intros i st b A B. split; [apply (CO i st b); split; assumption|apply (W i st b); split; assumption]. }
  assert (O1 : mx_init_inv eps (mx_snapshot s) (mx_started cfg) = Ok (restored cfg s)).
  { unfold mx_init_inv, mx_snapshot, mx_started. cbn [snd xs_bufs xs_output xs_ratios xs_extra b_items].
    change (fun st : mx_stream => {| b_cap := if Qle_bool 0 (xs_size st) then Some (xs_size st) else None; b_items := [] |}) with (fun st => {| b_cap := cap_of st; b_items := [] |}).
    rewrite (push_fresh eps _ EP _ L H). cbn [bind]. unfold restored. rewrite RA. reflexivity. }
  assert (O2 : (let* s1 := mx_init_inv eps (mx_snapshot s) (mx_new cfg) in mx_enter eps cfg s1) = Ok (restored cfg s)).
  { unfold mx_init_inv, mx_snapshot, mx_new. cbn [snd xs_bufs xs_output xs_ratios xs_extra b_items]. rewrite (push_blank eps _ _ L). cbn [bind].
    unfold mx_enter. cbn [xs_bufs xs_output xs_extra]. rewrite (caps_back eps _ EP _ L H). cbn [bind]. unfold restored. rewrite RA. reflexivity. }
  split.
  - intros [(s1 & A & B)|(s1 & A & B)].
    + rewrite A in O2. cbn [bind] in O2. congruence.
    + rewrite enter_new in A by exact EP. injection A as <-. congruence.
  - intros ->. right. exists (mx_started cfg). split; [apply enter_new, EP|exact O1].
Qed.
Lemma restart_empty_final eps cfg es s0 s os s' : 0 <= eps -> 0 <= xc_out_size cfg -> mx_enter eps cfg (mx_new cfg) = Ok s0 ->
  exchanges_ok eps cfg s0 es -> mx_sane es -> mx_run eps cfg s0 es = Ok (s, os) -> b_items (xs_output s) = [] ->
  reloaded eps cfg (mx_snapshot s) s' -> forall es2,
  match mx_run eps cfg s es2, mx_run eps cfg s' es2 with
  | Ok (s2, os2), Ok (s2', os2') => xs_bufs s2' = xs_bufs s2 /\ xs_output s2' = xs_output s2 /\ map seen os2' = map seen os2
  | Throw x, Throw y => x = y
  | UB x, UB y => x = y
  | Diverge, Diverge => True
  | _, _ => False
  end.
Proof.
  intros EP OS E EX SA R Z RL es2. apply (reload_state _ _ _ _ _ _ _ EP OS E EX SA R) in RL. subst s'.
  assert (LV : mx_lived eps cfg es s os) by (exists s0; auto). destruct (lived_inv _ _ _ _ _ EP SA LV) as ((_ & _ & _ & _ & OC) & _).
  assert (W : restored cfg s = wx (Some []) s) by (unfold restored, wx; f_equal; destruct (xs_output s) as [c i]; cbn [b_cap b_items] in *; congruence).
  rewrite W, run_wx. destruct (mx_run eps cfg s es2) as [[s2 os2]| | |]; cbn [bind]; auto.
  cbn [wx xs_bufs xs_output]. split; [reflexivity|]. split; [reflexivity|]. rewrite map_map. apply map_ext. reflexivity.
Qed.
Lemma resaved_final eps cfg saved s' es s2 os : reloaded eps cfg saved s' -> mx_run eps cfg s' es = Ok (s2, os) -> fst (mx_snapshot s2) = [].
Proof.
  intros RL R. assert (X : xs_extra s' = Some []).
  { destruct RL as [(s1 & A & B)|(s1 & A & B)].
    - unfold mx_init_inv in A. destruct (mx_push_all _ _ _) as [bs| | |]; cbn [bind] in A; try discriminate. injection A as <-.
      unfold mx_enter in B. destruct (mx_caps _ _ _) as [bs2| | |]; cbn [bind] in B; try discriminate. injection B as <-. reflexivity.
    - unfold mx_enter in A. destruct (mx_caps _ _ _) as [bs2| | |]; cbn [bind] in A; try discriminate. injection A as <-.
      unfold mx_init_inv in B. destruct (mx_push_all _ _ _) as [bs| | |]; cbn [bind] in B; try discriminate. injection B as <-. reflexivity. }
  unfold mx_snapshot. rewrite (run_extra _ _ _ _ _ _ R), X. reflexivity.
Qed.
