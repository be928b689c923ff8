(** Properties C30-C33 and C66-C68 of the Mixer.  Statements use MixerSpec.v;
    proofs are a single [exact] or a computed witness. *)
From Coq Require Import Lqa.
From Verif Require Import Outcome KernelMaterial KernelResBuf KernelFacts KernelMass KernelBuf
  MixerModel MixerSpec MixerProofs MixerRun.
Local Open Scope Q_scope.

(** ** A worked history: ratios 3:1, first stream limited to 12, both streams
    ask for the commodity "u". *)
Definition xx_cfg : mx_cfg := {|
  xc_streams := [ {| xs_ratio := 3; xs_size := 12; xs_commods := [("u"%string, 1)] |};
                  {| xs_ratio := 1; xs_size := -(1); xs_commods := [("u"%string, 2); ("pu"%string, 1)] |} ];
  xc_out_commod := "mix"; xc_out_size := 6; xc_throughput := 4 |}.
Definition xx_a : comp := [(922350000%Z, 1); (922380000%Z, 3)].
Definition xx_b : comp := [(942390000%Z, 2)].
Definition xx_es : list mx_env :=
  [ {| xe_sales := []; xe_receipts := [(0%nat, Mat 1 9 xx_a); (1%nat, Mat 2 2 xx_a); (2%nat, Mat 3 2 xx_b)] |};
    {| xe_sales := [1]; xe_receipts := [(0%nat, Mat 4 6 xx_a)] |} ].
Definition xx_e : mx_env := {| xe_sales := [2; 1 # 2]; xe_receipts := [(2%nat, Mat 5 1 xx_b); (0%nat, Mat 6 2 xx_a)] |}.
Definition xx_s0 : mx_state := mx_started xx_cfg.
Definition xx_run := mx_run 0 xx_cfg xx_s0 xx_es.
Definition xx_s : mx_state := match xx_run with Ok (s, _) => s | _ => xx_s0 end.
Definition xx_os : list mx_out := match xx_run with Ok (_, os) => os | _ => [] end.
Example xx_entered : mx_enter 0 xx_cfg (mx_new xx_cfg) = Ok xx_s0.
Proof. vm_compute. reflexivity. Qed.
Example xx_ran : mx_run 0 xx_cfg xx_s0 xx_es = Ok (xx_s, xx_os).
Proof. vm_compute. reflexivity. Qed.
Example xx_lived : mx_lived 0 xx_cfg xx_es xx_s xx_os.
Proof. exact (ex_intro _ xx_s0 (conj xx_entered xx_ran)). Qed.
Example xx_sane : mx_sane (xx_es ++ [xx_e]).
Proof. apply saneb_sound. vm_compute. reflexivity. Qed.
Example xx_sane0 : mx_sane xx_es.
Proof. apply saneb_sound. vm_compute. reflexivity. Qed.
Example xx_exchanges : exchanges_ok 0 xx_cfg xx_s0 (xx_es ++ [xx_e]).
Proof. apply exchangesb_sound. vm_compute. reflexivity. Qed.
Example xx_exchanges0 : exchanges_ok 0 xx_cfg xx_s0 xx_es.
Proof. apply exchangesb_sound. vm_compute. reflexivity. Qed.
Example xx_sensible : mx_sensible xx_cfg.
Proof. split; [discriminate|]. split; [discriminate|]. left. repeat constructor. Qed.
Example xx_stepped : exists s' o, mx_step 0 xx_cfg xx_s xx_e = Ok (s', o) /\ List.length (xo_shipped o) = 2%nat.
Proof. vm_compute. eexists. eexists. split; reflexivity. Qed.

(** ** C30: the ratios in use are the user's, normalised *)
Theorem C30_normalised : forall eps cfg s s', xc_streams cfg <> [] -> mx_enter eps cfg s = Ok s' ->
  List.length (xs_ratios s') = List.length (xc_streams cfg) /\ qsum (xs_ratios s') == 1 /\
  forall i st r, nth_error (xc_streams cfg) i = Some st -> nth_error (xs_ratios s') i = Some r -> share_of cfg st r.
Proof. exact ratios_final. Qed.
Print Assumptions C30_normalised.
Example C30_nontrivial : mx_enter 0 xx_cfg (mx_new xx_cfg) = Ok xx_s0 /\ Forall2 Qeq (xs_ratios xx_s0) [3 # 4; 1 # 4].
Proof. split; [exact xx_entered|]. vm_compute. repeat constructor. Qed.

(** ** C31: a tick mixes the largest amount possible, in the configured ratios *)
Theorem C31_mixing : forall eps cfg es s os s' sup, 0 <= eps -> mx_sane es -> mx_lived eps cfg es s os ->
  Forall (fun st => 0 <= xs_ratio st) (xc_streams cfg) -> mx_tick eps cfg s = Ok (s', sup) ->
  exists t, mixable cfg s t /\ (forall t', mixable cfg s t' -> t' <= t) /\
    (t <= 0 -> s' = s) /\
    (0 < t -> exists m, m_qty m == t /\ b_items (xs_output s') = b_items (xs_output s) ++ [m] /\
       (forall i st b b' x, stream_at cfg s i st b -> stream_at cfg s' i st b' -> share_of cfg st x ->
          b_qty b' == b_qty b - x * t) /\
       (forall n, mass_of m n + mass_in n (flat_map b_items (xs_bufs s')) == mass_in n (flat_map b_items (xs_bufs s)))).
Proof. exact mixing_final. Qed.
Print Assumptions C31_mixing.
Example C31_nontrivial : exists s' sup, mx_sane xx_es /\ mx_lived 0 xx_cfg xx_es xx_s xx_os /\
  Forall (fun st => 0 <= xs_ratio st) (xc_streams xx_cfg) /\ mx_tick 0 xx_cfg xx_s = Ok (s', sup) /\
  b_qty (xs_output xx_s) == 3 /\ b_qty (xs_output s') == 6.
Proof.
  destruct (mx_tick 0 xx_cfg xx_s) as [[s' sup]| | |] eqn:E; try (vm_compute in E; discriminate).
  exists s', sup. split; [exact xx_sane0|]. split; [exact xx_lived|].
  split; [repeat constructor; discriminate|]. split; [reflexivity|].
  split; [vm_compute; reflexivity|]. vm_compute in E. injection E as <- _. vm_compute. reflexivity.
Qed.

(** ** C32: a restart keeps the streams but loses the mixed material *)
(** Full statement: for every history, restoring a snapshot into a freshly
    started facility gives the same stream contents and the same output.  The
    output part is false: *)
Theorem C32_restart_refuted : exists eps cfg es s0 s os s',
  mx_sensible cfg /\ mx_sane es /\ exchanges_ok eps cfg s0 es /\
  mx_enter eps cfg (mx_new cfg) = Ok s0 /\ mx_run eps cfg s0 es = Ok (s, os) /\
  mx_init_inv eps (mx_snapshot s) s0 = Ok s' /\
  b_qty (xs_output s) == 3 /\ b_items (xs_output s') = [].
Proof.
  destruct (mx_init_inv 0 (mx_snapshot xx_s) xx_s0) as [s'| | |] eqn:E; try (vm_compute in E; discriminate).
  exists 0, xx_cfg, xx_es, xx_s0, xx_s, xx_os, s'.
  split; [exact xx_sensible|]. split; [exact xx_sane0|]. split; [exact xx_exchanges0|].
  split; [exact xx_entered|]. split; [exact xx_ran|]. split; [exact E|].
  split; [vm_compute; reflexivity|]. vm_compute in E. injection E as <-. reflexivity.
Qed.
Print Assumptions C32_restart_refuted.
(** What does hold: every stream comes back parcel by parcel (and the output is
    always empty, also when saved again).  Missing: the output. *)
Theorem C32_streams_restored_partial : forall eps cfg es s0 s os, 0 <= eps -> 0 <= xc_out_size cfg ->
  mx_enter eps cfg (mx_new cfg) = Ok s0 -> exchanges_ok eps cfg s0 es -> mx_sane es ->
  mx_run eps cfg s0 es = Ok (s, os) ->
  exists s', mx_init_inv eps (mx_snapshot s) s0 = Ok s' /\
    map b_items (xs_bufs s') = map b_items (xs_bufs s) /\ b_items (xs_output s') = [] /\
    mx_snapshot s' = ([], map b_items (xs_bufs s)).
Proof. exact restore_streams. Qed.
Print Assumptions C32_streams_restored_partial.
Example C32_nontrivial : mx_enter 0 xx_cfg (mx_new xx_cfg) = Ok xx_s0 /\ exchanges_ok 0 xx_cfg xx_s0 xx_es /\
  mx_sane xx_es /\ mx_run 0 xx_cfg xx_s0 xx_es = Ok (xx_s, xx_os) /\
  map (fun b => List.length (b_items b)) (xs_bufs xx_s) = [2%nat; 2%nat].
Proof.
  split; [exact xx_entered|]. split; [exact xx_exchanges0|]. split; [exact xx_sane0|]. split; [exact xx_ran|].
  vm_compute. reflexivity.
Qed.

(** ** C33: deliveries go to the stream that asked, within its size *)
Theorem C33_requests : forall eps cfg es e s os s' o, 0 <= eps -> mx_sane (es ++ [e]) -> mx_lived eps cfg es s os ->
  mx_step eps cfg s e = Ok (s', o) ->
  (forall p, In p (xo_requests o) -> exists st b, stream_at cfg (xo_ticked o) (xr_stream p) st b /\
     xr_items p = xs_commods st /\
     (xs_size st < 0 -> xr_qty p = None) /\
     (0 <= xs_size st -> exists q, xr_qty p = Some q /\ eps < q /\ q == Qmax 0 (xs_size st - b_qty b))) /\
  (forall i st b, stream_at cfg (xo_ticked o) i st b -> (xs_size st < 0 \/ eps < xs_size st - b_qty b) ->
     exists p, In p (xo_requests o) /\ xr_stream p = i).
Proof. exact requests_final. Qed.
Print Assumptions C33_requests.
Theorem C33_right_stream : forall eps cfg es e s os s' o, 0 <= eps -> mx_sane (es ++ [e]) -> mx_lived eps cfg es s os ->
  mx_step eps cfg s e = Ok (s', o) ->
  forall i st b, stream_at cfg (xo_ticked o) i st b ->
    stream_at cfg s' i st {| b_cap := b_cap b; b_items := b_items b ++ deliveries (xo_requests o) (xe_receipts e) i |}.
Proof. exact delivery_final. Qed.
Print Assumptions C33_right_stream.
Theorem C33_sizes : forall eps cfg es s0 s os, 0 <= eps -> 0 <= xc_out_size cfg ->
  mx_enter eps cfg (mx_new cfg) = Ok s0 -> exchanges_ok eps cfg s0 es ->
  mx_run eps cfg s0 es = Ok (s, os) -> mx_within cfg s.
Proof. exact sizes_final. Qed.
Print Assumptions C33_sizes.
Example C33_nontrivial : exists s' o, mx_sane (xx_es ++ [xx_e]) /\ mx_lived 0 xx_cfg xx_es xx_s xx_os /\
  exchanges_ok 0 xx_cfg xx_s0 (xx_es ++ [xx_e]) /\ mx_step 0 xx_cfg xx_s xx_e = Ok (s', o) /\
  asked (xo_requests o) = [(0%nat, "u"%string); (1%nat, "u"%string); (1%nat, "pu"%string)] /\
  deliveries (xo_requests o) (xe_receipts xx_e) 1 = [Mat 5 1 xx_b].
Proof.
  destruct (mx_step 0 xx_cfg xx_s xx_e) as [[s' o]| | |] eqn:E; try (vm_compute in E; discriminate).
  exists s', o. split; [exact xx_sane|]. split; [exact xx_lived|]. split; [exact xx_exchanges|]. split; [reflexivity|].
  vm_compute in E. injection E as _ <-. split; vm_compute; reflexivity.
Qed.

(** ** C66: operation never fails *)
(** Full statement: for all ratios that are not negative, operation never
    fails as long as the exchange keeps its promises.  It is false when some, but not all, ratios
    are zero: *)
Theorem C66_never_fails_refuted : exists cfg es s0 s os, xc_streams cfg <> [] /\
  Forall (fun st => 0 <= xs_ratio st) (xc_streams cfg) /\ 0 <= xc_out_size cfg /\
  mx_enter 0 cfg (mx_new cfg) = Ok s0 /\ exchanges_ok 0 cfg s0 es /\ mx_run 0 cfg s0 es = Ok (s, os) /\
  mx_tick 0 cfg s = Throw ZeroPop.
Proof.
  set (cfg := {| xc_streams := [ {| xs_ratio := 1; xs_size := 5; xs_commods := [("u"%string, 1)] |};
                                 {| xs_ratio := 0; xs_size := 5; xs_commods := [("pu"%string, 1)] |} ];
                 xc_out_commod := "mix"; xc_out_size := 10; xc_throughput := 10 |}).
  set (es := [ {| xe_sales := []; xe_receipts := [(0%nat, Mat 1 2 xx_a); (1%nat, Mat 2 2 xx_b)] |} ]).
  destruct (mx_run 0 cfg (mx_started cfg) es) as [[s os]| | |] eqn:R; try (vm_compute in R; discriminate).
  exists cfg, es, (mx_started cfg), s, os. split; [discriminate|]. split; [repeat constructor; discriminate|].
  split; [discriminate|]. split; [vm_compute; reflexivity|].
  split; [apply exchangesb_sound; vm_compute; reflexivity|]. split; [exact R|].
  vm_compute in R. injection R as <- _. vm_compute. reflexivity.
Qed.
Print Assumptions C66_never_fails_refuted.
(** What does hold: ratios all positive or all zero.  Missing: mixed zero and
    positive ratios. *)
Theorem C66_never_fails_partial : forall eps cfg es s0, 0 <= eps -> mx_sensible cfg ->
  mx_enter eps cfg (mx_new cfg) = Ok s0 ->
  exchanges_ok eps cfg s0 es -> exists s os, mx_run eps cfg s0 es = Ok (s, os).
Proof. exact never_fails. Qed.
Print Assumptions C66_never_fails_partial.
Example C66_nontrivial : mx_sensible xx_cfg /\ mx_enter 0 xx_cfg (mx_new xx_cfg) = Ok xx_s0 /\
  exchanges_ok 0 xx_cfg xx_s0 (xx_es ++ [xx_e]).
Proof. exact (conj xx_sensible (conj xx_entered xx_exchanges)). Qed.

(** ** C67: conservation over histories *)
Theorem C67_conserved : forall eps cfg es s os, 0 <= eps -> mx_sane es -> mx_lived eps cfg es s os ->
  forall n, mass_in n (mx_held s) + mass_in n (mx_shipped os) == mass_in n (mx_received es).
Proof. exact conserved_final. Qed.
Print Assumptions C67_conserved.
Example C67_nontrivial : mx_sane xx_es /\ mx_lived 0 xx_cfg xx_es xx_s xx_os /\
  mass_in 942390000 (mx_received xx_es) == 2 /\ List.length (mx_shipped xx_os) = 1%nat.
Proof. split; [exact xx_sane0|]. split; [exact xx_lived|]. split; vm_compute; reflexivity. Qed.

(** ** C68: what is recorded *)
Theorem C68_records : forall eps cfg es e s os s' o, 0 <= eps -> mx_sane (es ++ [e]) -> mx_lived eps cfg es s os ->
  mx_step eps cfg s e = Ok (s', o) ->
  xo_supply o = (("supply" ++ xc_out_commod cfg)%string, qty_of (b_items (xs_output (xo_ticked o)))) /\
  qty_of (b_items (xs_output (xo_ticked o))) == qty_of (b_items (xs_output s')) + qty_of (xo_shipped o) /\
  (forall k v, In (k, v) (xo_demand o) <->
     exists i st b c pref, stream_at cfg (xo_ticked o) i st b /\ In (c, pref) (xs_commods st) /\
       k = ("demand" ++ c)%string /\ v = b_space b).
Proof. exact records_final. Qed.
Print Assumptions C68_records.
Example C68_nontrivial : exists s' o, mx_sane (xx_es ++ [xx_e]) /\ mx_lived 0 xx_cfg xx_es xx_s xx_os /\
  mx_step 0 xx_cfg xx_s xx_e = Ok (s', o) /\ snd (xo_supply o) == 6 /\ List.length (xo_demand o) = 3%nat.
Proof.
  destruct (mx_step 0 xx_cfg xx_s xx_e) as [[s' o]| | |] eqn:E; try (vm_compute in E; discriminate).
  exists s', o. split; [exact xx_sane|]. split; [exact xx_lived|]. split; [reflexivity|].
  vm_compute in E. injection E as _ <-. split; vm_compute; reflexivity.
Qed.
