(** Properties C47-C49 and C77-C79 of the Sink.  Statements use SinkSpec.v;
    proofs are a single [exact] or a computed witness. *)
From Coq Require Import Lia Lqa.
From Verif Require Import Outcome KernelMaterial SinkModel SinkSpec SinkProofs.
Local Open Scope Q_scope.

(** ** A worked history: two commodities, at most 5 per step and 12 in all, buys
    drawn between 1 and 3 steps apart; the generator always draws the upper bound. *)
Definition kx_top : rng := {| g_uniform_real := fun _ hi => hi; g_normal_real := fun _ _ _ hi => hi;
                              g_uniform_int := fun _ hi => hi; g_normal_int := fun _ _ _ hi => hi |}.
Definition kx_low : rng := {| g_uniform_real := fun lo _ => lo; g_normal_real := fun _ _ lo _ => lo;
                              g_uniform_int := fun lo _ => lo; g_normal_int := fun _ _ lo _ => lo |}.
Example kx_top_ok : rng_ok kx_top.
Proof. unfold rng_ok, kx_top; cbn. repeat split; intros; (lra || lia). Qed.
Example kx_low_ok : rng_ok kx_low.
Proof. unfold rng_ok, kx_low; cbn. repeat split; intros; (lra || lia). Qed.
Definition kx_u : comp := [(922350000%Z, 1); (922380000%Z, 3)].
Definition kx_recipe (n : string) : option comp := if String.eqb n "nat_u" then Some kx_u else None.
Definition kx_cfg (size freq : string) (fmin : Z) : sk_cfg := {|
  kc_commods := ["a"; "b"]%string; kc_prefs := [2; 3]; kc_recipe := "nat_u"; kc_max_inv := 12; kc_capacity := 5;
  kc_size_type := size; kc_size_mean := 1; kc_size_stddev := 1 # 10;
  kc_freq_type := freq; kc_freq_mean := 2; kc_freq_stddev := 1; kc_freq_min := fmin; kc_freq_max := 3 |}.
Definition kx_env (g : rng) (ms : list mat) (ps : list Q) : sk_env := {| ke_rng := g; ke_rng2 := g; ke_mats := ms; ke_prods := ps |}.
Definition kx_es : list sk_env :=
  [ kx_env kx_low [] []; kx_env kx_low [Mat 1 2 kx_u; Mat 2 1 kx_u] [2]; kx_env kx_top [Mat 3 4 kx_u] [] ].
Definition kx_e : sk_env := kx_env kx_low [Mat 4 1 kx_u] [].
Example kx_rngs : rngs_ok (kx_es ++ [kx_e]).
Proof.
  pose proof kx_low_ok. pose proof kx_top_ok. unfold rngs_ok, kx_es, kx_e. cbn [app].
  repeat (apply Forall_cons || apply Forall_nil); cbn [ke_rng ke_rng2 kx_env]; auto.
Qed.
Example kx_rngs0 : rngs_ok kx_es.
Proof. apply (Forall_app _ kx_es [kx_e]), kx_rngs. Qed.
Definition kx_run (c : sk_cfg) :=
  let* s0 := sk_enter c kx_low 4 (sk_new c) in sk_run 0 0 kx_recipe c 4 s0 kx_es.
Definition kx_s (c : sk_cfg) : sk_state := match kx_run c with Ok (s, _) => s | _ => sk_new c end.
Definition kx_os (c : sk_cfg) : list sk_out := match kx_run c with Ok (_, os) => os | _ => [] end.
(** Without randomness, and with random intervals. *)
Definition kx_c1 := kx_cfg "None" "None" 1.
Definition kx_c2 := kx_cfg "None" "UniformInt" 1.
Example kx_lived1 : sk_lived 0 0 kx_recipe kx_c1 kx_low 4 kx_es (kx_s kx_c1) (kx_os kx_c1).
Proof. eexists. split; [vm_compute; reflexivity|]. vm_compute. reflexivity. Qed.
Example kx_lived2 : sk_lived 0 0 kx_recipe kx_c2 kx_low 4 kx_es (kx_s kx_c2) (kx_os kx_c2).
Proof. eexists. split; [vm_compute; reflexivity|]. vm_compute. reflexivity. Qed.
Example kx_fair2 : fair kx_es (kx_os kx_c2).
Proof. apply fairb_sound. vm_compute. reflexivity. Qed.

(** ** C47: requests within the limits; the inventory never overflows *)
Theorem C47_requests : forall eps eg recipe cfg, 0 <= eg -> 0 <= kc_capacity cfg ->
  forall g t0 es e s os s' o, rngs_ok (es ++ [e]) -> sk_lived eps eg recipe cfg g t0 es s os ->
  sk_step eps eg recipe cfg (now t0 es) s e = Ok (s', o) ->
  (forall r, ko_mat o = Some r -> eg < mq_qty r /\ mq_qty r <= free cfg s) /\
  (forall l c, ko_gen o = Some (l, c) -> eg < c /\ c <= free cfg s /\ Forall (fun x => snd x = c) l).
Proof. exact requests_final. Qed.
Print Assumptions C47_requests.
Theorem C47_inventory : forall eps eg recipe cfg, 0 <= kc_capacity cfg ->
  forall g t0 es s os, rngs_ok es -> sk_lived eps eg recipe cfg g t0 es s os -> fair es os -> 0 <= kc_max_inv cfg ->
  held s <= kc_max_inv cfg.
Proof. exact inventory_final. Qed.
Print Assumptions C47_inventory.
(** Whatever is requested in a step can be delivered. *)
Theorem C47_deliverable : forall eps eg recipe cfg, 0 <= kc_capacity cfg ->
  forall g t0 es s os, 0 <= eps -> rngs_ok es -> sk_lived eps eg recipe cfg g t0 es s os -> fair es os -> 0 <= kc_max_inv cfg ->
  kc_commods cfg <> [] -> (kc_recipe cfg = ""%string \/ recipe (kc_recipe cfg) <> None) ->
  forall g1 g2, rng_ok g1 -> rng_ok g2 -> exists o, forall ms ps,
    let e := {| ke_rng := g1; ke_rng2 := g2; ke_mats := ms; ke_prods := ps |} in
    nonneg_deliveries e -> delivered e <= requested o ->
    exists s', sk_step eps eg recipe cfg (now t0 es) s e = Ok (s', o).
Proof. exact accepted_final. Qed.
Print Assumptions C47_deliverable.
(** 9 of 12 held: the third step of the second sink asks for the remaining 3, not for 5. *)
Example C47_nontrivial : held (kx_s kx_c2) == 9 /\ free kx_c2 (kx_s kx_c2) == 3 /\
  exists s' o, sk_step 0 0 kx_recipe kx_c1 (now 4 kx_es) (kx_s kx_c1) kx_e = Ok (s', o) /\ requested o == 3.
Proof. split; [vm_compute; reflexivity|]. split; [vm_compute; reflexivity|]. eexists. eexists. split; [vm_compute; reflexivity|]. vm_compute. reflexivity. Qed.

(** ** C48: buys exactly on schedule, and never stops buying *)
Theorem C48_schedule : forall eps eg recipe cfg, 0 <= eg -> 0 <= kc_capacity cfg ->
  forall g t0 es e s os s' o, random_frequency cfg -> (1 <= kc_freq_min cfg <= kc_freq_max cfg)%Z -> (0 <= t0)%Z ->
  rng_ok g -> rngs_ok (es ++ [e]) -> sk_lived eps eg recipe cfg g t0 es s os ->
  sk_step eps eg recipe cfg (now t0 es) s e = Ok (s', o) ->
  (forall g', rng_ok g' -> (kc_freq_min cfg <= drawn cfg g' <= kc_freq_max cfg)%Z) /\
  exists buys, List.length buys = S (List.length es) /\
    on_schedule (drawn cfg g) (map (fun e => drawn cfg (ke_rng e)) (es ++ [e])) buys /\
    (forall k, (Z.of_nat k + kc_freq_max cfg < zlen buys)%Z ->
       exists j, (Z.of_nat k <= Z.of_nat j <= Z.of_nat k + kc_freq_max cfg)%Z /\ nth j buys false = true) /\
    (last buys false = false -> silent o) /\
    (last buys false = true -> kc_size_type cfg = "None"%string -> eg < free cfg s -> exists r, ko_mat o = Some r /\ mq_qty r == free cfg s).
Proof. exact schedule_final. Qed.
Print Assumptions C48_schedule.
(** Without a random frequency every step buys. *)
Theorem C48_every_step : forall eps eg recipe cfg, 0 <= eg -> 0 <= kc_capacity cfg ->
  forall g t0 es e s os s' o, ~ random_frequency cfg -> kc_size_type cfg = "None"%string ->
  rngs_ok (es ++ [e]) -> sk_lived eps eg recipe cfg g t0 es s os ->
  sk_step eps eg recipe cfg (now t0 es) s e = Ok (s', o) ->
  (eg < free cfg s -> exists r, ko_mat o = Some r /\ mq_qty r == free cfg s) /\
  (free cfg s <= eg -> silent o).
Proof. exact every_step_final. Qed.
Print Assumptions C48_every_step.
(** Outside the range the documentation recommends (lower bound at least 1) a
    drawn interval of zero ends all buying. *)
Theorem C48_zero_interval : forall eps eg recipe cfg g t0 e es s os, 0 <= eg -> 0 <= kc_capacity cfg -> random_frequency cfg -> (0 <= t0)%Z ->
  drawn cfg g = 0%Z -> drawn cfg (ke_rng e) = 0%Z -> rngs_ok (e :: es) ->
  sk_lived eps eg recipe cfg g t0 (e :: es) s os -> Forall silent (tl os).
Proof. exact zero_final. Qed.
Print Assumptions C48_zero_interval.
(** Entered with an interval of 1, then 1, then 3: buys in steps 1, 2 and 5. *)
Example C48_nontrivial : map requested (kx_os kx_c2) = [0; 5; 5] /\
  on_schedule 1 (map (fun e => drawn kx_c2 (ke_rng e)) (kx_es ++ [kx_e])) [false; true; true; false].
Proof.
  split; [vm_compute; reflexivity|]. intros j J. cbn in J.
  assert (C : j = 0%nat \/ j = 1%nat \/ j = 2%nat \/ j = 3%nat) by lia. destruct C as [-> | [-> | [-> | ->]]]; cbn.
  - split; [discriminate|]. intros [H|(i & I & _)]; lia.
  - split; [left; lia|reflexivity].
  - split; [|reflexivity]. intros _. right. exists 1%nat. cbn. lia.
  - split; [discriminate|]. intros [H|(i & I & N & E)]; [lia|]. destruct i as [|[|[|i]]]; cbn in N, E; try discriminate; lia.
Qed.
Definition kx_c0 := kx_cfg "None" "UniformInt" 0.
Example C48_zero_nontrivial : drawn kx_c0 kx_low = 0%Z /\ exists s os,
  sk_lived 0 0 kx_recipe kx_c0 kx_low 4 [kx_env kx_low [] []; kx_env kx_low [] []; kx_env kx_low [] []] s os /\ map requested os = [5; 0; 0].
Proof. split; [reflexivity|]. eexists. eexists. split; [eexists; split; [vm_compute; reflexivity|vm_compute; reflexivity]|]. vm_compute. reflexivity. Qed.

(** ** C49: at most the capacity over all kinds of resources *)
(** Each kind separately: C47_requests.  Both together: twice the capacity, and
    delivering both may overflow the inventory, which is an error. *)
Theorem C49_capacity_refuted : exists recipe cfg g t0 s e s' o l c r,
  sk_lived 0 0 recipe cfg g t0 [] s [] /\ rng_ok g /\ sk_step 0 0 recipe cfg t0 s e = Ok (s', o) /\
  ko_mat o = Some r /\ ko_gen o = Some (l, c) /\ mq_qty r == kc_capacity cfg /\ c == kc_capacity cfg /\
  held s' == 2 * kc_capacity cfg.
Proof.
  exists kx_recipe, kx_c1, kx_low, 4%Z. eexists. exists (kx_env kx_low [Mat 1 5 kx_u] [5]). do 5 eexists. split; [eexists; split; [vm_compute; reflexivity|vm_compute; reflexivity]|]. split; [exact kx_low_ok|].
  split; [vm_compute; reflexivity|].
  split; [vm_compute; reflexivity|]. split; [vm_compute; reflexivity|]. split; [vm_compute; reflexivity|]. split; vm_compute; reflexivity.
Qed.
Print Assumptions C49_capacity_refuted.
Theorem C49_overflow_refuted : exists recipe cfg g t0 es s os e s' o l c r m,
  sk_lived 0 0 recipe cfg g t0 es s os /\ fair es os /\
  (* asked for m of material and c of products *)
  sk_step 0 0 recipe cfg (now t0 es) s e = Ok (s', o) /\ ko_mat o = Some r /\ ko_gen o = Some (l, c) /\
  (* they are delivered *)
  m_qty m == mq_qty r /\
  sk_step 0 0 recipe cfg (now t0 es) s (kx_env (ke_rng e) [m] [c]) = Throw ValueError.
Proof.
  exists kx_recipe, kx_c1, kx_low, 4%Z, [kx_env kx_low [Mat 1 5 kx_u] []]. do 2 eexists. exists (kx_env kx_low [] []). do 5 eexists. exists (Mat 2 5 kx_u).
  split; [eexists; split; [vm_compute; reflexivity|vm_compute; reflexivity]|]. split; [apply fairb_sound; vm_compute; reflexivity|].
  split; [vm_compute; reflexivity|]. split; [vm_compute; reflexivity|]. split; [vm_compute; reflexivity|]. split; vm_compute; reflexivity.
Qed.
Print Assumptions C49_overflow_refuted.

(** ** C77: what the requests contain, and the demand recorded *)
Theorem C77_requests : forall eps eg recipe cfg, 0 <= kc_capacity cfg ->
  forall g t0 es e s os s' o, rngs_ok (es ++ [e]) -> sk_lived eps eg recipe cfg g t0 es s os ->
  sk_step eps eg recipe cfg (now t0 es) s e = Ok (s', o) ->
  List.length (prefs_in_force cfg) = List.length (kc_commods cfg) /\
  match ko_mat o with
  | Some r => mq_items r = combine (kc_commods cfg) (prefs_in_force cfg) /\
      (kc_recipe cfg = ""%string -> mq_comp r = None) /\ (kc_recipe cfg <> ""%string -> mq_comp r = recipe (kc_recipe cfg)) /\
      ko_gen o = Some (map (fun c => (c, mq_qty r)) (kc_commods cfg), mq_qty r) /\
      ko_demand o = map (fun c => (("demand" ++ c)%string, mq_qty r)) (kc_commods cfg)
  | None => silent o
  end.
Proof. exact content_final. Qed.
Print Assumptions C77_requests.
Theorem C77_entry : forall cfg g t, (exists s, sk_enter cfg g t (sk_new cfg) = Ok s) <->
  kc_prefs cfg = [] \/ List.length (kc_prefs cfg) = List.length (kc_commods cfg).
Proof. exact enter_final. Qed.
Print Assumptions C77_entry.
Example C77_nontrivial : map ko_mat (kx_os kx_c2) =
  [None; Some {| mq_qty := 5; mq_comp := Some kx_u; mq_items := [("a", 2); ("b", 3)]%string |};
         Some {| mq_qty := 5; mq_comp := Some kx_u; mq_items := [("a", 2); ("b", 3)]%string |}] /\
  map ko_demand (kx_os kx_c2) = [[]; [("demanda", 5); ("demandb", 5)]; [("demanda", 5); ("demandb", 5)]]%string.
Proof. split; vm_compute; reflexivity. Qed.

(** ** C78: everything delivered is kept, unchanged and in order *)
Theorem C78_kept : forall eps eg recipe cfg, 0 <= kc_capacity cfg ->
  forall g t0 es s os, rngs_ok es -> sk_lived eps eg recipe cfg g t0 es s os -> ks_inv s = flat_map arrivals es.
Proof. exact kept_final. Qed.
Print Assumptions C78_kept.
Example C78_nontrivial : map r_qty (ks_inv (kx_s kx_c2)) = [2; 1; 2; 4].
Proof. vm_compute. reflexivity. Qed.

(** ** C79: random request sizes *)
Theorem C79_real_partial : forall eps eg recipe cfg g t0 es e s os s' o, 0 <= eg -> 0 <= kc_capacity cfg -> rngs_ok (es ++ [e]) ->
  sk_lived eps eg recipe cfg g t0 es s os -> sk_step eps eg recipe cfg (now t0 es) s e = Ok (s', o) ->
  forall r, ko_mat o = Some r ->
  (kc_size_type cfg = "UniformReal"%string -> exists hi, hi == free cfg s /\ mq_qty r = g_uniform_real (ke_rng e) 0 hi) /\
  (kc_size_type cfg = "NormalReal"%string -> exists hi, hi == free cfg s /\
     mq_qty r = g_normal_real (ke_rng e) (hi * kc_size_mean cfg) (hi * kc_size_stddev cfg) 0 hi).
Proof. exact uniform_final. Qed.
Print Assumptions C79_real_partial.
(** The documented types UniformInt and NormalInt give sizes that are no whole numbers. *)
Theorem C79_int_refuted : exists recipe cfg g t0 s s' e o r,
  (kc_size_type cfg = "UniformInt"%string) /\ rng_ok g /\ rng_ok (ke_rng e) /\
  sk_lived 0 0 recipe cfg g t0 [] s [] /\ sk_step 0 0 recipe cfg t0 s e = Ok (s', o) /\ ko_mat o = Some r /\
  ~ exists n : Z, mq_qty r == inject_Z n.
Proof.
  exists kx_recipe, {| kc_commods := ["a"]%string; kc_prefs := []; kc_recipe := ""; kc_max_inv := 12; kc_capacity := 5 # 2;
    kc_size_type := "UniformInt"; kc_size_mean := 1; kc_size_stddev := 1 # 10;
    kc_freq_type := "None"; kc_freq_mean := 2; kc_freq_stddev := 1; kc_freq_min := 1; kc_freq_max := 3 |}, kx_low, 0%Z.
  do 2 eexists. exists (kx_env kx_low [] []). do 2 eexists. split; [reflexivity|]. split; [exact kx_low_ok|]. split; [exact kx_low_ok|].
  split; [eexists; split; [vm_compute; reflexivity|vm_compute; reflexivity]|]. split; [vm_compute; reflexivity|]. split; [vm_compute; reflexivity|].
  intros [n H]. cbn in H. unfold Qeq, inject_Z in H. cbn in H. lia.
Qed.
Print Assumptions C79_int_refuted.
Definition kx_c3 := kx_cfg "UniformReal" "None" 1.
Example C79_nontrivial : exists s os, sk_lived 0 0 kx_recipe kx_c3 kx_top 4 [kx_env kx_top [Mat 1 5 kx_u] []] s os /\ map requested os = [5].
Proof. eexists. eexists. split; [eexists; split; [vm_compute; reflexivity|vm_compute; reflexivity]|]. vm_compute. reflexivity. Qed.
