(** Vocabulary for the properties of the Sink, written without the functions of
    the model (apart from its records and the run itself). *)
From Verif Require Import Outcome KernelMaterial SinkModel.
Local Open Scope Q_scope.

(** Draws stay within the bounds they are asked for. *)
Definition rng_ok (g : rng) : Prop :=
  (forall lo hi, lo <= hi -> lo <= g_uniform_real g lo hi <= hi) /\
  (forall m d lo hi, lo <= hi -> lo <= g_normal_real g m d lo hi <= hi) /\
  (forall lo hi, (lo <= hi)%Z -> (lo <= g_uniform_int g lo hi <= hi)%Z) /\
  (forall m d lo hi, (lo <= hi)%Z -> (lo <= g_normal_int g m d lo hi <= hi)%Z).
Definition rngs_ok (es : list sk_env) : Prop := Forall (fun e => rng_ok (ke_rng e) /\ rng_ok (ke_rng2 e)) es.

(** What a sink holds, the room left and the most it may take in one step. *)
Definition held (s : sk_state) : Q := qsum (map r_qty (ks_inv s)).
Definition free (cfg : sk_cfg) (s : sk_state) : Q := Qmin (kc_capacity cfg) (kc_max_inv cfg - held s).
(** What is delivered in a step and what was requested in it. *)
Definition delivered (e : sk_env) : Q := qsum (map m_qty (ke_mats e)) + qsum (ke_prods e).
Definition nonneg_deliveries (e : sk_env) : Prop := Forall (fun m => 0 <= m_qty m) (ke_mats e) /\ Forall (fun q => 0 <= q) (ke_prods e).
Definition requested (o : sk_out) : Q := match ko_mat o with Some r => mq_qty r | None => 0 end.
(** All kinds of resources together, at most the requested amount arrives. *)
Definition fair (es : list sk_env) (os : list sk_out) : Prop :=
  Forall2 (fun e o => nonneg_deliveries e /\ delivered e <= requested o) es os.
(** A sink that entered the simulation at time [t0] and then went through the steps [es]. *)
Definition sk_lived (eps eg : Q) (recipe : string -> option comp) (cfg : sk_cfg) (g : rng) (t0 : Z)
  (es : list sk_env) (s : sk_state) (os : list sk_out) : Prop :=
  exists s0, sk_enter cfg g t0 (sk_new cfg) = Ok s0 /\ sk_run eps eg recipe cfg t0 s0 es = Ok (s, os).
Definition now (t0 : Z) (es : list sk_env) : Z := (t0 + Z.of_nat (List.length es))%Z.

(** The interval a random frequency draws. *)
Definition random_frequency (cfg : sk_cfg) : Prop := kc_freq_type cfg = "UniformInt"%string \/ kc_freq_type cfg = "NormalInt"%string.
Definition drawn (cfg : sk_cfg) (g : rng) : Z :=
  if String.eqb (kc_freq_type cfg) "UniformInt" then g_uniform_int g (kc_freq_min cfg) (kc_freq_max cfg)
  else g_normal_int g (kc_freq_mean cfg) (kc_freq_stddev cfg) (kc_freq_min cfg) (kc_freq_max cfg).
(** [buys] marks the buy steps (counted from the entry): the first comes [d0]
    after the entry, and each further one follows an earlier one at the interval drawn in that one. *)
Definition on_schedule (d0 : Z) (gaps : list Z) (buys : list bool) : Prop :=
  forall j, (j < List.length buys)%nat ->
    (nth j buys false = true <->
     Z.of_nat j = d0 \/
     exists i, (i < j)%nat /\ nth i buys false = true /\ Z.of_nat j = (Z.of_nat i + nth i gaps 0)%Z).
(** Nothing is requested, nor recorded as demand. *)
Definition silent (o : sk_out) : Prop := ko_mat o = None /\ ko_gen o = None /\ ko_demand o = [].
(** Preferences in force: those given, or 1 for every commodity. *)
Definition prefs_in_force (cfg : sk_cfg) : list Q :=
  match kc_prefs cfg with [] => map (fun _ => 1) (kc_commods cfg) | ps => ps end.
(** What a step puts into the inventory. *)
Definition arrivals (e : sk_env) : list rsrc :=
  map (fun m => {| r_qty := m_qty m; r_comp := Some (m_comp m) |}) (ke_mats e) ++
  map (fun q => {| r_qty := q; r_comp := None |}) (ke_prods e).
