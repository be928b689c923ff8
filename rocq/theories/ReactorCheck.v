(** Executable versions of the Reactor hypotheses, used only to exhibit concrete
    histories that meet them (Examples in ReactorProps.v) and to replay the
    scenarios of /repo/src/reactor_tests.cc (ReactorValidation.v). *)
From Coq Require Import Lia Lqa.
From Verif Require Import Outcome KernelMaterial KernelResBuf KernelFacts ReactorModel ReactorSpec.
Local Open Scope Z_scope.

Fixpoint nodupb (l : list Z) : bool :=
  match l with [] => true | x :: l' => (negb (existsb (Z.eqb x) l') && nodupb l')%bool end.
Lemma nodupb_sound l : nodupb l = true -> NoDup l.
Proof.
  induction l as [|x l IH]; intro H; simpl in H; constructor.
  - apply andb_prop in H as [H _]. intro Hin. apply negb_true_iff in H.
    assert (existsb (Z.eqb x) l = true); [|congruence]. apply existsb_exists. exists x. split; auto. apply Z.eqb_refl.
  - apply IH. apply andb_prop in H. tauto.
Qed.

Definition exchange_okb (cfg : rx_cfg) (s1 : rx_state) (reqs : list (list request)) (bids : list bidport) (e : rx_env) : bool :=
  ((zlen (e_deliv e) <=? zlen reqs) &&
   forallb (fun d => existsb (fun p => existsb (fun r => String.eqb (fst d) (r_commod r) && Qeq_bool (m_qty (snd d)) (r_qty r))%bool p) reqs) (e_deliv e) &&
   nodupb (map (fun d => m_id (snd d)) (e_deliv e) ++ map m_id (assemblies s1)) &&
   forallb (fun c => existsb (fun b => String.eqb (bp_commod b) c &&
      Qle_bool (inject_Z (count_commod c (e_pick e)) * assem cfg) (bp_cap b))%bool bids) (e_pick e))%bool.

Lemma exchange_okb_sound cfg s1 reqs bids e : exchange_okb cfg s1 reqs bids e = true -> exchange_ok cfg s1 reqs bids e.
Proof.
  unfold exchange_okb, exchange_ok. intro H. apply andb_prop in H as [H H4]. apply andb_prop in H as [H H3].
  apply andb_prop in H as [H1 H2]. split; [apply Z.leb_le; auto|]. split; [|split; [apply nodupb_sound; auto|]].
  - rewrite forallb_forall in H2. apply Forall_forall. intros d Hd. specialize (H2 d Hd).
    apply existsb_exists in H2 as (p & Hp & H2). apply existsb_exists in H2 as (r & Hr & H2). apply andb_prop in H2 as [A B].
    exists p, r. apply String.eqb_eq in A. apply Qeq_bool_iff in B. auto.
  - rewrite forallb_forall in H4. intros c Hc. specialize (H4 c Hc). apply existsb_exists in H4 as (b & Hb & H4).
    apply andb_prop in H4 as [A B]. exists b. apply String.eqb_eq in A. apply Qle_bool_iff in B. auto.
Qed.

Section Check.
Variables (eps : Q) (recipe : string -> option comp) (cfg : rx_cfg).

Definition step_contractb (t : Z) (s : rx_state) (e : rx_env) : bool :=
  match tick eps recipe cfg t s with
  | Ok (s1, _) =>
      match get_requests recipe cfg t s1, get_bids eps cfg s1 (e_reqs e) with
      | Ok (reqs, _), Ok bids => exchange_okb cfg s1 reqs bids e
      | _, _ => true
      end
  | _ => true
  end.
Lemma step_contractb_sound t s e : step_contractb t s e = true -> step_contract eps recipe cfg t s e.
Proof.
  unfold step_contractb, step_contract. intros H s1 ev1 reqs ev2 bids E1 E2 E3. rewrite E1, E2, E3 in H.
  apply exchange_okb_sound; auto.
Qed.

Fixpoint run_contractb (t : Z) (s : rx_state) (es : list rx_env) : bool :=
  match es with
  | [] => true
  | e :: es' => (step_contractb t s e &&
      match rx_step eps recipe cfg t s e with Ok o => run_contractb (t + 1) (o_state o) es' | _ => true end)%bool
  end.
Lemma run_contractb_sound es : forall t s, run_contractb t s es = true -> run_contract eps recipe cfg t s es.
Proof.
  induction es as [|e es IH]; intros t s H; simpl in *; auto. apply andb_prop in H as [H1 H2].
  split; [apply step_contractb_sound; auto|]. intros o E. rewrite E in H2. auto.
Qed.

(** A driver: at each step it is told the commodity and how many assemblies to
    deliver (at most) and how many spent assemblies to take per commodity (at
    most), and produces the corresponding environment. *)
Definition env_for (t : Z) (s : rx_state) (next : Z) (commod : string) (c : comp) (nd np : nat) (others : list string) : rx_env :=
  match tick eps recipe cfg t s with
  | Ok (s1, _) =>
      let n := match get_requests recipe cfg t s1 with Ok (r, _) => Nat.min nd (List.length r) | _ => O end in
      {| e_reqs := fun c' => if existsb (String.eqb c') others then [1000000%Q] else [];
         e_pick := List.concat (map (fun c' => repeat c' (Nat.min np (List.length (waiting cfg s1 c')))) (nodup string_dec others));
         e_deliv := map (fun i => (commod, {| m_id := next + Z.of_nat i; m_qty := assem cfg; m_comp := c |})) (seq 0 n) |}
  | _ => {| e_reqs := fun _ => []; e_pick := []; e_deliv := [] |}
  end.

Fixpoint drive (t : Z) (s : rx_state) (next : Z) (plan : list (string * comp * nat * nat * list string)) : list rx_env :=
  match plan with
  | [] => []
  | (cm, c, nd, np, others) :: plan' =>
      let e := env_for t s next cm c nd np others in
      e :: match rx_step eps recipe cfg t s e with
           | Ok o => drive (t + 1) (o_state o) (next + zlen (e_deliv e)) plan'
           | _ => []
           end
  end.
End Check.

Definition reactor_okb (recipe : string -> option comp) (cfg : rx_cfg) (s : rx_state) : bool :=
  ((zlen (rb_items (fresh s)) <=? n_fresh cfg) && (zlen (rb_items (core s)) <=? n_core cfg) && (zlen (rb_items (spent s)) <=? n_spent cfg) &&
   Qeq_bool (rb_cap (fresh s)) (inject_Z (n_fresh cfg) * assem cfg) &&
   Qeq_bool (rb_cap (core s)) (inject_Z (n_core cfg) * assem cfg) &&
   Qeq_bool (rb_cap (spent s)) (inject_Z (n_spent cfg) * assem cfg) &&
   forallb (fun m => Qeq_bool (m_qty m) (assem cfg)) (assemblies s) && nodupb (map m_id (assemblies s)) &&
   (Nat.eqb (List.length (inrecipes s)) (List.length (incommods cfg))) &&
   (Nat.eqb (List.length (outrecipes s)) (List.length (incommods cfg))) &&
   (Nat.eqb (List.length (prefs s)) (List.length (incommods cfg))) &&
   forallb (fun r => match recipe r with Some _ => true | None => false end) (inrecipes s ++ outrecipes s) &&
   forallb (fun m => Nat.ltb (idx_get (m_id m) (idx s)) (List.length (incommods cfg))) (assemblies s))%bool.

Lemma reactor_okb_sound recipe cfg s : reactor_okb recipe cfg s = true -> reactor_ok recipe cfg s.
Proof.
  unfold reactor_okb. intro H. repeat (apply andb_prop in H as [H ?]).
  repeat match goal with
  | h : (_ <=? _) = true |- _ => apply Z.leb_le in h
  | h : Qeq_bool _ _ = true |- _ => apply Qeq_bool_iff in h
  | h : Nat.eqb _ _ = true |- _ => apply Nat.eqb_eq in h
  | h : nodupb _ = true |- _ => apply nodupb_sound in h
  | h : forallb _ _ = true |- _ => rewrite forallb_forall in h
  end.
  constructor; auto.
  - split; auto.
  - apply Forall_forall. intros m Hm. apply Qeq_bool_iff. auto.
  - apply Forall_forall. intros r Hr. match goal with h : forall x, In x (inrecipes s ++ _) -> _ |- _ => specialize (h r Hr) end.
    destruct (recipe r); congruence.
  - apply Forall_forall. intros m Hm. apply Nat.ltb_lt. auto.
Qed.

Definition config_consistentb (cfg : rx_cfg) : bool :=
  ((1 <=? n_batch cfg) && (0 <=? n_core cfg) && (0 <=? n_fresh cfg) && (0 <=? n_spent cfg) && Qltb 0 (assem cfg) &&
   ((exit_t cfg =? -1) || (0 <? cycle_t cfg + refuel_t cfg)) && negb (Nat.eqb (List.length (incommods cfg)) 0) &&
   Nat.eqb (List.length (outcommods cfg)) (List.length (incommods cfg)) &&
   Nat.eqb (List.length (side_qty cfg)) (List.length (side_products cfg)) &&
   Nat.eqb (List.length (pc_commods cfg)) (List.length (pc_times cfg)) &&
   Nat.eqb (List.length (pc_vals cfg)) (List.length (pc_times cfg)) &&
   Nat.eqb (List.length (rc_commods cfg)) (List.length (rc_times cfg)) &&
   Nat.eqb (List.length (rc_in cfg)) (List.length (rc_times cfg)) &&
   Nat.eqb (List.length (rc_out cfg)) (List.length (rc_times cfg)))%bool.
Lemma config_consistentb_sound cfg : config_consistentb cfg = true -> config_consistent cfg.
Proof.
  unfold config_consistentb. intro H. repeat (apply andb_prop in H as [H ?]).
  repeat match goal with
  | h : (_ <=? _) = true |- _ => apply Z.leb_le in h
  | h : Nat.eqb _ _ = true |- _ => apply Nat.eqb_eq in h
  end.
  constructor; auto.
  - apply Qltb_true; auto.
  - match goal with h : (_ || _)%bool = true |- _ => apply orb_prop in h as [h|h] end;
      [left; apply Z.eqb_eq|right; apply Z.ltb_lt]; auto.
  - intro E. rewrite E in *. discriminate.
Qed.
