(** Vocabulary for the properties of DeployInst and ManagerInst. *)
From Coq Require Import DecimalString.
From Verif Require Import Outcome InstModel.
Local Open Scope Q_scope.

(** One line of the deployment schedule. *)
Record entry := { en_proto : string; en_time : Z; en_n : Z; en_life : option Z }.
Definition entry_at (cfg : di_cfg) (i : nat) : entry :=
  {| en_proto := nth i (di_protos cfg) ""%string; en_time := nth i (di_times cfg) 0%Z; en_n := nth i (di_nbuild cfg) 0%Z;
     en_life := nth_error (di_lifes cfg) i |}.
Definition entries (cfg : di_cfg) : list entry := map (entry_at cfg) (seq 0 (List.length (di_protos cfg))).
(** All lists have the same length, and so have the lifetimes, if given. *)
Definition consistent (cfg : di_cfg) : Prop :=
  List.length (di_times cfg) = List.length (di_protos cfg) /\ List.length (di_nbuild cfg) = List.length (di_protos cfg) /\
  (di_lifes cfg = [] \/ List.length (di_lifes cfg) = List.length (di_protos cfg)).
(** The facility an entry asks for: its prototype, with its lifetime. *)
Definition asked (reg : registry) (e : entry) : option proto :=
  match lookup reg (en_proto e), en_life e with
  | Some p, Some l => Some {| pr_arch := pr_arch p; pr_name := pr_name p; pr_life := l; pr_caps := pr_caps p |}
  | r, _ => r
  end.
(** When an entry is due for an institution built at [now]: a time of -1 is the next step. *)
Definition when (now : Z) (e : entry) : Z := if Z.eqb (en_time e) (-1) then (now + 1)%Z else en_time e.
(** What the schedule asks for at time [t], in order. *)
Definition due (reg : registry) (now : Z) (cfg : di_cfg) (t : Z) : list (option proto) :=
  flat_map (fun e => if Z.eqb (when now e) t then repeat (asked reg e) (Z.to_nat (en_n e)) else []) (entries cfg).
(** All prototypes exist. *)
Definition known (reg : registry) (cfg : di_cfg) : Prop := Forall (fun e => lookup reg (en_proto e) <> None) (entries cfg).
(** All build times are in the future. *)
Definition future (now : Z) (cfg : di_cfg) : Prop := Forall (fun e => (0 < en_n e -> now < when now e)%Z) (entries cfg).
(** The name of a prototype [p] with lifetime [l]: "p_life_5", or "p_life_forever". *)
Definition derived_name (p : string) (l : Z) : string :=
  String.append p (String.append "_life_" (if Z.eqb l (-1) then "forever"%string else NilZero.string_of_int (Z.to_int l))).
(** No prototype is called like one of the derived ones. *)
Definition no_clash (reg : registry) (cfg : di_cfg) : Prop :=
  Forall (fun e => match en_life e with Some l => lookup reg (derived_name (en_proto e) l) = None | None => True end) (entries cfg).

(** Histories: only new agents are built. *)
Definition ids (l : list agent) : list nat := map ag_id l.
Fixpoint sensible (s : list agent) (es : list in_event) : Prop :=
  match es with
  | [] => True
  | Built a :: es' => ~ In (ag_id a) (ids s) /\ sensible (s ++ [a]) es'
  | Decommissioned a :: es' => In a s /\ sensible (filter (fun b => negb (Nat.eqb (ag_id b) (ag_id a))) s) es'
  | Restarted :: es' => sensible s es'
  end.
Definition no_restart (es : list in_event) : Prop := Forall (fun e => e <> Restarted) es.
(** The facilities operating after a history. *)
Fixpoint operating (s : list agent) (es : list in_event) : list agent :=
  match es with
  | [] => s
  | Built a :: es' => operating (s ++ [a]) es'
  | Decommissioned a :: es' => operating (filter (fun b => negb (Nat.eqb (ag_id b) (ag_id a))) s) es'
  | Restarted :: es' => operating s es'
  end.
Definition producers_of (l : list agent) : list agent :=
  filter (fun a => match pr_caps (ag_proto a) with Some _ => true | None => false end) l.
(** How much of [c] a facility can produce. *)
Definition makes (a : agent) (c : string) : Q :=
  match pr_caps (ag_proto a) with None => 0 | Some l => fold_right (fun e s => if String.eqb (fst e) c then snd e + s else s) 0 l end.
