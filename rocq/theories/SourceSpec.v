(** Vocabulary for the properties of the Source. *)
From Verif Require Import Outcome KernelMaterial KernelResBuf KernelBuf SourceModel.
Local Open Scope Q_scope.

(** Packages are never negative and never hold more than there is. *)
Definition filler_ok (f : filler) : Prop := forall i q, 0 <= q -> Forall (fun x => 0 <= x) (f i q) /\ qsum (f i q) <= q.
(** Unpackaged material: one package of everything.  Unrestricted transport: everything. *)
Definition unpackaged (f : filler) : Prop := forall i q, f i q = [q].
Definition unrestricted (ship : Z -> Z) : Prop := forall n, ship n = n.
Definition env_ok (e : sr_env) : Prop := filler_ok (se_fill_bids e) /\ filler_ok (se_fill e) /\ Forall (fun t => 0 <= fst t) (se_trades e).
(** Every trade is packed into at most one package, and what remains of it is
    nothing or more than the tolerance. *)
Definition tidy (eg : Q) (e : sr_env) : Prop := forall i amt target q, nth_error (se_trades e) i = Some (amt, target) -> q == amt ->
  (List.length (se_fill e i q) <= 1)%nat /\ (qsum (se_fill e i q) == q \/ eg < q - qsum (se_fill e i q)).

Definition held (s : sr_state) : Q := qty_of (b_items (ss_inv s)).
(** What a step sends. *)
Definition sent (o : sr_out) : Q := qty_of (map snd (so_sent o)).
Definition sent_all (os : list sr_out) : Q := qsum (map sent os).
Definition sr_lived (eps eg : Q) (recipe : string -> option comp) (cfg : sr_cfg) (es : list sr_env) (s : sr_state) (os : list sr_out) : Prop :=
  exists s0, sr_build eps recipe cfg = Ok s0 /\ sr_run eps eg recipe cfg s0 es = Ok (s, os).

(** The most that may be supplied in a step. *)
Definition most (cfg : sr_cfg) (s : sr_state) : Q := Qmin (sc_throughput cfg) (held s).
(** The requests for the source's commodity. *)
Definition wanted (cfg : sr_cfg) (e : sr_env) : list mat := map snd (filter (fun r => String.eqb (fst r) (sc_commod cfg)) (se_reqs e)).
(** The offers made for the [j]-th of them. *)
Definition offered_to (j : nat) (p : sr_port) : list mat := map sb_mat (filter (fun b => Nat.eqb (sb_req b) j) (sp_bids p)).
(** A material with the same proportions as composition [c]. *)
Definition made_of (c : comp) (m : mat) : Prop := forall n, mass_of m n == m_qty m * (cget n c / csum c).
(** Trades awarded within what the portfolio allows. *)
Definition awarded (cfg : sr_cfg) (s : sr_state) (e : sr_env) : Prop :=
  Forall (fun t => 0 < fst t) (se_trades e) /\ qsum (map fst (se_trades e)) <= most cfg s.
