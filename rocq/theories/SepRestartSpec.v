(** Vocabulary for a second restart of the Separations facility (C27). *)
From Verif Require Import Outcome KernelMaterial KernelBuf SeparationsModel.
Local Open Scope Q_scope.

(** The two names under which the facility saves its leftover and its feed (/repo/src/separations.cc:17-22). *)
Definition reserved (c : string) : Prop := c = "leftover-inv-name"%string \/ c = "feed-inv-name"%string.
(** A saved facility is loaded: the inventories come back before or after the new facility is notified. *)
Definition reloaded (eps : Q) (cfg : sp_cfg) (saved : list (string * list mat)) (s' : sp_state) : Prop :=
  (exists s1 prefs, sp_init_inv eps saved (sp_new cfg) = Ok s1 /\ sp_enter eps cfg s1 = Ok (s', prefs)) \/
  (exists s1 prefs, sp_enter eps cfg (sp_new cfg) = Ok (s1, prefs) /\ sp_init_inv eps saved s1 = Ok s').
(** The facility was built and has lived through some time steps; in none of them somebody bought one of the reserved names. *)
Definition lived (eps : Q) (recipe : string -> option comp) (cfg : sp_cfg) (s : sp_state) : Prop :=
  exists s0 prefs es os, sp_enter eps cfg (sp_new cfg) = Ok (s0, prefs) /\ sp_run eps recipe cfg prefs s0 es = Ok (s, os) /\
    Forall (fun e => Forall (fun t => ~ reserved (fst t)) (pe_trades e)) es.
