(** Vocabulary for a restart of the Mixer (C32). *)
From Verif Require Import Outcome KernelMaterial KernelBuf MixerModel.
Local Open Scope Q_scope.
(** What others see of a step: the recorded supply and demand, the requests and the shipments. *)
Definition seen (o : mx_out) : (string * Q) * list (string * option Q) * list mx_request * list mat :=
  (xo_supply o, xo_demand o, xo_requests o, xo_shipped o).
(** A saved facility is loaded: the inventories come back before or after the new facility is notified. *)
Definition reloaded (eps : Q) (cfg : mx_cfg) (saved : list mat * list (list mat)) (s' : mx_state) : Prop :=
  (exists s1, mx_init_inv eps saved (mx_new cfg) = Ok s1 /\ mx_enter eps cfg s1 = Ok s') \/
  (exists s1, mx_enter eps cfg (mx_new cfg) = Ok s1 /\ mx_init_inv eps saved s1 = Ok s').
