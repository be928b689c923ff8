(** When the numbers of a reactor's life fit the machine's ints; and the contract of the exchange along such a life. *)
From Verif Require Import Outcome KernelMaterial KernelResBuf ReactorModel ReactorSpec DoubleModel ReactorMachineModel.
Local Open Scope Z_scope.

(** A reactor with input [cfg] that runs for [n] steps from time [t0] and cycle step [c0].  The last two lines concern
    only a reactor with a lifetime; the last is the number of assemblies in the batches of all cycles
    until the exit time, plus a core. *)
Record fits_ints (cfg : rx_cfg) (t0 c0 n : Z) : Prop := {
  fi_stock : n_core cfg + n_fresh cfg < 2 ^ 31;
  fi_spent : n_spent cfg < 2 ^ 31;
  fi_batch : n_batch cfg < 2 ^ 31;
  fi_cycle : 0 <= cycle_t cfg /\ 0 <= refuel_t cfg;
  fi_time : 0 <= t0 /\ t0 + n + cycle_t cfg + refuel_t cfg < 2 ^ 31;
  fi_step : 0 <= c0 /\ c0 + n < 2 ^ 31;
  fi_exit : exit_t cfg = -1 \/ 0 <= exit_t cfg < 2 ^ 31 /\ exit_t cfg + 1 - t0 + c0 < 2 ^ 31;
  fi_need : exit_t cfg = -1 \/
            (exit_t cfg + 1 - t0 + c0) / (cycle_t cfg + refuel_t cfg) * n_batch cfg + n_core cfg < 2 ^ 31
}.

(** The exchange keeps its contract ([exchange_ok] in ReactorSpec.v) with the orders and offers the machine computes. *)
Definition m_step_contract (eps : Q) (recipe : string -> option comp) (cfg : rx_cfg) (t : Z) (s : rx_state) (e : rx_env) : Prop :=
  forall s1 ev1 reqs ev2 bids,
    m_tick eps recipe cfg t s = Ok (s1, ev1) ->
    m_get_requests recipe cfg t s1 = Ok (reqs, ev2) ->
    get_bids eps cfg s1 (e_reqs e) = Ok bids ->
    exchange_ok cfg s1 reqs bids e.
(** The same along a life. *)
Fixpoint m_run_contract (eps : Q) (recipe : string -> option comp) (cfg : rx_cfg) (t : Z) (s : rx_state) (es : list rx_env) : Prop :=
  match es with
  | [] => True
  | e :: es' =>
      m_step_contract eps recipe cfg t s e /\
      (forall o, m_step eps recipe cfg t s e = Ok o -> m_run_contract eps recipe cfg (t + 1) (o_state o) es')
  end.
