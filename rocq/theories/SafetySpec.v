(** Vocabulary for C110: a call that ends normally or with an exception, and the inputs under which the facilities
    index their tables within bounds. *)
From Coq Require Import List ZArith.
From Verif Require Import Outcome KernelMaterial KernelResBuf.
From Verif Require ReactorModel ReactorSpec.
Local Open Scope Z_scope.

(** The call returns or throws: nothing undefined happens, and it does not run for ever. *)
Definition reported {A} (o : outcome A) : Prop :=
  match o with Ok _ | Throw _ => True | UB _ | Diverge => False end.

(** The tables of a reactor have a row for every fuel, side product and change; batches and periods are not empty. *)
Record tables_complete (cfg : ReactorModel.rx_cfg) (s : ReactorModel.rx_state) : Prop := {
  tc_fuels : ReactorModel.incommods cfg <> [];
  tc_prefs : List.length (ReactorModel.prefs s) = List.length (ReactorModel.incommods cfg);
  tc_in : List.length (ReactorModel.inrecipes s) = List.length (ReactorModel.incommods cfg);
  tc_out : List.length (ReactorModel.outrecipes s) = List.length (ReactorModel.incommods cfg);
  tc_side : List.length (ReactorModel.side_qty cfg) = List.length (ReactorModel.side_products cfg);
  tc_changes : ReactorSpec.change_tables_agree cfg;
  tc_batch : 1 <= ReactorModel.n_batch cfg;
  tc_period : ReactorModel.exit_t cfg = -1 \/ 0 < ReactorModel.cycle_t cfg + ReactorModel.refuel_t cfg
}.

(** The input of a reactor in these terms: per fuel one entry in each table; preferences may be left out when every
    fuel has one output commodity (they are then filled in per output commodity). *)
Record input_complete (cfg : ReactorModel.rx_cfg) (inr outr : list string) (pf : list Q) : Prop := {
  ic_fuels : ReactorModel.incommods cfg <> [];
  ic_prefs : List.length pf = List.length (ReactorModel.incommods cfg) \/
             (pf = [] /\ List.length (ReactorModel.outcommods cfg) = List.length (ReactorModel.incommods cfg));
  ic_in : List.length inr = List.length (ReactorModel.incommods cfg);
  ic_out : List.length outr = List.length (ReactorModel.incommods cfg);
  ic_side : List.length (ReactorModel.side_qty cfg) = List.length (ReactorModel.side_products cfg);
  ic_batch : 1 <= ReactorModel.n_batch cfg;
  ic_period : ReactorModel.exit_t cfg = -1 \/ 0 < ReactorModel.cycle_t cfg + ReactorModel.refuel_t cfg
}.

(** In every step of a history no more spent assemblies are awarded on a commodity than wait for it after Tick.
    Nothing else is assumed of the exchange. *)
Fixpoint awards_waiting (eps : Q) (recipe : string -> option comp) (cfg : ReactorModel.rx_cfg)
  (t : Z) (s : ReactorModel.rx_state) (es : list ReactorModel.rx_env) : Prop :=
  match es with
  | [] => True
  | e :: es' =>
      (forall s1 ev c, ReactorModel.tick eps recipe cfg t s = Ok (s1, ev) -> In c (ReactorModel.e_pick e) ->
         ReactorSpec.count_commod c (ReactorModel.e_pick e) <= zlen (ReactorSpec.waiting cfg s1 c)) /\
      (forall o, ReactorModel.rx_step eps recipe cfg t s e = Ok o ->
         awards_waiting eps recipe cfg (t + 1) (ReactorModel.o_state o) es')
  end.
