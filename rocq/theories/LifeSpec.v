(** The diary of one facility in the networks of SimulationSpec.v, and what the theorems about single facilities call its history (C136). *)
From Verif Require Import Outcome KernelMaterial KernelResBuf KernelBuf KernelMass NetworkSpec SimulationSpec.
From Verif Require ReactorModel StorageModel ConversionModel MixerModel SinkModel SourceModel.
Local Open Scope Q_scope.

(** One time step of a facility as seen from outside: the time, what it is told, what it tells the exchange, what it is sold out of, what is delivered to it, what it
    ships, and what has become of it. *)
Record page := { pg_time : Z; pg_told : signal; pg_said : notice; pg_sold : list trade; pg_got : list (trade * mat); pg_sent : list mat; pg_now : fac }.

(** [diary w t0 t id fs i f0 ps]: in a network that has become [fs] at time [t], the facility at position [i] was deployed at time [t0], was then [f0], and has since
    lived through the steps [ps]. *)
Inductive diary (w : world) : Z -> Z -> Z -> list fac -> nat -> fac -> list page -> Prop :=
| begun t id fs f : reached w t id fs -> deployed w t f -> diary w t t id (fs ++ [f]) (List.length fs) f []
| another_begun t0 t id fs i f0 ps f : diary w t0 t id fs i f0 ps -> deployed w t f -> diary w t0 t id (fs ++ [f]) i f0 ps
| earlier_gone t0 t id a f b i f0 ps : diary w t0 t id (a ++ f :: b) (S i) f0 ps -> (List.length a <= i)%nat -> diary w t0 t id (a ++ b) i f0 ps
| later_gone t0 t id a f b i f0 ps : diary w t0 t id (a ++ f :: b) i f0 ps -> (i < List.length a)%nat -> diary w t0 t id (a ++ b) i f0 ps
| continued t0 t id fs i f0 ps gs ds fs' sent f n f' : diary w t0 t id fs i f0 ps -> (forall j, signal_ok (gs j)) -> orderly w t gs fs ds -> nstep w t id gs fs ds fs' sent ->
    nth_error fs i = Some f -> publish w t (gs i) f = Ok n -> nth_error fs' i = Some f' ->
    diary w t0 (t + 1) (id + zlen ds) fs' i f0
      (ps ++ [ {| pg_time := t; pg_told := gs i; pg_said := n; pg_sold := sold_by i ds;
                  pg_got := filter (fun x => Nat.eqb (t_to (fst x)) i) (combine ds (renumber id sent));
                  pg_sent := map snd (filter (fun x => Nat.eqb (t_from (fst x)) i) (combine ds sent)); pg_now := f' |} ]).

(** What a page means to each archetype: the input of one time step of its model. *)
Definition conv_day (c : ConversionModel.cv_cfg) (p : page) : ConversionModel.cv_env :=
  {| ConversionModel.ve_reqs := g_reqs (pg_told p) (ConversionModel.vc_outcommod c); ConversionModel.ve_sales := map t_amt (pg_sold p); ConversionModel.ve_receipts := map snd (pg_got p) |}.
Definition stor_day (p : page) : StorageModel.st_env :=
  {| StorageModel.se_time := pg_time p; StorageModel.se_sales := map t_amt (pg_sold p); StorageModel.se_receipts := map snd (pg_got p) |}.
Definition mixr_day (p : page) : MixerModel.mx_env :=
  {| MixerModel.xe_sales := map t_amt (pg_sold p); MixerModel.xe_receipts := map (fun d => (t_slot (fst d), snd d)) (pg_got p) |}.
Definition srce_day (p : page) : SourceModel.sr_env :=
  {| SourceModel.se_fill_bids := whole; SourceModel.se_fill := whole; SourceModel.se_ship := all_of_it; SourceModel.se_reqs := g_wants (pg_told p);
     SourceModel.se_trades := map (fun d => (t_amt d, Mat 0 (t_amt d) (t_want d))) (pg_sold p) |}.
Definition snk_day (p : page) : SinkModel.sk_env :=
  {| SinkModel.ke_rng := g_rng (pg_told p); SinkModel.ke_rng2 := g_rng2 (pg_told p); SinkModel.ke_mats := map snd (pg_got p); SinkModel.ke_prods := [] |}.
Definition reac_day (p : page) : ReactorModel.rx_env :=
  {| ReactorModel.e_reqs := g_reqs (pg_told p); ReactorModel.e_pick := map t_commod (pg_sold p); ReactorModel.e_deliv := map (fun d => (t_commod (fst d), snd d)) (pg_got p) |}.

(** A page agrees with what the model says of that step: what the facility has become and what it shipped; for a reactor also what it asked for and offered. *)
Definition reac_page (c : ReactorModel.rx_cfg) (p : page) (o : ReactorModel.rx_out) : Prop :=
  pg_now p = Reac c (ReactorModel.o_state o) /\ pg_sent p = map snd (ReactorModel.o_shipped o) /\
  map ak_commods (n_asks (pg_said p)) = map (map ReactorModel.r_commod) (ReactorModel.o_reqs o) /\
  map of_commod (n_offers (pg_said p)) = map ReactorModel.bp_commod (ReactorModel.o_bids o).
