(** Vocabulary for C127: two environments of a time step that differ at most in what is delivered to the facility. *)
From Verif Require Import Outcome KernelMaterial.
From Verif Require ReactorModel StorageModel ConversionModel SeparationsModel MixerModel FuelFabModel EnrichmentModel SinkModel.
Local Open Scope Q_scope.

Definition cv_same (e e' : ConversionModel.cv_env) : Prop :=
  ConversionModel.ve_reqs e = ConversionModel.ve_reqs e' /\ ConversionModel.ve_sales e = ConversionModel.ve_sales e'.
Definition st_same (e e' : StorageModel.st_env) : Prop := StorageModel.se_sales e = StorageModel.se_sales e'.
Definition mx_same (e e' : MixerModel.mx_env) : Prop := MixerModel.xe_sales e = MixerModel.xe_sales e'.
Definition sp_same (e e' : SeparationsModel.sp_env) : Prop :=
  SeparationsModel.pe_time e = SeparationsModel.pe_time e' /\ SeparationsModel.pe_reqs e = SeparationsModel.pe_reqs e' /\
  SeparationsModel.pe_trades e = SeparationsModel.pe_trades e'.
Definition ff_same (e e' : FuelFabModel.ff_env) : Prop :=
  FuelFabModel.fe_reqs e = FuelFabModel.fe_reqs e' /\ FuelFabModel.fe_trades e = FuelFabModel.fe_trades e'.
Definition en_same (e e' : EnrichmentModel.en_env) : Prop :=
  EnrichmentModel.ee_treqs e = EnrichmentModel.ee_treqs e' /\ EnrichmentModel.ee_preqs e = EnrichmentModel.ee_preqs e' /\
  EnrichmentModel.ee_trades e = EnrichmentModel.ee_trades e'.
Definition sk_same (e e' : SinkModel.sk_env) : Prop :=
  SinkModel.ke_rng e = SinkModel.ke_rng e' /\ SinkModel.ke_rng2 e = SinkModel.ke_rng2 e'.
Definition rx_same (e e' : ReactorModel.rx_env) : Prop :=
  ReactorModel.e_reqs e = ReactorModel.e_reqs e' /\ ReactorModel.e_pick e = ReactorModel.e_pick e'.

(** What a reactor shows of a time step before anything is delivered. *)
Definition rx_shown (o : ReactorModel.rx_out) :=
  (ReactorModel.o_ticked o, ReactorModel.o_reqs o, ReactorModel.o_bids o, ReactorModel.o_shipped o).

(** The first [n] entries of two records of observations agree (including how many there are). *)
Definition agree_until {A} (n : nat) (xs ys : list A) : Prop := firstn n xs = firstn n ys.
