(** The mixing fractions of FuelFab in IEEE 754 binary64 (/repo/src/fuel_fab.cc:684-731).
    FuelFabModel.v has the same functions with exact rationals.  No proofs here. *)
From Flocq Require Import Core.Core IEEE754.BinarySingleNaN.
From Verif Require Import Outcome DoubleModel.

(** ValidWeights, /repo/src/fuel_fab.cc:727-731. *)
Definition valid_weights_d (w_low w_target w_high : double) : bool := (Bleb w_low w_target && Bleb w_target w_high)%bool.
(** HighFrac, /repo/src/fuel_fab.cc:706-719. *)
Definition high_frac_d (w_low w_target w_high eps : double) : outcome double :=
  if negb (valid_weights_d w_low w_target w_high) then Throw ValueError
  else if (Beqb w_low w_high && Beqb w_target w_low)%bool then Ok (of_int 1)
  else
    let f := Babs (ddiv (dminus w_target w_low) (dminus w_high w_low)) in
    if Bltb (dminus (of_int 1) f) eps then Ok (of_int 1)
    else if Bltb f eps then Ok (of_int 0)
    else Ok f.
(** LowFrac, /repo/src/fuel_fab.cc:721-723. *)
Definition low_frac_d (w_low w_target w_high eps : double) : outcome double :=
  let* h := high_frac_d w_low w_target w_high eps in Ok (dminus (of_int 1) h).
(** A mass, /repo/src/fuel_fab.cc:693-696 (and 698-701): the sum of amounts times atomic masses. *)
Definition mass_d (n : list (double * double)) : double := fold_left (fun s e => dplus s (dmult (fst e) (snd e))) n (of_int 0).
(** The end of AtomToMassFrac, /repo/src/fuel_fab.cc:691-703.  The amounts n1 and n2 are those after
    Normalize (kernel, 688-689); each comes with its atomic mass (pyne). *)
Definition mass_frac_d (n1 n2 : list (double * double)) : double := ddiv (mass_d n1) (dplus (mass_d n1) (mass_d n2)).
(** The quantity drawn from a stream, /repo/src/fuel_fab.cc:454, 458, 477, 481. *)
Definition draw_d (frac qty : double) : double := dmult frac qty.
