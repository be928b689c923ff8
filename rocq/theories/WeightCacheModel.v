(** CosiWeight (/repo/src/fuel_fab.cc:513-680) with the static variables in which it keeps cross sections between calls.
    FuelFabModel.v has the same function without them ([cosi_weight]).  No proofs here. *)
From Verif Require Import Outcome KernelMaterial FuelFabModel.
Local Open Scope Q_scope.

(** The static variables absorb_xs, fiss_xs, p_u238 and p_pu239 of one branch: /repo/src/fuel_fab.cc:524-527 (thermal) and
    581-584 (fission_spectrum_ave). *)
Record statics := { st_absorb : list (Z * Q); st_fiss : list (Z * Q); st_u238 : Q; st_pu239 : Q }.
(** Their initial values, /repo/src/fuel_fab.cc:524-527 and 581-584. *)
Definition statics0 : statics := {| st_absorb := []; st_fiss := []; st_u238 := 0; st_pu239 := 0 |}.
(** std::map lookup, /repo/src/fuel_fab.cc:555-567 and 616-628. *)
Fixpoint lookup (n : Z) (m : list (Z * Q)) : option Q :=
  match m with
  | [] => None
  | (k, x) :: m' => if Z.eqb k n then Some x else lookup n m'
  end.

(** p of a reference nuclide from its two cross sections, /repo/src/fuel_fab.cc:529-535, 586-598, 642-648; [None] is the
    exception pyne::InvalidSimpleXS, which is not caught there.  [nu] is 0 for U-238. *)
Definition p_ref (D : nucdata) (spectrum : string) (n : Z) (nu : Q) : option Q :=
  match d_xs D n "fission" spectrum with
  | None => None
  | Some f => match d_xs D n "absorption" spectrum with
              | None => None
              | Some a => Some (nu * f - a)
              end
  end.
(** The initialisation of p_u238 and p_pu239 on the first call, /repo/src/fuel_fab.cc:528-536 and 585-599.  The result says
    whether it was completed; what was assigned before an exception stays assigned. *)
Definition init_refs (D : nucdata) (spectrum : string) (st : statics) : statics * bool :=
  if Qeq_bool (st_u238 st) 0 then
    match p_ref D spectrum 922380000 0 with
    | None => (st, false)
    | Some p =>
        let st1 := {| st_absorb := st_absorb st; st_fiss := st_fiss st; st_u238 := p; st_pu239 := st_pu239 st |} in
        match p_ref D spectrum 942390000 (nu_of spectrum 942390000) with
        | None => (st1, false)
        | Some p' => ({| st_absorb := st_absorb st; st_fiss := st_fiss st; st_u238 := p; st_pu239 := p' |}, true)
        end
    end
  else (st, true).
(** The fission and the absorption cross section of a nuclide, /repo/src/fuel_fab.cc:553-567 and 614-628: from the maps, else
    from pyne and then kept. *)
Definition cached_xs (D : nucdata) (spectrum : string) (n : Z) (st : statics) : statics * (Q * Q) :=
  match lookup n (st_absorb st) with
  | None =>
      match d_xs D n "fission" spectrum, d_xs D n "absorption" spectrum with
      | Some f, Some a =>
          ({| st_absorb := (n, a) :: st_absorb st; st_fiss := (n, f) :: st_fiss st; st_u238 := st_u238 st; st_pu239 := st_pu239 st |}, (f, a))
      | _, _ => (st, (0, 0))
      end
  | Some a => (st, (match lookup n (st_fiss st) with Some f => f | None => 0 end, a))
  end.
(** The loop over the nuclides, /repo/src/fuel_fab.cc:538-573 and 601-634. *)
Fixpoint weigh_cached (D : nucdata) (spectrum : string) (cm : comp) (w : Q) (st : statics) : statics * Q :=
  match cm with
  | [] => (st, w)
  | (n, x) :: cm' =>
      let '(st1, (f, a)) := cached_xs D spectrum n st in
      let p := nu_of spectrum n * f - a in
      weigh_cached D spectrum cm' (w + x * (p - st_u238 st1) / (st_pu239 st1 - st_u238 st1)) st1
  end.
(** One of the two branches with static variables, /repo/src/fuel_fab.cc:517-573 and 574-634; [None]: an exception. *)
Definition branch_cached (D : nucdata) (spectrum : string) (c : comp) (st : statics) : statics * option Q :=
  let cm := cnorm 1 (atoms D c) in                                    (* 514-515 *)
  let '(st1, done) := init_refs D spectrum st in
  if done then let '(st2, w) := weigh_cached D spectrum cm 0 st1 in (st2, Some w) else (st1, None).
(** The branch for any other spectrum, which keeps nothing, /repo/src/fuel_fab.cc:635-679. *)
Definition branch_plain (D : nucdata) (spectrum : string) (c : comp) : option Q :=
  match p_ref D spectrum 922380000 0, p_ref D spectrum 942390000 (nu_of spectrum 942390000) with
  | Some pu, Some pp =>
      Some (fold_left (fun w e =>
              let p := match d_xs D (fst e) "fission" spectrum, d_xs D (fst e) "absorption" spectrum with
                       | Some f, Some a => nu_of spectrum (fst e) * f - a
                       | _, _ => nu_of spectrum (fst e) * 0 - 0
                       end in
              w + snd e * (p - pu) / (pp - pu)) (cnorm 1 (atoms D c)) 0)
  | _, _ => None
  end.
(** The static variables of the process: those of the two branches, /repo/src/fuel_fab.cc:524-527 and 581-584. *)
Record process := { pr_thermal : statics; pr_fast : statics }.
(** A new process, /repo/src/fuel_fab.cc:524-527 and 581-584. *)
Definition process0 : process := {| pr_thermal := statics0; pr_fast := statics0 |}.
(** CosiWeight(c, spectrum), /repo/src/fuel_fab.cc:513-680. *)
Definition weight_call (D : nucdata) (pr : process) (spectrum : string) (c : comp) : process * option Q :=
  if String.eqb spectrum "thermal" then
    let '(st, r) := branch_cached D "thermal" c (pr_thermal pr) in
    ({| pr_thermal := st; pr_fast := pr_fast pr |}, r)
  else if String.eqb spectrum "fission_spectrum_ave" then
    let '(st, r) := branch_cached D "fission_spectrum_ave" c (pr_fast pr) in
    ({| pr_thermal := pr_thermal pr; pr_fast := st |}, r)
  else (pr, branch_plain D spectrum c).
(** The results of the calls of CosiWeight made in a process, by any number of facilities, one after the other
    (/repo/src/fuel_fab.cc:20-22, 60-62, 99-101, 290-330, 402-421). *)
Fixpoint weight_calls (D : nucdata) (pr : process) (calls : list (string * comp)) : list (option Q) :=
  match calls with
  | [] => []
  | (spectrum, c) :: calls' =>
      let '(pr1, r) := weight_call D pr spectrum c in r :: weight_calls D pr1 calls'
  end.
