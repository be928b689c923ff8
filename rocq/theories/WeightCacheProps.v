(** C113: the weights of FuelFab do not depend on what was weighed before. *)
From Verif Require Import Outcome KernelMaterial FuelFabModel WeightCacheModel WeightCacheSpec WeightCacheProofs.
Local Open Scope Q_scope.

(** ** C113.  In any sequence of weighings, of any compositions and spectra, by any number of facilities in a process, each gives
    the weight of its composition in its spectrum, as computed from the nuclear data alone (C69). *)
Theorem C113_history : forall D calls, (forall spectrum c, In (spectrum, c) calls -> references_known D spectrum) ->
  Forall2 (fun call r => exists w, r = Some w /\ w == cosi_weight D (fst call) (snd call)) calls (weight_calls D process0 calls).
Proof. exact calls_final. Qed.
Print Assumptions C113_history.

(** If data of a reference nuclide is missing, the first weighing raises an exception. *)
Theorem C113_missing : forall D spectrum c, ~ references_known D spectrum -> weight_calls D process0 [(spectrum, c)] = [None].
Proof. exact missing_final. Qed.
Print Assumptions C113_missing.

(** Worked case: data for uranium-235, uranium-238 and plutonium-239 in all spectra; iron is unknown. *)
Definition wc_data : nucdata :=
  {| d_aw := fun n => inject_Z (n / 10000 mod 1000);
     d_xs := fun n r sp =>
       if Z.eqb n 260560000 then None
       else Some (if String.eqb r "fission" then (if Z.eqb n 922380000 then 0 else if Z.eqb n 922350000 then 585 else 748)
                  else (if Z.eqb n 922380000 then 3 else if String.eqb sp "thermal" then 1010 else 20)) |}.
Definition wc_calls : list (string * comp) :=
  [("thermal", [(922350000%Z, 5); (922380000%Z, 95)]); ("resonance_integral", [(942390000%Z, 1)]);
   ("fission_spectrum_ave", [(260560000%Z, 1); (922350000%Z, 4)]); ("thermal", [(922350000%Z, 20); (942390000%Z, 80)]);
   ("fission_spectrum_ave", [(922350000%Z, 1)]); ("thermal", [(922350000%Z, 5); (922380000%Z, 95)])]%string.
Example C113_case : (forall spectrum c, In (spectrum, c) wc_calls -> references_known wc_data spectrum) /\
  match weight_calls wc_data process0 wc_calls with
  | [Some a; Some b; Some c; Some d; Some e; Some f] => Qeq_bool a f && negb (Qeq_bool a 0) && Qeq_bool b 1 && negb (Qeq_bool c e) && negb (Qeq_bool a d)
  | _ => false
  end = true.
Proof.
  split; [|vm_compute; reflexivity]. intros spectrum c _ n r [<-|[<-|[]]] [<-|[<-|[]]]; discriminate.
Qed.

(** The hypothesis is needed: if only plutonium-239 is missing, the second weighing of the same composition is carried out, with
    a reference of zero, although the first one raised an exception. *)
Theorem C113_missing_refuted : exists D spectrum c w, ~ references_known D spectrum /\ weight_calls D process0 [(spectrum, c); (spectrum, c)] = [None; Some w].
Proof.
  exists {| d_aw := fun _ => 1; d_xs := fun n _ _ => if Z.eqb n 942390000 then None else Some 2 |}, "thermal"%string, [(922350000%Z, 1)]. eexists.
  split; [|vm_compute; reflexivity]. intro K. apply (K 942390000%Z "fission"%string); cbn; auto.
Qed.
Print Assumptions C113_missing_refuted.
