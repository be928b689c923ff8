(** Scenarios of /repo/src/fuel_fab_tests.cc replayed in the model.  The
    cross sections of the tests are not available here; round ones (and equal atomic masses) with the same ordering
    (U238 < natural uranium < fuel < plutonium stream) take their place.  These are tests of the
    model, not proofs of properties. *)
From Verif Require Import Outcome KernelMaterial KernelResBuf KernelBuf FuelFabModel FuelFabSpec FuelFabRun.
Local Open Scope Q_scope.

Definition fv_D : nucdata := {|
  d_aw := fun n => 1;
  d_xs := fun n kind sp =>
    if String.eqb kind "fission" then Some 0
    else if Z.eqb n 922380000 then Some 1 else if Z.eqb n 922360000 then Some (1 # 2) else Some 0 |}.
Definition fv_nz : Q := 1 # 10000.
Definition fv_natu : comp := [(922380000%Z, 1)].
Definition fv_uox : comp := [(922360000%Z, 1); (922380000%Z, 3)].
Definition fv_pu : comp := [(942390000%Z, 1)].
Definition fv_bad : comp := [(922360000%Z, 1)].
Definition fv_uoxr : comp := [(922360000%Z, 1); (942390000%Z, 1)].
Definition fv_recipe (k : string) : option comp :=
  if String.eqb k "natu" then Some fv_natu else if String.eqb k "uox" then Some fv_uox
  else if String.eqb k "pustream" then Some fv_pu else if String.eqb k "pustreambad" then Some fv_bad else None.

(** CosiWeight, tests 73-122. *)
Example test_CosiWeight : cosi_weight fv_D "thermal" fv_pu == 1 /\ cosi_weight fv_D "thermal" fv_natu == 0 /\
  cosi_weight fv_D "fission_spectrum_ave" fv_pu == 1 /\
  cosi_weight fv_D "thermal" [(922380000%Z, 1); (942390000%Z, 1)] == 1 # 2.
Proof. repeat split; vm_compute; reflexivity. Qed.
(** HighFrac, LowFrac, ValidWeights, tests 143-180. *)
Example test_HighFrac : high_frac fv_nz 1 (1 # 8) 0 = Throw ValueError /\ high_frac fv_nz (1 # 8) 0 1 = Throw ValueError /\
  high_frac fv_nz (1 # 8) 1 0 = Throw ValueError /\ low_frac fv_nz 1 (1 # 8) 0 = Throw ValueError /\
  match high_frac fv_nz 0 (1 # 8) 1, low_frac fv_nz 0 (1 # 8) 1 with Ok f, Ok g => Qeq_bool f (1 # 8) && Qeq_bool g (7 # 8) | _, _ => false end = true /\
  valid_weights 0 (1 # 8) 1 = true /\ valid_weights (1 # 8) 0 1 = false.
Proof. vm_compute. repeat split. Qed.
(** CosiWeight_Mixed, tests 124-141. *)
Example test_CosiWeight_Mixed :
  let f := atom_to_mass fv_D (1 # 8) fv_pu fv_natu in let g := atom_to_mass fv_D (7 # 8) fv_natu fv_pu in
  Qeq_bool (cosi_weight fv_D "thermal" (m_comp (absorb (Mat 0 f fv_pu) (Mat 0 g fv_natu)))) (cosi_weight fv_D "thermal" fv_uox) = true.
Proof. vm_compute. reflexivity. Qed.

Definition fv_cfg (fill : Q) (fissr : string) (fiss topup thr : Q) : ff_cfg := {|
  fc_fill_commods := ["natu"%string]; fc_fill_prefs := []; fc_fill_recipe := "natu"; fc_fill_size := fill;
  fc_fiss_commods := ["fiss"%string]; fc_fiss_prefs := []; fc_fiss_recipe := fissr; fc_fiss_size := fiss;
  fc_topup_commod := "topup"; fc_topup_pref := 1; fc_topup_recipe := "pustream"; fc_topup_size := topup;
  fc_outcommod := "out"; fc_throughput := thr; fc_spectrum := "fission_spectrum_ave" |}.
(** A time step in which every request is answered, each by up to [cap]. *)
Definition fv_fill_step (cap : Q) (cfg : ff_cfg) (s : ff_state) : ff_state :=
  match ff_requests 0 fv_recipe cfg ([1], [1]) s with
  | Ok reqs =>
      let rs := map (fun p => (fst p, Mat 0 (Qred (Qmin cap (fr_qty (snd p)))) (match fr_comp (snd p) with Some c => c | None => fv_pu end)))
                    (combine (seq 0 (List.length reqs)) reqs) in
      match ff_accept 0 (ff_req_inventories reqs) rs s with Ok s' => s' | _ => s end
  | _ => s
  end.
(** FillAllInventories, test 336-381: sizes are filled and respected. *)
Example test_FillAllInventories :
  let cfg := fv_cfg (39 # 10) "pustream" (7 # 2) (33 # 10) 1 in
  let s := Nat.iter 10 (fv_fill_step 1 cfg) (ff_new cfg) in
  qeqs [b_qty (fb_fill s); b_qty (fb_fiss s); b_qty (fb_topup s)] [39 # 10; 7 # 2; 33 # 10] = true.
Proof. vm_compute. reflexivity. Qed.

(** Serving an award for request 0 from given stocks: what is shipped and left. *)
Definition fv_serve (D : nucdata) (cfg : ff_cfg) (fill fiss topup : list mat) (tgt : comp) (q amt : Q) : outcome (option (list Q * list Q)) :=
  let b size l := {| b_cap := Some size; b_items := l |} in
  let s := {| fb_fill := b (fc_fill_size cfg) fill; fb_fiss := b (fc_fiss_size cfg) fiss; fb_topup := b (fc_topup_size cfg) topup |} in
  let* o := ff_get_bids fv_nz D fv_recipe cfg s [(tgt, q)] in
  match o with
  | Some B =>
      match usage_of fv_nz D (fc_spectrum cfg) B [(0%nat, amt)] with
      | Some u => if respectsb B [(0%nat, amt)] u then
                    let* '(s', ms) := ff_trades 0 fv_nz D cfg s [(tgt, amt)] in
                    Ok (Some (map m_qty ms ++ map (fun m => cosi_weight D (fc_spectrum cfg) (m_comp m)) ms,
                              [b_qty (fb_fill s'); b_qty (fb_fiss s'); b_qty (fb_topup s')]))
                  else Ok None
      | None => Ok None
      end
  | None => Ok None
  end.
Definition fv_is (o : outcome (option (list Q * list Q))) (a b : list Q) : bool :=
  match o with Ok (Some (x, y)) => qeqs x a && qeqs y b | _ => false end.
Definition fv_no (o : outcome (option (list Q * list Q))) : bool := match o with Ok None => true | _ => false end.
(** ProvideStraightFiss_WithZeroFill, 386-414, and ProvideStraightFill_ZeroFiss, 416-446. *)
Example test_ProvideStraightFiss : fv_is (fv_serve fv_D (fv_cfg 100 "pustream" 100 0 100) [] [Mat 1 100 fv_pu] [] fv_pu 100 100) [100; 1] [0; 0; 0] = true.
Proof. vm_compute. reflexivity. Qed.
Example test_ProvideStraightFill : fv_is (fv_serve fv_D (fv_cfg 100 "pustream" 100 0 100) [Mat 1 100 fv_natu] [] [] fv_natu 100 100) [100; 0] [0; 0; 0] = true.
Proof. vm_compute. reflexivity. Qed.
(** CorrectMixing, 494-540 (1/8 of the blend is plutonium). *)
Example test_CorrectMixing : fv_is (fv_serve fv_D (fv_cfg 100 "pustream" 100 0 100) [Mat 1 100 fv_natu] [Mat 2 100 fv_pu] [] fv_uox 10 10)
  [10; 1 # 8] [100 - 10 * (7 # 8); 100 - 10 * (1 # 8); 0] = true.
Proof. vm_compute. reflexivity. Qed.
(** FillConstrained 544-586 and FissConstrained 590-632: the constraints admit exactly as much as the stock yields. *)
Example test_FillConstrained : let cfg := fv_cfg 1 "pustream" 100 0 100 in
  let q := 8 # 7 in
  fv_is (fv_serve fv_D cfg [Mat 1 1 fv_natu] [Mat 2 100 fv_pu] [] fv_uox (2 * q) q) [q; 1 # 8] [0; 100 - (1 # 7); 0] = true /\
  fv_no (fv_serve fv_D cfg [Mat 1 1 fv_natu] [Mat 2 100 fv_pu] [] fv_uox (2 * q) (q + 1)) = true.
Proof. vm_compute. split; reflexivity. Qed.
Example test_FissConstrained : let cfg := fv_cfg 100 "pustream" 1 0 100 in
  let q := 8 in
  fv_is (fv_serve fv_D cfg [Mat 1 100 fv_natu] [Mat 2 1 fv_pu] [] fv_uox (2 * q) q) [q; 1 # 8] [93; 0; 0] = true /\
  fv_no (fv_serve fv_D cfg [Mat 1 100 fv_natu] [Mat 2 1 fv_pu] [] fv_uox (2 * q) (q + 1)) = true.
Proof. vm_compute. split; reflexivity. Qed.
(** SwapTopup 635-688: a poor fissile stream (weight 1/2, target 3/4); top-up is used and no filler. *)
Example test_SwapTopup : match fv_serve fv_D (fv_cfg 100 "pustreambad" 100 100 100) [Mat 1 100 fv_natu] [Mat 2 100 fv_bad] [Mat 3 100 fv_pu] fv_uoxr 10 10 with
  | Ok (Some ([q; w], [fill; fiss; topup])) => Qeq_bool q 10 && Qeq_bool w (3 # 4) && Qeq_bool fill 100 && Qltb fiss 100 && Qltb topup 100
  | _ => false end = true.
Proof. vm_compute. reflexivity. Qed.
(** SwapTopup_ZeroFill 690-740: the same without filler. *)
Example test_SwapTopup_ZeroFill : match fv_serve fv_D (fv_cfg 0 "pustreambad" 100 100 100) [] [Mat 2 100 fv_bad] [Mat 3 100 fv_pu] fv_uoxr 10 10 with
  | Ok (Some ([q; w], [fill; fiss; topup])) => Qeq_bool q 10 && Qeq_bool w (3 # 4) && Qltb fiss 100 && Qltb topup 100
  | _ => false end = true.
Proof. vm_compute. reflexivity. Qed.
(** SwapTopup_TopupConstrained 747-795: little top-up limits what the constraints admit. *)
Example test_SwapTopup_TopupConstrained :
  fv_no (fv_serve fv_D (fv_cfg 100 "pustreambad" 100 (1 # 2) 100) [Mat 1 100 fv_natu] [Mat 2 100 fv_bad] [Mat 3 (1 # 2) fv_pu] fv_uoxr 10 10) = true /\
  fv_no (fv_serve fv_D (fv_cfg 100 "pustreambad" 100 (1 # 2) 100) [Mat 1 100 fv_natu] [Mat 2 100 fv_bad] [Mat 3 (1 # 2) fv_pu] fv_uoxr 10 1) = false.
Proof. vm_compute. split; reflexivity. Qed.
(** HomogenousBuffers, 855-897: parcels of one inventory are merged. *)
Example test_HomogenousBuffers : let cfg := fv_cfg 40 "pustream" 4 0 100 in
  match ff_accept 0 [InvFiss; InvFill] [(0%nat, Mat 1 (1 # 100) fv_uox); (0%nat, Mat 2 3 fv_natu); (1%nat, Mat 3 40 fv_natu)] (ff_new cfg) with
  | Ok s => Nat.eqb (b_count (fb_fiss s)) 1 && Nat.eqb (b_count (fb_fill s)) 1 && Qeq_bool (b_qty (fb_fiss s)) (301 # 100)
  | _ => false end = true.
Proof. vm_compute. reflexivity. Qed.
