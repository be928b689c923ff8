(** Properties C34-C39 and C69-C71 of FuelFab.  Statements use FuelFabSpec.v;
    proofs are a single [exact] or a computed witness. *)
From Coq Require Import Lqa.
From Verif Require Import Outcome KernelMaterial KernelResBuf KernelFacts KernelMass KernelBuf
  FuelFabModel FuelFabSpec FuelFabMath FuelFabProofs FuelFabRun.
Local Open Scope Q_scope.

(** ** Worked data: absorption 1 for U238, 1/2 for U236 and none for Pu239 and others, no
    fission; all atoms weigh the same.  (Simple numbers: fractions are computed exactly.) *)
Definition fx_D : nucdata := {|
  d_aw := fun _ => 1;
  d_xs := fun n kind sp =>
    if String.eqb kind "fission" then Some 0
    else if Z.eqb n 922380000 then Some 1 else if Z.eqb n 922360000 then Some (1 # 2) else Some 0 |}.
Definition fx_u8 : comp := [(922380000%Z, 1)].
Definition fx_pu : comp := [(942390000%Z, 1)].
Definition fx_fiss : comp := [(922360000%Z, 1)].                            (* weight 1/2 *)
Definition fx_low : comp := [(922360000%Z, 1); (922380000%Z, 3)].       (* weight 1/8 *)
Definition fx_high : comp := [(922360000%Z, 1); (942390000%Z, 1)].      (* weight 3/4 *)
Definition fx_recipe (k : string) : option comp :=
  if String.eqb k "du" then Some fx_u8 else if String.eqb k "rg" then Some fx_fiss else None.
Definition fx_cfg : ff_cfg := {|
  fc_fill_commods := ["du"%string]; fc_fill_prefs := [2]; fc_fill_recipe := "du"; fc_fill_size := 20;
  fc_fiss_commods := ["pu"; "mox"]%string; fc_fiss_prefs := []; fc_fiss_recipe := ""; fc_fiss_size := 10;
  fc_topup_commod := "wg"; fc_topup_pref := 3; fc_topup_recipe := ""; fc_topup_size := 5;
  fc_outcommod := "fuel"; fc_throughput := 20; fc_spectrum := "fission_spectrum_ave" |}.
Definition fx_nz : Q := 1 # 100000000.
Example fx_data : data_ok fx_D "fission_spectrum_ave".
Proof.
  split.
  - intro n. reflexivity.
  - split; [exists 0, 1; split; reflexivity|]. split; [exists 0, 0; split; reflexivity|]. vm_compute. discriminate.
Qed.
Example fx_recipes : recipes_ok fx_recipe.
Proof.
  intros k c. unfold fx_recipe. destruct (String.eqb k "du"); [|destruct (String.eqb k "rg"); [|discriminate]];
    intro H; injection H as <-; apply real_compb_sound; reflexivity.
Qed.
Definition fx_es : list ff_env :=
  [ {| fe_reqs := []; fe_trades := [];
       fe_receipts := [(2%nat, Mat 1 6 fx_u8); (0%nat, Mat 2 8 fx_fiss); (3%nat, Mat 3 2 fx_pu); (2%nat, Mat 4 4 fx_u8)] |} ].
Definition fx_reqs : list (comp * Q) := [(fx_low, 4); (fx_u8, 1); (fx_high, 2)].
Definition fx_trades : list (nat * Q) := [(0%nat, 4); (2%nat, 1)].
Definition fx_e : ff_env := {| fe_reqs := fx_reqs; fe_trades := fx_trades; fe_receipts := [(1%nat, Mat 5 2 fx_fiss)] |}.
Definition fx_prefs : list Q * list Q := ([1; 1], [2]).
Example fx_entered : ff_enter fx_cfg = Ok fx_prefs.
Proof. reflexivity. Qed.
Definition fx_run := ff_run 0 fx_nz fx_D fx_recipe fx_cfg fx_prefs (ff_new fx_cfg) fx_es.
Definition fx_s : ff_state := match fx_run with Ok (s, _) => s | _ => ff_new fx_cfg end.
Definition fx_os : list ff_out := match fx_run with Ok (_, os) => os | _ => [] end.
Example fx_ran : fx_run = Ok (fx_s, fx_os).
Proof. vm_compute. reflexivity. Qed.
Example fx_lived : ff_lived 0 fx_nz fx_D fx_recipe fx_cfg fx_es fx_s fx_os.
Proof. exact (ex_intro _ fx_prefs (conj fx_entered fx_ran)). Qed.
Example fx_sane : ff_sane (fx_es ++ [fx_e]).
Proof. apply ff_saneb_sound. vm_compute. reflexivity. Qed.
Example fx_sane0 : ff_sane fx_es.
Proof. apply ff_saneb_sound. vm_compute. reflexivity. Qed.
Example fx_hom : ff_homogeneous fx_s.
Proof. apply ff_homogeneousb_sound. vm_compute. reflexivity. Qed.
(** The same stocks, each parcel with its composition in lowest terms. *)
Definition fx_t : ff_state :=
  {| fb_fill := {| b_cap := Some 20; b_items := [Mat 1 10 fx_u8] |};
     fb_fiss := {| b_cap := Some 10; b_items := [Mat 2 8 fx_fiss] |};
     fb_topup := {| b_cap := Some 5; b_items := [Mat 3 2 fx_pu] |} |}.
Example fx_hom_t : ff_homogeneous fx_t.
Proof. apply ff_homogeneousb_sound. vm_compute. reflexivity. Qed.
Example fx_reqs_ok : reqs_ok fx_reqs.
Proof. apply reqs_okb_sound. vm_compute. reflexivity. Qed.

(** ** C34: blend fractions *)
Theorem C34_fractions : forall nz lo t hi, 0 <= nz ->
  (lo <= t /\ t <= hi ->
   exists f g, high_frac nz lo t hi = Ok f /\ low_frac nz lo t hi = Ok g /\
     (0 <= f /\ f <= 1) /\ (0 <= g /\ g <= 1) /\ f + g == 1 /\
     Qabs (f * hi + g * lo - t) <= nz * (hi - lo) /\
     (nz * (hi - lo) <= t - lo -> nz * (hi - lo) <= hi - t -> f * hi + g * lo == t)) /\
  (~ (lo <= t /\ t <= hi) -> high_frac nz lo t hi = Throw ValueError /\ low_frac nz lo t hi = Throw ValueError).
Proof. exact high_low_final. Qed.
Print Assumptions C34_fractions.
Example C34_nontrivial : 0 <= fx_nz /\ (- (1) <= 1 # 4 /\ 1 # 4 <= 2) /\
  (exists f, high_frac fx_nz (- (1)) (1 # 4) 2 = Ok f /\ f == 5 # 12).
Proof.
  split; [discriminate|]. split; [split; discriminate|].
  destruct (high_frac fx_nz (- (1)) (1 # 4) 2) as [f| | |] eqn:E; try (vm_compute in E; discriminate).
  exists f. split; [reflexivity|]. vm_compute in E. injection E as <-. reflexivity.
Qed.

(** ** C35: atom fractions to mass fractions *)
Theorem C35_atom_to_mass : forall D, (forall n, 0 < d_aw D n) ->
  forall c1 c2 f q i j, real_comp c1 -> real_comp c2 -> 0 <= f -> f <= 1 -> 0 < q ->
  let a := atom_to_mass D f c1 c2 in
  let b := atom_to_mass D (1 - f) c2 c1 in
  let m := absorb (Mat i (a * q) c1) (Mat j (b * q) c2) in
  (0 <= a /\ a <= 1) /\ (0 <= b /\ b <= 1) /\ a + b == 1 /\
  all_atoms D (a * q) c1 == f * (all_atoms D (a * q) c1 + all_atoms D (b * q) c2) /\
  all_atoms D (b * q) c2 == (1 - f) * (all_atoms D (a * q) c1 + all_atoms D (b * q) c2) /\
  (forall n, atom_fraction D (m_comp m) n == f * atom_fraction D c1 n + (1 - f) * atom_fraction D c2 n).
Proof. exact fractions_final. Qed.
Print Assumptions C35_atom_to_mass.
Definition fx_D2 : nucdata := {| d_aw := fun n => if Z.eqb n 922360000 then 235 else if Z.eqb n 942390000 then 239 else 238;
                                 d_xs := d_xs fx_D |}.
Definition fx_mix : comp := [(922360000%Z, 1); (922380000%Z, 1)].
Example C35_nontrivial : (forall n, 0 < d_aw fx_D2 n) /\ real_comp fx_pu /\ real_comp fx_mix /\ 0 <= 1 # 3 /\ 1 # 3 <= 1 /\
  atom_to_mass fx_D2 (1 # 3) fx_pu fx_mix == 113047 # 336767.
Proof.
  split. { intro n. unfold fx_D2; cbn [d_aw]. destruct (Z.eqb n 922360000); [reflexivity|]. destruct (Z.eqb n 942390000); reflexivity. }
  split; [apply real_compb_sound; reflexivity|]. split; [apply real_compb_sound; reflexivity|].
  split; [discriminate|]. split; [discriminate|]. vm_compute. reflexivity.
Qed.

(** ** C69: the equivalence weight *)
Theorem C69_weight : forall D, (forall n, 0 < d_aw D n) -> forall sp c p, real_comp c ->
  (forall n, production D sp n (p n)) ->
  cosi_weight D sp c ==
  qsum (map (fun n => atom_fraction D c n * ((p n - p 922380000%Z) / (p 942390000%Z - p 922380000%Z))) (ckeys c)).
Proof. exact weight_final. Qed.
Print Assumptions C69_weight.
Theorem C69_references : forall D sp v, data_ok D sp -> 0 < v ->
  cosi_weight D sp [(942390000%Z, v)] == 1 /\ cosi_weight D sp [(922380000%Z, v)] == 0.
Proof. exact references_final. Qed.
Print Assumptions C69_references.
Theorem C69_amount_irrelevant : forall D sp k c, (forall n, 0 < d_aw D n) -> real_comp c -> 0 < k ->
  cosi_weight D sp (cscale k c) == cosi_weight D sp c.
Proof. exact scale_weight. Qed.
Print Assumptions C69_amount_irrelevant.
Example C69_nontrivial : data_ok fx_D "fission_spectrum_ave" /\ real_comp fx_high /\ cosi_weight fx_D "fission_spectrum_ave" fx_high == 3 # 4 /\
  (exists p, forall n, production fx_D "fission_spectrum_ave" n (p n)).
Proof.
  split; [exact fx_data|]. split; [apply real_compb_sound; reflexivity|]. split; [vm_compute; reflexivity|].
  exists (p_of fx_D "fission_spectrum_ave"). intro n. exact (p_of_production fx_D "fission_spectrum_ave" n).
Qed.

(** ** C36: fuel blended from two streams *)
(** In the offer. *)
Theorem C36_offered : forall nz D recipe cfg s reqs B, 0 <= nz -> nz <= 1 -> data_ok D (fc_spectrum cfg) ->
  ff_homogeneous s -> recipes_ok recipe -> reqs_ok reqs -> ff_get_bids nz D recipe cfg s reqs = Ok (Some B) ->
  forall j m, In (j, m) (fo_offers B) ->
  exists tgt q, nth_error reqs j = Some (tgt, q) /\ m_qty m == q /\
    exists lo hi, between lo (weight D cfg tgt) hi /\
      ((lo = fs_wfill (fo_streams B) /\ hi = fs_wfiss (fo_streams B)) \/
       (b_items (fb_topup s) <> [] /\ lo = fs_wfiss (fo_streams B) /\ hi = fs_wtopup (fo_streams B))) /\
      Qabs (weight D cfg (m_comp m) - weight D cfg tgt) <= nz * (hi - lo) /\
      (nz * (hi - lo) <= weight D cfg tgt - lo -> nz * (hi - lo) <= hi - weight D cfg tgt ->
       weight D cfg (m_comp m) == weight D cfg tgt).
Proof. exact offers_final. Qed.
Print Assumptions C36_offered.
(** In a trade, whatever trades come before and after: either the delivery is
    good, or a stream is used up by it and the amount is short by at most twice the resource tolerance. *)
Theorem C36_traded : forall eps nz D cfg s0 pre tgt q post s' ms, 0 <= eps -> 0 <= nz -> nz <= 1 ->
  (forall n, 0 < d_aw D n) -> ff_homogeneous s0 -> 0 < q ->
  ff_trades eps nz D cfg s0 (pre ++ (tgt, q) :: post) = Ok (s', ms) ->
  exists s1 ms1 m s2, ff_trades eps nz D cfg s0 pre = Ok (s1, ms1) /\
    ff_trades eps nz D cfg s0 (pre ++ [(tgt, q)]) = Ok (s2, ms1 ++ [m]) /\ nth_error ms (List.length pre) = Some m /\
    (forall cf cl, content (fb_fiss s1) cf -> content (fb_fill s1) cl ->
      between (weight D cfg cl) (weight D cfg tgt) (weight D cfg cf) ->
      meets nz D cfg (weight D cfg cl) (weight D cfg tgt) (weight D cfg cf) q m \/
      ((b_items (fb_fiss s2) = [] \/ b_items (fb_fill s2) = []) /\ q - 2 * eps <= m_qty m /\ m_qty m <= q)) /\
    (forall cf ct, content (fb_fiss s1) cf -> content (fb_topup s1) ct -> weight D cfg cf < weight D cfg tgt ->
      meets nz D cfg (weight D cfg cf) (weight D cfg tgt) (weight D cfg ct) q m \/
      ((b_items (fb_fiss s2) = [] \/ b_items (fb_topup s2) = []) /\ q - 2 * eps <= m_qty m /\ m_qty m <= q)).
Proof. exact trade_final. Qed.
Print Assumptions C36_traded.
Example C36_nontrivial : exists B s' ms,
  ff_get_bids fx_nz fx_D fx_recipe fx_cfg fx_s fx_reqs = Ok (Some B) /\ List.length (fo_offers B) = 3%nat /\
  ff_trades 0 fx_nz fx_D fx_cfg fx_s (ff_targets fx_reqs fx_trades) = Ok (s', ms) /\
  Forall2 Qeq (map m_qty ms) [4; 1] /\ Forall2 Qeq (map (fun m => weight fx_D fx_cfg (m_comp m)) ms) [1 # 8; 3 # 4].
Proof.
  destruct (ok_check (ff_get_bids fx_nz fx_D fx_recipe fx_cfg fx_s fx_reqs)
    (fun o => match o with Some B => Nat.eqb (List.length (fo_offers B)) 3 | None => false end)) as ([B|] & E & C);
    [vm_compute; reflexivity| |discriminate].
  destruct (ok_check (ff_trades 0 fx_nz fx_D fx_cfg fx_s (ff_targets fx_reqs fx_trades))
    (fun r => qeqs (map m_qty (snd r)) [4; 1] && qeqs (map (fun m => weight fx_D fx_cfg (m_comp m)) (snd r)) [1 # 8; 3 # 4]))
    as ([s' ms] & T & K); [vm_compute; reflexivity|].
  apply andb_prop in K as [K1 K2]. exists B, s', ms. split; [exact E|]. split; [apply Nat.eqb_eq; exact C|]. split; [exact T|].
  split; [exact (qeqs_sound _ _ K1)|exact (qeqs_sound _ _ K2)].
Qed.

(** ** C70: which requests are offered fuel *)
Theorem C70_offers : forall nz D recipe cfg s reqs B, ff_homogeneous s -> recipes_ok recipe ->
  ff_get_bids nz D recipe cfg s reqs = Ok (Some B) ->
  forall j, (exists m, In (j, m) (fo_offers B)) <->
    exists tgt q, nth_error reqs j = Some (tgt, q) /\
      (between (fs_wfill (fo_streams B)) (weight D cfg tgt) (fs_wfiss (fo_streams B)) \/
       (b_items (fb_topup s) <> [] /\ between (fs_wfiss (fo_streams B)) (weight D cfg tgt) (fs_wtopup (fo_streams B)))).
Proof. exact offered_final. Qed.
Print Assumptions C70_offers.
(** Where the stream weights and the limits come from. *)
Theorem C70_streams : forall nz D recipe cfg s reqs B, ff_homogeneous s -> recipes_ok recipe ->
  ff_get_bids nz D recipe cfg s reqs = Ok (Some B) ->
  (forall m, b_items (fb_fill s) = [m] -> fs_wfill (fo_streams B) = weight D cfg (m_comp m)) /\
  (forall m, b_items (fb_fiss s) = [m] -> fs_wfiss (fo_streams B) = weight D cfg (m_comp m)) /\
  (forall m, b_items (fb_topup s) = [m] -> fs_wtopup (fo_streams B) = weight D cfg (m_comp m)) /\
  (b_items (fb_fill s) = [] -> exists c, recipe (fc_fill_recipe cfg) = Some c /\ fs_wfill (fo_streams B) = weight D cfg c) /\
  (b_items (fb_fiss s) = [] -> fc_fiss_recipe cfg <> ""%string ->
     exists c, recipe (fc_fiss_recipe cfg) = Some c /\ fs_wfiss (fo_streams B) = weight D cfg c) /\
  (b_items (fb_fiss s) = [] -> fc_fiss_recipe cfg = ""%string -> fs_wfiss (fo_streams B) = fs_wfill (fo_streams B)) /\
  fo_cap_fiss B = Qmax (b_qty (fb_fiss s)) nz /\ fo_cap_fill B = Qmax (b_qty (fb_fill s)) nz /\
  fo_cap_topup B = Qmax (b_qty (fb_topup s)) nz /\ fo_cap B = fc_throughput cfg.
Proof. exact streams_final. Qed.
Print Assumptions C70_streams.
(** Every offer has the requested quantity and is a blend of two streams, and the three published
    conversions (which the exchange uses to charge the stocks) are the kilograms of each stream in it. *)
Theorem C70_blend : forall nz D recipe cfg s reqs B, 0 <= nz -> nz <= 1 -> (forall n, 0 < d_aw D n) ->
  ff_homogeneous s -> recipes_ok recipe -> reqs_ok reqs -> ff_get_bids nz D recipe cfg s reqs = Ok (Some B) ->
  forall j m, In (j, m) (fo_offers B) ->
  exists tgt q xf xl xt cf, nth_error reqs j = Some (tgt, q) /\ m_qty m == q /\
    conv_fiss nz D (fc_spectrum cfg) (fo_streams B) m = Some xf /\
    conv_fill nz D (fc_spectrum cfg) (fo_streams B) m = Some xl /\
    conv_topup nz D (fc_spectrum cfg) (fo_streams B) m = Some xt /\
    fiss_material recipe cfg s cf /\
    ((exists cl, fill_material recipe cfg s cl /\ blended m xf cf xl cl /\ xt == 0) \/
     (exists t, b_items (fb_topup s) = [t] /\ blended m xt (m_comp t) xf cf /\ xl == 0)).
Proof. exact blend_final. Qed.
Print Assumptions C70_blend.
Example C70_nontrivial : exists B, ff_homogeneous fx_s /\ recipes_ok fx_recipe /\
  ff_get_bids fx_nz fx_D fx_recipe fx_cfg fx_s fx_reqs = Ok (Some B) /\
  List.length (fo_offers B) = 3%nat /\ fs_wfill (fo_streams B) == 0 /\ fs_wfiss (fo_streams B) == 1 # 2.
Proof.
  destruct (ok_check (ff_get_bids fx_nz fx_D fx_recipe fx_cfg fx_s fx_reqs)
    (fun o => match o with Some B => Nat.eqb (List.length (fo_offers B)) 3 && Qeq_bool (fs_wfill (fo_streams B)) 0 &&
       Qeq_bool (fs_wfiss (fo_streams B)) (1 # 2) | None => false end)) as ([B|] & E & C);
    [vm_compute; reflexivity| |discriminate].
  apply andb_prop in C as [C C3]. apply andb_prop in C as [C1 C2].
  exists B. split; [exact fx_hom|]. split; [exact fx_recipes|]. split; [exact E|].
  split; [apply Nat.eqb_eq; exact C1|]. split; apply Qeq_bool_iff; auto.
Qed.

(** ** C37, C39, C71: awards within the published constraints *)
(** Full statements.  C37: if the awards respect the constraints of the bids, each
    stream is drawn by exactly the amount charged and none is overdrawn.  C39: then no error is
    raised.  C71 (documentation, fuel_fab.h:42-43): then each delivery has the weight of
    the requested material.  All three are false:
    - a request as light as the filler, while fissile material is in
      stock, is offered pure filler; the trade then pops 0 kg of fissile material. *)
Theorem C39_refuted : exists nz D recipe cfg s reqs B l u, 0 < nz /\ nz <= 1 /\ data_ok D (fc_spectrum cfg) /\
  ff_homogeneous s /\ recipes_ok recipe /\ reqs_ok reqs /\ ff_get_bids nz D recipe cfg s reqs = Ok (Some B) /\
  respects nz D (fc_spectrum cfg) B l u /\
  u_fiss u <= b_qty (fb_fiss s) /\ u_fill u <= b_qty (fb_fill s) /\ u_topup u <= b_qty (fb_topup s) /\
  ff_trades 0 nz D cfg s (ff_targets reqs l) = Throw ZeroPop.
Proof.
  destruct (awards_check fx_nz fx_D fx_recipe fx_cfg fx_s fx_reqs [(1%nat, 1)] (fun _ u => coveredb fx_s u)) as (B & u & E & R & C);
    [vm_compute; reflexivity|]. apply coveredb_sound in C as (C1 & C2 & C3).
  exists fx_nz, fx_D, fx_recipe, fx_cfg, fx_s, fx_reqs, B, [(1%nat, 1)], u.
  split; [reflexivity|]. split; [discriminate|]. split; [exact fx_data|]. split; [exact fx_hom|]. split; [exact fx_recipes|].
  split; [exact fx_reqs_ok|]. split; [exact E|]. split; [exact R|]. split; [exact C1|]. split; [exact C2|]. split; [exact C3|].
  vm_compute. reflexivity.
Qed.
Print Assumptions C39_refuted.
(** - With top-up but no fissile material in stock, a request as heavy as the top-up
      is charged to the top-up, but filler is delivered. *)
Definition fx_s2 : ff_state := {| fb_fill := {| b_cap := Some 20; b_items := [Mat 1 6 fx_u8] |};
  fb_fiss := {| b_cap := Some 10; b_items := [] |}; fb_topup := {| b_cap := Some 5; b_items := [Mat 2 5 fx_pu] |} |}.
Example fx_hom2 : ff_homogeneous fx_s2.
Proof. apply ff_homogeneousb_sound. vm_compute. reflexivity. Qed.
Theorem C37_refuted : exists nz D recipe cfg s reqs B l u s' m, 0 < nz /\ nz <= 1 /\ data_ok D (fc_spectrum cfg) /\
  ff_homogeneous s /\ recipes_ok recipe /\ reqs_ok reqs /\ ff_get_bids nz D recipe cfg s reqs = Ok (Some B) /\
  respects nz D (fc_spectrum cfg) B l u /\
  u_fiss u <= b_qty (fb_fiss s) /\ u_fill u <= b_qty (fb_fill s) /\ u_topup u <= b_qty (fb_topup s) /\
  ff_trades 0 nz D cfg s (ff_targets reqs l) = Ok (s', [m]) /\
  u_topup u == 2 /\ u_fill u == 0 /\
  b_qty (fb_topup s') == b_qty (fb_topup s) /\ b_qty (fb_fill s') == b_qty (fb_fill s) - 2.
Proof.
  destruct (awards_check fx_nz fx_D fx_recipe fx_cfg fx_s2 [(fx_pu, 2)] [(0%nat, 2)]
    (fun _ u => coveredb fx_s2 u && (Qeq_bool (u_topup u) 2 && Qeq_bool (u_fill u) 0))) as (B & u & E & R & C);
    [vm_compute; reflexivity|]. apply andb_prop in C as [C K]. apply coveredb_sound in C as (C1 & C2 & C3).
  apply andb_prop in K as [K1 K2]. apply Qeq_bool_iff in K1, K2.
  destruct (ok_check (ff_trades 0 fx_nz fx_D fx_cfg fx_s2 (ff_targets [(fx_pu, 2)] [(0%nat, 2)]))
    (fun r => match snd r with [m] => Qeq_bool (b_qty (fb_topup (fst r))) (b_qty (fb_topup fx_s2)) &&
       Qeq_bool (b_qty (fb_fill (fst r))) (b_qty (fb_fill fx_s2) - 2) | _ => false end)) as ([s' [|m [|m2 r]]] & T & X);
    [vm_compute; reflexivity|discriminate| |discriminate].
  cbn [fst snd] in X. apply andb_prop in X as [X1 X2]. apply Qeq_bool_iff in X1, X2.
  exists fx_nz, fx_D, fx_recipe, fx_cfg, fx_s2, [(fx_pu, 2)], B, [(0%nat, 2)], u, s', m.
  split; [reflexivity|]. split; [discriminate|]. split; [exact fx_data|]. split; [exact fx_hom2|]. split; [exact fx_recipes|].
  split; [apply reqs_okb_sound; vm_compute; reflexivity|]. split; [exact E|]. split; [exact R|].
  split; [exact C1|]. split; [exact C2|]. split; [exact C3|]. split; [exact T|]. auto.
Qed.
Print Assumptions C37_refuted.
Theorem C71_same_weight_refuted : exists nz D recipe cfg s reqs B l u s' m tgt q, 0 < nz /\ nz <= 1 /\ data_ok D (fc_spectrum cfg) /\
  ff_homogeneous s /\ recipes_ok recipe /\ reqs_ok reqs /\ ff_get_bids nz D recipe cfg s reqs = Ok (Some B) /\
  respects nz D (fc_spectrum cfg) B l u /\
  ff_trades 0 nz D cfg s (ff_targets reqs l) = Ok (s', [m]) /\ nth_error reqs 0 = Some (tgt, q) /\ map fst l = [0%nat] /\
  weight D cfg tgt == 1 /\ weight D cfg (m_comp m) == 0.
Proof.
  destruct (awards_check fx_nz fx_D fx_recipe fx_cfg fx_s2 [(fx_pu, 2)] [(0%nat, 2)] (fun _ _ => true)) as (B & u & E & R & _);
    [vm_compute; reflexivity|].
  destruct (ok_check (ff_trades 0 fx_nz fx_D fx_cfg fx_s2 (ff_targets [(fx_pu, 2)] [(0%nat, 2)]))
    (fun r => match snd r with [m] => Qeq_bool (weight fx_D fx_cfg (m_comp m)) 0 | _ => false end)) as ([s' [|m [|m2 r]]] & T & X);
    [vm_compute; reflexivity|discriminate| |discriminate].
  cbn [fst snd] in X. apply Qeq_bool_iff in X.
  exists fx_nz, fx_D, fx_recipe, fx_cfg, fx_s2, [(fx_pu, 2)], B, [(0%nat, 2)], u, s', m, fx_pu, 2.
  split; [reflexivity|]. split; [discriminate|]. split; [exact fx_data|]. split; [exact fx_hom2|]. split; [exact fx_recipes|].
  split; [apply reqs_okb_sound; vm_compute; reflexivity|]. split; [exact E|]. split; [exact R|].
  split; [exact T|]. split; [reflexivity|]. split; [reflexivity|]. split; [vm_compute; reflexivity|exact X].
Qed.
Print Assumptions C71_same_weight_refuted.
(** What does hold, for all three: if the charges are covered by the actual stocks (not only by the
    near-zero minimum capacity) and the awards are [servable] (that
    excludes the cases above, top-up requests decided by equality of weights, and
    negative weights without filler), every award is delivered in full, with the weight of the
    offer, and each stream is drawn by the amount charged.  Missing: the awards that are not servable. *)
Theorem C37_C39_awards_partial : forall eps nz D recipe cfg s reqs B l u,
  0 <= eps -> 0 <= nz -> nz <= 1 -> data_ok D (fc_spectrum cfg) -> ff_homogeneous s -> recipes_ok recipe ->
  reqs_ok reqs -> ff_get_bids nz D recipe cfg s reqs = Ok (Some B) ->
  respects nz D (fc_spectrum cfg) B l u -> Forall (servable nz D cfg s B reqs) l ->
  u_fiss u <= b_qty (fb_fiss s) -> u_fill u <= b_qty (fb_fill s) -> u_topup u <= b_qty (fb_topup s) ->
  exists s' ms, ff_trades eps nz D cfg s (ff_targets reqs l) = Ok (s', ms) /\
    b_qty (fb_fiss s') == b_qty (fb_fiss s) - u_fiss u /\ b_qty (fb_fill s') == b_qty (fb_fill s) - u_fill u /\
    b_qty (fb_topup s') == b_qty (fb_topup s) - u_topup u /\
    Forall2 (fun a m => m_qty m == snd a /\
      forall o, offer_for B (fst a) = Some o -> weight D cfg (m_comp m) == weight D cfg (m_comp o)) l ms.
Proof. exact awards_final. Qed.
Print Assumptions C37_C39_awards_partial.
Example C37_nontrivial : exists B u, data_ok fx_D (fc_spectrum fx_cfg) /\ ff_homogeneous fx_t /\ recipes_ok fx_recipe /\
  reqs_ok fx_reqs /\ ff_get_bids fx_nz fx_D fx_recipe fx_cfg fx_t fx_reqs = Ok (Some B) /\
  respects fx_nz fx_D (fc_spectrum fx_cfg) B fx_trades u /\ Forall (servable fx_nz fx_D fx_cfg fx_t B fx_reqs) fx_trades /\
  u_fiss u <= b_qty (fb_fiss fx_t) /\ u_fill u <= b_qty (fb_fill fx_t) /\ u_topup u <= b_qty (fb_topup fx_t) /\
  0 < u_fiss u /\ 0 < u_fill u /\ 0 < u_topup u.
Proof.
  destruct (awards_check fx_nz fx_D fx_recipe fx_cfg fx_t fx_reqs fx_trades
    (fun B u => coveredb fx_t u && (Qltb 0 (u_fiss u) && Qltb 0 (u_fill u) && Qltb 0 (u_topup u)) &&
       forallb (servableb fx_nz fx_D fx_cfg fx_t B fx_reqs) fx_trades)) as (B & u & E & R & C);
    [vm_compute; reflexivity|]. apply andb_prop in C as [C V]. apply andb_prop in C as [C K].
  apply coveredb_sound in C as (C1 & C2 & C3). apply andb_prop in K as [K K3]. apply andb_prop in K as [K1 K2].
  exists B, u. split; [exact fx_data|]. split; [exact fx_hom_t|]. split; [exact fx_recipes|]. split; [exact fx_reqs_ok|].
  split; [exact E|]. split; [exact R|].
  split; [apply Forall_forall; intros a A; apply servableb_sound; rewrite forallb_forall in V; exact (V a A)|].
  split; [exact C1|]. split; [exact C2|]. split; [exact C3|]. apply Qltb_true in K1, K2, K3. auto.
Qed.

(** ** C38: inventories over histories *)
Theorem C38_homogeneous : forall eps nz D recipe cfg es s os, 0 <= eps -> ff_sane es ->
  ff_lived eps nz D recipe cfg es s os ->
  ff_homogeneous s /\ forall i, b_qty (inventory s i) <= Qmax 0 (inv_size cfg i) + eps.
Proof. exact homogeneous_final. Qed.
Print Assumptions C38_homogeneous.
(** With deliveries that keep to the requests the sizes are respected exactly. *)
Theorem C38_sizes : forall eps nz D recipe cfg es s os, 0 <= eps -> (forall i, 0 <= inv_size cfg i) -> ff_sane es ->
  ff_lived eps nz D recipe cfg es s os -> Forall2 (fun e o => ff_orderly (fo_requests o) (fe_receipts e)) es os ->
  forall i, b_qty (inventory s i) <= inv_size cfg i.
Proof. exact sizes_final. Qed.
Print Assumptions C38_sizes.
Theorem C38_requests : forall eps nz D recipe cfg es e s os prefs s' o, 0 <= eps -> ff_sane (es ++ [e]) ->
  ff_lived eps nz D recipe cfg es s os -> ff_enter cfg = Ok prefs ->
  ff_step eps nz D recipe cfg prefs s e = Ok (s', o) ->
  Forall (fun p => eps < fr_qty p /\ req_of recipe cfg s p) (fo_requests o) /\ NoDup (map fr_inv (fo_requests o)) /\
  forall i, In i (map fr_inv (fo_requests o)) <-> eps < inv_size cfg i - b_qty (inventory s i).
Proof. exact requests_final. Qed.
Print Assumptions C38_requests.
Theorem C38_right_inventory : forall eps nz D recipe cfg es e s os prefs s' o, 0 <= eps -> ff_sane (es ++ [e]) ->
  ff_lived eps nz D recipe cfg es s os -> ff_enter cfg = Ok prefs ->
  ff_step eps nz D recipe cfg prefs s e = Ok (s', o) ->
  exists s1, ff_trades eps nz D cfg s (ff_targets (fe_reqs e) (fe_trades e)) = Ok (s1, fo_shipped o) /\
    forall i n, mass_in n (b_items (inventory s' i)) ==
      mass_in n (b_items (inventory s1 i)) + mass_in n (ff_deliveries (fo_requests o) (fe_receipts e) i).
Proof. exact routing_final. Qed.
Print Assumptions C38_right_inventory.
Theorem C38_deliveries_accepted : forall eps nz D recipe cfg es s os prefs reqs bids reqs' trades s1 ms rs, 0 <= eps -> ff_sane es ->
  ff_lived eps nz D recipe cfg es s os -> ff_enter cfg = Ok prefs ->
  ff_requests eps recipe cfg prefs s = Ok reqs -> ff_get_bids nz D recipe cfg s reqs' = Ok bids ->
  ff_trades eps nz D cfg s (ff_targets reqs' trades) = Ok (s1, ms) ->
  ff_orderly reqs rs -> Forall (fun jm => 0 < m_qty (snd jm) /\ real_comp (m_comp (snd jm))) rs ->
  exists s' o, ff_step eps nz D recipe cfg prefs s {| fe_reqs := reqs'; fe_trades := trades; fe_receipts := rs |} = Ok (s', o).
Proof. exact accepted_final. Qed.
Print Assumptions C38_deliveries_accepted.
Theorem C38_conserved : forall eps nz D recipe cfg es s os, 0 <= eps -> ff_sane es -> ff_lived eps nz D recipe cfg es s os ->
  forall n, mass_in n (ff_held s) + mass_in n (ff_shipped os) == mass_in n (ff_received es).
Proof. exact conserved_final. Qed.
Print Assumptions C38_conserved.
Example C38_nontrivial : exists s' o, ff_sane (fx_es ++ [fx_e]) /\ ff_lived 0 fx_nz fx_D fx_recipe fx_cfg fx_es fx_s fx_os /\
  ff_enter fx_cfg = Ok fx_prefs /\ ff_step 0 fx_nz fx_D fx_recipe fx_cfg fx_prefs fx_s fx_e = Ok (s', o) /\
  Forall2 (fun e o => ff_orderly (fo_requests o) (fe_receipts e)) (fx_es ++ [fx_e]) (fx_os ++ [o]) /\
  List.length (fo_requests o) = 3%nat /\ List.length (fo_shipped o) = 2%nat /\
  b_qty (fb_fill fx_s) == 10 /\ List.length (b_items (fb_fill fx_s)) = 1%nat.
Proof.
  destruct (ok_check (ff_step 0 fx_nz fx_D fx_recipe fx_cfg fx_prefs fx_s fx_e)
    (fun r => orderlyb (fo_requests (snd r)) (fe_receipts fx_e) && forallb (fun o => orderlyb (fo_requests o) (fe_receipts (hd fx_e fx_es))) fx_os &&
       Nat.eqb (List.length (fo_requests (snd r))) 3 && Nat.eqb (List.length (fo_shipped (snd r))) 2)) as ([s' o] & E & C);
    [vm_compute; reflexivity|].
  cbn [fst snd] in C. apply andb_prop in C as [C C4]. apply andb_prop in C as [C C3]. apply andb_prop in C as [C1 C2].
  exists s', o. split; [exact fx_sane|]. split; [exact fx_lived|]. split; [exact fx_entered|]. split; [exact E|].
  split; [|split; [apply Nat.eqb_eq; exact C3|split; [apply Nat.eqb_eq; exact C4|split; vm_compute; reflexivity]]].
  apply Forall2_app; [|constructor; [apply orderlyb_sound; exact C1|constructor]].
  rewrite forallb_forall in C2. destruct fx_os as [|o1 [|o2 r]] eqn:O; [vm_compute in O; discriminate| |vm_compute in O; discriminate].
  constructor; [|constructor]. apply orderlyb_sound. apply C2. left. reflexivity.
Qed.
