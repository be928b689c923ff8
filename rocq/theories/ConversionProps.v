(** Properties C52, C53, C60-C62 of the Conversion facility.  Statements use
    ConversionSpec.v; proofs are a single [exact] or a computed witness. *)
From Coq Require Import Lqa.
From Verif Require Import Outcome KernelMaterial KernelResBuf KernelFacts KernelMass
  ConversionModel ConversionSpec ConversionProofs.
Local Open Scope Q_scope.

(** ** A worked history: throughput 4, capacity 10, two kinds of feed. *)
Definition vx_cfg : cv_cfg :=
  {| vc_incommods := ["uox"; "scrap"]%string; vc_outcommod := "uf6"; vc_throughput := 4; vc_capacity := 10 |}.
Definition vx_a : comp := [(922350000%Z, 1); (922380000%Z, 3)].
Definition vx_b : comp := [(922340000%Z, 1)].
Definition vx_es : list cv_env :=
  [ {| ve_reqs := [3]; ve_sales := []; ve_receipts := [Mat 1 6 vx_a; Mat 2 2 vx_b] |};
    {| ve_reqs := [3; 0; 20]; ve_sales := [3]; ve_receipts := [Mat 3 5 vx_a] |};
    {| ve_reqs := []; ve_sales := []; ve_receipts := [] |} ].
Definition vx_e : cv_env := {| ve_reqs := [2; 50]; ve_sales := [2; 7]; ve_receipts := [Mat 4 9 vx_b] |}.
Definition vx_state : cv_state := match cv_run 0 vx_cfg cv_empty vx_es with Ok (s, _) => s | _ => cv_empty end.
Definition vx_outs : list cv_out := match cv_run 0 vx_cfg cv_empty vx_es with Ok (_, o) => o | _ => [] end.
Example vx_ran : cv_run 0 vx_cfg cv_empty vx_es = Ok (vx_state, vx_outs) /\
  mats_ok (cv_received (vx_es ++ [vx_e])) /\ Forall2 within_request vx_es vx_outs /\
  (exists s' o, cv_step 0 vx_cfg vx_state vx_e = Ok (s', o) /\
     Forall2 Qeq (map m_qty (vo_shipped o)) [2; 7] /\ 0 < qty_of (vs_input vx_state)).
Proof.
  split; [vm_compute; reflexivity|]. split; [apply mats_okb_sound; vm_compute; reflexivity|].
  split; [vm_compute; repeat constructor; discriminate|].
  do 2 eexists. split; [vm_compute; reflexivity|]. split; [vm_compute; repeat constructor|].
  vm_compute. reflexivity.
Qed.

(** ** C52: conservation, throughput, capacity *)
Theorem C52_conserved : forall eps cfg es s os, 0 <= vc_throughput cfg -> mats_ok (cv_received es) ->
  cv_run eps cfg cv_empty es = Ok (s, os) ->
  qty_of (vs_input s) + qty_of (vs_output s) + qty_of (cv_shipped os) == qty_of (cv_received es) /\
  forall n, mass_in n (vs_input s) + mass_in n (vs_output s) + mass_in n (cv_shipped os) ==
            mass_in n (cv_received es).
Proof. exact conv_conserved. Qed.
Print Assumptions C52_conserved.

Theorem C52_throughput : forall eps cfg es e s os s' o, 0 <= vc_throughput cfg ->
  mats_ok (cv_received (es ++ [e])) -> cv_run eps cfg cv_empty es = Ok (s, os) ->
  cv_step eps cfg s e = Ok (s', o) ->
  qty_of (vs_output (vo_ticked o)) - qty_of (vs_output s) == Qmin (vc_throughput cfg) (qty_of (vs_input s)) /\
  qty_of (vs_input s) - qty_of (vs_input (vo_ticked o)) == Qmin (vc_throughput cfg) (qty_of (vs_input s)) /\
  forall n, mass_in n (vs_input s) + mass_in n (vs_output s) ==
            mass_in n (vs_input (vo_ticked o)) + mass_in n (vs_output (vo_ticked o)).
Proof. exact conv_throughput. Qed.
Print Assumptions C52_throughput.

Theorem C52_capacity : forall eps cfg es s os, 0 <= vc_throughput cfg -> 0 <= vc_capacity cfg ->
  mats_ok (cv_received es) -> cv_run eps cfg cv_empty es = Ok (s, os) ->
  Forall2 within_request es os -> qty_of (vs_input s) <= vc_capacity cfg.
Proof. exact conv_capacity. Qed.
Print Assumptions C52_capacity.
Example C52_nontrivial : cv_run 0 vx_cfg cv_empty vx_es = Ok (vx_state, vx_outs) /\
  Forall2 within_request vx_es vx_outs /\ qty_of (vs_input vx_state) == 5 /\
  qty_of (vs_output vx_state) == 5 /\ qty_of (cv_shipped vx_outs) == 3.
Proof. split; [exact (proj1 vx_ran)|]. split; [exact (proj1 (proj2 (proj2 vx_ran)))|]. vm_compute. repeat split. Qed.

(** ** C53: the documented request size min(throughput, free input capacity)
    is not what is requested... *)
Theorem C53_request_size_refuted : exists cfg e s' o, 0 <= vc_throughput cfg /\ 0 <= vc_capacity cfg /\
  cv_step 0 cfg cv_empty e = Ok (s', o) /\
  exists reqs limit, vo_requests o = Some (reqs, limit) /\
    Qmin (vc_throughput cfg) (vc_capacity cfg - qty_of (vs_input (vo_ticked o))) < limit.
Proof.
  exact (ex_intro _ vx_cfg (ex_intro _ (Build_cv_env [] [] []) (ex_intro _ _ (ex_intro _ _
    (conj (Qlt_le_weak 0 4 eq_refl) (conj (Qlt_le_weak 0 10 eq_refl) (conj eq_refl
      (ex_intro _ _ (ex_intro _ _ (conj eq_refl (eq_refl : 4 < 10))))))))))).
Qed.
Print Assumptions C53_request_size_refuted.
(** ... the request is for exactly the free capacity, on every in-commodity, and
    for nothing when there is none.  Missing: the throughput bound (refuted). *)
Theorem C53_request_bounded_partial : forall eps cfg es e s os s' o, 0 <= vc_throughput cfg ->
  mats_ok (cv_received (es ++ [e])) -> cv_run eps cfg cv_empty es = Ok (s, os) ->
  cv_step eps cfg s e = Ok (s', o) ->
  match vo_requests o with
  | None => vc_capacity cfg - qty_of (vs_input (vo_ticked o)) <= 0
  | Some (reqs, limit) => 0 < limit /\ limit == vc_capacity cfg - qty_of (vs_input (vo_ticked o)) /\
      map fst reqs = vc_incommods cfg /\ Forall (fun r => snd r = limit) reqs /\
      (vc_capacity cfg - qty_of (vs_input (vo_ticked o)) <= vc_throughput cfg ->
       limit == Qmin (vc_throughput cfg) (vc_capacity cfg - qty_of (vs_input (vo_ticked o))))
  end.
Proof. exact conv_request_bounded. Qed.
Print Assumptions C53_request_bounded_partial.
Example C53_nontrivial : exists s' o, cv_step 0 vx_cfg vx_state vx_e = Ok (s', o) /\
  exists r limit, vo_requests o = Some (r, limit) /\ limit == 9 /\ map fst r = ["uox"; "scrap"]%string.
Proof. do 2 eexists. split; [vm_compute; reflexivity|]. do 2 eexists. split; [vm_compute; reflexivity|]. vm_compute. repeat split. Qed.

(** ** C60: offers are honoured: while there is stock every positive request on
    the out-commodity is bid on, with min(stock, request) of the stock's
    composition, and everything shipped in the step has that composition too;
    without a bid there is no stock. *)
Theorem C60_offer_honoured : forall eps cfg es e s os s' o, 0 <= vc_throughput cfg ->
  mats_ok (cv_received (es ++ [e])) -> cv_run eps cfg cv_empty es = Ok (s, os) ->
  cv_step eps cfg s e = Ok (s', o) ->
  match vo_bids o with
  | None => qty_of (vs_output (vo_ticked o)) == 0
  | Some (bids, limit) =>
    0 < limit /\ limit == qty_of (vs_output (vo_ticked o)) /\
    (forall j, (exists offer, In (j, offer) bids) <-> exists q, nth_error (ve_reqs e) j = Some q /\ 0 < q) /\
    (forall j offer q, In (j, offer) bids -> nth_error (ve_reqs e) j = Some q ->
       m_qty offer == Qmin limit q) /\
    (forall j offer m, In (j, offer) bids -> In m (vs_output (vo_ticked o)) \/ In m (vo_shipped o) ->
       m_comp m = m_comp offer)
  end.
Proof. exact conv_offer_honoured. Qed.
Print Assumptions C60_offer_honoured.
Example C60_nontrivial : exists s' o bids limit, cv_step 0 vx_cfg vx_state vx_e = Ok (s', o) /\
  vo_bids o = Some (bids, limit) /\ map fst bids = [0; 1]%nat /\ Forall2 Qeq (map (fun b => m_qty (snd b)) bids) [2; 9] /\
  List.length (vo_shipped o) = 2%nat.
Proof.
  do 4 eexists. split; [vm_compute; reflexivity|]. split; [vm_compute; reflexivity|].
  split; [vm_compute; reflexivity|]. split; [vm_compute; repeat constructor|vm_compute; reflexivity].
Qed.

(** ** C61: a time step whose trades stay within the offers and requests never
    fails and ships exactly the traded quantities... *)
Theorem C61_step_never_fails_partial : forall eps cfg es e s os, 0 <= eps -> 0 < vc_throughput cfg ->
  mats_ok (cv_received (es ++ [e])) -> cv_run eps cfg cv_empty es = Ok (s, os) ->
  Forall (fun q => 0 < q) (ve_sales e) ->
  qsum (ve_sales e) <= qty_of (vs_output s) + Qmin (vc_throughput cfg) (qty_of (vs_input s)) ->
  (ve_receipts e = [] \/ qty_of (ve_receipts e) <= vc_capacity cfg -
       (qty_of (vs_input s) - Qmin (vc_throughput cfg) (qty_of (vs_input s)))) ->
  exists s' o, cv_step eps cfg s e = Ok (s', o) /\ Forall2 (fun m q => m_qty m == q) (vo_shipped o) (ve_sales e).
Proof. exact conv_step_ok. Qed.
Print Assumptions C61_step_never_fails_partial.
Example C61_nontrivial : Forall (fun q => 0 < q) (ve_sales vx_e) /\
  qsum (ve_sales vx_e) <= qty_of (vs_output vx_state) + Qmin (vc_throughput vx_cfg) (qty_of (vs_input vx_state)) /\
  qty_of (ve_receipts vx_e) <= vc_capacity vx_cfg -
       (qty_of (vs_input vx_state) - Qmin (vc_throughput vx_cfg) (qty_of (vs_input vx_state))).
Proof. split; [repeat constructor|]. vm_compute. split; discriminate. Qed.
(** ... except for throughput zero, which the input range allows: the first
    tick with material in the input aborts. *)
Definition vx_zero : cv_cfg :=
  {| vc_incommods := ["uox"]%string; vc_outcommod := "uf6"; vc_throughput := 0; vc_capacity := 10 |}.
Theorem C61_step_never_fails_refuted : exists cfg e e', 0 <= vc_throughput cfg /\ 0 <= vc_capacity cfg /\
  ve_sales e' = [] /\ ve_receipts e' = [] /\
  exists s o, cv_run 0 cfg cv_empty [e] = Ok (s, o) /\ mats_ok (cv_received [e]) /\
    Forall2 within_request [e] o /\ cv_step 0 cfg s e' = Throw ZeroPop.
Proof.
  exists vx_zero, (Build_cv_env [] [] [Mat 1 5 vx_a]), (Build_cv_env [] [] []).
  split; [discriminate|]. split; [discriminate|]. split; [reflexivity|]. split; [reflexivity|].
  do 2 eexists. split; [vm_compute; reflexivity|]. split; [apply mats_okb_sound; reflexivity|].
  split; [repeat constructor; discriminate|]. vm_compute. reflexivity.
Qed.
Print Assumptions C61_step_never_fails_refuted.

(** ** C62: saving and restoring keeps the input but loses the output. *)
Theorem C62_restart_refuted : exists eps cfg es s os, 0 <= vc_throughput cfg /\ mats_ok (cv_received es) /\
  cv_run eps cfg cv_empty es = Ok (s, os) /\ 0 < qty_of (vs_output s) /\
  vs_output (cv_restore (cv_snapshot s)) = [].
Proof.
  exact (ex_intro _ 0 (ex_intro _ vx_cfg (ex_intro _ vx_es (ex_intro _ vx_state (ex_intro _ vx_outs
    (conj (Qlt_le_weak 0 4 eq_refl) (conj (mats_okb_sound (cv_received vx_es) eq_refl)
     (conj eq_refl (conj (eq_refl : 0 < qty_of (vs_output vx_state)) eq_refl))))))))).
Qed.
Print Assumptions C62_restart_refuted.
(** Missing for the full claim: the output buffer (refuted). *)
Theorem C62_restart_input_partial : forall eps cfg es s os, 0 <= vc_throughput cfg -> mats_ok (cv_received es) ->
  cv_run eps cfg cv_empty es = Ok (s, os) -> vs_input (cv_restore (cv_snapshot s)) = vs_input s.
Proof. exact conv_restart_input. Qed.
Print Assumptions C62_restart_input_partial.
Example C62_nontrivial : cv_run 0 vx_cfg cv_empty vx_es = Ok (vx_state, vx_outs) /\ mats_ok (cv_received vx_es) /\
  Qeq_bool (qty_of (vs_input (cv_restore (cv_snapshot vx_state)))) (qty_of (vs_input vx_state)) &&
  Qltb 0 (qty_of (vs_input vx_state)) = true.
Proof. split; [reflexivity|]. split; [apply mats_okb_sound; reflexivity|]. vm_compute. reflexivity. Qed.
