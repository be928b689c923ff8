(** Unit-test scenarios of /repo/src/enrichment_tests.cc replayed in the model
    (the trades awarded by the exchange are taken from the tests). *)
From Verif Require Import Outcome KernelMaterial KernelResBuf KernelBuf EnrichmentModel.
Local Open Scope Q_scope.

Definition ve_comp (a : Q) : comp := [(922350000%Z, a); (922380000%Z, 1 - a)].
Definition ve_eps : Q := 1 # 1000000.
Definition ve_V (x : Q) : Q := (2 * x - 1) * (2 * x - 1).
Definition ve_aw (n : Z) : Q := if Z.eqb n 922350000 then 235 else 238.
Definition ve_cfg (tails init maxf maxe swu : Q) : en_cfg := {|
  ec_feed_commod := "natu"; ec_feed_recipe := "natu1"; ec_product_commod := "enr_u"; ec_tails_commod := "tails";
  ec_tails_assay := tails; ec_initial_feed := init; ec_max_feed := maxf; ec_max_enrich := maxe;
  ec_order_prefs := true; ec_swu_capacity := swu |}.
Definition ve_recipe (k : string) : option comp := if String.eqb k "natu1" then Some (ve_comp (7 # 1000)) else None.
Definition ve_state (maxf : Q) (inv tails : list mat) (swu : Q) : en_state :=
  {| es_inv := {| b_cap := Some maxf; b_items := inv |}; es_tails := {| b_cap := None; b_items := tails |};
     es_swu := Some swu; es_iswu := Some 0; es_ifeed := Some 0 |}.
(** RequestQty, enrichment_tests.cc:53-85, and Request, 521-542. *)
Definition ve_req (inv : list mat) : option Q :=
  match en_requests ve_eps ve_recipe (ve_cfg (3 # 1000) 0 5 1 100) (ve_state 5 inv [] 100) with
  | Ok (Some m) => Some (Qred (m_qty m))
  | _ => None
  end.
Example Request : map ve_req [[]; [Mat 1 (10 # 3) (ve_comp (7 # 1000))]; [Mat 1 (10 # 3) (ve_comp (7 # 1000)); Mat 2 (5 # 3) (ve_comp (7 # 1000))]]
  = [Some 5; Some (5 # 3); None].
Proof. vm_compute. reflexivity. Qed.
(** CheckSWUConstraint, 89-126, Build part: the initial feed. *)
Example InitialFeed : match en_build ve_eps ve_recipe (ve_cfg (3 # 1000) 1000 2000 1 195) with Ok s => Qred (b_qty (es_inv s)) | _ => 0 end = 1000.
Proof. vm_compute. reflexivity. Qed.
(** RequestEnrich, 169-221: with max_enrich 0.19 only the request for 4% uranium is bid on. *)
Example RequestEnrich :
  match en_get_bids ve_eps ve_eps ve_aw (ve_cfg (3 # 1000) 0 1000 (19 # 100) 100) []
          [Mat 0 1 (ve_comp (4 # 100)); Mat 0 1 (ve_comp (20 # 100))] (ve_state 1000 [Mat 1 100 (ve_comp (7 # 1000))] [] 100) with
  | Ok (_, B) => match eb_product B with Some pb => map fst (pb_offers pb) | None => [] end
  | _ => []
  end = [0%nat].
Proof. vm_compute. reflexivity. Qed.
(** TailsQty, 262-314: two sales leave two parcels of tails (with rounder
    numbers: feed 1/2, product 4/5, tails 1/5, so that 3 kg leave 3 kg of tails). *)
Definition ve_round : comp := [(922350000%Z, 1); (922380000%Z, 1)].
Definition ve_rich : comp := [(922350000%Z, 4); (922380000%Z, 1)].
Definition ve_sale (q : Q) : en_trade := {| et_commod := "enr_u"; et_offer := Mat 0 15 ve_rich; et_amt := q |}.
Example TailsQty :
  match en_trades 0 ve_eps (fun x => x) (ve_cfg (1 # 5) 0 100 1 100) [ve_sale 3; ve_sale 1] (ve_state 100 [Mat 1 20 ve_round] [] 100) with
  | Ok (s, _, _) => map (fun m => Qred (m_qty m)) (b_items (es_tails s))
  | _ => []
  end = [3; 1].
Proof. vm_compute. reflexivity. Qed.
(** TradeTails, 225-258, and the rest of TailsQty: the tails are offered to
    every request and can be sold. *)
Example TradeTails :
  let s := ve_state 1000 [] [Mat 1 (33 # 8) (ve_comp (3 # 1000)); Mat 2 (33 # 8) (ve_comp (3 # 1000))] 100 in
  match en_get_bids ve_eps ve_eps ve_aw (ve_cfg (3 # 1000) 0 1000 1 100) [Mat 0 10 (ve_comp (3 # 1000))] [] s with
  | Ok (_, B) => match eb_tails B with Some tb => Some (List.length (tb_offers tb), Qred (tb_limit tb)) | None => None end
  | _ => None
  end = Some (2%nat, 33 # 4).
Proof. vm_compute. reflexivity. Qed.
(** BidPrefs 318-367, NoBidPrefs 369-405, ZeroU235 409-438. *)
Definition ve_bids : list (nat * mat) := [(0%nat, Mat 0 1 (ve_comp (7 # 1000))); (1%nat, Mat 0 1 (ve_comp (1 # 100)))].
Example BidPrefs : en_adjust (ve_cfg 0 0 1 1 1) ve_bids = Ok (Some [(0%nat, 1%Z); (1%nat, 2%Z)]).
Proof. vm_compute. reflexivity. Qed.
Example NoBidPrefs : en_adjust {| ec_feed_commod := "natu"; ec_feed_recipe := "natu1"; ec_product_commod := "enr_u"; ec_tails_commod := "tails";
  ec_tails_assay := 3 # 1000; ec_initial_feed := 0; ec_max_feed := 2; ec_max_enrich := 1; ec_order_prefs := false; ec_swu_capacity := 1 |} ve_bids = Ok None.
Proof. vm_compute. reflexivity. Qed.
Example ZeroU235 : en_adjust (ve_cfg 0 0 1 1 1) [(0%nat, Mat 0 1 [(922380000%Z, 1)])] = Ok (Some [(0%nat, (-1)%Z)]).
Proof. vm_compute. reflexivity. Qed.
(** ValidReq, 545-568 (CreateFromAtom: atoms times atomic mass). *)
Definition ve_atoms (a b : Q) : comp := [(922350000%Z, a * 235); (922380000%Z, b * 238)].
Example ValidReq : map (valid_req ve_aw (ve_cfg (2 # 1000) 0 5 1 100)) [[(922350000%Z, 235)]; ve_atoms (2 # 1000) (998 # 1000); ve_atoms 1 1]
  = [false; false; true].
Proof. vm_compute. reflexivity. Qed.
(** ConstraintConverters, 572-602: a nuclide other than uranium in the target. *)
Definition ve_target : mat := Mat 0 5 [(922350000%Z, 5 # 100); (922380000%Z, 95 # 100); (942390000%Z, 1 # 2)].
Example ConstraintConverters :
  match swu_charge ve_V (72 # 10000) (2 # 1000) ve_target, swu_charge ve_V (72 # 10000) (2 # 1000) (en_offer ve_aw ve_target),
        natu_charge (72 # 10000) (2 # 1000) ve_target, natu_charge (72 # 10000) (2 # 1000) (en_offer ve_aw ve_target) with
  | Some a, Some b, Some c, Some d => Qeq_bool a b && Qeq_bool (c * u_frac ve_target) d
  | _, _, _, _ => false
  end = true.
Proof. vm_compute. reflexivity. Qed.
(** Enrich, 606-649 (rounder numbers): exactly the inventory, as two parcels; then too little. *)
Example Enrich :
  match en_enrich 0 ve_eps (fun x => x) (ve_cfg (1 # 5) 0 10 1 100)
          (ve_state 10 [Mat 1 5 ve_round; Mat 2 5 ve_round] [] 100) (Mat 0 15 ve_rich) 5 with
  | Ok (s, m, _) => Qeq_bool (m_qty m) 5 && Qeq_bool (mass_of m 922350000) 4 && Qeq_bool (b_qty (es_inv s)) 0 &&
                    Qeq_bool (b_qty (es_tails s)) 5
  | _ => false
  end = true.
Proof. vm_compute. reflexivity. Qed.
Example EnrichTooMuch :
  en_enrich 0 ve_eps (fun x => x) (ve_cfg (1 # 5) 0 10 1 100) (ve_state 10 [Mat 1 9 ve_round] [] 100) (Mat 0 15 ve_rich) 5 = Throw ValueError.
Proof. vm_compute. reflexivity. Qed.
(** Response, 653-711 (rounder numbers): no trades; two trades with SWU capacity
    for both; beyond the test, one more is an error. *)
Definition ve_resp (ts : list en_trade) (swu : Q) : option nat :=
  match en_trades 0 ve_eps (fun x => x * x) (ve_cfg (1 # 5) 0 40 1 swu) ts (ve_state 40 [Mat 1 20 ve_round] [] swu) with
  | Ok (_, ms, _) => Some (List.length ms)
  | _ => None
  end.
Example Response : swu_required (fun x => x * x) 2 {| as_feed := 1 # 2; as_product := 4 # 5; as_tails := 1 # 5 |} <> None /\
  ve_resp [] (9 # 25) = Some 0%nat /\ ve_resp [ve_sale 1; ve_sale 1] (9 # 25) = Some 2%nat /\ ve_resp [ve_sale 3] (9 # 25) = None.
Proof. repeat split; try discriminate; vm_compute; reflexivity. Qed.
