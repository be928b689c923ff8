(** Unit-test scenarios of /repo/src/source_tests.cc replayed in the model. *)
From Verif Require Import Outcome KernelMaterial KernelResBuf KernelBuf SourceModel.
Local Open Scope Q_scope.

(** SetUp, source_tests.cc:12-39: an empty recipe, a throughput of 5, and the
    default inventory (here 1000). *)
Definition rv_recipe (n : string) : option comp := if String.eqb n "recipe" then Some [] else None.
Definition rv_cfg (thr : Q) : sr_cfg := {| sc_commod := "commod"; sc_recipe := "recipe"; sc_inv_size := 1000; sc_throughput := thr |}.
Definition rv_mat (q : Q) : mat := Mat 0 q [(922350000%Z, 1)].
Definition rv_whole : filler := fun _ q => [q].
Definition rv_build (thr : Q) : sr_state := match sr_build 0 rv_recipe (rv_cfg thr) with Ok s => s | _ => {| ss_inv := new_buf |} end.
(** AddBids, 58-84 *)
Example AddBids : match sr_get_bids (1 # 1000000) rv_recipe (rv_cfg 5) rv_whole (fun n => n) (repeat ("commod"%string, rv_mat 1) 5) (rv_build 5) with
  | Ok (_, Some p) => Some (List.length (sp_bids p), Qred (sp_limit p)) | _ => None end = Some (5%nat, 5).
Proof. vm_compute. reflexivity. Qed.
(** Response, 86-125: no trade, one, then two *)
Example Response : let go ts s := sr_get_trades 0 (1 # 1000000) (rv_cfg 5) rv_whole (fun n => n) ts s in
  let show rs := map (fun jr : nat * mat => (Qred (m_qty (snd jr)), m_comp (snd jr))) rs in
  let t := (5 / 3, rv_mat 1) in
  match go [] (rv_build 5) with
  | Ok (s0, r0) => match go [t] s0 with
    | Ok (s1, r1) => match go [t; t] s1 with Ok (_, r2) => Some (show r0, show r1, List.length r2) | _ => None end
    | _ => None end
  | _ => None end = Some ([], [(5 # 3, [])], 2%nat).
Proof. vm_compute. reflexivity. Qed.

(** Package::GetFillMass for the strategy "first" and packages of 3 to 4, and
    for "equal"; and a transport unit holding exactly two packages.  The kernel's
    code is not in /repo; these answers are the ones the tests imply. *)
Definition rv_first : filler := fun _ q => if Qltb q 3 then [] else if Qltb q 4 then [q] else [4].
Definition rv_equal : filler := fun _ q => if Qltb q 3 then [] else if Qle_bool q 4 then [q] else [q / 3; q / 3; q / 3].
Definition rv_tu (n : Z) : Z := if Z.ltb n 2 then 0%Z else 2%Z.
(** A sink asks for a lot; every bid becomes a trade while the constraint lasts. *)
Fixpoint rv_award (limit : Q) (bs : list sr_bid) : list (Q * mat) :=
  match bs with [] => [] | b :: bs' => let a := Qmin limit (m_qty (sb_mat b)) in if Qltb 0 a then (Qred a, sb_mat b) :: rv_award (limit - a) bs' else [] end.
Fixpoint rv_sim (n : nat) (thr : Q) (fill : filler) (ship : Z -> Z) (s : sr_state) : list Q :=
  match n with
  | O => []
  | S n' => match sr_get_bids (1 # 1000000) rv_recipe (rv_cfg thr) fill ship [("commod"%string, rv_mat 10000)] s with
    | Ok (_, Some p) => match sr_get_trades 0 (1 # 1000000) (rv_cfg thr) fill ship (rv_award (sp_limit p) (sp_bids p)) s with
      | Ok (s', rs) => map (fun jr => Qred (m_qty (snd jr))) rs ++ rv_sim n' thr fill ship s' | _ => [] end
    | _ => [] end
  end.
(** Package, 160-190: three transactions in three steps *)
Example Package : rv_sim 3 5 rv_first (fun n => n) (rv_build 5) = [4; 4; 4].
Proof. vm_compute. reflexivity. Qed.
(** TransportUnit, 192-227: four transactions in two steps *)
Example TransportUnit : rv_sim 2 10 rv_equal rv_tu (rv_build 10) = [10 # 3; 10 # 3; 10 # 3; 10 # 3].
Proof. vm_compute. reflexivity. Qed.
