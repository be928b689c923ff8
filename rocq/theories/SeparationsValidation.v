(** Unit-test scenarios of /repo/src/separations_tests.cc replayed in the model
    (tests of the reading of the code, not proofs of properties). *)
From Verif Require Import Outcome KernelMaterial KernelResBuf KernelBuf SeparationsModel.
Local Open Scope Q_scope.

Definition vstream (name : string) (effs : list (Z * Q)) : sp_stream :=
  {| st_name := name; st_cap := -1; st_effs := effs |}.
Definition vcfg (strs : list sp_stream) (exit : Z) : sp_cfg :=
  {| pc_feed_commods := ["feed"]%string; pc_feed_prefs := []; pc_feed_recipe := "";
     pc_feed_size := 100; pc_throughput := 100; pc_leftover_commod := "waste"; pc_leftover_size := 1000000;
     pc_streams := strs; pc_exit := exit |}.
Definition veps : Q := 1 # 1000000.
Definition vmasses (m : mat) (ns : list Z) : list Q := map (fun n => Qred (mass_of m n)) ns.

(** SepMaterial, separations_tests.cc:17-46.  The total of the composition is 108.8. *)
Definition v1 : mat := Mat 0 100 [(922350000%Z, 10); (922380000%Z, 90); (942390000%Z, 1); (942400000%Z, 2);
                                  (952410000%Z, 3); (952420000%Z, 28 # 10)].
Definition v1_effs : list (Z * Q) := [(920000000%Z, 7 # 10); (940000000%Z, 4 # 10); (952410000%Z, 4 # 10)].
Example SepMaterial : exists m, sep_material v1_effs v1 = Ok m /\
  vmasses m [922350000; 922380000; 942390000; 942400000; 952410000; 952420000]%Z =
  map Qred [(7 # 10) * mass_of v1 922350000; (7 # 10) * mass_of v1 922380000; (4 # 10) * mass_of v1 942390000;
   (4 # 10) * mass_of v1 942400000; (4 # 10) * mass_of v1 952410000; 0].
Proof. eexists. split; [vm_compute; reflexivity|]. vm_compute. reflexivity. Qed.

(** SeparationEfficiency, 50-130: the three items share one name, so the map keeps one. *)
Definition venter (strs : list sp_stream) : option error :=
  match sp_enter veps (vcfg strs (-1)) (sp_new (vcfg strs (-1))) with Throw e => Some e | _ => None end.
Example SeparationEfficiency_a : venter [vstream "stream1" [(942390000%Z, 5 # 10)]] = None.
Proof. vm_compute. reflexivity. Qed.
(** the same with three names: 0.1 + 0.2 + 0.7 = 1 exactly *)
Example SeparationEfficiency_b : venter [vstream "stream1" [(920000000%Z, 1 # 10); (942390000%Z, 2 # 10)];
   vstream "stream2" [(920000000%Z, 2 # 10); (942390000%Z, 1 # 10)];
   vstream "stream3" [(920000000%Z, 7 # 10); (942390000%Z, 5 # 10)]] = None.
Proof. vm_compute. reflexivity. Qed.
(** SeparationEfficiencyThrowing, 133-230 *)
Example Throwing_single : venter [vstream "stream1" [(920000000%Z, 16 # 10); (942390000%Z, 7 # 10)]] = Some ValueError.
Proof. vm_compute. reflexivity. Qed.
Example Throwing_one : venter [vstream "stream1" [(920000000%Z, 6 # 10); (942390000%Z, 7 # 10)];
                               vstream "stream2" [(920000000%Z, 1 # 10); (942390000%Z, 7 # 10)]] = Some ValueError.
Proof. vm_compute. reflexivity. Qed.
Example Throwing_both : venter [vstream "stream1" [(920000000%Z, 6 # 10); (942390000%Z, 7 # 10)];
                                vstream "stream2" [(920000000%Z, 6 # 10); (942390000%Z, 7 # 10)]] = Some ValueError.
Proof. vm_compute. reflexivity. Qed.

(** SepMixElemAndNuclide, 232-276: 100 units arrive in step 0 and are sold in step 1. *)
Definition v2_cfg : sp_cfg := vcfg [vstream "stream1" [(920000000%Z, 6 # 10); (942390000%Z, 7 # 10)]] (-1).
Definition v2 : mat := Mat 1 100 [(922350000%Z, 8 # 100); (922380000%Z, 9 # 10); (942390000%Z, 1 # 100); (942400000%Z, 1 # 100)].
Definition venv (t : Z) (trades : list (string * Q)) (ms : list mat) : sp_env :=
  {| pe_time := t; pe_reqs := fun c => if (String.eqb c "stream1" || String.eqb c "waste")%bool then [100] else [];
     pe_trades := trades; pe_receipts := ms |}.
Definition vrun (cfg : sp_cfg) (es : list sp_env) : outcome (sp_state * list sp_out) :=
  let* '(s, prefs) := sp_enter veps cfg (sp_new cfg) in sp_run veps (fun _ => None) cfg prefs s es.
Example SepMixElemAndNuclide :
  match vrun v2_cfg [venv 0 [] [v2]; venv 1 [("stream1"%string, 595 # 10)] []] with
  | Ok (_, [_; o]) => map (fun m => vmasses m [922350000; 922380000; 942390000; 942400000]%Z) (po_shipped o)
  | _ => []
  end = [map Qred [(8 # 100) * (6 # 10) * 100; (9 # 10) * (6 # 10) * 100; (1 # 100) * (7 # 10) * 100; 0]].
Proof. vm_compute. reflexivity. Qed.

(** Retire, 278-342: lifetime 2 (exit time 1).  One receipt, three shipments
    (waste in two pieces of at most 70), then ready for decommissioning. *)
Definition v3_cfg : sp_cfg := vcfg [vstream "stream1" [(922350000%Z, 1)]] 1.
Definition v3 : mat := Mat 1 100 [(922350000%Z, 1 # 10); (922380000%Z, 9 # 10)].
Example Retire :
  match vrun v3_cfg [venv 0 [] [v3]; venv 1 [("stream1"%string, 10); ("waste"%string, 70)] [];
                     venv 2 [("waste"%string, 20)] []] with
  | Ok (s, [o0; o1; o2]) =>
      (map (fun o => match po_request o with Some r => Qred (rq_qty r) | None => 0 end) [o0; o1; o2],
       map Qred (map m_qty (po_shipped o0 ++ po_shipped o1 ++ po_shipped o2)), sp_check_decom s)
  | _ => ([], [], false)
  end = ([100; 0; 0], [10; 70; 20], true).
Proof. vm_compute. reflexivity. Qed.
