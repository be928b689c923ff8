(** Properties C50, C51, C80 and C81 of the Source.  Statements use SourceSpec.v;
    proofs are a single [exact] or a computed witness. *)
From Coq Require Import Lia Lqa.
From Verif Require Import Outcome KernelMaterial KernelResBuf KernelBuf KernelFacts SourceModel SourceSpec SourceProofs.
Local Open Scope Q_scope.

(** ** A worked history: 20 in stock, at most 10 per step, packages of at most 4;
    what does not fill a package of at least 3 is not packed. *)
Definition rx_u : comp := [(922350000%Z, 1); (922380000%Z, 3)].
Definition rx_w : comp := [(10010000%Z, 2); (80160000%Z, 1)].
Definition rx_recipe (n : string) : option comp := if String.eqb n "nat_u" then Some rx_u else None.
Definition rx_cfg (r : string) : sr_cfg := {| sc_commod := "u"; sc_recipe := r; sc_inv_size := 20; sc_throughput := 10 |}.
(** Package by package, up to 5 of them. *)
Fixpoint rx_pack (n : nat) (q : Q) : list Q :=
  match n with O => [] | S n' => if Qltb q 3 then [] else if Qltb q 4 then [q] else 4 :: rx_pack n' (q - 4) end.
Definition rx_fill : filler := fun _ q => rx_pack 5 q.
Definition rx_whole : filler := fun _ q => [q].
Definition rx_free (n : Z) : Z := n.
Definition rx_two (n : Z) : Z := if Z.ltb n 2 then 0%Z else 2%Z.
Lemma rx_pack_ok n : forall q, 0 <= q -> Forall (fun x => 0 <= x) (rx_pack n q) /\ qsum (rx_pack n q) <= q.
Proof.
  induction n as [|n IH]; intros q P; cbn [rx_pack]; [split; [constructor|cbn; lra]|].
  destruct (Qltb q 3) eqn:A; [split; [constructor|cbn; lra]|].
  destruct (Qltb q 4) eqn:B; [split; [constructor; [lra|constructor]|cbn; lra]|]. apply Qltb_false in B.
  destruct (IH (q - 4)) as [C D]; [lra|]. split; [constructor; [lra|exact C]|]. change (4 + qsum (rx_pack n (q - 4)) <= q). lra.
Qed.
Example rx_fill_ok : filler_ok rx_fill.
Proof. intros i q P. apply rx_pack_ok, P. Qed.
Example rx_whole_ok : filler_ok rx_whole.
Proof. intros i q P. cbn. split; [constructor; [exact P|constructor]|lra]. Qed.
Definition rx_t : mat := Mat 0 9 rx_w.
(** Packed: trades of 4 and 7/2; the second may be shipped.  Then one of 2, which makes no package. *)
Definition rx_e1 : sr_env := {| se_fill_bids := rx_fill; se_fill := rx_fill; se_ship := rx_two; se_reqs := [("u", rx_t); ("v", rx_t); ("u", Mat 0 1 rx_u)]%string; se_trades := [(4, rx_t); (7 # 2, rx_t)] |}.
Definition rx_e2 : sr_env := {| se_fill_bids := rx_fill; se_fill := rx_fill; se_ship := rx_free; se_reqs := [("u", rx_t)]%string; se_trades := [(2, rx_t)] |}.
(** Unpacked. *)
Definition rx_e3 : sr_env := {| se_fill_bids := rx_whole; se_fill := rx_whole; se_ship := rx_free; se_reqs := [("u", rx_t); ("u", Mat 0 1 rx_u)]%string; se_trades := [(5, rx_t); (1, Mat 0 1 rx_u)] |}.
Definition rx_es : list sr_env := [rx_e1; rx_e2].
Example rx_env_ok : Forall env_ok (rx_es ++ [rx_e3]).
Proof.
  pose proof rx_fill_ok. pose proof rx_whole_ok. unfold rx_es, env_ok. cbn [app].
  repeat (apply Forall_cons || apply Forall_nil); cbn [se_fill se_fill_bids se_trades rx_e1 rx_e2 rx_e3]; repeat (split; [assumption|]);
    repeat (apply Forall_cons || apply Forall_nil); cbn; lra.
Qed.
Example rx_env_ok0 : Forall env_ok rx_es.
Proof. apply (Forall_app _ rx_es [rx_e3]), rx_env_ok. Qed.
Definition rx_run (r : string) (es : list sr_env) := let* s0 := sr_build 0 rx_recipe (rx_cfg r) in sr_run 0 0 rx_recipe (rx_cfg r) s0 es.
Definition rx_s (r : string) : sr_state := match rx_run r rx_es with Ok (s, _) => s | _ => {| ss_inv := new_buf |} end.
Definition rx_os (r : string) : list sr_out := match rx_run r rx_es with Ok (_, os) => os | _ => [] end.
Example rx_lived_r : sr_lived 0 0 rx_recipe (rx_cfg "nat_u") rx_es (rx_s "nat_u") (rx_os "nat_u").
Proof. eexists. split; [vm_compute; reflexivity|]. vm_compute. reflexivity. Qed.
Example rx_lived_n : sr_lived 0 0 rx_recipe (rx_cfg "") rx_es (rx_s "") (rx_os "").
Proof. eexists. split; [vm_compute; reflexivity|]. vm_compute. reflexivity. Qed.
Example rx_values : Qred (held (rx_s "nat_u")) = 25 # 2 /\ map (fun o => map (fun jr => (fst jr, Qred (m_qty (snd jr)))) (so_sent o)) (rx_os "nat_u") = [[(0%nat, 4); (1%nat, 7 # 2)]; [(0%nat, 0)]].
Proof. split; vm_compute; reflexivity. Qed.
(** Every trade makes at most one package here. *)
Example rx_tidy : Forall (tidy 0) rx_es.
Proof.
  unfold rx_es. repeat (apply Forall_cons || apply Forall_nil); intros i amt tgt q X E; cbn [se_trades se_fill rx_e1 rx_e2] in *.
  - destruct i as [|[|[|i]]]; cbn in X; try discriminate; injection X as <- <-; unfold rx_fill; cbn [rx_pack].
    + destruct (Qltb q 3) eqn:A; [apply Qltb_true in A; lra|]. destruct (Qltb q 4) eqn:B; [apply Qltb_true in B; lra|].
      destruct (Qltb (q - 4) 3) eqn:C; [|apply Qltb_false in C; lra]. cbn. split; [lia|]. left. lra.
    + destruct (Qltb q 3) eqn:A; [apply Qltb_true in A; lra|]. destruct (Qltb q 4) eqn:B; [|apply Qltb_false in B; lra].
      cbn. split; [lia|]. left. lra.
  - destruct i as [|[|i]]; cbn in X; try discriminate; injection X as <- <-; unfold rx_fill; cbn [rx_pack].
    destruct (Qltb q 3) eqn:A; [|apply Qltb_false in A; lra]. cbn. split; [lia|]. right. lra.
Qed.

(** ** C50: the source never supplies more than its inventory *)
Theorem C50_never_more : forall eps eg recipe cfg, 0 <= eg ->
  forall es s os, 0 <= sc_inv_size cfg -> Forall env_ok es -> sr_lived eps eg recipe cfg es s os ->
  0 <= held s /\ held s + sent_all os <= sc_inv_size cfg.
Proof. exact never_more_final. Qed.
Print Assumptions C50_never_more.
(** Full statement: for all packaging schemes, what is left and what was shipped
    add up to the initial inventory.  Proved when every trade is packed into at
    most one package with nothing, or more than the tolerance, remaining; in
    particular without packaging.  The other cases are refuted below. *)
Theorem C50_conserved_partial : forall eps eg recipe cfg, 0 <= eg ->
  forall es s os, 0 <= sc_inv_size cfg -> Forall env_ok es -> Forall (tidy eg) es -> sr_lived eps eg recipe cfg es s os ->
  held s + sent_all os == sc_inv_size cfg.
Proof. exact conserved_final. Qed.
Print Assumptions C50_conserved_partial.
Theorem C50_unpackaged : forall eps eg recipe cfg, 0 <= eg ->
  forall es s os, 0 <= sc_inv_size cfg ->
  Forall (fun e => unpackaged (se_fill_bids e) /\ unpackaged (se_fill e) /\ Forall (fun t => 0 <= fst t) (se_trades e)) es ->
  sr_lived eps eg recipe cfg es s os -> held s + sent_all os == sc_inv_size cfg.
Proof. exact unpackaged_conserved_final. Qed.
Print Assumptions C50_unpackaged.
(** Only the first package of a trade is sent; if packing the trade gives more
    than one (as a strategy with random fill masses may), the others disappear. *)
Theorem C50_lost_refuted : exists cfg es s os, Forall env_ok es /\
  sr_lived 0 0 rx_recipe cfg es s os /\ Forall (awarded cfg {| ss_inv := {| b_cap := None; b_items := [Mat 0 20 rx_u] |} |}) es /\
  held s + sent_all os < sc_inv_size cfg.
Proof.
  exists (rx_cfg "nat_u"), [{| se_fill_bids := rx_whole; se_fill := rx_fill; se_ship := rx_free; se_reqs := [("u", Mat 0 7 rx_u)]%string; se_trades := [(7, Mat 0 7 rx_u)] |}].
  eexists. eexists. split; [|split; [eexists; split; [vm_compute; reflexivity|vm_compute; reflexivity]|split]].
  - apply Forall_cons; [|apply Forall_nil]. split; [exact rx_whole_ok|]. split; [exact rx_fill_ok|]. constructor; [cbn; lra|constructor].
  - apply Forall_cons; [|apply Forall_nil]. split; [constructor; [cbn; lra|constructor]|]. cbn. vm_compute. discriminate.
  - vm_compute. reflexivity.
Qed.
Print Assumptions C50_lost_refuted.
(** A remainder of at most cyclus::eps() (1e-6 by default) disappears too: here
    packages hold at most 4, and a trade of a little more is made. *)
Definition rx_ten : filler := fun _ q => if Qltb q 4 then [q] else [4].
Lemma rx_ten_ok : filler_ok rx_ten.
Proof.
  intros i q P. unfold rx_ten. destruct (Qltb q 4) eqn:E; [split; [constructor; [exact P|constructor]|cbn; lra]|].
  apply Qltb_false in E. split; [constructor; [lra|constructor]|cbn; lra].
Qed.
Theorem C50_eps_refuted : exists cfg es s os, Forall env_ok es /\
  sr_lived 0 (1 # 1000000) rx_recipe cfg es s os /\ held s + sent_all os < sc_inv_size cfg.
Proof.
  exists (rx_cfg "nat_u"), [{| se_fill_bids := rx_whole; se_fill := rx_ten; se_ship := rx_free; se_reqs := []; se_trades := [(4 + (1 # 2000000), Mat 0 5 rx_u)] |}].
  eexists. eexists. split; [|split; [eexists; split; [vm_compute; reflexivity|vm_compute; reflexivity]|]].
  - apply Forall_cons; [|apply Forall_nil]. split; [exact rx_whole_ok|]. split; [exact rx_ten_ok|]. constructor; [cbn; lra|constructor].
  - vm_compute. reflexivity.
Qed.
Print Assumptions C50_eps_refuted.

Example C50_never_more_ex : 0 <= held (rx_s "nat_u") /\ held (rx_s "nat_u") + sent_all (rx_os "nat_u") <= 20.
Proof. exact (C50_never_more 0 0 rx_recipe (rx_cfg "nat_u") ltac:(lra) rx_es _ _ ltac:(cbn; lra) rx_env_ok0 rx_lived_r). Qed.
Example C50_conserved_ex : held (rx_s "nat_u") + sent_all (rx_os "nat_u") == 20.
Proof. exact (C50_conserved_partial 0 0 rx_recipe (rx_cfg "nat_u") ltac:(lra) rx_es _ _ ltac:(cbn; lra) rx_env_ok0 rx_tidy rx_lived_r). Qed.
Definition rx_s3 : sr_state := match rx_run "nat_u" [rx_e3] with Ok (s, _) => s | _ => {| ss_inv := new_buf |} end.
Definition rx_os3 : list sr_out := match rx_run "nat_u" [rx_e3] with Ok (_, os) => os | _ => [] end.
Example C50_unpackaged_ex : held rx_s3 + sent_all rx_os3 == 20 /\ sent_all rx_os3 == 6.
Proof.
  split; [|vm_compute; reflexivity]. apply (C50_unpackaged 0 0 rx_recipe (rx_cfg "nat_u") ltac:(lra) [rx_e3]); [cbn; lra| |].
  - constructor; [|constructor]. repeat split; repeat (apply Forall_cons || apply Forall_nil); cbn; lra.
  - eexists. split; [vm_compute; reflexivity|]. vm_compute. reflexivity.
Qed.

(** ** C50, C81: the bids *)
Theorem C81_bids : forall eps eg recipe cfg, 0 <= eg ->
  forall es e s os s' o, 0 <= sc_inv_size cfg -> 0 <= sc_throughput cfg -> Forall env_ok (es ++ [e]) -> Forall (fun r => 0 <= m_qty (snd r)) (se_reqs e) ->
  sr_lived eps eg recipe cfg es s os -> sr_step eps eg recipe cfg s e = Ok (s', o) ->
  so_supply o = most cfg s /\
  (so_port o <> None <-> wanted cfg e <> [] /\ eg <= most cfg s) /\
  forall p, so_port o = Some p -> sp_limit p = most cfg s /\
    Forall (fun b => (sb_req b < List.length (wanted cfg e))%nat) (sp_bids p) /\
    forall j target, nth_error (wanted cfg e) j = Some target ->
      let room := Qmin (m_qty target) (most cfg s) in
      qty_of (offered_to j p) <= room /\ Forall (fun m => 0 <= m_qty m <= room) (offered_to j p) /\
      Forall (fun m => if String.eqb (sc_recipe cfg) "" then m_comp m = m_comp target else recipe (sc_recipe cfg) = Some (m_comp m)) (offered_to j p) /\
      (unpackaged (se_fill_bids e) -> unrestricted (se_ship e) -> map m_qty (offered_to j p) = [room]) /\
      (let packages := se_fill_bids e j room in let most_packages := se_ship e (zlen packages) in
       map m_qty (offered_to j p) = packages \/
       (0 <= most_packages < zlen packages)%Z /\ map m_qty (offered_to j p) = firstn (Z.to_nat most_packages) packages) /\
      ((0 <= se_ship e (zlen (se_fill_bids e j room)))%Z -> (zlen (offered_to j p) <= se_ship e (zlen (se_fill_bids e j room)))%Z).
Proof. exact bids_final. Qed.
Print Assumptions C81_bids.
Definition rx_next (r : string) (e : sr_env) : sr_state * sr_out :=
  match sr_step 0 0 rx_recipe (rx_cfg r) (rx_s r) e with Ok x => x | _ => (rx_s r, {| so_supply := 0; so_port := None; so_sent := [] |}) end.
Example rx_step3 : sr_step 0 0 rx_recipe (rx_cfg "nat_u") (rx_s "nat_u") rx_e3 = Ok (fst (rx_next "nat_u" rx_e3), snd (rx_next "nat_u" rx_e3)).
Proof. vm_compute. reflexivity. Qed.
Example rx_step3n : sr_step 0 0 rx_recipe (rx_cfg "") (rx_s "") rx_e3 = Ok (fst (rx_next "" rx_e3), snd (rx_next "" rx_e3)).
Proof. vm_compute. reflexivity. Qed.
Example rx_reqs3 : Forall (fun r => 0 <= m_qty (snd r)) (se_reqs rx_e3).
Proof. cbn. repeat (apply Forall_cons || apply Forall_nil); cbn; lra. Qed.
Definition rx_p : sr_port := match so_port (snd (rx_next "nat_u" rx_e3)) with Some p => p | None => {| sp_bids := []; sp_limit := 0 |} end.
Example rx_port : so_port (snd (rx_next "nat_u" rx_e3)) = Some rx_p.
Proof. vm_compute. reflexivity. Qed.
Example C81_bids_ex : map m_qty (offered_to 0 rx_p) = [9] /\ map m_qty (offered_to 1 rx_p) = [1].
Proof.
  destruct (C81_bids 0 0 rx_recipe (rx_cfg "nat_u") ltac:(lra) rx_es rx_e3 _ _ _ _ ltac:(cbn; lra) ltac:(cbn; lra) rx_env_ok rx_reqs3 rx_lived_r rx_step3) as (_ & _ & H).
  destruct (H rx_p rx_port) as (_ & _ & G). split.
  - destruct (G 0%nat rx_t eq_refl) as (_ & _ & _ & U & _).
    transitivity [Qmin 9 (most (rx_cfg "nat_u") (rx_s "nat_u"))]; [|vm_compute; reflexivity]. apply U; [intros ? ?; reflexivity|intro; reflexivity].
  - destruct (G 1%nat (Mat 0 1 rx_u) eq_refl) as (_ & _ & _ & U & _).
    transitivity [Qmin 1 (most (rx_cfg "nat_u") (rx_s "nat_u"))]; [|vm_compute; reflexivity]. apply U; [intros ? ?; reflexivity|intro; reflexivity].
Qed.
(** Two packages could be made, one can be shipped. *)
Definition rx_e5 : sr_env := {| se_fill_bids := rx_fill; se_fill := rx_fill; se_ship := fun _ => 1%Z; se_reqs := [("u", rx_t)]%string; se_trades := [] |}.
Example C81_packages_ex : exists s o p, sr_step 0 0 rx_recipe (rx_cfg "nat_u") (rx_s "nat_u") rx_e5 = Ok (s, o) /\ so_port o = Some p /\ rx_fill 0%nat (Qmin (m_qty rx_t) (most (rx_cfg "nat_u") (rx_s "nat_u"))) = [4; 4] /\ map m_qty (offered_to 0 p) = [4].
Proof. do 3 eexists. split; [vm_compute; reflexivity|]. split; [reflexivity|]. split; vm_compute; reflexivity. Qed.

(** ** C51: the promised composition *)
Theorem C51_recipe : forall eps eg recipe cfg c es s os, 0 <= sc_inv_size cfg -> Forall env_ok es -> sr_lived eps eg recipe cfg es s os ->
  sc_recipe cfg <> ""%string -> recipe (sc_recipe cfg) = Some c -> Forall (fun x => 0 <= snd x) c -> 0 < csum c ->
  Forall (fun o => Forall (fun jr => made_of c (snd jr)) (so_sent o)) os.
Proof. exact recipe_final. Qed.
Print Assumptions C51_recipe.
(** Each response answers one trade, with at most the amount agreed; without a
    recipe it has the composition requested. *)
Theorem C51_requested : forall eps eg recipe cfg, 0 <= eg ->
  forall es e s os s' o, 0 <= sc_inv_size cfg -> Forall env_ok (es ++ [e]) -> sr_lived eps eg recipe cfg es s os ->
  sr_step eps eg recipe cfg s e = Ok (s', o) ->
  Forall (fun jr => exists amt target, nth_error (se_trades e) (fst jr) = Some (amt, target) /\ 0 <= m_qty (snd jr) <= amt /\
     (sc_recipe cfg = ""%string -> m_comp (snd jr) = m_comp target)) (so_sent o).
Proof. exact shipments_final. Qed.
Print Assumptions C51_requested.
Example C51_recipe_ex : Forall (fun o => Forall (fun jr => made_of rx_u (snd jr)) (so_sent o)) (rx_os "nat_u").
Proof.
  apply (C51_recipe 0 0 rx_recipe (rx_cfg "nat_u") rx_u rx_es (rx_s "nat_u") (rx_os "nat_u")).
  - cbn; lra.
  - exact rx_env_ok0.
  - exact rx_lived_r.
  - discriminate.
  - reflexivity.
  - repeat (apply Forall_cons || apply Forall_nil); cbn; lra.
  - cbn. lra.
Qed.
Example C51_requested_ex : map (fun jr => m_comp (snd jr)) (so_sent (snd (rx_next "" rx_e3))) = [rx_w; rx_u].
Proof. vm_compute. reflexivity. Qed.
Example C51_requested_ex2 : Forall (fun jr => exists amt target, nth_error (se_trades rx_e3) (fst jr) = Some (amt, target) /\ 0 <= m_qty (snd jr) <= amt /\
     (""%string = ""%string -> m_comp (snd jr) = m_comp target)) (so_sent (snd (rx_next "" rx_e3))).
Proof. exact (C51_requested 0 0 rx_recipe (rx_cfg "") ltac:(lra) rx_es rx_e3 _ _ _ _ ltac:(cbn; lra) rx_env_ok rx_lived_n rx_step3n). Qed.

(** ** C80: awarded trades are filled *)
Theorem C80_filled : forall eps eg recipe cfg, 0 <= eg ->
  forall es e s os, 0 <= sc_inv_size cfg -> Forall env_ok (es ++ [e]) -> sr_lived eps eg recipe cfg es s os -> awarded cfg s e ->
  exists s' o, sr_step eps eg recipe cfg s e = Ok (s', o) /\ sent o <= sc_throughput cfg /\
    (unpackaged (se_fill e) -> unrestricted (se_ship e) ->
       Forall2 Qeq (map (fun jr => m_qty (snd jr)) (so_sent o)) (map fst (se_trades e)) /\
       map fst (so_sent o) = seq 0 (List.length (se_trades e))).
Proof. exact filled_final. Qed.
Print Assumptions C80_filled.
(** No more packages are sent than the transport unit allows. *)
Theorem C80_transport : forall eps eg recipe cfg s e s' o, sr_step eps eg recipe cfg s e = Ok (s', o) ->
  (zlen (filter (fun jr => negb (Qeq_bool (m_qty (snd jr)) 0)) (so_sent o)) <= Z.max 0 (se_ship e (zlen (se_trades e))))%Z.
Proof. exact shipped_final. Qed.
Print Assumptions C80_transport.
Example C80_filled_ex : exists s' o, sr_step 0 0 rx_recipe (rx_cfg "nat_u") (rx_s "nat_u") rx_e3 = Ok (s', o) /\ sent o <= 10 /\
  Forall2 Qeq (map (fun jr => m_qty (snd jr)) (so_sent o)) [5; 1].
Proof.
  destruct (C80_filled 0 0 rx_recipe (rx_cfg "nat_u") ltac:(lra) rx_es rx_e3 _ _ ltac:(cbn; lra) rx_env_ok rx_lived_r) as (s' & o & A & B & C).
  - split; [repeat (apply Forall_cons || apply Forall_nil); cbn; lra|]. vm_compute. discriminate.
  - exists s', o. split; [exact A|]. split; [exact B|]. apply C; [intros ? ?; reflexivity|intro; reflexivity].
Qed.
(** Three trades, two may be shipped. *)
Definition rx_e4 : sr_env := {| se_fill_bids := rx_whole; se_fill := rx_whole; se_ship := rx_two; se_reqs := []; se_trades := [(1, rx_t); (2, rx_t); (3, rx_t)] |}.
Example C80_transport_ex : map fst (so_sent (snd (rx_next "nat_u" rx_e4))) = [0; 1]%nat /\
  sr_step 0 0 rx_recipe (rx_cfg "nat_u") (rx_s "nat_u") rx_e4 = Ok (fst (rx_next "nat_u" rx_e4), snd (rx_next "nat_u" rx_e4)).
Proof. split; vm_compute; reflexivity. Qed.
