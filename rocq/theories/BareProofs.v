(** Proofs for C122: the facilities that only store, mix and pass on. *)
From Verif Require Import Outcome KernelMaterial KernelResBuf KernelBuf BareSpec BareReactor.
From Verif Require StorageModel SinkModel SourceModel ConversionModel MixerModel.
Local Open Scope Q_scope.

(** ** Buffers *)
Lemma absorb_bare a b : absorb (bare a) (bare b) = bare (absorb a b).
Proof. reflexivity. Qed.
Lemma fold_bare ms : forall m, fold_left absorb (map bare ms) (bare m) = bare (fold_left absorb ms m).
Proof. induction ms as [|x ms IH]; intro m; [reflexivity|]. cbn [map fold_left]. rewrite absorb_bare. apply IH. Qed.
Lemma squash_bare ms : squash (map bare ms) = on bare (squash ms).
Proof. destruct ms as [|m ms]; [reflexivity|]. cbn [map squash on]. rewrite fold_bare. reflexivity. Qed.
Definition bml (p : mat * list mat) : mat * list mat := (bare (fst p), map bare (snd p)).
Definition bll (p : list mat * list mat) : list mat * list mat := (map bare (fst p), map bare (snd p)).
Lemma take_bare ms : forall q, take_qty q (map bare ms) = bll (take_qty q ms).
Proof.
  induction ms as [|m ms IH]; intro q; [reflexivity|]. cbn [map take_qty]. change (m_qty (bare m)) with (m_qty m). destruct (Qle_bool q 0); [reflexivity|].
  destruct (Qltb q (m_qty m)); [reflexivity|]. rewrite IH. destruct (take_qty (q - m_qty m) ms) as [a b]. reflexivity.
Qed.
Lemma pop_bare_list ms q : items_pop_qty (map bare ms) q = on bml (items_pop_qty ms q).
Proof.
  unfold items_pop_qty. rewrite qty_bare. destruct (Qltb _ _); [reflexivity|]. rewrite take_bare. destruct (take_qty q ms) as [a r]. cbn [bll fst snd]. rewrite squash_bare.
  apply bind_on. intro m. reflexivity.
Qed.
Lemma pop_tol_bare ms q tol : items_pop_tol (map bare ms) q tol = on bml (items_pop_tol ms q tol).
Proof.
  unfold items_pop_tol. rewrite qty_bare. destruct (Qltb _ _); [reflexivity|]. destruct (Qle_bool _ _); [|apply pop_bare_list]. rewrite squash_bare. apply bind_on. intro m. reflexivity.
Qed.
Definition bmb (p : mat * buf) : mat * buf := (bare (fst p), bare_buf (snd p)).
Lemma b_qty_bare b : b_qty (bare_buf b) = b_qty b.
Proof. apply qty_bare. Qed.
Lemma b_space_bare b : b_space (bare_buf b) = b_space b.
Proof. unfold b_space. rewrite b_qty_bare. reflexivity. Qed.
Lemma b_push_bare eps b m : b_push eps (bare_buf b) (bare m) = on bare_buf (b_push eps b m).
Proof. unfold b_push, b_fits. rewrite b_space_bare. change (m_qty (bare m)) with (m_qty m). destruct (match b_space b with Some _ => _ | None => _ end); [|reflexivity].
  cbn. unfold bare_buf. cbn. rewrite map_app. reflexivity. Qed.
Lemma b_pop_qty_bare b q : b_pop_qty (bare_buf b) q = on bmb (b_pop_qty b q).
Proof. unfold b_pop_qty. change (b_items (bare_buf b)) with (map bare (b_items b)). rewrite pop_bare_list. apply bind_on. intros [m r]. reflexivity. Qed.
Lemma b_pop_tol_bare b q tol : b_pop_tol (bare_buf b) q tol = on bmb (b_pop_tol b q tol).
Proof. unfold b_pop_tol. change (b_items (bare_buf b)) with (map bare (b_items b)). rewrite pop_tol_bare. apply bind_on. intros [m r]. reflexivity. Qed.

(** ** Storage *)
Section St.
Import StorageModel.
Variables (eps : Q) (cfg : st_cfg).
Notation bs := bare_storage.
Lemma begin_loop_bare t inv : forall proc times, begin_loop t (map bare inv) (map bare proc) times =
  (map bare (fst (begin_loop t inv proc times)), snd (begin_loop t inv proc times)).
Proof.
  induction inv as [|m inv IH]; intros proc times; [reflexivity|]. cbn [map begin_loop]. change [bare m] with (map bare [m]). rewrite <- map_app. apply IH.
Qed.
Lemma begin_bare t s : begin_processing t (bs s) = bs (begin_processing t s).
Proof.
  unfold begin_processing. cbn [bare_storage ss_inventory ss_processing ss_entry_times]. rewrite begin_loop_bare. destruct (begin_loop t _ _ _) as [proc times]. reflexivity.
Qed.
Lemma ready_bare t s : ready_matl t (bs s) = on bs (ready_matl t s).
Proof.
  unfold ready_matl. cbn [bare_storage ss_inventory ss_processing ss_entry_times ss_ready ss_stocks]. destruct (ready_loop t (ss_entry_times s) 0) as [times n].
  rewrite zlen_map. destruct (Z.ltb _ _); [reflexivity|]. cbn [on]. unfold bare_storage. cbn. rewrite firstn_map, skipn_map, map_app. reflexivity.
Qed.
Lemma discrete_bare max_pop ready : forall c moved, discrete_loop c max_pop (map bare ready) (map bare moved) = bll (discrete_loop c max_pop ready moved).
Proof.
  induction ready as [|m ready IH]; intros c moved; [reflexivity|]. cbn [map discrete_loop]. destruct (Qle_bool c max_pop); [|reflexivity].
  change [bare m] with (map bare [m]). rewrite <- map_app, <- IH. destruct ready; reflexivity.
Qed.
Definition bsl (p : st_state * list mat) : st_state * list mat := (bs (fst p), map bare (snd p)).
Lemma process_bare cap s : process_mat eps cfg cap (bs s) = on bsl (process_mat eps cfg cap s).
Proof.
  unfold process_mat. change (ss_ready (bs s)) with (map bare (ss_ready s)). destruct (ss_ready s) as [|m0 rd] eqn:R; [reflexivity|].
  rewrite qty_bare. cbn [map]. set (mp := Qmin cap _).
  assert (E : (if sc_discrete cfg then if Qeq_bool mp (qty_of (m0 :: rd)) then Ok (bare m0 :: map bare rd, []) else Ok (discrete_loop (m_qty (bare m0)) mp (bare m0 :: map bare rd) [])
      else let* '(m, rest) := items_pop_tol (bare m0 :: map bare rd) mp eps in Ok ([m], rest)) =
    on bll (if sc_discrete cfg then if Qeq_bool mp (qty_of (m0 :: rd)) then Ok (m0 :: rd, []) else Ok (discrete_loop (m_qty m0) mp (m0 :: rd) [])
      else let* '(m, rest) := items_pop_tol (m0 :: rd) mp eps in Ok ([m], rest))).
  { destruct (sc_discrete cfg).
    - destruct (Qeq_bool _ _); [reflexivity|]. cbn [on]. f_equal. exact (discrete_bare mp (m0 :: rd) (m_qty m0) []).
    - change (bare m0 :: map bare rd) with (map bare (m0 :: rd)). rewrite pop_tol_bare. apply bind_on. intros [m rest]. reflexivity. }
  rewrite E. apply bind_on. intros [moved rest]. cbn. unfold bsl, bare_storage. cbn. rewrite map_app. reflexivity.
Qed.
Lemma cap_bare s : st_capacity cfg (bs s) = st_capacity cfg s.
Proof. unfold st_capacity, st_total. cbn [bare_storage ss_inventory ss_processing ss_ready ss_stocks]. rewrite !qty_bare. reflexivity. Qed.
Definition btock (o : st_tock_out) : st_tock_out := {| to_released := map bare (to_released o); to_demand := to_demand o; to_supply := to_supply o |}.
Definition bst_tock (p : st_state * st_tock_out) := (bs (fst p), btock (snd p)).
Lemma st_tock_bare t s : st_tock eps cfg t (bs s) = on bst_tock (st_tock eps cfg t s).
Proof.
  unfold st_tock. cbv zeta. rewrite begin_bare. generalize (begin_processing t s). intro s1. cbn [bare_storage ss_inventory]. rewrite zlen_map. fold (bs s1).
  assert (E : (if (Z.leb 0 (ready_time cfg t) || (Z.eqb (sc_residence cfg) 0 && negb (Z.eqb (zlen (ss_inventory s1)) 0)))%bool then ready_matl (ready_time cfg t) (bs s1) else Ok (bs s1)) =
    on bs (if (Z.leb 0 (ready_time cfg t) || (Z.eqb (sc_residence cfg) 0 && negb (Z.eqb (zlen (ss_inventory s1)) 0)))%bool then ready_matl (ready_time cfg t) s1 else Ok s1)).
  { destruct (_ || _)%bool; [apply ready_bare|reflexivity]. }
  rewrite E. apply bind_on. intro s2. rewrite process_bare. apply bind_on. intros [s3 moved]. cbn [bsl fst snd]. apply bind_same. intro dn. apply bind_same. intro sn.
  rewrite cap_bare. cbn [on]. unfold bst_tock, btock. cbn [fst snd to_released to_demand to_supply]. change (ss_stocks (bs s3)) with (map bare (ss_stocks s3)). rewrite qty_bare. reflexivity.
Qed.
Lemma sell_bare sales : forall stocks sold, sell_all eps sales (map bare stocks) (map bare sold) = on bll (sell_all eps sales stocks sold).
Proof.
  induction sales as [|q sales IH]; intros stocks sold; [reflexivity|]. cbn [sell_all]. rewrite pop_tol_bare. apply bind_on. intros [m r]. cbn [bml fst snd].
  change [bare m] with (map bare [m]). rewrite <- map_app. apply IH.
Qed.
Lemma add_bare ms : forall s, fold_left st_add_mat (map bare ms) (bs s) = bs (fold_left st_add_mat ms s).
Proof.
  induction ms as [|m ms IH]; intro s; [reflexivity|]. cbn [map fold_left]. rewrite <- IH. f_equal. unfold st_add_mat, bare_storage. cbn. rewrite map_app. reflexivity.
Qed.
Definition bst_step (p : st_state * st_out) := (bs (fst p), bare_storage_out (snd p)).
Lemma st_step_bare s e : st_step eps cfg (bs s) (bare_storage_step e) = on bst_step (st_step eps cfg s e).
Proof.
  unfold st_step, st_trade. cbn [bare_storage_step se_sales se_receipts se_time].
  assert (E : (let* '(stocks, sold) := sell_all eps (se_sales e) (ss_stocks (bs s)) [] in
      Ok (fold_left st_add_mat (map bare (se_receipts e)) {| ss_inventory := ss_inventory (bs s); ss_processing := ss_processing (bs s);
        ss_entry_times := ss_entry_times (bs s); ss_ready := ss_ready (bs s); ss_stocks := stocks |}, sold)) =
    on bsl (let* '(stocks, sold) := sell_all eps (se_sales e) (ss_stocks s) [] in
      Ok (fold_left st_add_mat (se_receipts e) {| ss_inventory := ss_inventory s; ss_processing := ss_processing s;
        ss_entry_times := ss_entry_times s; ss_ready := ss_ready s; ss_stocks := stocks |}, sold))).
  { change (ss_stocks (bs s)) with (map bare (ss_stocks s)). change (@nil mat) with (map bare []) at 1. rewrite sell_bare. apply bind_on. intros [stocks sold]. cbn [bll fst snd on bsl].
    f_equal. unfold bsl. cbn [fst snd]. f_equal. exact (add_bare (se_receipts e) {| ss_inventory := ss_inventory s; ss_processing := ss_processing s;
        ss_entry_times := ss_entry_times s; ss_ready := ss_ready s; ss_stocks := stocks |}). }
  rewrite E. apply bind_on. intros [s1 sold]. cbn [bsl fst snd]. rewrite st_tock_bare. apply bind_on. intros [s2 o]. reflexivity.
Qed.
Definition bst_run (p : st_state * list st_out) := (bs (fst p), map bare_storage_out (snd p)).
Lemma st_run_bare es : forall s, st_run eps cfg (bs s) (map bare_storage_step es) = on bst_run (st_run eps cfg s es).
Proof.
  induction es as [|e es IH]; intro s; [reflexivity|]. cbn [map st_run]. rewrite st_step_bare. apply bind_on. intros [s1 o]. cbn [bst_step fst snd]. rewrite IH. apply bind_on. intros [s2 os]. reflexivity.
Qed.
Lemma storage_bare s s' es es' : bs s' = bs s -> map bare_storage_step es' = map bare_storage_step es ->
  on bst_run (st_run eps cfg s' es') = on bst_run (st_run eps cfg s es).
Proof. intros A B. rewrite <- !st_run_bare, A, B. reflexivity. Qed.
End St.

(** ** Conversion *)
Section Cv.
Import ConversionModel.
Variables (eps : Q) (cfg : cv_cfg).
Notation bc := bare_conversion.
Lemma bulk_bare ms m : bulk_push (map bare ms) (bare m) = map bare (bulk_push ms m).
Proof. destruct ms; reflexivity. Qed.
Lemma cv_tick_bare s : cv_tick cfg (bc s) = on bc (cv_tick cfg s).
Proof.
  unfold cv_tick. change (vs_input (bc s)) with (map bare (vs_input s)). rewrite qty_bare. destruct (Qltb _ _); [|reflexivity]. rewrite pop_bare_list. apply bind_on. intros [m r].
  cbn [bml fst snd on]. change (vs_output (bc s)) with (map bare (vs_output s)). rewrite bulk_bare. reflexivity.
Qed.
Lemma cv_bids_bare s reqs : cv_bids (bc s) reqs = on (option_map (fun p => (map bare_numbered (fst p), snd p))) (cv_bids s reqs).
Proof.
  unfold cv_bids. change (vs_output (bc s)) with (map bare (vs_output s)). rewrite qty_bare. destruct (Qle_bool _ _); [reflexivity|].
  rewrite (loop_same (map bare_numbered) (fun acc jq => let offer := Qmin (qty_of (vs_output s)) (snd jq) in if Qltb 0 offer then
      match vs_output s with [] => Throw ValueError | m :: _ => Ok (acc ++ [(fst jq, {| m_id := 0; m_qty := offer; m_comp := m_comp m |})]) end else Ok acc) _) with (s := []).
  - apply bind_on. intro bids. reflexivity.
  - intros acc [j q]. cbn [fst snd]. destruct (Qltb _ _); [|reflexivity]. destruct (vs_output s); [reflexivity|]. cbn. rewrite map_app. reflexivity.
Qed.
Lemma cv_trades_bare amts : forall out sh, cv_trades amts (map bare out) (map bare sh) = on bll (cv_trades amts out sh).
Proof.
  induction amts as [|q amts IH]; intros out sh; [reflexivity|]. cbn [cv_trades]. rewrite pop_bare_list. apply bind_on. intros [m r]. cbn [bml fst snd].
  change [bare m] with (map bare [m]). rewrite <- map_app. apply IH.
Qed.
Lemma cv_accept_bare ms : forall inp, cv_accept eps cfg (map bare ms) (map bare inp) = on (map bare) (cv_accept eps cfg ms inp).
Proof.
  induction ms as [|m ms IH]; intro inp; [reflexivity|]. cbn [map cv_accept]. rewrite qty_bare. change (m_qty (bare m)) with (m_qty m). destruct (Qltb _ _); [reflexivity|].
  rewrite bulk_bare. apply IH.
Qed.
Definition bcv_step (p : cv_state * cv_out) := (bc (fst p), bare_conversion_out (snd p)).
Lemma cv_step_bare s e : cv_step eps cfg (bc s) (bare_conversion_step e) = on bcv_step (cv_step eps cfg s e).
Proof.
  unfold cv_step. rewrite cv_tick_bare. apply bind_on. intro s1. cbn [bare_conversion_step ve_reqs ve_sales ve_receipts]. rewrite cv_bids_bare. apply bind_on. intro bids.
  change (vs_output (bc s1)) with (map bare (vs_output s1)). change (@nil mat) with (map bare []) at 1. rewrite cv_trades_bare. apply bind_on. intros [out sh]. cbn [bll fst snd].
  change (vs_input (bc s1)) with (map bare (vs_input s1)). rewrite cv_accept_bare. apply bind_on. intro inp. cbn [on]. unfold bcv_step, bare_conversion_out. cbn [fst snd vo_ticked vo_requests vo_bids vo_shipped].
  unfold cv_requests, cv_available. change (vs_input (bc s1)) with (map bare (vs_input s1)). rewrite qty_bare. reflexivity.
Qed.
Definition bcv_run (p : cv_state * list cv_out) := (bc (fst p), map bare_conversion_out (snd p)).
Lemma cv_run_bare es : forall s, cv_run eps cfg (bc s) (map bare_conversion_step es) = on bcv_run (cv_run eps cfg s es).
Proof.
  induction es as [|e es IH]; intro s; [reflexivity|]. cbn [map cv_run]. rewrite cv_step_bare. apply bind_on. intros [s1 o]. cbn [bcv_step fst snd]. rewrite IH. apply bind_on. intros [s2 os]. reflexivity.
Qed.
Lemma conversion_bare s s' es es' : bc s' = bc s -> map bare_conversion_step es' = map bare_conversion_step es ->
  on bcv_run (cv_run eps cfg s' es') = on bcv_run (cv_run eps cfg s es).
Proof. intros A B. rewrite <- !cv_run_bare, A, B. reflexivity. Qed.
End Cv.

(** ** Mixer *)
Section Mx.
Import MixerModel.
Variables (eps : Q) (cfg : mx_cfg).
Notation bx := bare_mixer.
Lemma target_bare rs : forall bs tgt, mx_target tgt rs (map bare_buf bs) = mx_target tgt rs bs.
Proof. induction rs as [|r rs IH]; intros [|b bs] tgt; try reflexivity. cbn [map mx_target]. rewrite b_qty_bare. apply IH. Qed.
Definition bob (p : option mat * list buf) := (option_map bare (fst p), map bare_buf (snd p)).
Lemma blend_bare tgt rs : forall bs acc, mx_blend eps tgt (option_map bare acc) rs (map bare_buf bs) = on bob (mx_blend eps tgt acc rs bs).
Proof.
  induction rs as [|r rs IH]; intros [|b bs] acc; try reflexivity. cbn [map mx_blend]. rewrite b_pop_tol_bare. apply bind_on. intros [m b']. cbn [bmb fst snd].
  assert (A : Some (match option_map bare acc with Some a => absorb a (bare m) | None => bare m end) = option_map bare (Some (match acc with Some a => absorb a m | None => m end)))
    by (destruct acc; reflexivity).
  rewrite A, IH. apply bind_on. intros [a2 r2]. reflexivity.
Qed.
Definition btick (p : mx_state * (string * Q)) := (bx (fst p), snd p).
Lemma mx_tick_bare s : mx_tick eps cfg (bx s) = on btick (mx_tick eps cfg s).
Proof.
  unfold mx_tick. cbn [bare_mixer xs_ratios xs_bufs xs_output xs_extra]. rewrite b_qty_bare, target_bare.
  match goal with |- bind ?X _ = on _ (bind ?Y _) => assert (E : X = on bx Y) end.
  { destruct (Qltb _ _); [|reflexivity]. cbv zeta. destruct (Qltb 0 _); [|reflexivity]. change None with (option_map bare None) at 1. rewrite blend_bare. apply bind_on. intros [[m|] bs]; [|reflexivity].
    cbn [bob fst snd option_map]. rewrite b_push_bare. apply bind_on. intro o. reflexivity. }
  rewrite E. apply bind_on. intro s'. cbn [on]. unfold btick. cbn [fst snd]. change (xs_output (bx s')) with (bare_buf (xs_output s')). rewrite b_qty_bare. reflexivity.
Qed.
Lemma reqs_bare strs : forall bs i, mx_reqs eps i strs (map bare_buf bs) = mx_reqs eps i strs bs.
Proof. induction strs as [|st strs IH]; intros [|b bs] i; try reflexivity. cbn [map mx_reqs]. rewrite b_space_bare, IH. reflexivity. Qed.
Lemma demand_bare s : mx_demand cfg (bx s) = mx_demand cfg s.
Proof.
  unfold mx_demand. cbn [bare_mixer xs_bufs]. generalize (xc_streams cfg). intro strs. revert strs. induction (xs_bufs s) as [|b bs IH]; intros [|st strs]; try reflexivity.
  cbn [map combine flat_map fst snd]. rewrite b_space_bare, IH. reflexivity.
Qed.
Lemma push_at_bare i m : forall bs, mx_push_at eps i (bare m) (map bare_buf bs) = on (map bare_buf) (mx_push_at eps i m bs).
Proof.
  induction i as [|i IH]; intros [|b bs]; try reflexivity; cbn [map mx_push_at].
  - rewrite b_push_bare. apply bind_on. intro b'. reflexivity.
  - rewrite IH. apply bind_on. intro r. reflexivity.
Qed.
Lemma mx_accept_bare invs rs s : mx_accept eps invs (map bare_numbered rs) (bx s) = on bx (mx_accept eps invs rs s).
Proof.
  unfold mx_accept. change (xs_bufs (bx s)) with (map bare_buf (xs_bufs s)).
  rewrite (loop_on (map bare_buf) bare_numbered (fun bs jm => match nth_error invs (fst jm) with None => Throw ValueError | Some i => mx_push_at eps i (snd jm) bs end)).
  - apply bind_on. intro bs. reflexivity.
  - intros bs [j m]. cbn [bare_numbered fst snd]. destruct (nth_error invs j); [apply push_at_bare|reflexivity].
Qed.
Definition bsell (p : mx_state * list mat) := (bx (fst p), map bare (snd p)).
Definition bbl (p : buf * list mat) := (bare_buf (fst p), map bare (snd p)).
Lemma mx_sell_bare sales s : mx_sell eps sales (bx s) = on bsell (mx_sell eps sales s).
Proof.
  unfold mx_sell. change (xs_output (bx s), @nil mat) with (bbl (xs_output s, [])).
  rewrite (loop_same bbl (fun (st : buf * list mat) q => let* '(m, b) := b_pop_tol (fst st) q eps in Ok (b, snd st ++ [m]))).
  - apply bind_on. intros [o ms]. reflexivity.
  - intros [b ms] q. cbn [bbl fst snd]. rewrite b_pop_tol_bare. apply bind_on. intros [m b']. cbn. unfold bbl. cbn. rewrite map_app. reflexivity.
Qed.
Definition bmx_step (p : mx_state * mx_out) := (bx (fst p), bare_mixer_out (snd p)).
Lemma mx_step_bare s e : mx_step eps cfg (bx s) (bare_mixer_step e) = on bmx_step (mx_step eps cfg s e).
Proof.
  unfold mx_step. rewrite mx_tick_bare. apply bind_on. intros [s1 sup]. cbn [btick fst snd bare_mixer_step xe_sales xe_receipts]. rewrite mx_sell_bare. apply bind_on. intros [s2 sh].
  cbn [bsell fst snd]. unfold mx_requests. change (xs_bufs (bx s1)) with (map bare_buf (xs_bufs s1)). rewrite reqs_bare. cbv zeta. rewrite mx_accept_bare. apply bind_on. intro s3.
  rewrite demand_bare. reflexivity.
Qed.
Definition bmx_run (p : mx_state * list mx_out) := (bx (fst p), map bare_mixer_out (snd p)).
Lemma mx_run_bare es : forall s, mx_run eps cfg (bx s) (map bare_mixer_step es) = on bmx_run (mx_run eps cfg s es).
Proof.
  induction es as [|e es IH]; intro s; [reflexivity|]. cbn [map mx_run]. rewrite mx_step_bare. apply bind_on. intros [s1 o]. cbn [bmx_step fst snd]. rewrite IH. apply bind_on. intros [s2 os]. reflexivity.
Qed.
Lemma mixer_bare s s' es es' : bx s' = bx s -> map bare_mixer_step es' = map bare_mixer_step es ->
  on bmx_run (mx_run eps cfg s' es') = on bmx_run (mx_run eps cfg s es).
Proof. intros A B. rewrite <- !mx_run_bare, A, B. reflexivity. Qed.
End Mx.

(** ** Source *)
Section Sr.
Import SourceModel.
Variables (eps eg : Q) (recipe r0 : string -> option comp) (cfg : sr_cfg).
Hypothesis R0 : forall r, r0 r = match recipe r with Some _ => Some [] | None => None end.
Notation bo := bare_source.
Lemma sr_build_bare : sr_build eps r0 cfg = on bo (sr_build eps recipe cfg).
Proof.
  unfold sr_build. match goal with |- bind ?X _ = on _ (bind ?Y _) => assert (E : X = on (fun _ => []) Y) end.
  { destruct (String.eqb _ _); [reflexivity|]. rewrite R0. destruct (recipe _); reflexivity. }
  rewrite E. apply bind_on. intro c. reflexivity.
Qed.
Lemma bids_for_bare2 j m fs : sr_bids_for r0 cfg j (bare m) fs = on (map bare_source_bid) (sr_bids_for recipe cfg j m fs).
Proof.
  induction fs as [|f fs IH]; [reflexivity|]. cbn [sr_bids_for]. match goal with |- bind ?X _ = on _ (bind ?Y _) => assert (E : X = on (fun _ => []) Y) end.
  { destruct (String.eqb _ _); [reflexivity|]. rewrite R0. destruct (recipe _); reflexivity. }
  rewrite E. apply bind_on. intro c. rewrite IH. apply bind_on. intro bs. reflexivity.
Qed.
Lemma bids_loop_bare fill ship mq ts : forall j, sr_bids_loop r0 cfg fill ship mq j (map bare ts) = on (map bare_source_bid) (sr_bids_loop recipe cfg fill ship mq j ts).
Proof.
  induction ts as [|m ts IH]; intro j; [reflexivity|]. cbn [map sr_bids_loop]. change (m_qty (bare m)) with (m_qty m). rewrite bids_for_bare2. apply bind_on. intro bs. rewrite IH. apply bind_on. intro rest.
  cbn. rewrite map_app. reflexivity.
Qed.
Lemma targets_bare reqs : map snd (filter (fun r => String.eqb (fst r) (sc_commod cfg)) (map bare_named reqs)) =
  map bare (map snd (filter (fun r => String.eqb (fst r) (sc_commod cfg)) reqs)).
Proof. induction reqs as [|[c m] reqs IH]; [reflexivity|]. cbn. destruct (String.eqb c (sc_commod cfg)); cbn; [f_equal|]; exact IH. Qed.
Definition bport (p : sr_port) : sr_port := {| sp_bids := map bare_source_bid (sp_bids p); sp_limit := sp_limit p |}.
Definition bgb (p : Q * option sr_port) := (fst p, option_map bport (snd p)).
Lemma sr_bids_bare fill ship reqs s : sr_get_bids eg r0 cfg fill ship (map bare_named reqs) (bo s) = on bgb (sr_get_bids eg recipe cfg fill ship reqs s).
Proof.
  unfold sr_get_bids. cbv zeta. change (ss_inv (bo s)) with (bare_buf (ss_inv s)). rewrite b_qty_bare, targets_bare. destruct (Qltb _ _); [reflexivity|].
  destruct (map snd (filter _ reqs)) as [|m ts]; [reflexivity|]. cbn [map]. change (bare m :: map bare ts) with (map bare (m :: ts)). rewrite bids_loop_bare. apply bind_on. intro bs. reflexivity.
Qed.
Definition bpk (p : list mat * mat) := (map bare (fst p), bare (snd p)).
Lemma split_bare fs : forall m, split_packages fs (bare m) = on bpk (split_packages fs m).
Proof.
  induction fs as [|f fs IH]; intro m; [reflexivity|]. cbn [split_packages]. unfold extract_qty. change (m_qty (bare m)) with (m_qty m). destruct (Qltb _ _); [reflexivity|]. cbn [bind].
  specialize (IH {| m_id := m_id m; m_qty := m_qty m - f; m_comp := m_comp m |}). cbn [bare m_id m_qty m_comp] in *. change (Mat (m_id m) (m_qty m - f) []) with (bare {| m_id := m_id m; m_qty := m_qty m - f; m_comp := m_comp m |}) in *.
  rewrite IH. apply bind_on. intros [ps m2]. reflexivity.
Qed.
Definition btr (p : buf * list (nat * mat)) := (bare_buf (fst p), map bare_numbered (snd p)).
Definition btrade (p : Q * mat) : Q * mat := (fst p, bare (snd p)).
Lemma trade_loop_bare fill ts : forall i k b, sr_trade_loop eps eg cfg fill i k (map btrade ts) (bare_buf b) = on btr (sr_trade_loop eps eg cfg fill i k ts b).
Proof.
  induction ts as [|[amt m] ts IH]; intros i k b; [reflexivity|]. cbn [map sr_trade_loop btrade fst snd]. destruct (Z.ltb 0 k); [|apply IH].
  rewrite b_pop_qty_bare. apply bind_on. intros [x b1]. cbn [bmb fst snd]. change (m_qty (bare x)) with (m_qty x). rewrite split_bare. apply bind_on. intros [pk rest]. cbn [bpk fst snd].
  match goal with |- bind ?X _ = on _ (bind ?Y _) => assert (E : X = on bare_buf Y) end.
  { change (m_qty (bare rest)) with (m_qty rest). destruct (Qltb _ _); [apply b_push_bare|reflexivity]. }
  rewrite E. apply bind_on. intro b2. destruct pk as [|p pk]; cbn [map]; rewrite IH; apply bind_on; intros [b3 rs]; cbn; destruct (String.eqb (sc_recipe cfg) ""); reflexivity.
Qed.
Definition bsr_step (p : sr_state * sr_out) := (bo (fst p), bare_source_out (snd p)).
Lemma sr_step_bare s e : sr_step eps eg r0 cfg (bo s) (bare_source_step e) = on bsr_step (sr_step eps eg recipe cfg s e).
Proof.
  unfold sr_step, sr_get_trades. cbn [bare_source_step se_fill_bids se_fill se_ship se_reqs se_trades]. rewrite sr_bids_bare. apply bind_on. intros [q p]. cbn [bgb fst snd].
  change (map (fun p => (fst p, bare (snd p))) (se_trades e)) with (map btrade (se_trades e)). rewrite zlen_map. change (ss_inv (bo s)) with (bare_buf (ss_inv s)). rewrite trade_loop_bare.
  destruct (sr_trade_loop eps eg cfg (se_fill e) 0 _ (se_trades e) (ss_inv s)) as [[b rs]| | |]; reflexivity.
Qed.
Definition bsr_run (p : sr_state * list sr_out) := (bo (fst p), map bare_source_out (snd p)).
Lemma sr_run_bare es : forall s, sr_run eps eg r0 cfg (bo s) (map bare_source_step es) = on bsr_run (sr_run eps eg recipe cfg s es).
Proof.
  induction es as [|e es IH]; intro s; [reflexivity|]. cbn [map sr_run]. rewrite sr_step_bare. apply bind_on. intros [s1 o]. cbn [bsr_step fst snd]. rewrite IH. apply bind_on. intros [s2 os]. reflexivity.
Qed.
(** From construction on. *)
Lemma sr_life_bare es : (let* s := sr_build eps r0 cfg in sr_run eps eg r0 cfg s (map bare_source_step es)) =
  on bsr_run (let* s := sr_build eps recipe cfg in sr_run eps eg recipe cfg s es).
Proof. rewrite sr_build_bare. apply bind_on. intro s. apply sr_run_bare. Qed.
End Sr.
Lemma source_bare eps eg recipe recipe' cfg es es' : same_names recipe recipe' -> map bare_source_step es' = map bare_source_step es ->
  on bsr_run (let* s := SourceModel.sr_build eps recipe' cfg in SourceModel.sr_run eps eg recipe' cfg s es') =
  on bsr_run (let* s := SourceModel.sr_build eps recipe cfg in SourceModel.sr_run eps eg recipe cfg s es).
Proof.
  intros N E. rewrite <- (sr_life_bare eps eg recipe (blank recipe) cfg (fun r : string => eq_refl) es), <- (sr_life_bare eps eg recipe' (blank recipe) cfg (blank_same _ _ N) es').
  rewrite E. reflexivity.
Qed.

(** ** Sink *)
Section Sk.
Import SinkModel.
Variables (eps eg : Q) (recipe r0 : string -> option comp) (cfg : sk_cfg).
Hypothesis R0 : forall r, r0 r = match recipe r with Some _ => Some [] | None => None end.
Notation bk := bare_sink.
Lemma rsrcs_bare rs : rsrcs_qty (map bare_rsrc rs) = rsrcs_qty rs.
Proof. unfold rsrcs_qty. rewrite map_map. reflexivity. Qed.
Lemma available_bare s : sk_available cfg (bk s) = sk_available cfg s.
Proof. unfold sk_available, sk_space. change (ks_inv (bk s)) with (map bare_rsrc (ks_inv s)). rewrite rsrcs_bare. reflexivity. Qed.
Lemma amt_bare g s : sk_request_amt cfg g (bk s) = sk_request_amt cfg g s.
Proof. unfold sk_request_amt. rewrite available_bare. reflexivity. Qed.
Lemma sk_enter_bare g t s : sk_enter cfg g t (bk s) = on bk (sk_enter cfg g t s).
Proof.
  unfold sk_enter. change (ks_prefs (bk s)) with (ks_prefs s). apply bind_same. intro ps. cbv zeta. cbn [on]. unfold bare_sink. cbn [ks_prefs ks_inv ks_amt ks_next]. f_equal. f_equal.
  exact (amt_bare g {| ks_prefs := ps; ks_inv := ks_inv s; ks_amt := ks_amt s; ks_next := ks_next s |}).
Qed.
Definition bkt (p : sk_state * list (string * Q)) := (bk (fst p), snd p).
Lemma sk_tick_bare g t s : sk_tick eg cfg g t (bk s) = on bkt (sk_tick eg cfg g t s).
Proof.
  unfold sk_tick. rewrite amt_bare. cbn [bare_sink ks_next]. destruct (Z.eqb (ks_next s) (-1)); [|destruct (Z.eqb (ks_next s) t)]; cbv zeta; cbn [ks_amt]; destruct (Qltb _ _); try reflexivity; apply bind_same; intro; reflexivity.
Qed.
Definition bmq (q : sk_mreq) : sk_mreq := {| mq_qty := mq_qty q; mq_comp := option_map (fun _ => []) (mq_comp q); mq_items := mq_items q |}.
Definition bkm (p : sk_state * option sk_mreq) := (bk (fst p), option_map bmq (snd p)).
Lemma sk_mat_bare g s : sk_mat_requests eg r0 cfg g (bk s) = on bkm (sk_mat_requests eg recipe cfg g s).
Proof.
  unfold sk_mat_requests. rewrite available_bare, amt_bare. cbv zeta.
  match goal with |- context [if Qltb (sk_available cfg s) (ks_amt (bk s)) then ?a else bk s] =>
    assert (E1 : (if Qltb (sk_available cfg s) (ks_amt (bk s)) then a else bk s) =
      bk (if Qltb (sk_available cfg s) (ks_amt s) then {| ks_prefs := ks_prefs s; ks_inv := ks_inv s; ks_amt := sk_request_amt cfg g s; ks_next := ks_next s |} else s)) end.
  { change (ks_amt (bk s)) with (ks_amt s). destruct (Qltb _ _); reflexivity. }
  rewrite E1. generalize (if Qltb (sk_available cfg s) (ks_amt s) then {| ks_prefs := ks_prefs s; ks_inv := ks_inv s; ks_amt := sk_request_amt cfg g s; ks_next := ks_next s |} else s).
  intro s1. match goal with |- bind ?X _ = on _ (bind ?Y _) => assert (E : X = on (option_map (fun _ => [])) Y) end.
  { destruct (String.eqb _ _); [reflexivity|]. rewrite R0. destruct (recipe _); reflexivity. }
  rewrite E. apply bind_on. intro c. change (ks_amt (bk s1)) with (ks_amt s1). destruct (Qltb eg (ks_amt s1)); [|reflexivity]. change (ks_prefs (bk s1)) with (ks_prefs s1). apply bind_same. intro items. reflexivity.
Qed.
Lemma sk_accept_bare rs : forall s, sk_accept eps cfg (map bare_rsrc rs) (bk s) = on bk (sk_accept eps cfg rs s).
Proof.
  induction rs as [|r rs IH]; intro s; [reflexivity|]. cbn [map sk_accept]. unfold sk_space at 1. change (ks_inv (bk s)) with (map bare_rsrc (ks_inv s)). rewrite rsrcs_bare. fold (sk_space cfg s).
  change (r_qty (bare_rsrc r)) with (r_qty r). destruct (Qltb _ _); [reflexivity|]. rewrite <- IH. f_equal. unfold bare_sink. cbn. rewrite map_app. reflexivity.
Qed.
Definition bsk_step (p : sk_state * sk_out) := (bk (fst p), bare_sink_out (snd p)).
Lemma sk_step_bare t s e : sk_step eps eg r0 cfg t (bk s) (bare_sink_step e) = on bsk_step (sk_step eps eg recipe cfg t s e).
Proof.
  unfold sk_step. cbn [bare_sink_step ke_rng ke_rng2 ke_mats ke_prods]. rewrite sk_tick_bare. apply bind_on. intros [s1 d]. cbn [bkt fst snd]. rewrite sk_mat_bare. apply bind_on. intros [s2 mr].
  cbn [bkm fst snd]. replace (map rsrc_of_mat (map bare (ke_mats e))) with (map bare_rsrc (map rsrc_of_mat (ke_mats e))) by (rewrite !map_map; reflexivity).
  rewrite sk_accept_bare. apply bind_on. intro s3. replace (map rsrc_of_prod (ke_prods e)) with (map bare_rsrc (map rsrc_of_prod (ke_prods e))) at 1 by (rewrite map_map; reflexivity).
  cbv zeta. rewrite sk_accept_bare. apply bind_on. intro s4. reflexivity.
Qed.
Definition bsk_run (p : sk_state * list sk_out) := (bk (fst p), map bare_sink_out (snd p)).
Lemma sk_run_bare es : forall t s, sk_run eps eg r0 cfg t (bk s) (map bare_sink_step es) = on bsk_run (sk_run eps eg recipe cfg t s es).
Proof.
  induction es as [|e es IH]; intros t s; [reflexivity|]. cbn [map sk_run]. rewrite sk_step_bare. apply bind_on. intros [s1 o]. cbn [bsk_step fst snd]. rewrite IH. apply bind_on. intros [s2 os]. reflexivity.
Qed.
End Sk.
Lemma sink_bare eps eg recipe recipe' cfg t s s' es es' : same_names recipe recipe' -> bare_sink s' = bare_sink s -> map bare_sink_step es' = map bare_sink_step es ->
  on bsk_run (SinkModel.sk_run eps eg recipe' cfg t s' es') = on bsk_run (SinkModel.sk_run eps eg recipe cfg t s es).
Proof.
  intros N A E. rewrite <- (sk_run_bare eps eg recipe (blank recipe) cfg (fun r : string => eq_refl) es), <- (sk_run_bare eps eg recipe' (blank recipe) cfg (blank_same _ _ N) es').
  rewrite A, E. reflexivity.
Qed.
