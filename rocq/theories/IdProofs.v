(** Proofs for C134: the facilities that do not look at the numbers of their objects, and the network. *)
From Verif Require Import Outcome KernelMaterial KernelResBuf KernelBuf NetworkSpec SimulationSpec IdSpec BareReactor IdReactor.
From Verif Require Import SimulationNetwork.
From Verif Require StorageModel SinkModel SourceModel ConversionModel MixerModel ReactorModel ReactorSpec MixerSpec.
From Coq Require Import Lia.
Local Open Scope Q_scope.

Definition anon_named (p : string * mat) : string * mat := (fst p, anon (snd p)).
Definition anon_numbered (p : nat * mat) : nat * mat := (fst p, anon (snd p)).
Definition anon_storage_step (e : StorageModel.st_env) : StorageModel.st_env :=
  {| StorageModel.se_time := StorageModel.se_time e; StorageModel.se_sales := StorageModel.se_sales e;
     StorageModel.se_receipts := map anon (StorageModel.se_receipts e) |}.
Definition anon_storage_out (o : StorageModel.st_out) : StorageModel.st_out :=
  {| StorageModel.so_sold := map anon (StorageModel.so_sold o);
     StorageModel.so_tock := {| StorageModel.to_released := map anon (StorageModel.to_released (StorageModel.so_tock o));
       StorageModel.to_demand := StorageModel.to_demand (StorageModel.so_tock o);
       StorageModel.to_supply := StorageModel.to_supply (StorageModel.so_tock o) |} |}.
Definition anon_conversion_step (e : ConversionModel.cv_env) : ConversionModel.cv_env :=
  {| ConversionModel.ve_reqs := ConversionModel.ve_reqs e; ConversionModel.ve_sales := ConversionModel.ve_sales e;
     ConversionModel.ve_receipts := map anon (ConversionModel.ve_receipts e) |}.
Definition anon_conversion_out (o : ConversionModel.cv_out) : ConversionModel.cv_out :=
  {| ConversionModel.vo_ticked := anon_conversion (ConversionModel.vo_ticked o); ConversionModel.vo_requests := ConversionModel.vo_requests o;
     ConversionModel.vo_bids := option_map (fun p => (map anon_numbered (fst p), snd p)) (ConversionModel.vo_bids o);
     ConversionModel.vo_shipped := map anon (ConversionModel.vo_shipped o) |}.
Definition anon_mixer_step (e : MixerModel.mx_env) : MixerModel.mx_env :=
  {| MixerModel.xe_sales := MixerModel.xe_sales e; MixerModel.xe_receipts := map anon_numbered (MixerModel.xe_receipts e) |}.
Definition anon_mixer_out (o : MixerModel.mx_out) : MixerModel.mx_out :=
  {| MixerModel.xo_ticked := anon_mixer (MixerModel.xo_ticked o); MixerModel.xo_supply := MixerModel.xo_supply o;
     MixerModel.xo_demand := MixerModel.xo_demand o; MixerModel.xo_requests := MixerModel.xo_requests o;
     MixerModel.xo_shipped := map anon (MixerModel.xo_shipped o) |}.
Definition anon_source_step (e : SourceModel.sr_env) : SourceModel.sr_env :=
  {| SourceModel.se_fill_bids := SourceModel.se_fill_bids e; SourceModel.se_fill := SourceModel.se_fill e;
     SourceModel.se_ship := SourceModel.se_ship e; SourceModel.se_reqs := map anon_named (SourceModel.se_reqs e);
     SourceModel.se_trades := map (fun p => (fst p, anon (snd p))) (SourceModel.se_trades e) |}.
Definition anon_source_bid (b : SourceModel.sr_bid) : SourceModel.sr_bid :=
  {| SourceModel.sb_req := SourceModel.sb_req b; SourceModel.sb_mat := anon (SourceModel.sb_mat b) |}.
Definition anon_source_out (o : SourceModel.sr_out) : SourceModel.sr_out :=
  {| SourceModel.so_supply := SourceModel.so_supply o;
     SourceModel.so_port := option_map (fun p => {| SourceModel.sp_bids := map anon_source_bid (SourceModel.sp_bids p);
       SourceModel.sp_limit := SourceModel.sp_limit p |}) (SourceModel.so_port o);
     SourceModel.so_sent := map anon_numbered (SourceModel.so_sent o) |}.
Lemma qty_anon l : qty_of (map anon l) = qty_of l.
Proof. unfold qty_of. rewrite map_map. reflexivity. Qed.
(** ** Buffers *)
Lemma absorb_anon a b : absorb (anon a) (anon b) = anon (absorb a b).
Proof. reflexivity. Qed.
Lemma fold_anon ms : forall m, fold_left absorb (map anon ms) (anon m) = anon (fold_left absorb ms m).
Proof. induction ms as [|x ms IH]; intro m; [reflexivity|]. cbn [map fold_left]. rewrite absorb_anon. apply IH. Qed.
Lemma squash_anon ms : squash (map anon ms) = on anon (squash ms).
Proof. destruct ms as [|m ms]; [reflexivity|]. cbn [map squash on]. rewrite fold_anon. reflexivity. Qed.
Definition bml (p : mat * list mat) : mat * list mat := (anon (fst p), map anon (snd p)).
Definition bll (p : list mat * list mat) : list mat * list mat := (map anon (fst p), map anon (snd p)).
Lemma take_anon ms : forall q, take_qty q (map anon ms) = bll (take_qty q ms).
Proof.
  induction ms as [|m ms IH]; intro q; [reflexivity|]. cbn [map take_qty]. change (m_qty (anon m)) with (m_qty m). destruct (Qle_bool q 0); [reflexivity|].
  destruct (Qltb q (m_qty m)); [reflexivity|]. rewrite IH. destruct (take_qty (q - m_qty m) ms) as [a b]. reflexivity.
Qed.
Lemma pop_anon_list ms q : items_pop_qty (map anon ms) q = on bml (items_pop_qty ms q).
Proof.
  unfold items_pop_qty. rewrite qty_anon. destruct (Qltb _ _); [reflexivity|]. rewrite take_anon. destruct (take_qty q ms) as [a r]. cbn [bll fst snd]. rewrite squash_anon.
  apply bind_on. intro m. reflexivity.
Qed.
Lemma pop_tol_anon ms q tol : items_pop_tol (map anon ms) q tol = on bml (items_pop_tol ms q tol).
Proof.
  unfold items_pop_tol. rewrite qty_anon. destruct (Qltb _ _); [reflexivity|]. destruct (Qle_bool _ _); [|apply pop_anon_list]. rewrite squash_anon. apply bind_on. intro m. reflexivity.
Qed.
Definition bmb (p : mat * buf) : mat * buf := (anon (fst p), anon_buf (snd p)).
Lemma b_qty_anon b : b_qty (anon_buf b) = b_qty b.
Proof. apply qty_anon. Qed.
Lemma b_space_anon b : b_space (anon_buf b) = b_space b.
Proof. unfold b_space. rewrite b_qty_anon. reflexivity. Qed.
Lemma b_push_anon eps b m : b_push eps (anon_buf b) (anon m) = on anon_buf (b_push eps b m).
Proof. unfold b_push, b_fits. rewrite b_space_anon. change (m_qty (anon m)) with (m_qty m). destruct (match b_space b with Some _ => _ | None => _ end); [|reflexivity].
  cbn. unfold anon_buf. cbn. rewrite map_app. reflexivity. Qed.
Lemma b_pop_qty_anon b q : b_pop_qty (anon_buf b) q = on bmb (b_pop_qty b q).
Proof. unfold b_pop_qty. change (b_items (anon_buf b)) with (map anon (b_items b)). rewrite pop_anon_list. apply bind_on. intros [m r]. reflexivity. Qed.
Lemma b_pop_tol_anon b q tol : b_pop_tol (anon_buf b) q tol = on bmb (b_pop_tol b q tol).
Proof. unfold b_pop_tol. change (b_items (anon_buf b)) with (map anon (b_items b)). rewrite pop_tol_anon. apply bind_on. intros [m r]. reflexivity. Qed.

(** ** Storage *)
Section St.
Import StorageModel.
Variables (eps : Q) (cfg : st_cfg).
Notation bs := anon_storage.
Lemma begin_loop_anon t inv : forall proc times, begin_loop t (map anon inv) (map anon proc) times =
  (map anon (fst (begin_loop t inv proc times)), snd (begin_loop t inv proc times)).
Proof.
  induction inv as [|m inv IH]; intros proc times; [reflexivity|]. cbn [map begin_loop]. change [anon m] with (map anon [m]). rewrite <- map_app. apply IH.
Qed.
Lemma begin_anon t s : begin_processing t (bs s) = bs (begin_processing t s).
Proof.
  unfold begin_processing. cbn [anon_storage ss_inventory ss_processing ss_entry_times]. rewrite begin_loop_anon. destruct (begin_loop t _ _ _) as [proc times]. reflexivity.
Qed.
Lemma ready_anon t s : ready_matl t (bs s) = on bs (ready_matl t s).
Proof.
  unfold ready_matl. cbn [anon_storage ss_inventory ss_processing ss_entry_times ss_ready ss_stocks]. destruct (ready_loop t (ss_entry_times s) 0) as [times n].
  rewrite zlen_map. destruct (Z.ltb _ _); [reflexivity|]. cbn [on]. unfold anon_storage. cbn. rewrite firstn_map, skipn_map, map_app. reflexivity.
Qed.
Lemma discrete_anon max_pop ready : forall c moved, discrete_loop c max_pop (map anon ready) (map anon moved) = bll (discrete_loop c max_pop ready moved).
Proof.
  induction ready as [|m ready IH]; intros c moved; [reflexivity|]. cbn [map discrete_loop]. destruct (Qle_bool c max_pop); [|reflexivity].
  change [anon m] with (map anon [m]). rewrite <- map_app, <- IH. destruct ready; reflexivity.
Qed.
Definition bsl (p : st_state * list mat) : st_state * list mat := (bs (fst p), map anon (snd p)).
Lemma process_anon cap s : process_mat eps cfg cap (bs s) = on bsl (process_mat eps cfg cap s).
Proof.
  unfold process_mat. change (ss_ready (bs s)) with (map anon (ss_ready s)). destruct (ss_ready s) as [|m0 rd] eqn:R; [reflexivity|].
  rewrite qty_anon. cbn [map]. set (mp := Qmin cap _).
  assert (E : (if sc_discrete cfg then if Qeq_bool mp (qty_of (m0 :: rd)) then Ok (anon m0 :: map anon rd, []) else Ok (discrete_loop (m_qty (anon m0)) mp (anon m0 :: map anon rd) [])
      else let* '(m, rest) := items_pop_tol (anon m0 :: map anon rd) mp eps in Ok ([m], rest)) =
    on bll (if sc_discrete cfg then if Qeq_bool mp (qty_of (m0 :: rd)) then Ok (m0 :: rd, []) else Ok (discrete_loop (m_qty m0) mp (m0 :: rd) [])
      else let* '(m, rest) := items_pop_tol (m0 :: rd) mp eps in Ok ([m], rest))).
  { destruct (sc_discrete cfg).
    - destruct (Qeq_bool _ _); [reflexivity|]. cbn [on]. f_equal. exact (discrete_anon mp (m0 :: rd) (m_qty m0) []).
    - change (anon m0 :: map anon rd) with (map anon (m0 :: rd)). rewrite pop_tol_anon. apply bind_on. intros [m rest]. reflexivity. }
  rewrite E. apply bind_on. intros [moved rest]. cbn. unfold bsl, anon_storage. cbn. rewrite map_app. reflexivity.
Qed.
Lemma cap_anon s : st_capacity cfg (bs s) = st_capacity cfg s.
Proof. unfold st_capacity, st_total. cbn [anon_storage ss_inventory ss_processing ss_ready ss_stocks]. rewrite !qty_anon. reflexivity. Qed.
Definition btock (o : st_tock_out) : st_tock_out := {| to_released := map anon (to_released o); to_demand := to_demand o; to_supply := to_supply o |}.
Definition bst_tock (p : st_state * st_tock_out) := (bs (fst p), btock (snd p)).
Lemma st_tock_anon t s : st_tock eps cfg t (bs s) = on bst_tock (st_tock eps cfg t s).
Proof.
  unfold st_tock. cbv zeta. rewrite begin_anon. generalize (begin_processing t s). intro s1. cbn [anon_storage ss_inventory]. rewrite zlen_map. fold (bs s1).
  assert (E : (if (Z.leb 0 (ready_time cfg t) || (Z.eqb (sc_residence cfg) 0 && negb (Z.eqb (zlen (ss_inventory s1)) 0)))%bool then ready_matl (ready_time cfg t) (bs s1) else Ok (bs s1)) =
    on bs (if (Z.leb 0 (ready_time cfg t) || (Z.eqb (sc_residence cfg) 0 && negb (Z.eqb (zlen (ss_inventory s1)) 0)))%bool then ready_matl (ready_time cfg t) s1 else Ok s1)).
  { destruct (_ || _)%bool; [apply ready_anon|reflexivity]. }
  rewrite E. apply bind_on. intro s2. rewrite process_anon. apply bind_on. intros [s3 moved]. cbn [bsl fst snd]. apply bind_same. intro dn. apply bind_same. intro sn.
  rewrite cap_anon. cbn [on]. unfold bst_tock, btock. cbn [fst snd to_released to_demand to_supply]. change (ss_stocks (bs s3)) with (map anon (ss_stocks s3)). rewrite qty_anon. reflexivity.
Qed.
Lemma sell_anon sales : forall stocks sold, sell_all eps sales (map anon stocks) (map anon sold) = on bll (sell_all eps sales stocks sold).
Proof.
  induction sales as [|q sales IH]; intros stocks sold; [reflexivity|]. cbn [sell_all]. rewrite pop_tol_anon. apply bind_on. intros [m r]. cbn [bml fst snd].
  change [anon m] with (map anon [m]). rewrite <- map_app. apply IH.
Qed.
Lemma add_anon ms : forall s, fold_left st_add_mat (map anon ms) (bs s) = bs (fold_left st_add_mat ms s).
Proof.
  induction ms as [|m ms IH]; intro s; [reflexivity|]. cbn [map fold_left]. rewrite <- IH. f_equal. unfold st_add_mat, anon_storage. cbn. rewrite map_app. reflexivity.
Qed.
Definition bst_step (p : st_state * st_out) := (bs (fst p), anon_storage_out (snd p)).
Lemma st_step_anon s e : st_step eps cfg (bs s) (anon_storage_step e) = on bst_step (st_step eps cfg s e).
Proof.
  unfold st_step, st_trade. cbn [anon_storage_step se_sales se_receipts se_time].
  assert (E : (let* '(stocks, sold) := sell_all eps (se_sales e) (ss_stocks (bs s)) [] in
      Ok (fold_left st_add_mat (map anon (se_receipts e)) {| ss_inventory := ss_inventory (bs s); ss_processing := ss_processing (bs s);
        ss_entry_times := ss_entry_times (bs s); ss_ready := ss_ready (bs s); ss_stocks := stocks |}, sold)) =
    on bsl (let* '(stocks, sold) := sell_all eps (se_sales e) (ss_stocks s) [] in
      Ok (fold_left st_add_mat (se_receipts e) {| ss_inventory := ss_inventory s; ss_processing := ss_processing s;
        ss_entry_times := ss_entry_times s; ss_ready := ss_ready s; ss_stocks := stocks |}, sold))).
  { change (ss_stocks (bs s)) with (map anon (ss_stocks s)). change (@nil mat) with (map anon []) at 1. rewrite sell_anon. apply bind_on. intros [stocks sold]. cbn [bll fst snd on bsl].
    f_equal. unfold bsl. cbn [fst snd]. f_equal. exact (add_anon (se_receipts e) {| ss_inventory := ss_inventory s; ss_processing := ss_processing s;
        ss_entry_times := ss_entry_times s; ss_ready := ss_ready s; ss_stocks := stocks |}). }
  rewrite E. apply bind_on. intros [s1 sold]. cbn [bsl fst snd]. rewrite st_tock_anon. apply bind_on. intros [s2 o]. reflexivity.
Qed.
Definition bst_run (p : st_state * list st_out) := (bs (fst p), map anon_storage_out (snd p)).
Lemma st_run_anon es : forall s, st_run eps cfg (bs s) (map anon_storage_step es) = on bst_run (st_run eps cfg s es).
Proof.
  induction es as [|e es IH]; intro s; [reflexivity|]. cbn [map st_run]. rewrite st_step_anon. apply bind_on. intros [s1 o]. cbn [bst_step fst snd]. rewrite IH. apply bind_on. intros [s2 os]. reflexivity.
Qed.
Lemma storage_anon s s' es es' : bs s' = bs s -> map anon_storage_step es' = map anon_storage_step es ->
  on bst_run (st_run eps cfg s' es') = on bst_run (st_run eps cfg s es).
Proof. intros A B. rewrite <- !st_run_anon, A, B. reflexivity. Qed.
End St.

(** ** Conversion *)
Section Cv.
Import ConversionModel.
Variables (eps : Q) (cfg : cv_cfg).
Notation bc := anon_conversion.
Lemma bulk_anon ms m : bulk_push (map anon ms) (anon m) = map anon (bulk_push ms m).
Proof. destruct ms; reflexivity. Qed.
Lemma cv_tick_anon s : cv_tick cfg (bc s) = on bc (cv_tick cfg s).
Proof.
  unfold cv_tick. change (vs_input (bc s)) with (map anon (vs_input s)). rewrite qty_anon. destruct (Qltb _ _); [|reflexivity]. rewrite pop_anon_list. apply bind_on. intros [m r].
  cbn [bml fst snd on]. change (vs_output (bc s)) with (map anon (vs_output s)). rewrite bulk_anon. reflexivity.
Qed.
Lemma cv_bids_anon s reqs : cv_bids (bc s) reqs = on (option_map (fun p => (map anon_numbered (fst p), snd p))) (cv_bids s reqs).
Proof.
  unfold cv_bids. change (vs_output (bc s)) with (map anon (vs_output s)). rewrite qty_anon. destruct (Qle_bool _ _); [reflexivity|].
  rewrite (loop_same (map anon_numbered) (fun acc jq => let offer := Qmin (qty_of (vs_output s)) (snd jq) in if Qltb 0 offer then
      match vs_output s with [] => Throw ValueError | m :: _ => Ok (acc ++ [(fst jq, {| m_id := 0; m_qty := offer; m_comp := m_comp m |})]) end else Ok acc) _) with (s := []).
  - apply bind_on. intro bids. reflexivity.
  - intros acc [j q]. cbn [fst snd]. destruct (Qltb _ _); [|reflexivity]. destruct (vs_output s); [reflexivity|]. cbn. rewrite map_app. reflexivity.
Qed.
Lemma cv_trades_anon amts : forall out sh, cv_trades amts (map anon out) (map anon sh) = on bll (cv_trades amts out sh).
Proof.
  induction amts as [|q amts IH]; intros out sh; [reflexivity|]. cbn [cv_trades]. rewrite pop_anon_list. apply bind_on. intros [m r]. cbn [bml fst snd].
  change [anon m] with (map anon [m]). rewrite <- map_app. apply IH.
Qed.
Lemma cv_accept_anon ms : forall inp, cv_accept eps cfg (map anon ms) (map anon inp) = on (map anon) (cv_accept eps cfg ms inp).
Proof.
  induction ms as [|m ms IH]; intro inp; [reflexivity|]. cbn [map cv_accept]. rewrite qty_anon. change (m_qty (anon m)) with (m_qty m). destruct (Qltb _ _); [reflexivity|].
  rewrite bulk_anon. apply IH.
Qed.
Definition bcv_step (p : cv_state * cv_out) := (bc (fst p), anon_conversion_out (snd p)).
Lemma cv_step_anon s e : cv_step eps cfg (bc s) (anon_conversion_step e) = on bcv_step (cv_step eps cfg s e).
Proof.
  unfold cv_step. rewrite cv_tick_anon. apply bind_on. intro s1. cbn [anon_conversion_step ve_reqs ve_sales ve_receipts]. rewrite cv_bids_anon. apply bind_on. intro bids.
  change (vs_output (bc s1)) with (map anon (vs_output s1)). change (@nil mat) with (map anon []) at 1. rewrite cv_trades_anon. apply bind_on. intros [out sh]. cbn [bll fst snd].
  change (vs_input (bc s1)) with (map anon (vs_input s1)). rewrite cv_accept_anon. apply bind_on. intro inp. cbn [on]. unfold bcv_step, anon_conversion_out. cbn [fst snd vo_ticked vo_requests vo_bids vo_shipped].
  unfold cv_requests, cv_available. change (vs_input (bc s1)) with (map anon (vs_input s1)). rewrite qty_anon. reflexivity.
Qed.
Definition bcv_run (p : cv_state * list cv_out) := (bc (fst p), map anon_conversion_out (snd p)).
Lemma cv_run_anon es : forall s, cv_run eps cfg (bc s) (map anon_conversion_step es) = on bcv_run (cv_run eps cfg s es).
Proof.
  induction es as [|e es IH]; intro s; [reflexivity|]. cbn [map cv_run]. rewrite cv_step_anon. apply bind_on. intros [s1 o]. cbn [bcv_step fst snd]. rewrite IH. apply bind_on. intros [s2 os]. reflexivity.
Qed.
Lemma conversion_anon s s' es es' : bc s' = bc s -> map anon_conversion_step es' = map anon_conversion_step es ->
  on bcv_run (cv_run eps cfg s' es') = on bcv_run (cv_run eps cfg s es).
Proof. intros A B. rewrite <- !cv_run_anon, A, B. reflexivity. Qed.
End Cv.

(** ** Mixer *)
Section Mx.
Import MixerModel.
Variables (eps : Q) (cfg : mx_cfg).
Notation bx := anon_mixer.
Lemma target_anon rs : forall bs tgt, mx_target tgt rs (map anon_buf bs) = mx_target tgt rs bs.
Proof. induction rs as [|r rs IH]; intros [|b bs] tgt; try reflexivity. cbn [map mx_target]. rewrite b_qty_anon. apply IH. Qed.
Definition bob (p : option mat * list buf) := (option_map anon (fst p), map anon_buf (snd p)).
Lemma blend_anon tgt rs : forall bs acc, mx_blend eps tgt (option_map anon acc) rs (map anon_buf bs) = on bob (mx_blend eps tgt acc rs bs).
Proof.
  induction rs as [|r rs IH]; intros [|b bs] acc; try reflexivity. cbn [map mx_blend]. rewrite b_pop_tol_anon. apply bind_on. intros [m b']. cbn [bmb fst snd].
  assert (A : Some (match option_map anon acc with Some a => absorb a (anon m) | None => anon m end) = option_map anon (Some (match acc with Some a => absorb a m | None => m end)))
    by (destruct acc; reflexivity).
  rewrite A, IH. apply bind_on. intros [a2 r2]. reflexivity.
Qed.
Definition btick (p : mx_state * (string * Q)) := (bx (fst p), snd p).
Lemma mx_tick_anon s : mx_tick eps cfg (bx s) = on btick (mx_tick eps cfg s).
Proof.
  unfold mx_tick. cbn [anon_mixer xs_ratios xs_bufs xs_output xs_extra]. rewrite b_qty_anon, target_anon.
  match goal with |- bind ?X _ = on _ (bind ?Y _) => assert (E : X = on bx Y) end.
  { destruct (Qltb _ _); [|reflexivity]. cbv zeta. destruct (Qltb 0 _); [|reflexivity]. change None with (option_map anon None) at 1. rewrite blend_anon. apply bind_on. intros [[m|] bs]; [|reflexivity].
    cbn [bob fst snd option_map]. rewrite b_push_anon. apply bind_on. intro o. reflexivity. }
  rewrite E. apply bind_on. intro s'. cbn [on]. unfold btick. cbn [fst snd]. change (xs_output (bx s')) with (anon_buf (xs_output s')). rewrite b_qty_anon. reflexivity.
Qed.
Lemma reqs_anon strs : forall bs i, mx_reqs eps i strs (map anon_buf bs) = mx_reqs eps i strs bs.
Proof. induction strs as [|st strs IH]; intros [|b bs] i; try reflexivity. cbn [map mx_reqs]. rewrite b_space_anon, IH. reflexivity. Qed.
Lemma demand_anon s : mx_demand cfg (bx s) = mx_demand cfg s.
Proof.
  unfold mx_demand. cbn [anon_mixer xs_bufs]. generalize (xc_streams cfg). intro strs. revert strs. induction (xs_bufs s) as [|b bs IH]; intros [|st strs]; try reflexivity.
  cbn [map combine flat_map fst snd]. rewrite b_space_anon, IH. reflexivity.
Qed.
Lemma push_at_anon i m : forall bs, mx_push_at eps i (anon m) (map anon_buf bs) = on (map anon_buf) (mx_push_at eps i m bs).
Proof.
  induction i as [|i IH]; intros [|b bs]; try reflexivity; cbn [map mx_push_at].
  - rewrite b_push_anon. apply bind_on. intro b'. reflexivity.
  - rewrite IH. apply bind_on. intro r. reflexivity.
Qed.
Lemma mx_accept_anon invs rs s : mx_accept eps invs (map anon_numbered rs) (bx s) = on bx (mx_accept eps invs rs s).
Proof.
  unfold mx_accept. change (xs_bufs (bx s)) with (map anon_buf (xs_bufs s)).
  rewrite (loop_on (map anon_buf) anon_numbered (fun bs jm => match nth_error invs (fst jm) with None => Throw ValueError | Some i => mx_push_at eps i (snd jm) bs end)).
  - apply bind_on. intro bs. reflexivity.
  - intros bs [j m]. cbn [anon_numbered fst snd]. destruct (nth_error invs j); [apply push_at_anon|reflexivity].
Qed.
Definition bsell (p : mx_state * list mat) := (bx (fst p), map anon (snd p)).
Definition bbl (p : buf * list mat) := (anon_buf (fst p), map anon (snd p)).
Lemma mx_sell_anon sales s : mx_sell eps sales (bx s) = on bsell (mx_sell eps sales s).
Proof.
  unfold mx_sell. change (xs_output (bx s), @nil mat) with (bbl (xs_output s, [])).
  rewrite (loop_same bbl (fun (st : buf * list mat) q => let* '(m, b) := b_pop_tol (fst st) q eps in Ok (b, snd st ++ [m]))).
  - apply bind_on. intros [o ms]. reflexivity.
  - intros [b ms] q. cbn [bbl fst snd]. rewrite b_pop_tol_anon. apply bind_on. intros [m b']. cbn. unfold bbl. cbn. rewrite map_app. reflexivity.
Qed.
Definition bmx_step (p : mx_state * mx_out) := (bx (fst p), anon_mixer_out (snd p)).
Lemma mx_step_anon s e : mx_step eps cfg (bx s) (anon_mixer_step e) = on bmx_step (mx_step eps cfg s e).
Proof.
  unfold mx_step. rewrite mx_tick_anon. apply bind_on. intros [s1 sup]. cbn [btick fst snd anon_mixer_step xe_sales xe_receipts]. rewrite mx_sell_anon. apply bind_on. intros [s2 sh].
  cbn [bsell fst snd]. unfold mx_requests. change (xs_bufs (bx s1)) with (map anon_buf (xs_bufs s1)). rewrite reqs_anon. cbv zeta. rewrite mx_accept_anon. apply bind_on. intro s3.
  rewrite demand_anon. reflexivity.
Qed.
Definition bmx_run (p : mx_state * list mx_out) := (bx (fst p), map anon_mixer_out (snd p)).
Lemma mx_run_anon es : forall s, mx_run eps cfg (bx s) (map anon_mixer_step es) = on bmx_run (mx_run eps cfg s es).
Proof.
  induction es as [|e es IH]; intro s; [reflexivity|]. cbn [map mx_run]. rewrite mx_step_anon. apply bind_on. intros [s1 o]. cbn [bmx_step fst snd]. rewrite IH. apply bind_on. intros [s2 os]. reflexivity.
Qed.
Lemma mixer_anon s s' es es' : bx s' = bx s -> map anon_mixer_step es' = map anon_mixer_step es ->
  on bmx_run (mx_run eps cfg s' es') = on bmx_run (mx_run eps cfg s es).
Proof. intros A B. rewrite <- !mx_run_anon, A, B. reflexivity. Qed.
End Mx.

(** ** Source *)
Section Sr.
Import SourceModel.
Variables (eps eg : Q) (recipe : string -> option comp) (cfg : sr_cfg).
Notation bo := anon_source.
Lemma bids_for_anon2 j m fs : sr_bids_for recipe cfg j (anon m) fs = on (map anon_source_bid) (sr_bids_for recipe cfg j m fs).
Proof.
  induction fs as [|f fs IH]; [reflexivity|]. cbn [sr_bids_for]. change (m_comp (anon m)) with (m_comp m). apply bind_same. intro c. rewrite IH. apply bind_on. intro bs. reflexivity.
Qed.
Lemma bids_loop_anon fill ship mq ts : forall j, sr_bids_loop recipe cfg fill ship mq j (map anon ts) = on (map anon_source_bid) (sr_bids_loop recipe cfg fill ship mq j ts).
Proof.
  induction ts as [|m ts IH]; intro j; [reflexivity|]. cbn [map sr_bids_loop]. change (m_qty (anon m)) with (m_qty m). rewrite bids_for_anon2. apply bind_on. intro bs. rewrite IH. apply bind_on. intro rest.
  cbn. rewrite map_app. reflexivity.
Qed.
Lemma targets_anon reqs : map snd (filter (fun r => String.eqb (fst r) (sc_commod cfg)) (map anon_named reqs)) =
  map anon (map snd (filter (fun r => String.eqb (fst r) (sc_commod cfg)) reqs)).
Proof. induction reqs as [|[c m] reqs IH]; [reflexivity|]. cbn. destruct (String.eqb c (sc_commod cfg)); cbn; [f_equal|]; exact IH. Qed.
Definition bport (p : sr_port) : sr_port := {| sp_bids := map anon_source_bid (sp_bids p); sp_limit := sp_limit p |}.
Definition bgb (p : Q * option sr_port) := (fst p, option_map bport (snd p)).
Lemma sr_bids_anon fill ship reqs s : sr_get_bids eg recipe cfg fill ship (map anon_named reqs) (bo s) = on bgb (sr_get_bids eg recipe cfg fill ship reqs s).
Proof.
  unfold sr_get_bids. cbv zeta. change (ss_inv (bo s)) with (anon_buf (ss_inv s)). rewrite b_qty_anon, targets_anon. destruct (Qltb _ _); [reflexivity|].
  destruct (map snd (filter _ reqs)) as [|m ts]; [reflexivity|]. cbn [map]. change (anon m :: map anon ts) with (map anon (m :: ts)). rewrite bids_loop_anon. apply bind_on. intro bs. reflexivity.
Qed.
Definition bpk (p : list mat * mat) := (map anon (fst p), anon (snd p)).
Lemma split_anon fs : forall m, split_packages fs (anon m) = on bpk (split_packages fs m).
Proof.
  induction fs as [|f fs IH]; intro m; [reflexivity|]. cbn [split_packages]. unfold extract_qty. change (m_qty (anon m)) with (m_qty m). destruct (Qltb _ _); [reflexivity|]. cbn [bind].
  specialize (IH {| m_id := m_id m; m_qty := m_qty m - f; m_comp := m_comp m |}). change (Mat (m_id (anon m)) (m_qty m - f) (m_comp (anon m))) with (anon {| m_id := m_id m; m_qty := m_qty m - f; m_comp := m_comp m |}).
  rewrite IH. apply bind_on. intros [ps m2]. reflexivity.
Qed.
Definition btr (p : buf * list (nat * mat)) := (anon_buf (fst p), map anon_numbered (snd p)).
Definition btrade (p : Q * mat) : Q * mat := (fst p, anon (snd p)).
Lemma trade_loop_anon fill ts : forall i k b, sr_trade_loop eps eg cfg fill i k (map btrade ts) (anon_buf b) = on btr (sr_trade_loop eps eg cfg fill i k ts b).
Proof.
  induction ts as [|[amt m] ts IH]; intros i k b; [reflexivity|]. cbn [map sr_trade_loop btrade fst snd]. destruct (Z.ltb 0 k); [|apply IH].
  rewrite b_pop_qty_anon. apply bind_on. intros [x b1]. cbn [bmb fst snd]. change (m_qty (anon x)) with (m_qty x). rewrite split_anon. apply bind_on. intros [pk rest]. cbn [bpk fst snd].
  match goal with |- bind ?X _ = on _ (bind ?Y _) => assert (E : X = on anon_buf Y) end.
  { change (m_qty (anon rest)) with (m_qty rest). destruct (Qltb _ _); [apply b_push_anon|reflexivity]. }
  rewrite E. apply bind_on. intro b2. destruct pk as [|p pk]; cbn [map]; rewrite IH; apply bind_on; intros [b3 rs]; cbn; destruct (String.eqb (sc_recipe cfg) ""); reflexivity.
Qed.
Definition bsr_step (p : sr_state * sr_out) := (bo (fst p), anon_source_out (snd p)).
Lemma sr_step_anon s e : sr_step eps eg recipe cfg (bo s) (anon_source_step e) = on bsr_step (sr_step eps eg recipe cfg s e).
Proof.
  unfold sr_step, sr_get_trades. cbn [anon_source_step se_fill_bids se_fill se_ship se_reqs se_trades]. rewrite sr_bids_anon. apply bind_on. intros [q p]. cbn [bgb fst snd].
  change (map (fun p => (fst p, anon (snd p))) (se_trades e)) with (map btrade (se_trades e)). rewrite zlen_map. change (ss_inv (bo s)) with (anon_buf (ss_inv s)). rewrite trade_loop_anon.
  destruct (sr_trade_loop eps eg cfg (se_fill e) 0 _ (se_trades e) (ss_inv s)) as [[b rs]| | |]; reflexivity.
Qed.
Definition bsr_run (p : sr_state * list sr_out) := (bo (fst p), map anon_source_out (snd p)).
Lemma sr_run_anon es : forall s, sr_run eps eg recipe cfg (bo s) (map anon_source_step es) = on bsr_run (sr_run eps eg recipe cfg s es).
Proof.
  induction es as [|e es IH]; intro s; [reflexivity|]. cbn [map sr_run]. rewrite sr_step_anon. apply bind_on. intros [s1 o]. cbn [bsr_step fst snd]. rewrite IH. apply bind_on. intros [s2 os]. reflexivity.
Qed.
End Sr.

(** ** A facility of a network *)
Section F.
Variables (w : world) (rho : Z -> Z).
Hypothesis INJ : one_to_one rho.

Lemma agrees_on {A B} (F : A -> B) (R : A -> A -> Prop) o o' : (forall a a', F a' = F a -> R a a') -> on F o' = on F o -> agrees R o o'.
Proof. intros H E. destruct o, o'; cbn in *; try discriminate; try congruence; try exact I. apply H. congruence. Qed.
Lemma agrees_bind {A B} (R : A -> A -> Prop) (T : B -> B -> Prop) o o' k k' : agrees R o o' -> (forall a a', R a a' -> agrees T (k a) (k' a')) -> agrees T (bind o k) (bind o' k').
Proof. intros H K. destruct o, o'; cbn in *; try contradiction; try congruence; try exact I. apply K, H. Qed.
Lemma anon_ren m : anon (ren rho m) = anon m.
Proof. reflexivity. Qed.
Lemma anon_rens l : map anon (map (ren rho) l) = map anon l.
Proof. rewrite map_map. reflexivity. Qed.
Lemma eq_agrees {A} (o o' : outcome A) : agrees eq o o' -> o' = o.
Proof. destruct o, o'; cbn; intro H; try contradiction; congruence. Qed.

Lemma publish_same t g f f' : alike rho f f' -> publish w t g f' = publish w t g f.
Proof.
  intro A. apply eq_agrees. destruct f as [c s|c s|c s|c s|c s|c s], f' as [c' s'|c' s'|c' s'|c' s'|c' s'|c' s']; cbn [alike] in A; try contradiction; destruct A as [-> E]; cbn [publish].
  - apply (agrees_bind (fun a a' => anon_conversion a' = anon_conversion a)).
    { apply (agrees_on anon_conversion); [auto|]. rewrite <- !cv_tick_anon, E. reflexivity. }
    intros s1 s1' E1. apply (agrees_bind (fun b b' => option_map snd b' = option_map snd b)).
    { apply (agrees_on (option_map (fun p : list (nat * mat) * Q => (map anon_numbered (fst p), snd p)))).
      - intros [[x q]|] [[x' q']|] X; try discriminate X; [|reflexivity]. injection X as _ X. subst. reflexivity.
      - rewrite <- !cv_bids_anon, E1. reflexivity. }
    intros b b' B. cbn [agrees].
    assert (Q : qty_of (ConversionModel.vs_input s1') = qty_of (ConversionModel.vs_input s1)).
    { injection E1 as E1 _. rewrite <- (qty_anon (ConversionModel.vs_input s1')), E1. apply qty_anon. }
    unfold ConversionModel.cv_requests, ConversionModel.cv_available. rewrite Q.
    destruct b as [[x q]|], b' as [[x' q']|]; try discriminate B; [injection B as ->|]; reflexivity.
  - cbn [agrees]. unfold StorageModel.st_capacity, StorageModel.st_total. injection E as E1 E2 E3 E4 E5.
    assert (QQ : forall l l', map anon l' = map anon l -> qty_of l' = qty_of l) by (intros l l' X; rewrite <- (qty_anon l'), X; apply qty_anon).
    rewrite (QQ _ _ E1), (QQ _ _ E2), (QQ _ _ E4), (QQ _ _ E5). reflexivity.
  - apply (agrees_bind (fun a a' => anon_mixer (fst a') = anon_mixer (fst a))).
    { apply (agrees_on btick); [|rewrite <- !mx_tick_anon, E; reflexivity]. intros [a x] [a' x'] X. exact (f_equal fst X). }
    intros [s1 x] [s1' x'] E1. cbn [fst] in E1. cbn [agrees]. injection E1 as _ E2 E3 E4.
    assert (B1 : b_qty (MixerModel.xs_output s1') = b_qty (MixerModel.xs_output s1)).
    { rewrite <- (b_qty_anon (MixerModel.xs_output s1')), <- (b_qty_anon (MixerModel.xs_output s1)). unfold anon_buf. rewrite E3, E4. reflexivity. }
    rewrite B1. unfold MixerModel.mx_requests. rewrite <- (reqs_anon (w_eps w) _ (MixerModel.xs_bufs s1')), E2, reqs_anon. reflexivity.
  - apply (agrees_bind (fun a a' => option_map SourceModel.sp_limit (snd a') = option_map SourceModel.sp_limit (snd a))).
    { apply (agrees_on bgb); [|rewrite <- !sr_bids_anon, E; reflexivity]. intros [q [p|]] [q' [p'|]] X; try discriminate X; [|reflexivity]. injection X as _ _ X. cbn. congruence. }
    intros [q p] [q' p'] X. cbn [snd] in X. cbn [agrees]. destruct p, p'; try discriminate X; [injection X as X; rewrite X|]; reflexivity.
  - subst s'. destruct (let* _ := _ in _); reflexivity.
  - subst s'. rewrite (tick_ren (w_eps w) (w_recipe w) c rho INJ).
    destruct (ReactorModel.tick (w_eps w) (w_recipe w) c t s) as [[s1 ev]| | |]; try reflexivity. cbn [bind on bev fst snd].
    rewrite (requests_ren (w_recipe w) c rho). destruct (ReactorModel.get_requests (w_recipe w) c t s1) as [[rs ev2]| | |]; try reflexivity. cbn [bind].
    rewrite (bids_ren (w_eps w) c rho INJ). destruct (ReactorModel.get_bids (w_eps w) c s1 (g_reqs g)) as [bs| | |]; try reflexivity. cbn [bind on agrees].
    rewrite map_map. reflexivity.
Qed.

Definition same_step (p p' : fac * list mat) : Prop := alike rho (fst p) (fst p') /\ same_parcels (snd p) (snd p').
Lemma fstep_same t g f f' sales got : alike rho f f' -> agrees same_step (fstep w t g f sales got) (fstep w t g f' sales (map (redelivered rho) got)).
Proof.
  intro A. destruct f as [c s|c s|c s|c s|c s|c s], f' as [c' s'|c' s'|c' s'|c' s'|c' s'|c' s']; cbn [alike] in A; try contradiction; destruct A as [-> E]; cbn [fstep].
  - apply (agrees_bind (fun a a' => bcv_step a' = bcv_step a)).
    { apply (agrees_on bcv_step); [auto|]. rewrite <- !cv_step_anon, E. f_equal. unfold anon_conversion_step. cbn [ConversionModel.ve_reqs ConversionModel.ve_sales ConversionModel.ve_receipts].
      rewrite !map_map. reflexivity. }
    intros [s1 o] [s1' o'] X. injection X as X1 X2 X3 X4 X5 X6 X7. split; cbn [fst snd]; [split; [reflexivity|]; unfold anon_conversion; congruence|assumption].
  - apply (agrees_bind (fun a a' => bst_step a' = bst_step a)).
    { apply (agrees_on bst_step); [auto|]. rewrite <- !st_step_anon, E. f_equal. unfold anon_storage_step. cbn [StorageModel.se_time StorageModel.se_sales StorageModel.se_receipts].
      rewrite !map_map. reflexivity. }
    intros [s1 o] [s1' o'] X. unfold bst_step in X. cbn [fst snd] in X. pose proof (f_equal fst X) as X1. pose proof (f_equal snd X) as X2. cbn [fst snd] in X1, X2.
    split; cbn [fst snd]; [split; [reflexivity|exact X1]|]. exact (f_equal StorageModel.so_sold X2).
  - apply (agrees_bind (fun a a' => bmx_step a' = bmx_step a)).
    { apply (agrees_on bmx_step); [auto|]. rewrite <- !mx_step_anon, E. f_equal. unfold anon_mixer_step. cbn [MixerModel.xe_sales MixerModel.xe_receipts].
      rewrite !map_map. reflexivity. }
    intros [s1 o] [s1' o'] X. unfold bmx_step in X. pose proof (f_equal fst X) as X1. pose proof (f_equal snd X) as X2. cbn [fst snd] in X1, X2.
    split; cbn [fst snd]; [split; [reflexivity|exact X1]|]. exact (f_equal MixerModel.xo_shipped X2).
  - apply (agrees_bind (fun a a' => bsr_step a' = bsr_step a)).
    { apply (agrees_on bsr_step); [auto|]. rewrite <- !sr_step_anon, E. reflexivity. }
    intros [s1 o] [s1' o'] X. unfold bsr_step in X. pose proof (f_equal fst X) as X1. pose proof (f_equal snd X) as X2. cbn [fst snd] in X1, X2.
    split; cbn [fst snd]; [split; [reflexivity|exact X1]|]. apply (f_equal SourceModel.so_sent) in X2. cbn in X2. unfold same_parcels. rewrite !map_map.
    apply (f_equal (map snd)) in X2. rewrite !map_map in X2. exact X2.
  - subst s'. apply (agrees_bind (fun a a' => fst a' = fst a)).
    { unfold SinkModel.sk_step. cbn [SinkModel.ke_rng SinkModel.ke_rng2 SinkModel.ke_mats SinkModel.ke_prods].
      replace (map SinkModel.rsrc_of_mat (map snd (map (redelivered rho) got))) with (map SinkModel.rsrc_of_mat (map snd got)) by (rewrite !map_map; reflexivity).
      match goal with |- agrees _ ?o ?o => destruct o; reflexivity end. }
    intros [s1 o] [s1' o'] X. cbn [fst] in X. subst s1'. split; cbn [fst snd]; [split; reflexivity|reflexivity].
  - subst s'. replace {| ReactorModel.e_reqs := g_reqs g; ReactorModel.e_pick := map t_commod sales; ReactorModel.e_deliv := map (fun d => (t_commod (fst d), snd d)) (map (redelivered rho) got) |}
      with (ren_reactor_step rho {| ReactorModel.e_reqs := g_reqs g; ReactorModel.e_pick := map t_commod sales; ReactorModel.e_deliv := map (fun d => (t_commod (fst d), snd d)) got |})
      by (unfold ren_reactor_step; cbn; rewrite !map_map; reflexivity).
    rewrite (step_ren (w_eps w) (w_recipe w) c rho INJ). destruct (ReactorModel.rx_step _ _ _ _ _ _) as [o| | |]; try reflexivity. cbn [bind on agrees].
    split; cbn [fst snd]; [split; reflexivity|]. unfold same_parcels. cbn. rewrite !map_map. reflexivity.
Qed.
End F.

(** ** The network *)
Lemma renumber_same k id : forall sent sent', same_parcels sent sent' -> renumber (k + id) sent' = map (ren (Z.add k)) (renumber id sent).
Proof.
  intros sent. revert id. induction sent as [|m sent IH]; intros id [|m' sent'] E; try discriminate E; [reflexivity|]. unfold same_parcels in E. cbn in E. injection E as E1 E2 E3.
  cbn. rewrite <- Z.add_assoc, (IH _ sent' E3), E1, E2. reflexivity.
Qed.
Lemma combine_map_r {A B C} (f : B -> C) : forall (a : list A) b, combine a (map f b) = map (fun x => (fst x, f (snd x))) (combine a b).
Proof. induction a as [|x a IH]; intros [|y b]; try reflexivity. cbn. f_equal. apply IH. Qed.
Lemma filter_map_comm {A B} (f : A -> B) (p : B -> bool) (q : A -> bool) : (forall x, p (f x) = q x) -> forall l, filter p (map f l) = map f (filter q l).
Proof. intros H. induction l as [|x l IH]; [reflexivity|]. cbn. rewrite H. destruct (q x); cbn; congruence. Qed.
Lemma Forall2_nth {A B} (R : A -> B -> Prop) : forall l l', Forall2 R l l' -> forall i x, nth_error l i = Some x -> exists y, nth_error l' i = Some y /\ R x y.
Proof.
  induction 1 as [|a b l l' H _ IH]; intros [|i] x E; try discriminate E; cbn in *; [injection E as <-; eauto|]. apply IH, E.
Qed.
Lemma nth_Forall2 {A B} (R : A -> B -> Prop) : forall l l', List.length l = List.length l' -> (forall i x y, nth_error l i = Some x -> nth_error l' i = Some y -> R x y) -> Forall2 R l l'.
Proof.
  induction l as [|a l IH]; intros [|b l'] L H; try discriminate L; constructor; [exact (H 0%nat a b eq_refl eq_refl)|]. apply IH; [cbn in L; congruence|]. intros i. exact (H (S i)).
Qed.
Lemma Forall2_flip {A B} (R : A -> B -> Prop) l l' : Forall2 R l l' -> Forall2 (fun b a => R a b) l' l.
Proof. induction 1; constructor; auto. Qed.

Lemma Forall2_len {A B} (R : A -> B -> Prop) l l' : Forall2 R l l' -> List.length l = List.length l'.
Proof. induction 1; cbn; congruence. Qed.
Lemma orderly_same w rho t gs fs fs' ds : one_to_one rho -> Forall2 (alike rho) fs fs' -> (orderly w t gs fs ds <-> orderly w t gs fs' ds).
Proof.
  intros INJ A. pose proof (Forall2_len _ _ _ A) as L. unfold orderly. rewrite L. split; intros [RG OR]; (split; [exact RG|]); intros i f n N P.
  - destruct (Forall2_nth _ _ _ (Forall2_flip _ _ _ A) i f N) as (f0 & N0 & A0). apply (OR i f0 n N0). rewrite <- P. symmetry. apply (publish_same w rho INJ). exact A0.
  - destruct (Forall2_nth _ _ _ A i f N) as (f0 & N0 & A0). apply (OR i f0 n N0). rewrite <- P. apply (publish_same w rho INJ). exact A0.
Qed.

Lemma add_one_to_one k : one_to_one (Z.add k).
Proof. intros x y E. lia. Qed.
Lemma shipped_anon i ds sent : map anon (shipped_by i ds sent) = shipped_by i ds (map anon sent).
Proof.
  unfold shipped_by. rewrite combine_map_r, (filter_map_comm _ _ (fun x : trade * mat => Nat.eqb (t_from (fst x)) i)) by reflexivity. rewrite !map_map. reflexivity.
Qed.
Lemma nstep_same w k t id gs fs ds fs1 sent fs' : Forall2 (alike (Z.add k)) fs fs' -> orderly w t gs fs ds -> nstep w t id gs fs ds fs1 sent ->
  exists fs1' sent', nstep w t (k + id) gs fs' ds fs1' sent' /\ Forall2 (alike (Z.add k)) fs1 fs1' /\ same_parcels sent sent'.
Proof.
  intros A (RG & _) (L1 & L2 & H). pose proof (Forall2_len _ _ _ A) as LA. set (rho := Z.add k) in *.
  set (R := fun i => filter (fun x : trade * mat => Nat.eqb (t_to (fst x)) i) (combine ds (renumber id sent))).
  (* every facility's step *)
  assert (ST : forall i f', nth_error fs' i = Some f' -> exists p, fstep w t (gs i) f' (sold_by i ds) (map (redelivered rho) (R i)) = Ok p /\
      map anon (snd p) = map anon (shipped_by i ds sent) /\ forall f1, nth_error fs1 i = Some f1 -> alike rho f1 (fst p)).
  { intros i f' N'. destruct (Forall2_nth _ _ _ (Forall2_flip _ _ _ A) i f' N') as (f & N & AL). assert (I : (i < List.length fs)%nat) by (apply nth_error_Some; congruence).
    destruct (nth_error fs1 i) as [f1|] eqn:N1; [|apply nth_error_None in N1; lia]. pose proof (H i f f1 N N1) as X. fold (R i) in X.
    pose proof (fstep_same w rho (add_one_to_one k) t (gs i) f f' (sold_by i ds) (R i) AL) as Y. rewrite X in Y.
    destruct (fstep w t (gs i) f' (sold_by i ds) (map (redelivered rho) (R i))) as [p| | |]; cbn in Y; try contradiction. exists p. destruct Y as [Y1 Y2]. split; [reflexivity|]. split; [exact Y2|].
    intros f2 E. injection E as <-. exact Y1. }
  destruct (list_of_all (fun i f' p => fstep w t (gs i) f' (sold_by i ds) (map (redelivered rho) (R i)) = Ok p /\
      map anon (snd p) = map anon (shipped_by i ds sent) /\ forall f1, nth_error fs1 i = Some f1 -> alike rho f1 (fst p)) fs' 0 ST) as (ps & PL & PP). cbn [Nat.add] in PP.
  (* the parcels *)
  destruct (merge (fun _ _ => True) ds (fun i => match nth_error ps i with Some p => snd p | None => [] end)) as (sent' & SL & _ & SM).
  { intro i. assert (LE : List.length (sold_by i ds) = List.length (match nth_error ps i with Some p => snd p | None => [] end)).
    { destruct (nth_error ps i) as [p|] eqn:N.
      - assert (I : (i < List.length ps)%nat) by (apply nth_error_Some; congruence). destruct (nth_error fs' i) as [f'|] eqn:N'; [|apply nth_error_None in N'; lia].
        destruct (PP i f' p N' N) as (_ & E & _). rewrite <- (map_length anon (snd p)), E, map_length. unfold shipped_by. rewrite map_length.
        unfold sold_by. rewrite <- (map_length fst (filter _ (combine ds sent))). rewrite (combine_filter_fst (fun d => Nat.eqb (t_from d) i)) by congruence. reflexivity.
      - apply nth_error_None in N. rewrite (nobody i ds _ RG) by lia. reflexivity. }
    revert LE. generalize (sold_by i ds) (match nth_error ps i with Some p => snd p | None => [] end). induction l as [|a l IH]; intros [|b l'] LE; try discriminate LE; constructor; auto. }
  assert (EQ : same_parcels sent sent').
  { unfold same_parcels. apply (same_sent (List.length fs) ds); [eapply Forall_impl; [|exact RG]; intros d [X _]; exact X|rewrite map_length; congruence|rewrite map_length; congruence|].
    intros i I. rewrite <- !shipped_anon. pose proof (SM i) as E. cbn beta in E. rewrite E. destruct (nth_error ps i) as [p|] eqn:N; [|apply nth_error_None in N; lia].
    destruct (nth_error fs' i) as [f'|] eqn:N'; [|apply nth_error_None in N'; lia]. exact (proj1 (proj2 (PP i f' p N' N))). }
  exists (map fst ps), sent'. split; [|split; [|exact EQ]].
  - split; [congruence|]. split; [rewrite map_length; congruence|]. intros i f' f1' N' N1'.
    destruct (nth_error ps i) as [p|] eqn:N; [|rewrite nth_error_map, N in N1'; discriminate]. rewrite nth_error_map, N in N1'. cbn in N1'. injection N1' as <-.
    destruct (PP i f' p N' N) as (F1 & _ & _). change (rho id) with (k + id)%Z. rewrite (renumber_same k id sent sent' EQ). fold rho.
    rewrite combine_map_r, (filter_map_comm _ _ (fun x : trade * mat => Nat.eqb (t_to (fst x)) i)) by reflexivity. fold (R i). change (fun x : trade * mat => (fst x, ren rho (snd x))) with (redelivered rho).
    rewrite F1. destruct p as [f1 ms]. cbn [fst]. pose proof (SM i) as E. cbn beta in E. rewrite N in E. cbn [snd] in E. unfold shipped_by in E. rewrite E. reflexivity.
  - apply nth_Forall2; [rewrite map_length; congruence|]. intros i f1 f1' N1 N1'. destruct (nth_error ps i) as [p|] eqn:N; [|rewrite nth_error_map, N in N1'; discriminate].
    rewrite nth_error_map, N in N1'. cbn in N1'. injection N1' as <-. assert (I : (i < List.length ps)%nat) by (apply nth_error_Some; congruence).
    destruct (nth_error fs' i) as [f'|] eqn:N'; [|apply nth_error_None in N'; lia]. exact (proj2 (proj2 (PP i f' p N' N)) f1 N1).
Qed.

Lemma deployed_same w k t f : deployed w t f -> exists f', deployed w t f' /\ alike (Z.add k) f f'.
Proof.
  intro D. destruct f as [c s|c s|c s|c s|c s|c s]; try (eexists; split; [exact D|split; reflexivity]).
  exists (Reac c (ren_reactor (Z.add k) s)). split; [|split; reflexivity]. cbn in D. destruct D as (D1 & D2 & D3 & D4). cbn [deployed].
  assert (AS : ReactorSpec.assemblies (ren_reactor (Z.add k) s) = map (ren (Z.add k)) (ReactorSpec.assemblies s)) by (unfold ReactorSpec.assemblies; cbn; rewrite !map_app; reflexivity).
  split; [exact D1|]. split; [exact D2|]. rewrite AS, D4. split; [|reflexivity]. destruct D3 as [K1 K2 K3 K4 K5 K6 K7]. constructor; rewrite ?AS, ?D4; try constructor; try assumption; try apply K5.
  all: unfold ReactorSpec.within_limits in *; cbn [ReactorModel.fresh ReactorModel.core ReactorModel.spent ren_reactor ren_rb rb_items] in *; rewrite ?zlen_map in *; try tauto.
Qed.
Lemma flat_anon l : map anon (flat_map b_items l) = flat_map b_items (map anon_buf l).
Proof. induction l as [|b l IH]; [reflexivity|]. cbn. rewrite map_app, IH. reflexivity. Qed.
Lemma inside_same rho f f' : alike rho f f' -> same_parcels (inside f) (inside f').
Proof.
  destruct f as [c s|c s|c s|c s|c s|c s], f' as [c' s'|c' s'|c' s'|c' s'|c' s'|c' s']; cbn [alike]; try contradiction; intros [-> E]; unfold same_parcels; cbn [inside].
  - injection E as E1 E2. rewrite !map_app. congruence.
  - injection E as E1 E2 E3 E4 E5. rewrite !map_app. congruence.
  - pose proof (f_equal MixerModel.xs_bufs E) as E2. pose proof (f_equal MixerModel.xs_output E) as E3. cbn in E2, E3. apply (f_equal b_items) in E3. cbn in E3.
    unfold MixerSpec.mx_held. rewrite !map_app, !flat_anon, E2, E3. reflexivity.
  - injection E as _ E. exact E.
  - subst s'. reflexivity.
  - subst s'. unfold ReactorSpec.assemblies. cbn. rewrite !map_app, !map_map. reflexivity.
Qed.
Lemma reached_same w k t id fs : reached w t id fs -> exists fs', reached w t (k + id) fs' /\ Forall2 (alike (Z.add k)) fs fs'.
Proof.
  induction 1 as [id|t id fs f _ (fs' & R & A) D|t id a f b _ (fs' & R & A)|t id fs gs ds fs1 sent _ (fs' & R & A) G O N].
  - exists []. split; [constructor|constructor].
  - destruct (deployed_same w k t f D) as (f' & D' & A'). exists (fs' ++ [f']). split; [constructor; assumption|]. apply Forall2_app; [exact A|]. constructor; [exact A'|constructor].
  - apply Forall2_app_inv_l in A as (a' & fb' & A1 & A2 & ->). inversion A2 as [|x f' y b' A3 A4]; subst. exists (a' ++ b'). split; [eapply retiring; exact R|]. apply Forall2_app; assumption.
  - destruct (nstep_same w k t id gs fs ds fs1 sent fs' A O N) as (fs1' & sent' & N' & A' & _). exists fs1'. split; [|exact A']. rewrite Z.add_assoc. eapply stepping; [exact R|exact G| |exact N'].
    apply (orderly_same w (Z.add k) t gs fs fs' ds (add_one_to_one k) A). exact O.
Qed.

Lemma stock_same rho fs fs' : Forall2 (alike rho) fs fs' -> same_parcels (stock fs) (stock fs').
Proof. unfold same_parcels, stock. induction 1 as [|f f' fs fs' A _ IH]; [reflexivity|]. cbn. rewrite !map_app, IH, (inside_same rho f f' A). reflexivity. Qed.
Lemma facility_same w rho t g f f' : one_to_one rho -> alike rho f f' ->
  publish w t g f' = publish w t g f /\
  forall sales got, agrees (fun p p' => alike rho (fst p) (fst p') /\ same_parcels (snd p) (snd p')) (fstep w t g f sales got) (fstep w t g f' sales (map (redelivered rho) got)).
Proof. intros INJ A. split; [apply (publish_same w rho INJ), A|]. intros sales got. apply (fstep_same w rho INJ), A. Qed.
Lemma step_same w k t id gs fs fs' ds : Forall2 (alike (Z.add k)) fs fs' ->
  (orderly w t gs fs ds <-> orderly w t gs fs' ds) /\
  forall fs1 sent, orderly w t gs fs ds -> nstep w t id gs fs ds fs1 sent ->
    exists fs1' sent', nstep w t (k + id) gs fs' ds fs1' sent' /\ Forall2 (alike (Z.add k)) fs1 fs1' /\ same_parcels sent sent'.
Proof.
  intro A. split; [exact (orderly_same w (Z.add k) t gs fs fs' ds (add_one_to_one k) A)|]. intros fs1 sent O N. exact (nstep_same w k t id gs fs ds fs1 sent fs' A O N).
Qed.
Lemma network_same w k t id fs : reached w t id fs -> exists fs', reached w t (k + id) fs' /\ Forall2 (alike (Z.add k)) fs fs' /\ same_parcels (stock fs) (stock fs').
Proof. intro R. destruct (reached_same w k t id fs R) as (fs' & R' & A). exists fs'. split; [exact R'|]. split; [exact A|exact (stock_same _ _ _ A)]. Qed.
