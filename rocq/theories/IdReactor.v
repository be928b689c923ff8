(** Proofs for C134: the Reactor. *)
From Verif Require Import Outcome KernelMaterial KernelResBuf KernelBuf IdSpec BareReactor.
From Verif Require Import ReactorModel.
Local Open Scope Z_scope.

Section R.
Variables (eps : Q) (recipe : string -> option comp) (cfg : rx_cfg) (rho : Z -> Z).
Hypothesis INJ : forall x y, rho x = rho y -> x = y.
Notation rn := (ren rho).
Notation rnm := (ren_named rho).
Notation rnb := (ren_numbered rho).
Notation rrb := (ren_rb rho).
Notation rbp := (ren_bidport rho).
Notation rstep := (ren_reactor_step rho).
Notation rout := (ren_reactor_out rho).
Notation br := (ren_reactor rho).
Lemma rho_eqb x y : (rho x =? rho y) = (x =? y).
Proof. destruct (x =? y) eqn:E; [apply Z.eqb_eq in E; subst; apply Z.eqb_refl|]. apply Z.eqb_neq. apply Z.eqb_neq in E. intro H. apply E, INJ, H. Qed.
Lemma idx_get_ren k m : idx_get (rho k) (ren_idx rho m) = idx_get k m.
Proof. induction m as [|[k' i] m IH]; [reflexivity|]. cbn. rewrite rho_eqb. destruct (k' =? k); [reflexivity|exact IH]. Qed.
Lemma idx_erase_ren k m : idx_erase (rho k) (ren_idx rho m) = ren_idx rho (idx_erase k m).
Proof. unfold idx_erase. induction m as [|[k' i] m IH]; [reflexivity|]. cbn. rewrite rho_eqb. destruct (k' =? k); cbn; [exact IH|]. f_equal. exact IH. Qed.
Lemma idx_set_ren k i m : idx_set (rho k) i (ren_idx rho m) = ren_idx rho (idx_set k i m).
Proof. unfold idx_set. rewrite idx_erase_ren. reflexivity. Qed.
Lemma outcommod_ren s m : fuel_outcommod cfg (br s) (rn m) = fuel_outcommod cfg s m.
Proof. unfold fuel_outcommod. cbn [ren m_id idx ren_reactor]. rewrite idx_get_ren. reflexivity. Qed.
Lemma outrecipe_ren s m : fuel_outrecipe (br s) (rn m) = fuel_outrecipe s m.
Proof. unfold fuel_outrecipe. cbn [ren m_id idx outrecipes ren_reactor]. rewrite idx_get_ren. reflexivity. Qed.
Lemma qty_ren l : qty_of (map rn l) = qty_of l.
Proof. unfold qty_of. rewrite map_map. reflexivity. Qed.
Definition bev {B} (p : rx_state * B) : rx_state * B := (br (fst p), snd p).

Lemma count_ren b : rb_count (rrb b) = rb_count b.
Proof. apply zlen_map. Qed.
Lemma space_ren b : rb_space (rrb b) = rb_space b.
Proof. unfold rb_space, rb_qty. cbn [rb_items rb_cap ren_rb]. rewrite qty_ren. reflexivity. Qed.
Lemma push_ren b m : rb_push eps (rrb b) (rn m) = on rrb (rb_push eps b m).
Proof. unfold rb_push. rewrite space_ren. cbn [m_qty ren]. destruct (Qltb _ _); [reflexivity|]. cbn. unfold ren_rb. cbn. rewrite map_app. reflexivity. Qed.
Lemma pushv_ren b ms : rb_pushv eps (rrb b) (map rn ms) = on rrb (rb_pushv eps b ms).
Proof. unfold rb_pushv. rewrite space_ren, qty_ren. destruct (Qltb _ _); [reflexivity|]. cbn. unfold ren_rb. cbn. rewrite map_app. reflexivity. Qed.
Lemma popn_ren b n : rb_popn (rrb b) n = on (fun p => (map rn (fst p), rrb (snd p))) (rb_popn b n).
Proof. unfold rb_popn. rewrite count_ren. destruct (_ || _)%bool; [reflexivity|]. cbn. unfold ren_rb. cbn. rewrite firstn_map, skipn_map. reflexivity. Qed.
Lemma pop_ren b : rb_pop (rrb b) = on (fun p => (rn (fst p), rrb (snd p))) (rb_pop b).
Proof. unfold rb_pop. cbn. destruct (rb_items b); reflexivity. Qed.

Lemma set_obj_ren m c l : set_obj (transmute (rn m) c) (map rn l) = map rn (set_obj (transmute m c) l).
Proof. unfold set_obj. rewrite !map_map. apply map_ext. intro x. cbn. rewrite rho_eqb. destruct (m_id x =? m_id m); reflexivity. Qed.
Lemma transmute_ren n s : transmute_core eps recipe n (br s) = on bev (transmute_core eps recipe n s).
Proof.
  unfold transmute_core. cbn [core ren_reactor]. rewrite count_ren, popn_ren. apply bind_on. intros [old c1]. cbn [fst snd]. rewrite pushv_ren. apply bind_on. intro c2.
  rewrite zlen_map, count_ren.
  assert (E : (if zlen old <? rb_count c2 then let* '(rest, c') := rb_popn (rrb c2) (rb_count c2 - zlen old) in rb_pushv eps c' rest else Ok (rrb c2)) =
    on rrb (if zlen old <? rb_count c2 then let* '(rest, c') := rb_popn c2 (rb_count c2 - zlen old) in rb_pushv eps c' rest else Ok c2)).
  { destruct (zlen old <? rb_count c2); [|reflexivity]. rewrite popn_ren. apply bind_on. intros [rest c']. cbn [fst snd]. apply pushv_ren. }
  rewrite E. apply bind_on. intro c3. cbn [rb_items ren_rb].
  rewrite (loop_on (map rn) rn (fun l m => let* r := fuel_outrecipe s m in let* c := get_recipe recipe r in Ok (set_obj (transmute m c) l))).
  - apply bind_on. intro items. reflexivity.
  - intros l m. rewrite outrecipe_ren. apply bind_same. intro r. apply bind_same. intro c.
    cbn. f_equal. apply set_obj_ren.
Qed.

(** ** The map of spent fuel *)
Definition rsm (m : smap) : smap := map (fun e => (fst e, map rn (snd e))) m.
Lemma smap_get_ren k m : smap_get k (rsm m) = map rn (smap_get k m).
Proof. induction m as [|[k' v] m IH]; [reflexivity|]. cbn. destruct (String.eqb k' k); [reflexivity|exact IH]. Qed.
Lemma smap_append_ren k x m : smap_append k (rn x) (rsm m) = rsm (smap_append k x m).
Proof. induction m as [|[k' v] m IH]; [reflexivity|]. cbn. destruct (String.eqb k' k); cbn; [rewrite map_app; reflexivity|f_equal; exact IH]. Qed.
Lemma smap_insert_ren k x m : smap_insert k (rn x) (rsm m) = rsm (smap_insert k x m).
Proof. induction m as [|[k' v] m IH]; [reflexivity|]. cbn. destruct (String.ltb k k'); cbn; [reflexivity|f_equal; exact IH]. Qed.
Lemma exists_ren k m : existsb (fun e : string * list mat => String.eqb (fst e) k) (rsm m) = existsb (fun e => String.eqb (fst e) k) m.
Proof. induction m as [|[k' v] m IH]; [reflexivity|]. cbn. f_equal. exact IH. Qed.
Lemma smap_push_ren k x m : smap_push k (rn x) (rsm m) = rsm (smap_push k x m).
Proof. unfold smap_push. rewrite exists_ren. destruct (existsb _ m); [apply smap_append_ren|apply smap_insert_ren]. Qed.
Lemma smap_rev_ren m : smap_map (@rev mat) (rsm m) = rsm (smap_map (@rev mat) m).
Proof. unfold smap_map, rsm. rewrite !map_map. apply map_ext. intros [k v]. cbn. rewrite map_rev. reflexivity. Qed.
Lemma smap_set_ren k v m : smap_set k (map rn v) (rsm m) = rsm (smap_set k v m).
Proof. induction m as [|[k' w] m IH]; [reflexivity|]. cbn. destruct (String.eqb k' k); cbn; [reflexivity|f_equal; exact IH]. Qed.
Lemma mapped_ren s s' mats : (forall m, fuel_outcommod cfg s' (rn m) = fuel_outcommod cfg s m) ->
  loop (fun mp m => let* c := fuel_outcommod cfg s' m in Ok (smap_push c m mp)) (map rn mats) [] =
  on rsm (loop (fun mp m => let* c := fuel_outcommod cfg s m in Ok (smap_push c m mp)) mats []).
Proof.
  intro H. refine (loop_on rsm rn _ _ _ _ []). intros mp m. rewrite H. apply bind_same. intro c. cbn. rewrite smap_push_ren. reflexivity.
Qed.
Definition bms (p : smap * rx_state) : smap * rx_state := (rsm (fst p), br (snd p)).
Lemma peek_ren s : peek_spent eps cfg (br s) = on bms (peek_spent eps cfg s).
Proof.
  unfold peek_spent. cbn [spent ren_reactor]. rewrite count_ren, popn_ren. apply bind_on. intros [mats b1]. cbn [fst snd]. rewrite pushv_ren. apply bind_on. intro b2.
  rewrite (mapped_ren (upd_spent s b2)) by (intro m; exact (outcommod_ren (upd_spent s b2) m)). apply bind_on. intro mp. reflexivity.
Qed.
Definition bee (p : rx_state * list event * bool) : rx_state * list event * bool := (br (fst (fst p)), snd (fst p), snd p).
Lemma discharge_ren s : discharge eps cfg (br s) = on bee (discharge eps cfg s).
Proof.
  unfold discharge. cbn [core spent ren_reactor]. rewrite !count_ren. destruct (_ <? _); [reflexivity|]. rewrite popn_ren. apply bind_on. intros [ms c1]. cbn [fst snd].
  rewrite pushv_ren. apply bind_on. intro sp.
  change (upd_spent (upd_core (br s) (rrb c1)) (rrb sp), @nil event) with (bev (upd_spent (upd_core s c1) sp, @nil event)).
  rewrite (loop_same (@bev (list event)) (fun st c => let* '(mp, s') := peek_spent eps cfg (fst st) in Ok (s', snd st ++ [EvSupply c (qty_of (smap_get c mp))]))).
  - apply bind_on. intros [s2 evs]. reflexivity.
  - intros [s1 evs] c. cbn [fst snd bev]. rewrite peek_ren. apply bind_on. intros [mp s']. cbn [fst snd bms]. cbn. rewrite smap_get_ren, qty_ren. reflexivity.
Qed.
Lemma load_ren s : load eps cfg (br s) = on bev (load eps cfg s).
Proof.
  unfold load. cbn [core fresh ren_reactor]. rewrite !count_ren. destruct (_ =? 0); [reflexivity|]. rewrite popn_ren. apply bind_on. intros [ms f1]. cbn [fst snd].
  rewrite pushv_ren. apply bind_on. intro c1. reflexivity.
Qed.
Lemma drain_core_ren k : forall s, drain_core eps cfg k (br s) = on bev (drain_core eps cfg k s).
Proof.
  induction k as [|k IH]; intro s; cbn [drain_core]; change (core (br s)) with (rrb (core s)); rewrite count_ren; destruct (0 <? _); try reflexivity.
  rewrite discharge_ren. apply bind_on. intros [[s1 ev] ok]. cbn [bee fst snd]. destruct ok; [|reflexivity]. rewrite IH. apply bind_on. intros [s2 ev2]. reflexivity.
Qed.
Lemma drain_fresh_ren k : forall s, drain_fresh eps cfg k (br s) = on br (drain_fresh eps cfg k s).
Proof.
  induction k as [|k IH]; intro s; cbn [drain_fresh]; change (fresh (br s)) with (rrb (fresh s)); change (spent (br s)) with (rrb (spent s));
    rewrite count_ren, space_ren; destruct (_ && _)%bool; try reflexivity.
  rewrite pop_ren. apply bind_on. intros [m f1]. cbn [fst snd]. rewrite push_ren. apply bind_on. intro sp. exact (IH (upd_spent (upd_fresh s f1) sp)).
Qed.
Lemma check_ren s : check_decom (br s) = check_decom s.
Proof. unfold check_decom. cbn [core spent ren_reactor]. rewrite !count_ren. reflexivity. Qed.
Lemma tick_retired_ren t s : tick_retired eps recipe cfg t (br s) = on bev (tick_retired eps recipe cfg t s).
Proof.
  unfold tick_retired.
  assert (E : (if t =? exit_t cfg + 1 then transmute_core eps recipe (if decom_all cfg then n_core cfg else half_up (n_core cfg)) (br s) else Ok (br s, [])) =
    on bev (if t =? exit_t cfg + 1 then transmute_core eps recipe (if decom_all cfg then n_core cfg else half_up (n_core cfg)) s else Ok (s, []))).
  { destruct (_ =? _); [apply transmute_ren|reflexivity]. }
  rewrite E. apply bind_on. intros [s1 e1]. cbn [bev fst snd]. cbn [core ren_reactor ren_rb rb_items]. rewrite map_length, drain_core_ren. apply bind_on. intros [s2 e2].
  cbn [bev fst snd]. cbn [fresh ren_reactor ren_rb rb_items]. rewrite map_length, drain_fresh_ren. apply bind_on. intro s3. rewrite check_ren. reflexivity.
Qed.
Lemma pref_ren t s i : pref_change cfg t (br s) i = on br (pref_change cfg t s i).
Proof.
  unfold pref_change. apply bind_same. intro ct. destruct (negb _); [reflexivity|]. apply bind_same. intro c. destruct (find_commod _ _ _); [|reflexivity].
  apply bind_same. intro v. apply bind_same. intro p. reflexivity.
Qed.
Lemma recipe_change_ren t s i : recipe_change cfg t (br s) i = on br (recipe_change cfg t s i).
Proof.
  unfold recipe_change. apply bind_same. intro ct. destruct (negb _); [reflexivity|]. apply bind_same. intro c. destruct (find_commod _ _ _); [|reflexivity].
  apply bind_same. intro v. apply bind_same. intro p. apply bind_same. intro vo. apply bind_same. intro ro. reflexivity.
Qed.
Lemma changes_ren t s : apply_changes cfg t (br s) = on br (apply_changes cfg t s).
Proof.
  unfold apply_changes. rewrite (loop_same br (pref_change cfg t)) by apply pref_ren. apply bind_on. intro s1. apply loop_same. apply recipe_change_ren.
Qed.
Lemma tick_ren t s : tick eps recipe cfg t (br s) = on bev (tick eps recipe cfg t s).
Proof.
  unfold tick. destruct (retired cfg t); [apply tick_retired_ren|].
  assert (E : (if cyc (br s) =? cycle_t cfg then let* '(s', e) := transmute_core eps recipe (n_batch cfg) (br s) in Ok (s', e ++ [EvCycleEnd]) else Ok (br s, [])) =
    on bev (if cyc s =? cycle_t cfg then let* '(s', e) := transmute_core eps recipe (n_batch cfg) s in Ok (s', e ++ [EvCycleEnd]) else Ok (s, []))).
  { change (cyc (br s)) with (cyc s). destruct (_ =? _); [|reflexivity]. rewrite transmute_ren. apply bind_on. intros [s' e]. reflexivity. }
  rewrite E. apply bind_on. intros [s1 e1]. cbn [bev fst snd].
  assert (E2 : (if ((cycle_t cfg <=? cyc (br s1)) && negb (disch (br s1)))%bool then let* '(s', e, ok) := discharge eps cfg (br s1) in Ok (upd_cyc s' (cyc s') ok, e) else Ok (br s1, [])) =
    on bev (if ((cycle_t cfg <=? cyc s1) && negb (disch s1))%bool then let* '(s', e, ok) := discharge eps cfg s1 in Ok (upd_cyc s' (cyc s') ok, e) else Ok (s1, []))).
  { change (cyc (br s1)) with (cyc s1). change (disch (br s1)) with (disch s1). destruct (_ && _)%bool; [|reflexivity]. rewrite discharge_ren. apply bind_on. intros [[s' e] ok]. reflexivity. }
  rewrite E2. apply bind_on. intros [s2 e2]. cbn [bev fst snd].
  assert (E3 : (if cycle_t cfg <=? cyc (br s2) then load eps cfg (br s2) else Ok (br s2, [])) = on bev (if cycle_t cfg <=? cyc s2 then load eps cfg s2 else Ok (s2, []))).
  { change (cyc (br s2)) with (cyc s2). destruct (cycle_t cfg <=? cyc s2); [apply load_ren|reflexivity]. }
  rewrite E3. apply bind_on. intros [s3 e3]. cbn [bev fst snd]. rewrite changes_ren. apply bind_on. intro s4. reflexivity.
Qed.

(** ** Requests and bids *)
Lemma requests_ren t s : get_requests recipe cfg t (br s) = get_requests recipe cfg t s.
Proof.
  unfold get_requests. unfold n_need. cbn [core fresh cyc prefs ren_reactor]. rewrite !count_ren. reflexivity.
Qed.
Lemma offer_ren target j ms : forall tot, offer_until target tot j (map rn ms) = map rnb (offer_until target tot j ms).
Proof. induction ms as [|m ms IH]; intro tot; [reflexivity|]. cbn. f_equal. destruct (Qle_bool _ _); [reflexivity|apply IH]. Qed.
Lemma bids_for_ren s c reqs : bids_for eps cfg (br s) c reqs = on (option_map rbp) (bids_for eps cfg s c reqs).
Proof.
  unfold bids_for. destruct reqs as [|q reqs]; [reflexivity|]. rewrite peek_ren. apply bind_on. intros [mp s']. cbn [bms fst snd]. rewrite smap_get_ren.
  destruct (smap_get c mp) as [|m ms]; [reflexivity|]. cbn [map on option_map]. f_equal. f_equal. unfold ren_bidport. cbn [bp_commod bp_bids bp_cap]. f_equal.
  - rewrite concat_map, map_map. f_equal. apply map_ext. intros [j x]. apply (offer_ren x j (m :: ms)).
  - exact (qty_ren (m :: ms)).
Qed.
Lemma bids_ren s reqs : get_bids eps cfg (br s) reqs = on (map rbp) (get_bids eps cfg s reqs).
Proof.
  unfold get_bids. refine (loop_same (map rbp) _ _ _ _ []). intros acc c. rewrite bids_for_ren. apply bind_on. intros [p|]; cbn; [rewrite map_app|]; reflexivity.
Qed.

(** ** Trades *)
Lemma pop_spent_ren s : pop_spent cfg (br s) = on bms (pop_spent cfg s).
Proof.
  unfold pop_spent. cbn [spent ren_reactor]. rewrite count_ren, popn_ren. apply bind_on. intros [mats b1]. cbn [fst snd].
  rewrite (mapped_ren (upd_spent s b1)) by (intro m; exact (outcommod_ren (upd_spent s b1) m)). apply bind_on. intro mp. cbn. unfold bms. cbn [fst snd]. rewrite smap_rev_ren. reflexivity.
Qed.
Definition bst (p : smap * rx_state * list (string * mat)) : smap * rx_state * list (string * mat) :=
  (rsm (fst (fst p)), br (snd (fst p)), map rnm (snd p)).
Lemma serve_ren st c : serve_trade (bst st) c = on bst (serve_trade st c).
Proof.
  destruct st as [[mp s] resp]. unfold serve_trade, bst. cbn [fst snd]. rewrite smap_get_ren, <- map_rev. destruct (rev (smap_get c mp)) as [|m r]; [reflexivity|].
  cbn [map on fst snd]. rewrite <- map_rev, smap_set_ren, map_app. cbn [ren m_id]. f_equal. f_equal. f_equal. change (idx (br s)) with (ren_idx rho (idx s)). rewrite idx_erase_ren. reflexivity.
Qed.
Lemma push_spent_ren left : forall s, push_spent eps (rsm left) (br s) = on br (push_spent eps left s).
Proof.
  intro s. unfold push_spent, rsm. apply loop_on. intros s' [k v]. cbn [snd]. rewrite <- map_rev. change (spent (br s')) with (rrb (spent s')). rewrite pushv_ren. apply bind_on. intro b. reflexivity.
Qed.
Definition bsh (p : rx_state * list (string * mat)) : rx_state * list (string * mat) := (br (fst p), map rnm (snd p)).
Lemma trades_ren picks s : trade_phase eps cfg picks (br s) = on bsh (trade_phase eps cfg picks s).
Proof.
  unfold trade_phase. destruct picks as [|c picks]; [reflexivity|]. unfold get_trades. rewrite pop_spent_ren. apply bind_on. intros [mp s1]. cbn [bms fst snd].
  change (rsm mp, br s1, @nil (string * mat)) with (bst (mp, s1, [])). rewrite (loop_same bst serve_trade) by apply serve_ren. apply bind_on. intros [[mp2 s2] resp].
  cbn [bst fst snd]. rewrite push_spent_ren. apply bind_on. intro s3. reflexivity.
Qed.
Lemma accept_one_ren s d : accept_one eps cfg (br s) (rnm d) = on br (accept_one eps cfg s d).
Proof.
  destruct d as [c m]. unfold accept_one. cbn [ren_named fst snd]. unfold index_res. destruct (find_commod c (incommods cfg) 0) as [i|]; [|reflexivity]. cbn [bind].
  change (upd_idx (br s) (idx_set (m_id (rn m)) i (idx (br s)))) with (upd_idx (br s) (idx_set (rho (m_id m)) i (ren_idx rho (idx s)))). rewrite idx_set_ren. change (upd_idx (br s) (ren_idx rho (idx_set (m_id m) i (idx s)))) with (br (upd_idx s (idx_set (m_id m) i (idx s)))). set (s1 := upd_idx s _).
  change (core (br s1)) with (rrb (core s1)). change (fresh (br s1)) with (rrb (fresh s1)). rewrite count_ren. destruct (_ <? _); rewrite push_ren; apply bind_on; intro b; reflexivity.
Qed.
Lemma deliver_ren ds s : deliver_phase eps cfg (map rnm ds) (br s) = on bev (deliver_phase eps cfg ds s).
Proof.
  unfold deliver_phase. destruct ds as [|d ds]; [reflexivity|]. cbn [map]. change (rnm d :: map rnm ds) with (map rnm (d :: ds)). unfold accept_trades.
  rewrite (loop_on br rnm (accept_one eps cfg)) by apply accept_one_ren. rewrite zlen_map. change (core (br s)) with (rrb (core s)). rewrite count_ren. apply bind_on. intro s'. reflexivity.
Qed.
Lemma tock_ren t s : tock cfg t (br s) = on bev (tock cfg t s).
Proof.
  unfold tock. destruct (retired cfg t); [reflexivity|]. change (core (br s)) with (rrb (core s)). rewrite count_ren.
  change (cyc (br s)) with (cyc s). change (disch (br s)) with (disch s).
  set (full := rb_count (core s) =? n_core cfg).
  assert (E : (if ((cycle_t cfg + refuel_t cfg <=? cyc s) && full && disch s)%bool then upd_cyc (br s) 0 false else br s) =
    br (if ((cycle_t cfg + refuel_t cfg <=? cyc s) && full && disch s)%bool then upd_cyc s 0 false else s)) by (destruct (_ && _)%bool; reflexivity).
  cbv zeta. rewrite E. generalize (if ((cycle_t cfg + refuel_t cfg <=? cyc s) && full && disch s)%bool then upd_cyc s 0 false else s). intro s1. change (cyc (br s1)) with (cyc s1).
  change (record_side cfg (br s1)) with (record_side cfg s1). apply bind_same. intro e2. cbn. unfold bev. cbn. f_equal. f_equal. destruct (_ || _)%bool; reflexivity.
Qed.
Lemma step_ren t s e : rx_step eps recipe cfg t (br s) (rstep e) = on rout (rx_step eps recipe cfg t s e).
Proof.
  unfold rx_step. rewrite tick_ren. apply bind_on. intros [s1 ev1]. cbn [bev fst snd]. rewrite requests_ren. apply bind_same. intros [rq ev2].
  cbn [e_reqs e_pick e_deliv ren_reactor_step]. rewrite bids_ren. apply bind_on. intro bids. rewrite trades_ren. apply bind_on. intros [s2 sh]. cbn [bsh fst snd].
  rewrite deliver_ren. apply bind_on. intros [s3 ev3]. cbn [bev fst snd]. rewrite tock_ren. apply bind_on. intros [s4 ev4]. reflexivity.
Qed.
Lemma run_ren es : forall t s, rx_run eps recipe cfg t (br s) (map rstep es) = on (map rout) (rx_run eps recipe cfg t s es).
Proof.
  induction es as [|e es IH]; intros t s; [reflexivity|]. cbn [rx_run map]. rewrite step_ren. apply bind_on. intro o. change (o_state (rout o)) with (br (o_state o)).
  rewrite IH. apply bind_on. intro os. reflexivity.
Qed.
End R.

