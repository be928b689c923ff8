(** Proofs for C122: the Reactor. *)
From Verif Require Import Outcome KernelMaterial KernelResBuf KernelBuf BareSpec.
From Verif Require Import ReactorModel.
Local Open Scope Z_scope.

Lemma bind_on {A A' B B'} (f : A -> A') (g : B -> B') (o : outcome A) (k : A -> outcome B) (k' : A' -> outcome B') :
  (forall a, k' (f a) = on g (k a)) -> bind (on f o) k' = on g (bind o k).
Proof. intro H. destruct o; cbn; auto. Qed.
Lemma bind_same {A B B'} (g : B -> B') (o : outcome A) (k : A -> outcome B) (k' : A -> outcome B') :
  (forall a, k' a = on g (k a)) -> bind o k' = on g (bind o k).
Proof. intro H. destruct o; cbn; auto. Qed.
Lemma loop_on {S S' X X'} (f : S -> S') (h : X -> X') (st : S -> X -> outcome S) (st' : S' -> X' -> outcome S') :
  (forall s x, st' (f s) (h x) = on f (st s x)) -> forall l s, loop st' (map h l) (f s) = on f (loop st l s).
Proof. intro H. induction l as [|x l IH]; intro s; [reflexivity|]. cbn. rewrite H. apply bind_on, IH. Qed.
Lemma loop_same {S S' X} (f : S -> S') (st : S -> X -> outcome S) (st' : S' -> X -> outcome S') :
  (forall s x, st' (f s) x = on f (st s x)) -> forall l s, loop st' l (f s) = on f (loop st l s).
Proof. intro H. induction l as [|x l IH]; intro s; [reflexivity|]. cbn. rewrite H. apply bind_on, IH. Qed.
Lemma on_on {A B C} (f : A -> B) (g : B -> C) o : on g (on f o) = on (fun a => g (f a)) o.
Proof. destruct o; reflexivity. Qed.
Lemma qty_bare l : qty_of (map bare l) = qty_of l.
Proof. unfold qty_of. rewrite map_map. reflexivity. Qed.
Lemma zlen_map {A B} (f : A -> B) l : zlen (map f l) = zlen l.
Proof. unfold zlen. rewrite map_length. reflexivity. Qed.

Section R.
Variables (eps : Q) (recipe r0 : string -> option comp) (cfg : rx_cfg).
Hypothesis R0 : forall r, r0 r = match recipe r with Some _ => Some [] | None => None end.
Notation br := bare_reactor.
Definition bev {B} (p : rx_state * B) : rx_state * B := (br (fst p), snd p).

Lemma count_bare b : rb_count (bare_rb b) = rb_count b.
Proof. apply zlen_map. Qed.
Lemma space_bare b : rb_space (bare_rb b) = rb_space b.
Proof. unfold rb_space, rb_qty. cbn [rb_items rb_cap bare_rb]. rewrite qty_bare. reflexivity. Qed.
Lemma push_bare b m : rb_push eps (bare_rb b) (bare m) = on bare_rb (rb_push eps b m).
Proof. unfold rb_push. rewrite space_bare. cbn [m_qty bare]. destruct (Qltb _ _); [reflexivity|]. cbn. unfold bare_rb. cbn. rewrite map_app. reflexivity. Qed.
Lemma pushv_bare b ms : rb_pushv eps (bare_rb b) (map bare ms) = on bare_rb (rb_pushv eps b ms).
Proof. unfold rb_pushv. rewrite space_bare, qty_bare. destruct (Qltb _ _); [reflexivity|]. cbn. unfold bare_rb. cbn. rewrite map_app. reflexivity. Qed.
Lemma popn_bare b n : rb_popn (bare_rb b) n = on (fun p => (map bare (fst p), bare_rb (snd p))) (rb_popn b n).
Proof. unfold rb_popn. rewrite count_bare. destruct (_ || _)%bool; [reflexivity|]. cbn. unfold bare_rb. cbn. rewrite firstn_map, skipn_map. reflexivity. Qed.
Lemma pop_bare b : rb_pop (bare_rb b) = on (fun p => (bare (fst p), bare_rb (snd p))) (rb_pop b).
Proof. unfold rb_pop. cbn. destruct (rb_items b); reflexivity. Qed.

Lemma recipe_bare r : get_recipe r0 r = on (fun _ => []) (get_recipe recipe r).
Proof. unfold get_recipe. rewrite R0. destruct (recipe r); reflexivity. Qed.
Lemma set_obj_bare m c l : set_obj (transmute (bare m) []) (map bare l) = map bare (set_obj (transmute m c) l).
Proof. unfold set_obj. rewrite !map_map. apply map_ext. intro x. cbn. destruct (m_id x =? m_id m); reflexivity. Qed.
Lemma transmute_bare n s : transmute_core eps r0 n (br s) = on bev (transmute_core eps recipe n s).
Proof.
  unfold transmute_core. cbn [core br bare_reactor]. rewrite count_bare, popn_bare. apply bind_on. intros [old c1]. cbn [fst snd]. rewrite pushv_bare. apply bind_on. intro c2.
  rewrite zlen_map, count_bare.
  assert (E : (if zlen old <? rb_count c2 then let* '(rest, c') := rb_popn (bare_rb c2) (rb_count c2 - zlen old) in rb_pushv eps c' rest else Ok (bare_rb c2)) =
    on bare_rb (if zlen old <? rb_count c2 then let* '(rest, c') := rb_popn c2 (rb_count c2 - zlen old) in rb_pushv eps c' rest else Ok c2)).
  { destruct (zlen old <? rb_count c2); [|reflexivity]. rewrite popn_bare. apply bind_on. intros [rest c']. cbn [fst snd]. apply pushv_bare. }
  rewrite E. apply bind_on. intro c3. cbn [rb_items bare_rb].
  rewrite (loop_on (map bare) bare (fun l m => let* r := fuel_outrecipe s m in let* c := get_recipe recipe r in Ok (set_obj (transmute m c) l))).
  - apply bind_on. intro items. reflexivity.
  - intros l m. change (fuel_outrecipe (br s) (bare m)) with (fuel_outrecipe s m). apply bind_same. intro r. rewrite recipe_bare. apply bind_on. intro c.
    cbn. f_equal. apply set_obj_bare.
Qed.

(** ** The map of spent fuel *)
Definition bare_smap (m : smap) : smap := map (fun e => (fst e, map bare (snd e))) m.
Lemma smap_get_bare k m : smap_get k (bare_smap m) = map bare (smap_get k m).
Proof. induction m as [|[k' v] m IH]; [reflexivity|]. cbn. destruct (String.eqb k' k); [reflexivity|exact IH]. Qed.
Lemma smap_append_bare k x m : smap_append k (bare x) (bare_smap m) = bare_smap (smap_append k x m).
Proof. induction m as [|[k' v] m IH]; [reflexivity|]. cbn. destruct (String.eqb k' k); cbn; [rewrite map_app; reflexivity|f_equal; exact IH]. Qed.
Lemma smap_insert_bare k x m : smap_insert k (bare x) (bare_smap m) = bare_smap (smap_insert k x m).
Proof. induction m as [|[k' v] m IH]; [reflexivity|]. cbn. destruct (String.ltb k k'); cbn; [reflexivity|f_equal; exact IH]. Qed.
Lemma exists_bare k m : existsb (fun e : string * list mat => String.eqb (fst e) k) (bare_smap m) = existsb (fun e => String.eqb (fst e) k) m.
Proof. induction m as [|[k' v] m IH]; [reflexivity|]. cbn. f_equal. exact IH. Qed.
Lemma smap_push_bare k x m : smap_push k (bare x) (bare_smap m) = bare_smap (smap_push k x m).
Proof. unfold smap_push. rewrite exists_bare. destruct (existsb _ m); [apply smap_append_bare|apply smap_insert_bare]. Qed.
Lemma smap_rev_bare m : smap_map (@rev mat) (bare_smap m) = bare_smap (smap_map (@rev mat) m).
Proof. unfold smap_map, bare_smap. rewrite !map_map. apply map_ext. intros [k v]. cbn. rewrite map_rev. reflexivity. Qed.
Lemma smap_set_bare k v m : smap_set k (map bare v) (bare_smap m) = bare_smap (smap_set k v m).
Proof. induction m as [|[k' w] m IH]; [reflexivity|]. cbn. destruct (String.eqb k' k); cbn; [reflexivity|f_equal; exact IH]. Qed.
Lemma mapped_bare s s' mats : (forall m, fuel_outcommod cfg s' (bare m) = fuel_outcommod cfg s m) ->
  loop (fun mp m => let* c := fuel_outcommod cfg s' m in Ok (smap_push c m mp)) (map bare mats) [] =
  on bare_smap (loop (fun mp m => let* c := fuel_outcommod cfg s m in Ok (smap_push c m mp)) mats []).
Proof.
  intro H. refine (loop_on bare_smap bare _ _ _ _ []). intros mp m. rewrite H. apply bind_same. intro c. cbn. rewrite smap_push_bare. reflexivity.
Qed.
Definition bms (p : smap * rx_state) : smap * rx_state := (bare_smap (fst p), br (snd p)).
Lemma peek_bare s : peek_spent eps cfg (br s) = on bms (peek_spent eps cfg s).
Proof.
  unfold peek_spent. cbn [spent br bare_reactor]. rewrite count_bare, popn_bare. apply bind_on. intros [mats b1]. cbn [fst snd]. rewrite pushv_bare. apply bind_on. intro b2.
  rewrite (mapped_bare (upd_spent s b2)) by reflexivity. apply bind_on. intro mp. reflexivity.
Qed.
Definition bee (p : rx_state * list event * bool) : rx_state * list event * bool := (br (fst (fst p)), snd (fst p), snd p).
Lemma discharge_bare s : discharge eps cfg (br s) = on bee (discharge eps cfg s).
Proof.
  unfold discharge. cbn [core spent br bare_reactor]. rewrite !count_bare. destruct (_ <? _); [reflexivity|]. rewrite popn_bare. apply bind_on. intros [ms c1]. cbn [fst snd].
  rewrite pushv_bare. apply bind_on. intro sp.
  change (upd_spent (upd_core (br s) (bare_rb c1)) (bare_rb sp), @nil event) with (bev (upd_spent (upd_core s c1) sp, @nil event)).
  rewrite (loop_same (@bev (list event)) (fun st c => let* '(mp, s') := peek_spent eps cfg (fst st) in Ok (s', snd st ++ [EvSupply c (qty_of (smap_get c mp))]))).
  - apply bind_on. intros [s2 evs]. reflexivity.
  - intros [s1 evs] c. cbn [fst snd bev]. rewrite peek_bare. apply bind_on. intros [mp s']. cbn [fst snd bms]. cbn. rewrite smap_get_bare, qty_bare. reflexivity.
Qed.
Lemma load_bare s : load eps cfg (br s) = on bev (load eps cfg s).
Proof.
  unfold load. cbn [core fresh br bare_reactor]. rewrite !count_bare. destruct (_ =? 0); [reflexivity|]. rewrite popn_bare. apply bind_on. intros [ms f1]. cbn [fst snd].
  rewrite pushv_bare. apply bind_on. intro c1. reflexivity.
Qed.
Lemma drain_core_bare k : forall s, drain_core eps cfg k (br s) = on bev (drain_core eps cfg k s).
Proof.
  induction k as [|k IH]; intro s; cbn [drain_core]; change (core (br s)) with (bare_rb (core s)); rewrite count_bare; destruct (0 <? _); try reflexivity.
  rewrite discharge_bare. apply bind_on. intros [[s1 ev] ok]. cbn [bee fst snd]. destruct ok; [|reflexivity]. rewrite IH. apply bind_on. intros [s2 ev2]. reflexivity.
Qed.
Lemma drain_fresh_bare k : forall s, drain_fresh eps cfg k (br s) = on br (drain_fresh eps cfg k s).
Proof.
  induction k as [|k IH]; intro s; cbn [drain_fresh]; change (fresh (br s)) with (bare_rb (fresh s)); change (spent (br s)) with (bare_rb (spent s));
    rewrite count_bare, space_bare; destruct (_ && _)%bool; try reflexivity.
  rewrite pop_bare. apply bind_on. intros [m f1]. cbn [fst snd]. rewrite push_bare. apply bind_on. intro sp. exact (IH (upd_spent (upd_fresh s f1) sp)).
Qed.
Lemma check_bare s : check_decom (br s) = check_decom s.
Proof. unfold check_decom. cbn [core spent br bare_reactor]. rewrite !count_bare. reflexivity. Qed.
Lemma tick_retired_bare t s : tick_retired eps r0 cfg t (br s) = on bev (tick_retired eps recipe cfg t s).
Proof.
  unfold tick_retired.
  assert (E : (if t =? exit_t cfg + 1 then transmute_core eps r0 (if decom_all cfg then n_core cfg else half_up (n_core cfg)) (br s) else Ok (br s, [])) =
    on bev (if t =? exit_t cfg + 1 then transmute_core eps recipe (if decom_all cfg then n_core cfg else half_up (n_core cfg)) s else Ok (s, []))).
  { destruct (_ =? _); [apply transmute_bare|reflexivity]. }
  rewrite E. apply bind_on. intros [s1 e1]. cbn [bev fst snd]. cbn [core br bare_reactor bare_rb rb_items]. rewrite map_length, drain_core_bare. apply bind_on. intros [s2 e2].
  cbn [bev fst snd]. cbn [fresh br bare_reactor bare_rb rb_items]. rewrite map_length, drain_fresh_bare. apply bind_on. intro s3. rewrite check_bare. reflexivity.
Qed.
Lemma pref_bare t s i : pref_change cfg t (br s) i = on br (pref_change cfg t s i).
Proof.
  unfold pref_change. apply bind_same. intro ct. destruct (negb _); [reflexivity|]. apply bind_same. intro c. destruct (find_commod _ _ _); [|reflexivity].
  apply bind_same. intro v. apply bind_same. intro p. reflexivity.
Qed.
Lemma recipe_change_bare t s i : recipe_change cfg t (br s) i = on br (recipe_change cfg t s i).
Proof.
  unfold recipe_change. apply bind_same. intro ct. destruct (negb _); [reflexivity|]. apply bind_same. intro c. destruct (find_commod _ _ _); [|reflexivity].
  apply bind_same. intro v. apply bind_same. intro p. apply bind_same. intro vo. apply bind_same. intro ro. reflexivity.
Qed.
Lemma changes_bare t s : apply_changes cfg t (br s) = on br (apply_changes cfg t s).
Proof.
  unfold apply_changes. rewrite (loop_same br (pref_change cfg t)) by apply pref_bare. apply bind_on. intro s1. apply loop_same. apply recipe_change_bare.
Qed.
Lemma tick_bare t s : tick eps r0 cfg t (br s) = on bev (tick eps recipe cfg t s).
Proof.
  unfold tick. destruct (retired cfg t); [apply tick_retired_bare|].
  assert (E : (if cyc (br s) =? cycle_t cfg then let* '(s', e) := transmute_core eps r0 (n_batch cfg) (br s) in Ok (s', e ++ [EvCycleEnd]) else Ok (br s, [])) =
    on bev (if cyc s =? cycle_t cfg then let* '(s', e) := transmute_core eps recipe (n_batch cfg) s in Ok (s', e ++ [EvCycleEnd]) else Ok (s, []))).
  { change (cyc (br s)) with (cyc s). destruct (_ =? _); [|reflexivity]. rewrite transmute_bare. apply bind_on. intros [s' e]. reflexivity. }
  rewrite E. apply bind_on. intros [s1 e1]. cbn [bev fst snd].
  assert (E2 : (if ((cycle_t cfg <=? cyc (br s1)) && negb (disch (br s1)))%bool then let* '(s', e, ok) := discharge eps cfg (br s1) in Ok (upd_cyc s' (cyc s') ok, e) else Ok (br s1, [])) =
    on bev (if ((cycle_t cfg <=? cyc s1) && negb (disch s1))%bool then let* '(s', e, ok) := discharge eps cfg s1 in Ok (upd_cyc s' (cyc s') ok, e) else Ok (s1, []))).
  { change (cyc (br s1)) with (cyc s1). change (disch (br s1)) with (disch s1). destruct (_ && _)%bool; [|reflexivity]. rewrite discharge_bare. apply bind_on. intros [[s' e] ok]. reflexivity. }
  rewrite E2. apply bind_on. intros [s2 e2]. cbn [bev fst snd].
  assert (E3 : (if cycle_t cfg <=? cyc (br s2) then load eps cfg (br s2) else Ok (br s2, [])) = on bev (if cycle_t cfg <=? cyc s2 then load eps cfg s2 else Ok (s2, []))).
  { change (cyc (br s2)) with (cyc s2). destruct (cycle_t cfg <=? cyc s2); [apply load_bare|reflexivity]. }
  rewrite E3. apply bind_on. intros [s3 e3]. cbn [bev fst snd]. rewrite changes_bare. apply bind_on. intro s4. reflexivity.
Qed.

(** ** Requests and bids *)
Lemma portfolio_bare s : portfolio r0 cfg (br s) = on (map bare_request) (portfolio recipe cfg s).
Proof.
  unfold portfolio. refine (loop_same (map bare_request) _ _ _ _ []). intros acc j. apply bind_same. intro c. apply bind_same. intro p. apply bind_same. intro rn.
  rewrite recipe_bare. apply bind_on. intro r. cbn. rewrite map_app. reflexivity.
Qed.
Definition bre (p : list (list request) * list event) : list (list request) * list event := (map (map bare_request) (fst p), snd p).
Lemma requests_bare t s : get_requests r0 cfg t (br s) = on bre (get_requests recipe cfg t s).
Proof.
  unfold get_requests. unfold n_need. cbn [core fresh cyc prefs br bare_reactor]. rewrite !count_bare. apply bind_same. intro order.
  destruct (order =? 0); [reflexivity|]. destruct (retired cfg t); [reflexivity|].
  refine (loop_same bre _ _ _ _ ([], [])). intros [a b] x. cbn [bre fst snd].
  rewrite portfolio_bare. apply bind_on. intro p. change (prefs (br s)) with (prefs s). apply bind_same. intro mc. cbn. unfold bre. cbn. rewrite map_app. reflexivity.
Qed.
Lemma offer_bare target j ms : forall tot, offer_until target tot j (map bare ms) = map bare_numbered (offer_until target tot j ms).
Proof. induction ms as [|m ms IH]; intro tot; [reflexivity|]. cbn. f_equal. destruct (Qle_bool _ _); [reflexivity|apply IH]. Qed.
Lemma bids_for_bare s c reqs : bids_for eps cfg (br s) c reqs = on (option_map bare_bidport) (bids_for eps cfg s c reqs).
Proof.
  unfold bids_for. destruct reqs as [|q reqs]; [reflexivity|]. rewrite peek_bare. apply bind_on. intros [mp s']. cbn [bms fst snd]. rewrite smap_get_bare.
  destruct (smap_get c mp) as [|m ms]; [reflexivity|]. cbn [map on option_map]. f_equal. f_equal. unfold bare_bidport. cbn [bp_commod bp_bids bp_cap]. f_equal.
  - rewrite concat_map, map_map. f_equal. apply map_ext. intros [j x]. apply (offer_bare x j (m :: ms)).
  - exact (qty_bare (m :: ms)).
Qed.
Lemma bids_bare s reqs : get_bids eps cfg (br s) reqs = on (map bare_bidport) (get_bids eps cfg s reqs).
Proof.
  unfold get_bids. refine (loop_same (map bare_bidport) _ _ _ _ []). intros acc c. rewrite bids_for_bare. apply bind_on. intros [p|]; cbn; [rewrite map_app|]; reflexivity.
Qed.

(** ** Trades *)
Lemma pop_spent_bare s : pop_spent cfg (br s) = on bms (pop_spent cfg s).
Proof.
  unfold pop_spent. cbn [spent br bare_reactor]. rewrite count_bare, popn_bare. apply bind_on. intros [mats b1]. cbn [fst snd].
  rewrite (mapped_bare (upd_spent s b1)) by reflexivity. apply bind_on. intro mp. cbn. unfold bms. cbn [fst snd]. rewrite smap_rev_bare. reflexivity.
Qed.
Definition bst (p : smap * rx_state * list (string * mat)) : smap * rx_state * list (string * mat) :=
  (bare_smap (fst (fst p)), br (snd (fst p)), map bare_named (snd p)).
Lemma serve_bare st c : serve_trade (bst st) c = on bst (serve_trade st c).
Proof.
  destruct st as [[mp s] resp]. unfold serve_trade, bst. cbn [fst snd]. rewrite smap_get_bare, <- map_rev. destruct (rev (smap_get c mp)) as [|m r]; [reflexivity|].
  cbn [map on fst snd]. rewrite <- map_rev, smap_set_bare, map_app. reflexivity.
Qed.
Lemma push_spent_bare left : forall s, push_spent eps (bare_smap left) (br s) = on br (push_spent eps left s).
Proof.
  intro s. unfold push_spent, bare_smap. apply loop_on. intros s' [k v]. cbn [snd]. rewrite <- map_rev. change (spent (br s')) with (bare_rb (spent s')). rewrite pushv_bare. apply bind_on. intro b. reflexivity.
Qed.
Definition bsh (p : rx_state * list (string * mat)) : rx_state * list (string * mat) := (br (fst p), map bare_named (snd p)).
Lemma trades_bare picks s : trade_phase eps cfg picks (br s) = on bsh (trade_phase eps cfg picks s).
Proof.
  unfold trade_phase. destruct picks as [|c picks]; [reflexivity|]. unfold get_trades. rewrite pop_spent_bare. apply bind_on. intros [mp s1]. cbn [bms fst snd].
  change (bare_smap mp, br s1, @nil (string * mat)) with (bst (mp, s1, [])). rewrite (loop_same bst serve_trade) by apply serve_bare. apply bind_on. intros [[mp2 s2] resp].
  cbn [bst fst snd]. rewrite push_spent_bare. apply bind_on. intro s3. reflexivity.
Qed.
Lemma accept_one_bare s d : accept_one eps cfg (br s) (bare_named d) = on br (accept_one eps cfg s d).
Proof.
  destruct d as [c m]. unfold accept_one. cbn [bare_named fst snd]. unfold index_res. destruct (find_commod c (incommods cfg) 0) as [i|]; [|reflexivity]. cbn [bind].
  change (upd_idx (br s) (idx_set (m_id (bare m)) i (idx (br s)))) with (br (upd_idx s (idx_set (m_id m) i (idx s)))). set (s1 := upd_idx s _).
  change (core (br s1)) with (bare_rb (core s1)). change (fresh (br s1)) with (bare_rb (fresh s1)). rewrite count_bare. destruct (_ <? _); rewrite push_bare; apply bind_on; intro b; reflexivity.
Qed.
Lemma deliver_bare ds s : deliver_phase eps cfg (map bare_named ds) (br s) = on bev (deliver_phase eps cfg ds s).
Proof.
  unfold deliver_phase. destruct ds as [|d ds]; [reflexivity|]. cbn [map]. change (bare_named d :: map bare_named ds) with (map bare_named (d :: ds)). unfold accept_trades.
  rewrite (loop_on br bare_named (accept_one eps cfg)) by apply accept_one_bare. rewrite zlen_map. change (core (br s)) with (bare_rb (core s)). rewrite count_bare. apply bind_on. intro s'. reflexivity.
Qed.
Lemma tock_bare t s : tock cfg t (br s) = on bev (tock cfg t s).
Proof.
  unfold tock. destruct (retired cfg t); [reflexivity|]. change (core (br s)) with (bare_rb (core s)). rewrite count_bare.
  change (cyc (br s)) with (cyc s). change (disch (br s)) with (disch s).
  set (full := rb_count (core s) =? n_core cfg).
  assert (E : (if ((cycle_t cfg + refuel_t cfg <=? cyc s) && full && disch s)%bool then upd_cyc (br s) 0 false else br s) =
    br (if ((cycle_t cfg + refuel_t cfg <=? cyc s) && full && disch s)%bool then upd_cyc s 0 false else s)) by (destruct (_ && _)%bool; reflexivity).
  cbv zeta. rewrite E. generalize (if ((cycle_t cfg + refuel_t cfg <=? cyc s) && full && disch s)%bool then upd_cyc s 0 false else s). intro s1. change (cyc (br s1)) with (cyc s1).
  change (record_side cfg (br s1)) with (record_side cfg s1). apply bind_same. intro e2. cbn. unfold bev. cbn. f_equal. f_equal. destruct (_ || _)%bool; reflexivity.
Qed.
Lemma step_bare t s e : rx_step eps r0 cfg t (br s) (bare_reactor_step e) = on bare_reactor_out (rx_step eps recipe cfg t s e).
Proof.
  unfold rx_step. rewrite tick_bare. apply bind_on. intros [s1 ev1]. cbn [bev fst snd]. rewrite requests_bare. apply bind_on. intros [rq ev2]. cbn [bre fst snd].
  cbn [e_reqs e_pick e_deliv bare_reactor_step]. rewrite bids_bare. apply bind_on. intro bids. rewrite trades_bare. apply bind_on. intros [s2 sh]. cbn [bsh fst snd].
  rewrite deliver_bare. apply bind_on. intros [s3 ev3]. cbn [bev fst snd]. rewrite tock_bare. apply bind_on. intros [s4 ev4]. reflexivity.
Qed.
Lemma run_bare es : forall t s, rx_run eps r0 cfg t (br s) (map bare_reactor_step es) = on (map bare_reactor_out) (rx_run eps recipe cfg t s es).
Proof.
  induction es as [|e es IH]; intros t s; [reflexivity|]. cbn [rx_run map]. rewrite step_bare. apply bind_on. intro o. change (o_state (bare_reactor_out o)) with (br (o_state o)).
  rewrite IH. apply bind_on. intro os. reflexivity.
Qed.
End R.

Definition blank (recipe : string -> option comp) (r : string) : option comp := match recipe r with Some _ => Some [] | None => None end.
Lemma blank_same recipe recipe' : same_names recipe recipe' -> forall r, blank recipe r = match recipe' r with Some _ => Some [] | None => None end.
Proof. intros H r. unfold blank. destruct (H r) as [A B]. destruct (recipe r), (recipe' r); try reflexivity; [discriminate (B eq_refl)|discriminate (A eq_refl)]. Qed.
Lemma reactor_bare eps recipe recipe' cfg t s s' es es' : same_names recipe recipe' -> bare_reactor s' = bare_reactor s ->
  map bare_reactor_step es' = map bare_reactor_step es ->
  on (map bare_reactor_out) (rx_run eps recipe' cfg t s' es') = on (map bare_reactor_out) (rx_run eps recipe cfg t s es).
Proof.
  intros N S E. rewrite <- (run_bare eps recipe (blank recipe) cfg (fun r => eq_refl) es t s), <- (run_bare eps recipe' (blank recipe) cfg (blank_same _ _ N) es' t s').
  rewrite S, E. reflexivity.
Qed.
