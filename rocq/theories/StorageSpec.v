(** Specification vocabulary for the Storage properties.  Nothing here refers
    to the functions of StorageModel.v except the record types that describe a
    history and what is observed of it. *)
From Coq Require Import Sorting.Sorted.
From Verif Require Import Outcome KernelMaterial KernelResBuf StorageModel.
Local Open Scope Q_scope.

(** [a] and [b] are the two parts of [m]: same composition, quantities add up. *)
Definition split_of (m a b : mat) : Prop :=
  m_comp a = m_comp m /\ m_comp b = m_comp m /\
  m_qty a + m_qty b == m_qty m /\ 0 <= m_qty a /\ 0 <= m_qty b.

(** [m] is [a] and [b] put together: quantities and all nuclides add up. *)
Definition join_of (a b m : mat) : Prop :=
  mat_ok m /\ m_qty m == m_qty a + m_qty b /\
  forall n, mass_of m n == mass_of a n + mass_of b n.

(** [regroup l l']: the sequence [l'] is the sequence [l] up to splitting
    parcels in place and joining adjacent parcels.  No overtaking. *)
Inductive regroup (l : list mat) : list mat -> Prop :=
| rg_refl : regroup l l
| rg_split l1 m a b l2 : regroup l (l1 ++ m :: l2) -> split_of m a b -> regroup l (l1 ++ a :: b :: l2)
| rg_join l1 a b m l2 : regroup l (l1 ++ a :: b :: l2) -> join_of a b m -> regroup l (l1 ++ m :: l2).

(** The arrivals of a history, with their times, in order. *)
Definition arrivals (es : list st_env) : list (Z * mat) :=
  flat_map (fun e => map (fun m => (se_time e, m)) (se_receipts e)) es.

(** Parcels whose residence time is over at time [t], and the others. *)
Definition due (r t : Z) (arr : list (Z * mat)) : list mat :=
  map snd (filter (fun p => Z.leb (fst p + r) t) arr).
Definition held (r t : Z) (arr : list (Z * mat)) : list mat :=
  map snd (filter (fun p => Z.ltb t (fst p + r)) arr).

(** Steps happen at increasing, non-negative times; received parcels are sane. *)
Definition st_history (es : list st_env) : Prop :=
  StronglySorted Z.lt (map se_time es) /\ Forall (fun e => (0 <= se_time e)%Z) es /\
  Forall mat_ok (map snd (arrivals es)).

(** Everything sold and everything put up for sale in a history. *)
Definition all_sold (os : list st_out) : list mat := flat_map so_sold os.
Definition all_released (os : list st_out) : list mat := flat_map (fun o => to_released (so_tock o)) os.

(** Input as it is after a successful start-up: one preference for each of the
    in-commodities (there is at least one), one out-commodity. *)
Definition st_cfg_ok (cfg : st_cfg) : Prop :=
  List.length (sc_in_prefs cfg) = List.length (sc_in_commods cfg) /\
  sc_in_commods cfg <> [] /\ List.length (sc_out_commods cfg) = 1%nat.

(** Every purchase fits the capacity [max_inv] minus what is held when the
    step begins. *)
Fixpoint purchases_fit (eps : Q) (cfg : st_cfg) (s : st_state) (es : list st_env) : Prop :=
  match es with
  | [] => True
  | e :: es' =>
      qty_of (se_receipts e) <= Qmax 0 (sc_max_inv cfg -
        qty_of (ss_inventory s ++ ss_processing s ++ ss_ready s ++ ss_stocks s)) /\
      match st_step eps cfg s e with
      | Ok (s', _) => purchases_fit eps cfg s' es'
      | _ => True
      end
  end.

(** Which purchase policy the parameters describe. *)
Inductive policy_described (cfg : st_cfg) : buy_policy -> Prop :=
| pd_active_dormant : sc_reorder_point cfg < 0 -> sc_cumulative_cap cfg <= 0 ->
    policy_described cfg BuyActiveDormant
| pd_cumulative : 0 < sc_cumulative_cap cfg ->
    policy_described cfg (BuyCumulative (sc_cumulative_cap cfg))
| pd_rq : 0 <= sc_reorder_point cfg -> sc_cumulative_cap cfg <= 0 -> 0 < sc_reorder_quantity cfg ->
    sc_reorder_point cfg + sc_reorder_quantity cfg <= sc_max_inv cfg ->
    policy_described cfg (BuyRQ (sc_reorder_quantity cfg) (sc_reorder_point cfg))
| pd_ss : 0 <= sc_reorder_point cfg -> sc_cumulative_cap cfg <= 0 -> sc_reorder_quantity cfg <= 0 ->
    policy_described cfg (BuySS (sc_max_inv cfg) (sc_reorder_point cfg)).

(** Input that start-up must accept, with the policy [p], the composition [c]
    to ask for, the preferences [prefs] and the out-commodity [o]. *)
Definition st_input_ok (recipe : string -> option comp) (package unit : string -> bool) (cfg : st_cfg)
  (p : buy_policy) (c : comp) (prefs : list Q) (o : string) : Prop :=
  policy_described cfg p /\
  ((sc_in_recipe cfg = ""%string /\ c = []) \/
   (sc_in_recipe cfg <> ""%string /\ recipe (sc_in_recipe cfg) = Some c)) /\
  ((sc_in_prefs cfg = [] /\ List.length prefs = List.length (sc_in_commods cfg) /\
    forall x, In x prefs -> x = 1) \/
   (sc_in_prefs cfg <> [] /\ prefs = sc_in_prefs cfg /\
    List.length prefs = List.length (sc_in_commods cfg))) /\
  package (sc_package cfg) = true /\ unit (sc_transport_unit cfg) = true /\
  sc_out_commods cfg = [o].
