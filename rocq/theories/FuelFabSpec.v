(** Specification vocabulary for the FuelFab properties. *)
From Verif Require Import Outcome KernelMaterial KernelResBuf KernelBuf FuelFabModel.
Local Open Scope Q_scope.

(** ** Nuclear quantities *)
(** A composition of something: no negative entries, not empty. *)
Definition real_comp (c : comp) : Prop := Forall (fun e => 0 <= snd e) c /\ 0 < csum c.

(** Usable nuclear data: atomic masses are positive, the two reference nuclides have cross
    sections, and they differ. *)
Definition known_xs (D : nucdata) (sp : string) (n : Z) : Prop :=
  exists f a, d_xs D n "fission" sp = Some f /\ d_xs D n "absorption" sp = Some a.
Definition data_ok (D : nucdata) (sp : string) : Prop :=
  (forall n, 0 < d_aw D n) /\ known_xs D sp 922380000 /\ known_xs D sp 942390000 /\
  ~ p_pu239 D sp == p_u238 D sp.

(** Number of atoms (up to Avogadro's number) of nuclide [n] in [q] kg of [c], and of all. *)
Definition natoms (D : nucdata) (q : Q) (c : comp) (n : Z) : Q := q * (cget n c / csum c) / d_aw D n.
Definition all_atoms (D : nucdata) (q : Q) (c : comp) : Q := qsum (map (natoms D q c) (ckeys c)).
(** Fraction of the atoms of [c] that are nuclide [n]. *)
Definition atom_fraction (D : nucdata) (c : comp) (n : Z) : Q := natoms D 1 c n / all_atoms D 1 c.

(** Neutrons per fission: a table of thermal and fast values. *)
Definition neutrons : list (Z * (Q * Q)) :=
  [ (922330000%Z, (250 # 100, 263 # 100)); (922350000%Z, (243 # 100, 258 # 100));
    (942390000%Z, (285 # 100, 310 # 100)); (942410000%Z, (285 # 100, 310 # 100)) ].
(** Net neutron production per atom of [n] is [p]: neutrons per fission times the fission cross
    section minus the absorption cross section; zero without data, no
    fission neutrons for nuclides outside the table. *)
Definition production (D : nucdata) (sp : string) (n : Z) (p : Q) : Prop :=
  match d_xs D n "fission" sp, d_xs D n "absorption" sp with
  | Some f, Some a =>
      (exists th fa, In (n, (th, fa)) neutrons /\ (sp = "thermal"%string -> p == th * f - a) /\
         (sp <> "thermal"%string -> p == fa * f - a)) \/
      (~ In n (map fst neutrons) /\ p == - a)
  | _, _ => p == 0
  end.

(** ** The facility *)
(** An inventory that holds at most one parcel of real material. *)
Definition homogeneous (b : buf) : Prop :=
  b_items b = [] \/ exists m, b_items b = [m] /\ 0 < m_qty m /\ real_comp (m_comp m).
Definition ff_homogeneous (s : ff_state) : Prop :=
  homogeneous (fb_fill s) /\ homogeneous (fb_fiss s) /\ homogeneous (fb_topup s).
(** The composition in an inventory. *)
Definition content (b : buf) (c : comp) : Prop := exists m, b_items b = [m] /\ m_comp m = c.

(** What an award (request, amount) is charged under a constraint: the
    converter's value for the offer, per unit of the offer, times the amount. *)
Definition offer_for (B : ff_bids) (j : nat) : option mat :=
  match find (fun o => Nat.eqb (fst o) j) (fo_offers B) with Some o => Some (snd o) | None => None end.
Definition charge (conv : ff_streams -> mat -> option Q) (B : ff_bids) (a : nat * Q) : option Q :=
  match offer_for B (fst a) with
  | Some m => match conv (fo_streams B) m with Some x => Some (x / m_qty m * snd a) | None => None end
  | None => None
  end.
(** The sum of the charges of a list of awards is [t]. *)
Inductive charges (conv : ff_streams -> mat -> option Q) (B : ff_bids) : list (nat * Q) -> Q -> Prop :=
| charges_nil : charges conv B [] 0
| charges_cons a l x t : charge conv B a = Some x -> charges conv B l t -> charges conv B (a :: l) (x + t).

(** The three charges and the total of a list of awards. *)
Record usage := { u_fiss : Q; u_fill : Q; u_topup : Q; u_total : Q }.
Definition uses (nz : Q) (D : nucdata) (sp : string) (B : ff_bids) (l : list (nat * Q)) (u : usage) : Prop :=
  charges (conv_fiss nz D sp) B l (u_fiss u) /\ charges (conv_fill nz D sp) B l (u_fill u) /\
  charges (conv_topup nz D sp) B l (u_topup u) /\ u_total u = qsum (map snd l).
(** The awards respect the published constraints. *)
Definition respects (nz : Q) (D : nucdata) (sp : string) (B : ff_bids) (l : list (nat * Q)) (u : usage) : Prop :=
  Forall (fun a => 0 < snd a) l /\ uses nz D sp B l u /\
  u_fiss u <= fo_cap_fiss B /\ u_fill u <= fo_cap_fill B /\ u_topup u <= fo_cap_topup B /\ u_total u <= fo_cap B.

(** Requests for real fuel. *)
Definition reqs_ok (reqs : list (comp * Q)) : Prop := Forall (fun r => real_comp (fst r) /\ 0 < snd r) reqs.
(** Recipes are real compositions. *)
Definition recipes_ok (recipe : string -> option comp) : Prop := forall k c, recipe k = Some c -> real_comp c.

(** The weight of a composition as the facility sees it. *)
Notation weight D cfg c := (cosi_weight D (fc_spectrum cfg) c).

(** Target between filler and fissile material. *)
Definition between (lo t hi : Q) : Prop := lo <= t /\ t <= hi.

(** The awards a fabrication facility can always serve (see C37, C39): every award
    uses some fissile material (or there is none and no top-up is needed), awards
    outside the filler-fissile range use some top-up, and without filler the requested
    weight is not negative. *)
Definition servable (nz : Q) (D : nucdata) (cfg : ff_cfg) (s : ff_state) (B : ff_bids) (reqs : list (comp * Q))
  (a : nat * Q) : Prop :=
  exists tgt q xf xt, nth_error reqs (fst a) = Some (tgt, q) /\
    charge (conv_fiss nz D (fc_spectrum cfg)) B a = Some xf /\
    charge (conv_topup nz D (fc_spectrum cfg)) B a = Some xt /\
    (0 < xf \/ (b_items (fb_fiss s) = [] /\ xt == 0)) /\
    (between (fs_wfill (fo_streams B)) (weight D cfg tgt) (fs_wfiss (fo_streams B)) \/ 0 < xt) /\
    (b_items (fb_fill s) = [] -> 0 <= weight D cfg tgt).

(** A delivery [m] blended from streams of weights [lo] and [hi] for a target of weight
    [t] is good: the amount is [q], and the weight that of the target, except
    that fractions closer than [nz] to 0 or 1 are rounded. *)
Definition meets (nz : Q) (D : nucdata) (cfg : ff_cfg) (lo t hi q : Q) (m : mat) : Prop :=
  m_qty m == q /\ Qabs (weight D cfg (m_comp m) - t) <= nz * (hi - lo) /\
  (nz * (hi - lo) <= t - lo -> nz * (hi - lo) <= hi - t -> weight D cfg (m_comp m) == t).

(** ** Histories *)
(** All single requests one after the other, with the inventory they are for. *)
Definition ff_asked (reqs : list ff_request) : list (ff_inv * string) :=
  flat_map (fun p => map (fun c => (fr_inv p, fst c)) (fr_items p)) reqs.
Definition same_inv (a b : ff_inv) : bool :=
  match a, b with InvFill, InvFill | InvFiss, InvFiss | InvTopup, InvTopup => true | _, _ => false end.
(** The materials that answer requests for inventory [i]. *)
Definition ff_deliveries (reqs : list ff_request) (responses : list (nat * mat)) (i : ff_inv) : list mat :=
  flat_map (fun jm => match nth_error (ff_asked reqs) (fst jm) with
                      | Some (i', _) => if same_inv i' i then [snd jm] else []
                      | None => []
                      end) responses.
Definition inventory (s : ff_state) (i : ff_inv) : buf :=
  match i with InvFill => fb_fill s | InvFiss => fb_fiss s | InvTopup => fb_topup s end.
Definition inv_size (cfg : ff_cfg) (i : ff_inv) : Q :=
  match i with InvFill => fc_fill_size cfg | InvFiss => fc_fiss_size cfg | InvTopup => fc_topup_size cfg end.
Definition inv_recipe (cfg : ff_cfg) (i : ff_inv) : string :=
  match i with InvFill => fc_fill_recipe cfg | InvFiss => fc_fiss_recipe cfg | InvTopup => fc_topup_recipe cfg end.
(** Commodities of an inventory with the preferences in use: the user's, or 1. *)
Definition inv_commods (cfg : ff_cfg) (i : ff_inv) (items : list (string * Q)) : Prop :=
  let use commods prefs := map fst items = commods /\
    (prefs = [] /\ Forall (fun e => snd e = 1) items \/ prefs <> [] /\ map snd items = prefs) in
  match i with
  | InvFill => use (fc_fill_commods cfg) (fc_fill_prefs cfg)
  | InvFiss => use (fc_fiss_commods cfg) (fc_fiss_prefs cfg)
  | InvTopup => items = [(fc_topup_commod cfg, fc_topup_pref cfg)]
  end.

(** Parcels received are real material; amounts awarded are positive. *)
Definition ff_sane (es : list ff_env) : Prop :=
  Forall (fun e => Forall (fun jm => 0 < m_qty (snd jm) /\ real_comp (m_comp (snd jm))) (fe_receipts e) /\
                   Forall (fun a => 0 < snd a) (fe_trades e)) es.

(** Everything received, shipped, held. *)
Definition ff_received (es : list ff_env) : list mat := flat_map (fun e => map snd (fe_receipts e)) es.
Definition ff_shipped (os : list ff_out) : list mat := flat_map fo_shipped os.
Definition ff_held (s : ff_state) : list mat := b_items (fb_fill s) ++ b_items (fb_fiss s) ++ b_items (fb_topup s).

(** A facility that has been started and has lived through a history. *)
Definition ff_lived (eps nz : Q) (D : nucdata) (recipe : string -> option comp) (cfg : ff_cfg)
  (es : list ff_env) (s : ff_state) (os : list ff_out) : Prop :=
  exists prefs, ff_enter cfg = Ok prefs /\ ff_run eps nz D recipe cfg prefs (ff_new cfg) es = Ok (s, os).

(** What the resource exchange guarantees for deliveries: only requests that were
    made are answered, and no inventory is sent more than it asked for. *)
Definition ff_orderly (reqs : list ff_request) (responses : list (nat * mat)) : Prop :=
  Forall (fun jm => (fst jm < List.length (ff_asked reqs))%nat) responses /\
  forall p, In p reqs -> qty_of (ff_deliveries reqs responses (fr_inv p)) <= fr_qty p.

(** A request fits its inventory: the free space is asked for, with the recipe (blank
    material without one), on the inventory's commodities. *)
Definition req_of (recipe : string -> option comp) (cfg : ff_cfg) (s : ff_state) (p : ff_request) : Prop :=
  fr_qty p == inv_size cfg (fr_inv p) - b_qty (inventory s (fr_inv p)) /\
  (if String.eqb (inv_recipe cfg (fr_inv p)) "" then fr_comp p = None
   else fr_comp p = recipe (inv_recipe cfg (fr_inv p)) /\ fr_comp p <> None) /\
  inv_commods cfg (fr_inv p) (fr_items p).

(** What each stream is assumed to consist of when offers are made: what is in stock, else
    the stream's recipe, else (no recipe) the filler. *)
Definition fill_material (recipe : string -> option comp) (cfg : ff_cfg) (s : ff_state) (c : comp) : Prop :=
  (exists m, b_items (fb_fill s) = [m] /\ c = m_comp m) \/
  (b_items (fb_fill s) = [] /\ recipe (fc_fill_recipe cfg) = Some c).
Definition fiss_material (recipe : string -> option comp) (cfg : ff_cfg) (s : ff_state) (c : comp) : Prop :=
  (exists m, b_items (fb_fiss s) = [m] /\ c = m_comp m) \/
  (b_items (fb_fiss s) = [] /\ fc_fiss_recipe cfg <> ""%string /\ recipe (fc_fiss_recipe cfg) = Some c) \/
  (b_items (fb_fiss s) = [] /\ fc_fiss_recipe cfg = ""%string /\ fill_material recipe cfg s c).
(** [m] is a blend of [a] kilograms of [c1] and [b] kilograms of [c2]. *)
Definition blended (m : mat) (a : Q) (c1 : comp) (b : Q) (c2 : comp) : Prop :=
  0 <= a /\ 0 <= b /\ m_qty m == a + b /\
  forall n, mass_of m n == a * (cget n c1 / csum c1) + b * (cget n c2 / csum c2).
