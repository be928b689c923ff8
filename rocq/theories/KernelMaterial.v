(** Model of the parts of cyclus::Material, cyclus::Composition and
    cyclus::compmath that cycamore calls.  The Cyclus kernel is not part of
    /repo (it is the external dependency included by /repo/src/*.h as
    "cyclus.h"); these definitions are the assumed contract of that library
    and belong to the trusted base (DESIGN.md section 1). *)
From Verif Require Import Outcome.
Local Open Scope Q_scope.

(** cyclus::CompMap (std::map<Nuc,double>), as an association list.  Used
    e.g. at /repo/src/separations.cc:161-190.  Nuclides are pyne ids (Z). *)
Definition comp := list (Z * Q).

(** Amount recorded for nuclide [n] ([0] when absent). Reading a CompMap, e.g.
    /repo/src/separations.cc:161-190, /repo/src/enrichment.cc:107. *)
Fixpoint cget (n : Z) (c : comp) : Q :=
  match c with
  | [] => 0
  | (k, v) :: c' => (if Z.eqb k n then v else 0) + cget n c'
  end.

(** compmath::Sum.  Part of compmath::Normalize, called at /repo/src/fuel_fab.cc:515. *)
Definition csum (c : comp) : Q := qsum (map snd c).

(** Multiply every entry by [k]. Part of compmath::Normalize, called at /repo/src/fuel_fab.cc:515. *)
Definition cscale (k : Q) (c : comp) : comp := map (fun e => (fst e, k * snd e)) c.

(** compmath::Normalize(&v, val): scale so that the entries sum to [val];
    nothing happens when the entries sum to zero. Called at /repo/src/fuel_fab.cc:515, 688-689. *)
Definition cnorm (val : Q) (c : comp) : comp :=
  if Qeq_bool (csum c) 0 then c else cscale (val / csum c) c.

(** The keys of a map, without repetition. Iterating over a CompMap,
    /repo/src/separations.cc:166-186. *)
Definition ckeys (c : comp) : list Z := nodup Z.eq_dec (map fst c).

(** Merge repeated keys (a std::map has one entry per key). Filled at
    /repo/src/separations.cc:161-190. *)
Definition ccanon (c : comp) : comp := map (fun n => (n, cget n c)) (ckeys c).

(** compmath::Add.  Part of Material::Absorb, called at /repo/src/mixer.cc:118. *)
Definition cadd (a b : comp) : comp := ccanon (a ++ b).

(** compmath::Sub.  Part of Material::ExtractComp, called at /repo/src/separations.cc:133. *)
Definition csub (a b : comp) : comp := ccanon (a ++ cscale (-(1)) b).

(** compmath::ApplyThreshold(&v, thr): entries below [thr] in magnitude become zero. Part of
    Material::ExtractComp, called at /repo/src/separations.cc:133. *)
Definition cthreshold (thr : Q) (c : comp) : comp :=
  map (fun e => (fst e, if Qltb (Qabs (snd e)) thr then 0 else snd e)) c.

(** compmath::AllPositive. Part of Composition::CreateFromMass, called at
    /repo/src/separations.cc:188. *)
Definition all_nonneg (c : comp) : bool := forallb (fun e => Qle_bool 0 (snd e)) c.

(** A material object: object id, quantity (kg) and (unnormalised) mass composition. Decay and
    packaging are not modelled. Used throughout, e.g. /repo/src/reactor.cc:395-407. *)
Record mat := Mat { m_id : Z; m_qty : Q; m_comp : comp }.

(** Mass (kg) of nuclide [n] in a material (MatQuery::mass). Called at
    /repo/src/separations.cc:170-184 and /repo/src/enrichment.cc:107, 144. *)
Definition mass_of (m : mat) (n : Z) : Q := cget n (cnorm (m_qty m) (m_comp m)).

(** A sane material object: Material and Composition are only ever created with non-negative
    quantities and compositions, and a material that has mass has a non-empty composition (cyclus
    Material::Create and Composition::CreateFromMass). Materials are created at
    /repo/src/source.cc:58-73, /repo/src/enrichment.cc:47-49. *)
Definition mat_ok (m : mat) : Prop :=
  0 <= m_qty m /\ Forall (fun e => 0 <= snd e) (m_comp m) /\
  (0 < csum (m_comp m) \/ m_qty m == 0).

(** Material::Transmute(comp): replaces the composition, keeps identity and quantity.
    Called at /repo/src/reactor.cc:407. *)
Definition transmute (m : mat) (c : comp) : mat :=
  {| m_id := m_id m; m_qty := m_qty m; m_comp := c |}.

(** Material::Absorb: [a] absorbs [b].
    Called e.g. at /repo/src/mixer.cc:118, /repo/src/fuel_fab.cc:466. *)
Definition absorb (a b : mat) : mat :=
  {| m_id := m_id a;
     m_qty := m_qty a + m_qty b;
     m_comp := cadd (cnorm (m_qty a) (m_comp a)) (cnorm (m_qty b) (m_comp b)) |}.

(** Material::ExtractQty(q): split off [q] kg of the same composition. The result is (extracted,
    remainder). Simplification: both parts keep the object id (ids are only used by Reactor, which
    never splits). Called (through ResBuf::Pop) at /repo/src/source.cc:147. *)
Definition extract_qty (q : Q) (m : mat) : outcome (mat * mat) :=
  if Qltb (m_qty m) q then Throw ValueError
  else Ok ({| m_id := m_id m; m_qty := q; m_comp := m_comp m |},
           {| m_id := m_id m; m_qty := m_qty m - q; m_comp := m_comp m |}).

(** Material::ExtractComp(q, c, thr): split off [q] kg of composition [c];
    the remainder's composition is the difference, with entries below [thr]
    (kg) dropped.  Composition::CreateFromMass rejects negative amounts.
    Called at /repo/src/separations.cc:133 and /repo/src/enrichment.cc:403. *)
Definition extract_comp (thr q : Q) (c : comp) (m : mat) : outcome (mat * mat) :=
  if Qltb (m_qty m) q then Throw ValueError
  else
    let newv := cthreshold thr (csub (cnorm (m_qty m) (m_comp m)) (cnorm q c)) in
    if all_nonneg newv then
      Ok ({| m_id := m_id m; m_qty := q; m_comp := c |},
          {| m_id := m_id m; m_qty := m_qty m - q; m_comp := newv |})
    else Throw ValueError.

(** cyclus::toolkit::Squash: absorb all materials into the first one. Called at
    /repo/src/enrichment.cc:386, /repo/src/fuel_fab.cc:267-273 (and by ResBuf::Pop). *)
Definition squash (ms : list mat) : outcome mat :=
  match ms with
  | [] => Throw ZeroPop
  | m :: ms' => Ok (fold_left absorb ms' m)
  end.
