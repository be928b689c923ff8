(** ResBufs whose capacity may be the default (infinite) one, and Push of
    resources into them (assumed contract of cyclus::toolkit::ResBuf, see
    DESIGN.md section 1).  [eps] is cyclus::eps_rsrc(). *)
From Verif Require Import Outcome KernelMaterial KernelResBuf.
Local Open Scope Q_scope.

(** A buffer: capacity ([None] = infinity, the default of a ResBuf) and the
    parcels, oldest first.  Used for the members of /repo/src/separations.h:149-212. *)
Record buf := { b_cap : option Q; b_items : list mat }.

(** ResBuf::quantity, called at /repo/src/mixer.cc:97, 103, /repo/src/enrichment.cc:180-182. *)
Definition b_qty (b : buf) : Q := qty_of (b_items b).
(** ResBuf::count, called at /repo/src/fuel_fab.cc:266-272, /repo/src/separations.cc:102. *)
Definition b_count (b : buf) : nat := List.length (b_items b).

(** ResBuf::space; [None] is infinity. Called at /repo/src/mixer.cc:98,
    /repo/src/separations.cc:117, /repo/src/fuel_fab.cc:174. *)
Definition b_space (b : buf) : option Q :=
  match b_cap b with
  | None => None
  | Some c => Some (Qmax 0 (c - b_qty b))
  end.

(** Does a quantity fit (up to the tolerance) into the space left?. The check of ResBuf::Push,
    called at /repo/src/separations.cc:133. *)
Definition b_fits (eps : Q) (b : buf) (q : Q) : bool :=
  match b_space b with
  | None => true
  | Some sp => Qle_bool (q - sp) eps
  end.

(** ResBuf::Push(T::Ptr), called at /repo/src/enrichment.cc:372, 404, /repo/src/separations.cc:133: the
    capacity check throws ValueError.  Simplification: the duplicate-object check is not modelled. *)
Definition b_push (eps : Q) (b : buf) (m : mat) : outcome buf :=
  if b_fits eps b (m_qty m) then Ok {| b_cap := b_cap b; b_items := b_items b ++ [m] |}
  else Throw ValueError.
(** ResBuf::Push(std::vector), called at /repo/src/enrichment.cc:192,
    /repo/src/separations.cc:287; likewise. *)
Definition b_pushv (eps : Q) (b : buf) (ms : list mat) : outcome buf :=
  if b_fits eps b (qty_of ms) then Ok {| b_cap := b_cap b; b_items := b_items b ++ ms |}
  else Throw ValueError.

(** ResBuf::Pop(double), called at /repo/src/source.cc:147, see KernelResBuf.v. *)
Definition b_pop_qty (b : buf) (q : Q) : outcome (mat * buf) :=
  let* '(m, r) := items_pop_qty (b_items b) q in
  Ok (m, {| b_cap := b_cap b; b_items := r |}).
(** ResBuf::Pop(double, tolerance), called at /repo/src/separations.cc:106,
    /repo/src/enrichment.cc:273, see KernelResBuf.v. *)
Definition b_pop_tol (b : buf) (q tol : Q) : outcome (mat * buf) :=
  let* '(m, r) := items_pop_tol (b_items b) q tol in
  Ok (m, {| b_cap := b_cap b; b_items := r |}).

(** Material::ExtractQty is [extract_qty] of KernelMaterial.v. *)

(** std::map<std::string, ResBuf>: [m[k]] creates an empty buffer with the default capacity when
    [k] is absent. Simplification: a new entry goes to the end (the order only determines the
    order of the bid portfolios, which are put into a std::set of pointers anyway). Used at
    /repo/src/separations.h:149-212 (streambufs). *)
Definition bmap := list (string * buf).
(** A default-constructed ResBuf, e.g. /repo/src/separations.cc:59 (operator[]). *)
Definition new_buf : buf := {| b_cap := None; b_items := [] |}.
(** Looking up a buffer by name, /repo/src/separations.cc:117, 247. *)
Fixpoint bm_find (k : string) (m : bmap) : option buf :=
  match m with
  | [] => None
  | (k', b) :: m' => if String.eqb k' k then Some b else bm_find k m'
  end.
(** operator[] read, /repo/src/separations.cc:117, 131-137. *)
Definition bm_get (k : string) (m : bmap) : buf :=
  match bm_find k m with Some b => b | None => new_buf end.
(** operator[] written, /repo/src/separations.cc:59, 131-133. *)
Fixpoint bm_set (k : string) (b : buf) (m : bmap) : bmap :=
  match m with
  | [] => [(k, b)]
  | (k', b') :: m' => if String.eqb k' k then (k', b) :: m' else (k', b') :: bm_set k b m'
  end.

(** The nuclides of a material: the keys of Composition::mass(). Iterated at
    /repo/src/separations.cc:166-186. *)
Definition nuclides (m : mat) : list Z := ckeys (m_comp m).
