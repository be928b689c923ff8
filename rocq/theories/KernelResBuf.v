(** Model of cyclus::toolkit::ResBuf<Material> (assumed contract of the
    kernel; see DESIGN.md section 1).  A buffer has a capacity and a FIFO
    list of parcels, oldest first.  [eps] is cyclus::eps_rsrc(). *)
From Verif Require Import Outcome KernelMaterial.
Local Open Scope Q_scope.

(** A ResBuf with a capacity, e.g. fresh, core and spent, /repo/src/reactor.h:441-446. *)
Record resbuf := RB { rb_cap : Q; rb_items : list mat }.

(** Total quantity of a list of parcels. ResBuf::quantity, /repo/src/conversion.cc:85, 90. *)
Definition qty_of (ms : list mat) : Q := qsum (map m_qty ms).

(** Mass of nuclide [n] in a list of parcels. Sum of MatQuery::mass, /repo/src/enrichment.cc:107,
    over a ResBuf. *)
Definition mass_in (n : Z) (ms : list mat) : Q := qsum (map (fun m => mass_of m n) ms).

(** ResBuf::quantity.  Called at /repo/src/storage.cc:10. *)
Definition rb_qty (b : resbuf) : Q := qty_of (rb_items b).

(** ResBuf::count.  Called at /repo/src/reactor.cc:116, 211. *)
Definition rb_count (b : resbuf) : Z := zlen (rb_items b).

(** ResBuf::space.  Called at /repo/src/reactor.cc:146. *)
Definition rb_space (b : resbuf) : Q := Qmax 0 (rb_cap b - rb_qty b).

(** ResBuf::Push(T::Ptr); the capacity check of the non-bulk buffer. Simplification: the
    duplicate-object check is not modelled. Called at /repo/src/reactor.cc:147, 293-295. *)
Definition rb_push (eps : Q) (b : resbuf) (m : mat) : outcome resbuf :=
  if Qltb eps (m_qty m - rb_space b) then Throw ValueError
  else Ok {| rb_cap := rb_cap b; rb_items := rb_items b ++ [m] |}.

(** ResBuf::Push(std::vector<B>).  Called at /repo/src/reactor.cc:414, 432, 458. *)
Definition rb_pushv (eps : Q) (b : resbuf) (ms : list mat) : outcome resbuf :=
  if Qltb eps (qty_of ms - rb_space b) then Throw ValueError
  else Ok {| rb_cap := rb_cap b; rb_items := rb_items b ++ ms |}.

(** ResBuf::PopN(int n).  Called at /repo/src/reactor.cc:395, 413, 432, 458, 513. *)
Definition rb_popn (b : resbuf) (n : Z) : outcome (list mat * resbuf) :=
  if (Z.ltb n 0 || Z.ltb (rb_count b) n)%bool then Throw ValueError
  else Ok (firstn (Z.to_nat n) (rb_items b),
           {| rb_cap := rb_cap b; rb_items := skipn (Z.to_nat n) (rb_items b) |}).

(** ResBuf::Pop().  Called at /repo/src/reactor.cc:147. *)
Definition rb_pop (b : resbuf) : outcome (mat * resbuf) :=
  match rb_items b with
  | [] => Throw ValueError
  | m :: ms => Ok (m, {| rb_cap := rb_cap b; rb_items := ms |})
  end.

(** The loop of ResBuf::Pop(double): take parcels from the front until [left] is covered,
    splitting the last one. Returns (taken, remaining). Called through Pop at
    /repo/src/source.cc:147, /repo/src/conversion.cc:91. *)
Fixpoint take_qty (left : Q) (ms : list mat) : list mat * list mat :=
  match ms with
  | [] => ([], [])
  | m :: ms' =>
      if Qle_bool left 0 then ([], ms)
      else if Qltb left (m_qty m) then
        ([{| m_id := m_id m; m_qty := left; m_comp := m_comp m |}],
         {| m_id := m_id m; m_qty := m_qty m - left; m_comp := m_comp m |} :: ms')
      else let '(a, b) := take_qty (left - m_qty m) ms' in (m :: a, b)
  end.

(** ResBuf::Pop(double qty) on the parcels of a buffer: throws when [qty]
    exceeds the content; popping nothing yields no material ([ZeroPop], see
    /repo/src/fuel_fab.cc:464 and 474 "this if block prevents zero qty ResBuf
    pop exceptions").  Simplification: cyclus does not split a parcel that
    exceeds what is left by less than eps_rsrc(). *)
Definition items_pop_qty (ms : list mat) (q : Q) : outcome (mat * list mat) :=
  if Qltb (qty_of ms) q then Throw ValueError
  else
    let '(a, r) := take_qty q ms in
    let* m := squash a in
    Ok (m, r).

(** ResBuf::Pop(double qty, double tol) on the parcels of a buffer: as Pop(qty), but a [qty] above
    the content by no more than [tol] pops everything. Called at /repo/src/separations.cc:106,
    /repo/src/mixer.cc:114-117, /repo/src/enrichment.cc:273, 371, 388. *)
Definition items_pop_tol (ms : list mat) (q tol : Q) : outcome (mat * list mat) :=
  if Qltb (qty_of ms + tol) q then Throw ValueError
  else if Qle_bool (qty_of ms) q then
    let* m := squash ms in Ok (m, [])
  else items_pop_qty ms q.
