(** Outcomes of modelled C++ calls, and small helpers on rationals.

    A modelled member function returns one of
    - [Ok a]     : normal return;
    - [Throw e]  : a C++ exception of the given class leaves the function;
    - [UB u]     : the C++ program has undefined behaviour here;
    - [Diverge]  : the C++ loop does not terminate.  *)
From Coq Require Export List ZArith QArith Qabs Qminmax Qround String Bool.
Export ListNotations.
Close Scope string_scope.
Close Scope Q_scope.

(** Exception classes of cyclus (error.h) that the modelled code throws. [ZeroPop] is the failure
    of popping nothing from a ResBuf, see KernelResBuf.v. Thrown e.g. at
    /repo/src/deploy_inst.cc:53 (ValueError), /repo/src/reactor.cc:508 (ValueError),
    /repo/src/growth_region.cc:153 (CastError); KeyError comes from the kernel (GetRecipe,
    CreateAgent), e.g. /repo/src/enrichment.cc:49. *)
Inductive error := ValueError | KeyError | StateError | CastError | ZeroPop.

(** Kinds of undefined behaviour that the modelled code can reach. Places where the code can reach
    them: vectors indexed at /repo/src/reactor.cc:237 and /repo/src/separations.cc:225, back() at
    /repo/src/reactor.cc:267, front() at /repo/src/storage.cc:41, std::sort at
    /repo/src/enrichment.cc:131, conversion at /repo/src/reactor.cc:221, members without a value
    at /repo/src/enrichment.cc:406-409, arithmetic of ints at /repo/src/reactor.cc:206-219. *)
Inductive ubkind :=
| OutOfBounds      (* std::vector operator[] outside [0,size) *)
| BackOfEmpty      (* back()/front() on an empty container *)
| NullDeref        (* dereference of a null smart pointer *)
| BadComparator    (* std::sort with a comparator that is no strict weak order *)
| FloatToInt       (* conversion of a non-finite double to int *)
| Uninitialised    (* read of an indeterminate value *)
| IntOverflow.     (* result of an operation on ints outside 32 bits *)

(** The outcome of any modelled call of /repo/src/*.cc. *)
Inductive outcome (A : Type) :=
| Ok (a : A)
| Throw (e : error)
| UB (u : ubkind)
| Diverge.
Arguments Ok {A} a.
Arguments Throw {A} e.
Arguments UB {A} u.
Arguments Diverge {A}.

(** Sequencing of two C++ statements (every function of /repo/src/*.cc): an exception or undefined
    behaviour ends the sequence. *)
Definition bind {A B} (o : outcome A) (f : A -> outcome B) : outcome B :=
  match o with
  | Ok a => f a
  | Throw e => Throw e
  | UB u => UB u
  | Diverge => Diverge
  end.

Notation "'let*' x ':=' a 'in' b" := (bind a (fun x => b))
  (at level 200, x name, a at level 100, b at level 200, right associativity).
Notation "'let*' ' p ':=' a 'in' b" := (bind a (fun p => b))
  (at level 200, p strict pattern, a at level 100, b at level 200, right associativity).

(** std::vector operator[]: undefined outside the bounds. E.g. /repo/src/reactor.cc:171,
    /repo/src/sink.cc:126. *)
Definition vec_at {A} (v : list A) (i : nat) : outcome A :=
  match nth_error v i with
  | Some a => Ok a
  | None => UB OutOfBounds
  end.

(** Assignment [v[i] = a] through std::vector operator[]. E.g. /repo/src/reactor.cc:179, 195-196. *)
Fixpoint vec_set {A} (v : list A) (i : nat) (a : A) : outcome (list A) :=
  match v, i with
  | [], _ => UB OutOfBounds
  | _ :: v', O => Ok (a :: v')
  | x :: v', S i' => let* v'' := vec_set v' i' a in Ok (x :: v'')
  end.

(** Left-to-right loop over a vector, threading a state. E.g. /repo/src/reactor.cc:170-183,
    /repo/src/mixer.cc:109-121. *)
Fixpoint loop {A S} (f : S -> A -> outcome S) (l : list A) (s : S) : outcome S :=
  match l with
  | [] => Ok s
  | x :: l' => let* s' := f s x in loop f l' s'
  end.

(** Boolean strict comparison of rationals (C++ [a < b] on doubles). E.g. /repo/src/conversion.cc:90. *)
Definition Qltb (a b : Q) : bool := negb (Qle_bool b a).

(** Sum of a list of rationals. E.g. /repo/src/reactor.cc:438-442. *)
Definition qsum (l : list Q) : Q := fold_right Qplus (0%Q) l.

(** Number of elements as a C++ int. E.g. /repo/src/deploy_inst.cc:48. *)
Definition zlen {A} (l : list A) : Z := Z.of_nat (List.length l).

(** std::max_element: index of the first maximum (0 for an empty range, where
    std::distance(begin, end) is 0).  Used at /repo/src/reactor.cc:244-246 and
    /repo/src/storage.cc:181-183. *)
Fixpoint max_index_from (best : Q) (bi i : nat) (l : list Q) : nat :=
  match l with
  | [] => bi
  | x :: l' => if Qltb best x then max_index_from x i (S i) l'
               else max_index_from best bi (S i) l'
  end.
(** The index found at /repo/src/reactor.cc:244-246 and /repo/src/storage.cc:181-183. *)
Definition max_index (l : list Q) : nat :=
  match l with [] => O | x :: l' => max_index_from x O 1%nat l' end.
