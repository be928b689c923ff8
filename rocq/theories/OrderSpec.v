(** Vocabulary for the independence of the order of trades (C123). *)
From Verif Require Import Outcome KernelMaterial KernelResBuf.
Local Open Scope Q_scope.

(** The same parcel: same object, same amount, same composition. *)
Definition same_parcel (m m' : mat) : Prop := m_id m = m_id m' /\ m_qty m == m_qty m' /\ m_comp m = m_comp m'.
(** The same stock: the same parcels in the same order. *)
Definition same_stock (l l' : list mat) : Prop := Forall2 same_parcel l l'.
(** The same content: the same amount of everything, however it is divided into parcels. *)
Definition same_content (l l' : list mat) : Prop := qty_of l == qty_of l' /\ forall n, mass_in n l == mass_in n l'.
(** What is left of a stock after some amount was taken from its front. *)
Definition left_over (q : Q) (l : list mat) : list mat := snd (take_qty q l).
(** A place for [n] assemblies of size [a], holding at most that many. *)
Definition rack (n : Z) (a : Q) (b : resbuf) : Prop :=
  rb_cap b == inject_Z n * a /\ Forall (fun m => m_qty m == a) (rb_items b) /\ (rb_count b <= n)%Z.
