(** Vocabulary for C116: preferences given by the user, and those in force after start-up. *)
From Verif Require Import Outcome.

(** None given, or one for each commodity. *)
Definition fits (given : list Q) (commods : list string) : Prop := given = [] \/ List.length given = List.length commods.
(** The preferences in force: 1 for each commodity if none are given, else those given. *)
Definition settled (given : list Q) (commods : list string) (used : list Q) : Prop :=
  (given = [] -> used = repeat 1%Q (List.length commods)) /\ (given <> [] -> used = given).
