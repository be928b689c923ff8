(** Proofs for C116. *)
From Coq Require Import Lia.
From Verif Require Import Outcome KernelMaterial KernelResBuf ReactorModel StorageModel SeparationsModel FuelFabModel SinkModel PreferenceSpec.

Lemma ones {A} (l : list A) : map (fun _ => 1%Q) l = repeat 1%Q (List.length l).
Proof. induction l as [|x l IH]; [reflexivity|]. cbn [map List.length repeat]. rewrite IH. reflexivity. Qed.
Lemma settled_none commods used : settled [] commods used <-> used = repeat 1%Q (List.length commods).
Proof. split; [intros [H _]; apply H; reflexivity|]. intro H. split; [intros _; exact H|]. intro N. contradiction N. reflexivity. Qed.
Lemma settled_some p given commods used : settled (p :: given) commods used <-> used = p :: given.
Proof. split; [intros [_ H]; apply H; discriminate|]. intro H. split; [discriminate|]. intros _. exact H. Qed.
Lemma ff_prefs_iff commods given used : ff_prefs commods given = Ok used <-> fits given commods /\ settled given commods used.
Proof.
  unfold ff_prefs, fits. destruct given as [|p given].
  - rewrite settled_none, ones. split; [intro H; injection H as <-; split; [left|]; reflexivity|]. intros [_ ->]. reflexivity.
  - rewrite settled_some. destruct (Nat.eqb_spec (List.length (p :: given)) (List.length commods)) as [E|E].
    + split; [intro H; injection H as <-; split; [right; exact E|reflexivity]|]. intros [_ ->]. reflexivity.
    + split; [discriminate|]. intros [[H|H] _]; [discriminate|contradiction].
Qed.
Lemma fuel_fab_final cfg fiss fill : ff_enter cfg = Ok (fiss, fill) <->
  (fits (fc_fiss_prefs cfg) (fc_fiss_commods cfg) /\ settled (fc_fiss_prefs cfg) (fc_fiss_commods cfg) fiss) /\
  (fits (fc_fill_prefs cfg) (fc_fill_commods cfg) /\ settled (fc_fill_prefs cfg) (fc_fill_commods cfg) fill).
Proof.
  rewrite <- !ff_prefs_iff. unfold ff_enter. destruct (ff_prefs (fc_fiss_commods cfg) _) as [a|x|x|]; cbn [bind].
  - destruct (ff_prefs (fc_fill_commods cfg) _) as [b|x|x|]; cbn [bind]; split; try discriminate; try (intros [_ H]; discriminate).
    + intro H. injection H as <- <-. split; reflexivity.
    + intros [H1 H2]. injection H1 as <-. injection H2 as <-. reflexivity.
  - split; [discriminate|]. intros [H _]. discriminate.
  - split; [discriminate|]. intros [H _]. discriminate.
  - split; [discriminate|]. intros [H _]. discriminate.
Qed.
Lemma sink_final cfg g t s : (forall s1, sk_enter cfg g t s = Ok s1 -> fits (ks_prefs s) (kc_commods cfg) /\ settled (ks_prefs s) (kc_commods cfg) (ks_prefs s1)) /\
  (fits (ks_prefs s) (kc_commods cfg) -> exists s1, sk_enter cfg g t s = Ok s1) /\
  (~ fits (ks_prefs s) (kc_commods cfg) -> sk_enter cfg g t s = Throw ValueError).
Proof.
  unfold sk_enter, fits. destruct (ks_prefs s) as [|p given].
  - cbn [bind]. split; [|split].
    + intros s1 H. injection H as <-. cbn [ks_prefs]. split; [left; reflexivity|]. apply settled_none, ones.
    + intros _. eexists. reflexivity.
    + intro N. contradiction N. left. reflexivity.
  - destruct (Nat.eqb_spec (List.length (p :: given)) (List.length (kc_commods cfg))) as [E|E]; cbn [bind]; (split; [|split]).
    + intros s1 H. injection H as <-. cbn [ks_prefs]. split; [right; exact E|]. apply settled_some. reflexivity.
    + intros _. eexists. reflexivity.
    + intro N. contradiction N. right. exact E.
    + discriminate.
    + intros [H|H]; [discriminate|contradiction].
    + reflexivity.
Qed.
Lemma storage_final recipe package unit cfg en : st_enter recipe package unit cfg = Ok en ->
  fits (sc_in_prefs cfg) (sc_in_commods cfg) /\ settled (sc_in_prefs cfg) (sc_in_commods cfg) (map snd (en_buys en)) /\
  map fst (en_buys en) = sc_in_commods cfg.
Proof.
  unfold st_enter. match goal with |- bind ?a _ = _ -> _ => destruct a as [pol|x|x|] end; cbn [bind]; try discriminate.
  match goal with |- bind ?a _ = _ -> _ => destruct a as [c|x|x|] end; cbn [bind]; try discriminate.
  assert (X : forall prefs, (if Nat.eqb (List.length (sc_in_prefs cfg)) 0 then Ok (map (fun _ => StorageModel.default_pref) (sc_in_commods cfg))
     else if Nat.eqb (List.length (sc_in_prefs cfg)) (List.length (sc_in_commods cfg)) then Ok (sc_in_prefs cfg) else Throw ValueError) = Ok prefs ->
     fits (sc_in_prefs cfg) (sc_in_commods cfg) /\ settled (sc_in_prefs cfg) (sc_in_commods cfg) prefs /\ List.length prefs = List.length (sc_in_commods cfg)).
  { intros prefs. unfold fits. destruct (sc_in_prefs cfg) as [|p given].
    - cbn [List.length Nat.eqb]. intro H. injection H as <-. split; [left; reflexivity|]. split; [apply settled_none, ones|apply map_length].
    - cbn [List.length Nat.eqb]. destruct (List.length (sc_in_commods cfg)) as [|n] eqn:L; [discriminate|].
      destruct (Nat.eqb_spec (List.length given) n) as [E|E]; [|discriminate]. intro H. injection H as <-. cbn [List.length].
      split; [right; rewrite E; reflexivity|]. split; [apply settled_some; reflexivity|rewrite E; reflexivity]. }
  match goal with |- bind ?a _ = _ -> _ => destruct a as [prefs|x|x|] end; cbn [bind]; try discriminate.
  destruct (X prefs eq_refl) as (F & S & L). destruct (negb (package _)); [discriminate|]. destruct (negb (unit _)); [discriminate|].
  destruct (sc_out_commods cfg) as [|o [|o2 l]]; try discriminate. intro H. injection H as <-. cbn [en_buys].
  assert (C : forall (a : list string) (b : list Q), List.length b = List.length a -> map snd (combine a b) = b /\ map fst (combine a b) = a).
  { induction a as [|y a IH]; intros [|z b] E; try discriminate; [split; reflexivity|]. injection E as E. destruct (IH b E) as [P1 P2]. cbn [combine map fst snd]. rewrite P1, P2. split; reflexivity. }
  destruct (C _ _ L) as [C1 C2]. rewrite C1, C2. split; [exact F|]. split; [exact S|reflexivity].
Qed.
Lemma storage_wrong_final recipe package unit cfg : ~ fits (sc_in_prefs cfg) (sc_in_commods cfg) -> forall en, st_enter recipe package unit cfg <> Ok en.
Proof. intros N en H. apply N. apply (storage_final recipe package unit cfg en H). Qed.
Lemma reactor_final cfg s s1 : enter_notify cfg s = Ok s1 -> settled (prefs s) (outcommods cfg) (prefs s1) /\ inrecipes s1 = inrecipes s /\ outrecipes s1 = outrecipes s.
Proof.
  unfold enter_notify. destruct (_ && _)%bool; [|discriminate]. intro H. injection H as <-.
  destruct (prefs s) as [|p l] eqn:P, (side_products cfg); cbn; rewrite ?P; (split; [|split; reflexivity]);
    first [apply settled_none; unfold default_pref; apply ones|apply settled_some; reflexivity].
Qed.
