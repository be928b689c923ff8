(** Proofs about DeployInst and ManagerInst. *)
From Coq Require Import Lia Ascii String DecimalString DecimalZ DecimalFacts Decimal.
From Verif Require Import Outcome KernelFacts InstModel InstSpec.
Local Open Scope Q_scope.

(** ** Derived prototype names *)
Definition us : ascii := "_"%char.
Fixpoint has_us (s : string) : bool := match s with EmptyString => false | String c s' => (Ascii.eqb c us || has_us s')%bool end.
(** What follows the last underscore. *)
Fixpoint tail_us (s : string) : string :=
  match s with EmptyString => EmptyString | String c s' => if has_us s' then tail_us s' else if Ascii.eqb c us then s' else String c s' end.
Lemma has_us_app a b : has_us (a ++ b) = (has_us a || has_us b)%bool.
Proof. induction a as [|c a IH]; cbn; [reflexivity|]. rewrite IH, Bool.orb_assoc. reflexivity. Qed.
Lemma tail_us_app p s : has_us s = false -> tail_us (p ++ String us s) = s.
Proof.
  intro H. induction p as [|c p IH]; cbn [append tail_us].
  - rewrite H. reflexivity.
  - rewrite has_us_app. cbn [has_us]. rewrite Ascii.eqb_refl, Bool.orb_true_r. exact IH.
Qed.
Lemma uint_no_us d : has_us (NilEmpty.string_of_uint d) = false.
Proof. induction d; cbn; auto. Qed.
Lemma decimal_no_us z : has_us (decimal z) = false.
Proof.
  unfold decimal, NilZero.string_of_int, NilZero.string_of_uint. destruct (Z.to_int z) as [d|d]; destruct d; cbn; auto; apply uint_no_us.
Qed.
Lemma decimal_inj a b : decimal a = decimal b -> a = b.
Proof.
  unfold decimal. intro H.
  assert (N : forall z, Z.to_int z <> Pos Nil /\ Z.to_int z <> Neg Nil).
  { intro z. destruct z; cbn; split; try discriminate; intro E; injection E as E; exact (DecimalPos.Unsigned.to_uint_nonnil _ E). }
  pose proof (NilZero.isi (Z.to_int a) (proj1 (N a)) (proj2 (N a))) as A.
  pose proof (NilZero.isi (Z.to_int b) (proj1 (N b)) (proj2 (N b))) as B.
  rewrite H, B in A. injection A as A. apply DecimalZ.to_int_inj. symmetry. exact A.
Qed.
Lemma decimal_not_forever z : decimal z <> "forever"%string.
Proof.
  unfold decimal, NilZero.string_of_int, NilZero.string_of_uint. destruct (Z.to_int z) as [d|d]; destruct d; cbn; discriminate.
Qed.
Definition suffix (l : Z) : string := if Z.eqb l (-1) then "forever"%string else decimal l.
Lemma suffix_no_us l : has_us (suffix l) = false.
Proof. unfold suffix. destruct (Z.eqb l (-1)); [reflexivity|apply decimal_no_us]. Qed.
Lemma append_assoc (a b c : string) : ((a ++ b) ++ c = a ++ (b ++ c))%string.
Proof. induction a as [|x a IH]; cbn; [reflexivity|]. rewrite IH. reflexivity. Qed.
Lemma append_length (a b : string) : String.length (a ++ b) = (String.length a + String.length b)%nat.
Proof. induction a as [|x a IH]; cbn; [reflexivity|]. rewrite IH. reflexivity. Qed.
Lemma append_inj_r (a b s : string) : (a ++ s = b ++ s -> a = b)%string.
Proof.
  revert b. induction a as [|x a IH]; intros [|y b] H; cbn in H; auto.
  - exfalso. assert (L := f_equal String.length H). cbn in L. rewrite append_length in L. lia.
  - exfalso. assert (L := f_equal String.length H). cbn in L. rewrite append_length in L. lia.
  - injection H as -> H. f_equal. apply IH, H.
Qed.
Lemma life_name_inj p1 l1 p2 l2 : life_name p1 l1 = life_name p2 l2 -> p1 = p2 /\ l1 = l2.
Proof.
  unfold life_name. fold (suffix l1) (suffix l2). intro H.
  assert (E : forall p l, (p ++ "_life_" ++ suffix l = (p ++ "_life") ++ String us (suffix l))%string) by (intros; rewrite append_assoc; reflexivity).
  rewrite !E in H. assert (S : suffix l1 = suffix l2).
  { rewrite <- (tail_us_app (p1 ++ "_life") (suffix l1) (suffix_no_us l1)), H. apply tail_us_app, suffix_no_us. }
  rewrite S in H. apply append_inj_r in H. apply append_inj_r in H. split; [exact H|].
  unfold suffix in S. destruct (Z.eqb_spec l1 (-1)), (Z.eqb_spec l2 (-1)); try congruence.
  - symmetry in S. destruct (decimal_not_forever _ S).
  - destruct (decimal_not_forever _ S).
  - apply decimal_inj, S.
Qed.

(** The specification's name is the model's. *)
Lemma life_name_spec p l : life_name p l = derived_name p l.
Proof. reflexivity. Qed.
Lemma derived_name_inj p1 l1 p2 l2 : derived_name p1 l1 = derived_name p2 l2 -> p1 = p2 /\ l1 = l2.
Proof. rewrite <- !life_name_spec. apply life_name_inj. Qed.

(** ** The deployment schedule *)
Definition extends (r1 r2 : registry) : Prop := forall n a, lookup r1 n = Some a -> lookup r2 n = Some a.
(** What a registry may hold beyond the original one. *)
Definition derived (reg0 reg : registry) : Prop := extends reg0 reg /\
  forall n a, lookup reg n = Some a -> lookup reg0 n = Some a \/ exists p l q, lookup reg0 p = Some q /\ n = derived_name p l /\ a = with_life q l.
Lemma extends_refl r : extends r r.
Proof. intros n a H. exact H. Qed.
Lemma extends_trans a b c : extends a b -> extends b c -> extends a c.
Proof. intros H G n x E. apply G, H, E. Qed.
Lemma lookup_cons n p reg m : lookup ((n, p) :: reg) m = if String.eqb n m then Some p else lookup reg m.
Proof. reflexivity. Qed.

Section ENTRY.
Variables (strict : bool) (now : Z) (cfg : di_cfg) (reg0 : registry).
Hypotheses (Hcons : consistent cfg).
Definition st_ok (base : registry) (st : di_st) : Prop :=
  derived reg0 (dt_reg st) /\ extends base (dt_reg st) /\
  Forall (fun n => lookup (dt_reg st) n <> None) (dt_names st) /\
  (strict = true -> forall n, lookup (dt_reg st) n <> None -> lookup reg0 n <> None \/ In n (dt_names st)).

Lemma name_step base st i : st_ok base st -> (i < List.length (di_protos cfg))%nat ->
  lookup reg0 (en_proto (entry_at cfg i)) <> None ->
  match en_life (entry_at cfg i) with Some l => lookup reg0 (derived_name (en_proto (entry_at cfg i)) l) = None | None => True end ->
  exists nm st1, di_name strict cfg st i = Ok (nm, st1) /\ st_ok base st1 /\ extends (dt_reg st) (dt_reg st1) /\ dt_sched st1 = dt_sched st /\
    lookup (dt_reg st1) nm = asked reg0 (entry_at cfg i) /\ asked reg0 (entry_at cfg i) <> None.
Proof.
  intros (D & B & NM & SR) L K NC. unfold di_name.
  destruct (vec_at_ok (di_protos cfg) i L) as (p & -> & P). cbn [bind].
  assert (EP : en_proto (entry_at cfg i) = p) by (cbn; apply nth_error_nth, P). rewrite EP in *.
  destruct (lookup reg0 p) as [q|] eqn:LQ; [|congruence].
  pose proof (proj1 D p q LQ) as LP.
  destruct (Nat.eqb_spec (List.length (di_lifes cfg)) (List.length (di_protos cfg))) as [EL|EL].
  - unfold create. rewrite LP. cbn [bind]. destruct (vec_at_ok (di_lifes cfg) i) as (l & -> & Lf); [lia|]. cbn [bind].
    assert (AE : asked reg0 (entry_at cfg i) = Some (with_life q l)).
    { unfold asked. rewrite EP, LQ. cbn [entry_at en_life]. rewrite Lf. reflexivity. }
    cbn [entry_at en_life] in NC. rewrite Lf in NC. rewrite AE. rewrite !life_name_spec.
    destruct (Z.eqb_spec (pr_life q) l) as [EQ|NQ].
    + exists p, st. split; [reflexivity|]. split; [exact (conj D (conj B (conj NM SR)))|]. split; [apply extends_refl|]. split; [reflexivity|].
      split; [|discriminate]. rewrite LP. subst l. destruct q. reflexivity.
    + destruct (existsb (String.eqb (derived_name p l)) (dt_names st)) eqn:EX.
      * apply existsb_exists in EX as (n & In1 & En). apply String.eqb_eq in En. subst n.
        exists (derived_name p l), st. split; [reflexivity|]. split; [exact (conj D (conj B (conj NM SR)))|]. split; [apply extends_refl|]. split; [reflexivity|].
        split; [|discriminate]. rewrite Forall_forall in NM. specialize (NM _ In1).
        destruct (lookup (dt_reg st) (derived_name p l)) as [a|] eqn:LA; [|congruence].
        destruct (proj2 D _ _ LA) as [X|(p' & l' & q' & Q1 & Q2 & Q3)]; [congruence|].
        apply derived_name_inj in Q2 as [<- <-]. congruence.
      * assert (AD : add_proto strict (dt_reg st) (derived_name p l) (with_life q l) = Ok ((derived_name p l, with_life q l) :: dt_reg st)).
        { unfold add_proto. destruct strict eqn:ES; [|reflexivity]. destruct (lookup (dt_reg st) (derived_name p l)) eqn:LA; [|reflexivity].
          exfalso. destruct (SR eq_refl (derived_name p l)) as [X|X]; [congruence|congruence|].
          assert (Y : existsb (String.eqb (derived_name p l)) (dt_names st) = true) by (apply existsb_exists; exists (derived_name p l); split; [exact X|apply String.eqb_refl]). congruence. }
        rewrite AD. cbn [bind]. eexists. eexists. split; [reflexivity|]. cbn [dt_reg dt_names dt_sched].
        assert (EXT : extends (dt_reg st) ((derived_name p l, with_life q l) :: dt_reg st)).
        { intros n a Hn. rewrite lookup_cons. destruct (String.eqb_spec (derived_name p l) n) as [<-|_]; [|exact Hn].
          destruct (proj2 D _ _ Hn) as [X|(p' & l' & q' & Q1 & Q2 & Q3)]; [congruence|]. apply derived_name_inj in Q2 as [<- <-]. congruence. }
        split; [|split; [exact EXT|split; [reflexivity|split; [rewrite lookup_cons, String.eqb_refl; reflexivity|discriminate]]]].
        unfold st_ok. cbn [dt_reg dt_names]. split; [split|split; [|split]].
        -- eapply extends_trans; [apply D|exact EXT].
        -- intros n a Hn. rewrite lookup_cons in Hn. destruct (String.eqb_spec (derived_name p l) n) as [<-|_]; [|apply D, Hn].
           injection Hn as <-. right. exists p, l, q. auto.
        -- eapply extends_trans; [exact B|exact EXT].
        -- constructor; [rewrite lookup_cons, String.eqb_refl; discriminate|]. eapply Forall_impl; [|exact NM].
           intros n Hn. cbn beta in Hn. destruct (lookup (dt_reg st) n) as [a|] eqn:Ln; [|congruence]. rewrite (EXT _ _ Ln). discriminate.
        -- intros ES n Hn. rewrite lookup_cons in Hn. destruct (String.eqb_spec (derived_name p l) n) as [En|_]; [right; left; exact En|].
           destruct (SR ES n Hn) as [X|X]; [left; exact X|right; right; exact X].
  - assert (EN : en_life (entry_at cfg i) = None).
    { cbn. destruct Hcons as (_ & _ & [X|X]); [rewrite X; destruct i; reflexivity|lia]. }
    exists p, st. split; [reflexivity|]. split; [exact (conj D (conj B (conj NM SR)))|]. split; [apply extends_refl|]. split; [reflexivity|].
    unfold asked. rewrite EP, LQ, EN. split; [exact LP|discriminate].
Qed.
Lemma loop_repeat t (nm : string) t' : sched_time now t = Ok t' -> forall l acc,
  loop (fun acc (_ : nat) => let* t' := sched_time now t in Ok (acc ++ [(t', nm)])) l acc = Ok (acc ++ repeat (t', nm) (List.length l)).
Proof.
  intros E. rewrite E. cbn [bind]. induction l as [|x l IH]; intro acc; cbn [loop repeat List.length]; [rewrite app_nil_r; reflexivity|].
  cbn [bind]. rewrite IH, <- app_assoc. reflexivity.
Qed.
Definition part (es : list entry) (t : Z) : list (option proto) :=
  flat_map (fun e => if Z.eqb (when now e) t then repeat (asked reg0 e) (Z.to_nat (en_n e)) else []) es.
Definition resolves (reg : registry) (sched : list (Z * string)) (es : list entry) : Prop :=
  Forall (fun e => lookup reg (snd e) <> None) sched /\
  forall t, map (fun e => lookup reg (snd e)) (filter (fun e => Z.eqb (fst e) t) sched) = part es t.
Lemma resolves_ext r1 r2 sched es : extends r1 r2 -> resolves r1 sched es -> resolves r2 sched es.
Proof.
  intros X [A B]. split.
  - eapply Forall_impl; [|exact A]. intros e He. cbn beta in He. destruct (lookup r1 (snd e)) as [a|] eqn:E; [|congruence]. rewrite (X _ _ E). discriminate.
  - intro t. rewrite <- B. apply map_ext_in. intros e He. apply filter_In in He as [He _]. rewrite Forall_forall in A. specialize (A e He).
    destruct (lookup r1 (snd e)) as [a|] eqn:E; [|congruence]. apply X, E.
Qed.
Lemma filter_repeat {A} (f : A -> bool) x n : filter f (repeat x n) = if f x then repeat x n else [].
Proof. destruct (f x) eqn:E; induction n as [|k IH]; cbn; rewrite ?E, ?IH; reflexivity. Qed.
Lemma map_repeat {A B} (f : A -> B) x n : map f (repeat x n) = repeat (f x) n.
Proof. induction n as [|k IH]; cbn; rewrite ?IH; reflexivity. Qed.
Lemma entry_step base st i done : st_ok base st -> resolves (dt_reg st) (dt_sched st) done -> (i < List.length (di_protos cfg))%nat ->
  lookup reg0 (en_proto (entry_at cfg i)) <> None ->
  match en_life (entry_at cfg i) with Some l => lookup reg0 (derived_name (en_proto (entry_at cfg i)) l) = None | None => True end ->
  if (Z.ltb 0 (en_n (entry_at cfg i)) && Z.leb (when now (entry_at cfg i)) now)%bool then di_entry strict now cfg st i = Throw ValueError
  else exists st1, di_entry strict now cfg st i = Ok st1 /\ st_ok base st1 /\ resolves (dt_reg st1) (dt_sched st1) (done ++ [entry_at cfg i]).
Proof.
  intros S R L K NC. destruct (name_step base st i S L K NC) as (nm & st1 & E & S1 & X & SC & LK & AN).
  unfold di_entry. rewrite E. cbn [bind]. destruct Hcons as (C1 & C2 & _).
  destruct (vec_at_ok (di_times cfg) i) as (t & -> & T); [lia|]. cbn [bind].
  destruct (vec_at_ok (di_nbuild cfg) i) as (n & -> & Nn); [lia|]. cbn [bind].
  assert (ET : en_time (entry_at cfg i) = t) by (cbn; apply nth_error_nth, T).
  assert (EN : en_n (entry_at cfg i) = n) by (cbn; apply nth_error_nth, Nn).
  rewrite EN. assert (EW : when now (entry_at cfg i) = if Z.eqb t (-1) then (now + 1)%Z else t) by (unfold when; rewrite ET; reflexivity).
  assert (OKC : (Z.to_nat n = 0%nat \/ sched_time now t = Ok (when now (entry_at cfg i))) ->
    exists st2, (let* new := loop (fun acc (_ : nat) => let* t' := sched_time now t in Ok (acc ++ [(t', nm)])) (seq 0 (Z.to_nat n)) [] in
      Ok {| dt_reg := dt_reg st1; dt_names := dt_names st1; dt_sched := dt_sched st1 ++ new |}) = Ok st2 /\ st_ok base st2 /\
      resolves (dt_reg st2) (dt_sched st2) (done ++ [entry_at cfg i])).
  { intro H. assert (LP : loop (fun acc (_ : nat) => let* t' := sched_time now t in Ok (acc ++ [(t', nm)])) (seq 0 (Z.to_nat n)) [] =
      Ok (repeat (when now (entry_at cfg i), nm) (Z.to_nat n))).
    { destruct H as [H|H]; [rewrite H; reflexivity|]. rewrite (loop_repeat t nm _ H). rewrite seq_length. reflexivity. }
    rewrite LP. cbn [bind]. eexists. split; [reflexivity|]. cbn [dt_reg dt_names dt_sched]. split; [exact S1|]. rewrite SC.
    destruct (resolves_ext _ _ _ _ X R) as [A B]. split.
    - apply Forall_app. split; [exact A|]. apply Forall_forall. intros e He. apply repeat_spec in He. subst e. cbn [snd]. rewrite LK. exact AN.
    - intro u. rewrite filter_app, map_app, B. unfold part. rewrite flat_map_app. f_equal. cbn [flat_map]. rewrite app_nil_r, filter_repeat. cbn [fst].
      rewrite EN. destruct (Z.eqb (when now (entry_at cfg i)) u); [|reflexivity]. rewrite map_repeat. cbn [snd]. rewrite LK. reflexivity. }
  unfold sched_time in *. rewrite EW in *. destruct (Z.ltb_spec 0 n) as [P|P]; [|apply OKC; left; lia]. cbn [andb].
  destruct (Z.eqb t (-1)).
  - destruct (Z.leb_spec (now + 1) now); [lia|]. apply OKC. right. reflexivity.
  - destruct (Z.leb_spec t now); [|apply OKC; right; reflexivity]. destruct (Z.to_nat n) eqn:Q; [lia|]. reflexivity.
Qed.
Lemma loop_build base : known reg0 cfg -> no_clash reg0 cfg ->
  forall k i st done, (i + k = List.length (di_protos cfg))%nat -> st_ok base st -> resolves (dt_reg st) (dt_sched st) done ->
  (Forall (fun e => (0 < en_n e -> now < when now e)%Z) (map (entry_at cfg) (seq i k)) ->
   exists st1, loop (di_entry strict now cfg) (seq i k) st = Ok st1 /\ st_ok base st1 /\
    resolves (dt_reg st1) (dt_sched st1) (done ++ map (entry_at cfg) (seq i k))) /\
  (~ Forall (fun e => (0 < en_n e -> now < when now e)%Z) (map (entry_at cfg) (seq i k)) -> loop (di_entry strict now cfg) (seq i k) st = Throw ValueError).
Proof.
  intros K NC. induction k as [|k IH]; intros i st done L S R; cbn [seq map loop].
  - split; [|intro H; destruct H; constructor]. intros _. exists st. rewrite app_nil_r. split; [reflexivity|]. split; [exact S|exact R].
  - assert (I : In (entry_at cfg i) (entries cfg)) by (apply in_map, in_seq; lia).
    unfold known in K. unfold no_clash in NC. rewrite Forall_forall in K, NC.
    pose proof (entry_step base st i done S R ltac:(lia) (K _ I) (NC _ I)) as ES.
    destruct (Z.ltb_spec 0 (en_n (entry_at cfg i))) as [P|P], (Z.leb_spec (when now (entry_at cfg i)) now) as [Q|Q]; cbn [andb] in ES.
    1: { rewrite ES. cbn [bind]. split; [|reflexivity]. intro F. inversion F; subst. lia. }
    all: destruct ES as (st1 & E & S1 & R1); rewrite E; cbn [bind]; destruct (IH (Datatypes.S i) st1 _ ltac:(lia) S1 R1) as [A B]; rewrite <- app_assoc in A; cbn [app] in A; (split;
      [intro F; inversion F; subst; apply A; assumption | intro F; apply B; intro G; apply F; constructor; [lia|exact G]]).
Qed.
End ENTRY.

Lemma deployed_resolves now reg0 reg sched es t : resolves now reg0 reg sched es ->
  exists l, deployed reg sched t = Ok l /\ map Some l = part now reg0 es t.
Proof.
  intros [A B]. unfold deployed. rewrite <- B.
  assert (C : Forall (fun e => lookup reg (snd e) <> None) (filter (fun e => Z.eqb (fst e) t) sched)).
  { apply Forall_forall. intros e He. apply filter_In in He as [He _]. rewrite Forall_forall in A. apply A, He. }
  generalize (filter (fun e => Z.eqb (fst e) t) sched) C. clear. intros fs C.
  assert (G : forall l acc, Forall (fun e => lookup reg (snd e) <> None) l -> exists l',
    loop (fun acc e => let* a := create reg (snd e) in Ok (acc ++ [a])) l acc = Ok (acc ++ l') /\ map Some l' = map (fun e : Z * string => lookup reg (snd e)) l).
  { induction l as [|e l IH]; intros acc F; cbn [loop].
    - exists []. rewrite app_nil_r. auto.
    - inversion F as [|? ? Fe F']; subst. unfold create at 1. destruct (lookup reg (snd e)) as [a|] eqn:E; [|congruence]. cbn [bind].
      destruct (IH (acc ++ [a]) F') as (l' & X & Y). exists (a :: l'). rewrite X, <- app_assoc. split; [reflexivity|]. cbn [map]. rewrite Y, E. reflexivity. }
  destruct (G fs [] C) as (l' & X & Y). exists l'. rewrite X. auto.
Qed.
Lemma enter_ok cfg : consistent cfg -> di_enter cfg = Ok tt.
Proof.
  intros (A & B & C). unfold di_enter. rewrite A, B, Nat.eqb_refl. cbn [negb].
  destruct C as [C|C]; rewrite C; [reflexivity|]. rewrite Nat.eqb_refl. rewrite Bool.andb_false_r. reflexivity.
Qed.
Lemma build_step strict now cfg reg0 reg : consistent cfg -> known reg0 cfg -> no_clash reg0 cfg ->
  derived reg0 reg -> (strict = true -> reg = reg0) ->
  (future now cfg -> exists reg' sched, di_build strict now cfg reg = Ok (reg', sched) /\ derived reg0 reg' /\ extends reg reg' /\ resolves now reg0 reg' sched (entries cfg)) /\
  (~ future now cfg -> di_build strict now cfg reg = Throw ValueError).
Proof.
  intros C K NC D SR. unfold di_build. rewrite enter_ok by exact C. cbn [bind].
  destruct (loop_build strict now cfg reg0 C reg K NC (List.length (di_protos cfg)) 0%nat {| dt_reg := reg; dt_names := []; dt_sched := [] |} []) as [A B].
  - lia.
  - split; [exact D|]. split; [apply extends_refl|]. split; [constructor|]. cbn. intros X n Hn. left. rewrite (SR X) in Hn. exact Hn.
  - split; [constructor|]. reflexivity.
  - split.
    + intro F. destruct (A F) as (st & E & S & R). rewrite E. cbn [bind]. exists (dt_reg st), (dt_sched st). split; [reflexivity|].
      destruct S as (S1 & S2 & _). split; [exact S1|]. split; [exact S2|exact R].
    + intro F. rewrite (B F). reflexivity.
Qed.
Lemma derived_refl reg : derived reg reg.
Proof. split; [apply extends_refl|]. auto. Qed.
(** One institution. *)
Lemma schedule_final : forall strict now cfg reg, consistent cfg -> known reg cfg -> no_clash reg cfg -> future now cfg ->
  exists reg' sched, di_build strict now cfg reg = Ok (reg', sched) /\
    (forall t, exists l, deployed reg' sched t = Ok l /\ map Some l = due reg now cfg t) /\
    (forall n a, lookup reg n = Some a -> lookup reg' n = Some a).
Proof.
  intros strict now cfg reg C K NC F. destruct (proj1 (build_step strict now cfg reg reg C K NC (derived_refl reg) ltac:(auto)) F) as (reg' & sched & E & D & X & R).
  exists reg', sched. split; [exact E|]. split; [|exact X]. intro t. destruct (deployed_resolves now reg reg' sched (entries cfg) t R) as (l & A & B). eauto.
Qed.
Lemma past_final : forall strict now cfg reg, consistent cfg -> known reg cfg -> no_clash reg cfg -> ~ future now cfg ->
  di_build strict now cfg reg = Throw ValueError.
Proof. intros strict now cfg reg C K NC F. apply (build_step strict now cfg reg reg C K NC (derived_refl reg) ltac:(auto)), F. Qed.
(** Several institutions in a kernel that allows a prototype to be added again. *)
Lemma all_loop now reg0 : forall cfgs done reg scheds,
  Forall (fun cfg => consistent cfg /\ known reg0 cfg /\ future now cfg /\ no_clash reg0 cfg) cfgs ->
  derived reg0 reg -> Forall2 (fun cfg s => resolves now reg0 reg s (entries cfg)) done scheds ->
  exists reg' scheds', loop (fun st cfg => let* '(reg', sch) := di_build false now cfg (fst st) in Ok (reg', snd st ++ [sch])) cfgs (reg, scheds) = Ok (reg', scheds') /\
    derived reg0 reg' /\ Forall2 (fun cfg s => resolves now reg0 reg' s (entries cfg)) (done ++ cfgs) scheds'.
Proof.
  induction cfgs as [|cfg cfgs IH]; intros done reg scheds A D R; cbn [loop].
  - exists reg, scheds. rewrite app_nil_r. auto.
  - inversion A as [|? ? (C & K & F & NC) A']; subst. cbn [fst snd].
    destruct (proj1 (build_step false now cfg reg0 reg C K NC D ltac:(discriminate)) F) as (r1 & s1 & E & D1 & X & R1). rewrite E. cbn [bind].
    destruct (IH (done ++ [cfg]) r1 (scheds ++ [s1]) A' D1) as (r2 & ss & E2 & D2 & R2).
    { apply Forall2_app; [|constructor; [exact R1|constructor]]. clear -R X. induction R; constructor; auto. eapply resolves_ext; eassumption. }
    exists r2, ss. split; [exact E2|]. split; [exact D2|]. rewrite <- app_assoc in R2. exact R2.
Qed.
Lemma all_final : forall now cfgs reg,
  Forall (fun cfg => consistent cfg /\ known reg cfg /\ future now cfg /\ no_clash reg cfg) cfgs ->
  exists reg' scheds, di_build_all false now cfgs reg = Ok (reg', scheds) /\
    Forall2 (fun cfg sched => forall t, exists l, deployed reg' sched t = Ok l /\ map Some l = due reg now cfg t) cfgs scheds /\
    (forall n a, lookup reg n = Some a -> lookup reg' n = Some a).
Proof.
  intros now cfgs reg A. destruct (all_loop now reg cfgs [] reg [] A (derived_refl reg) ltac:(constructor)) as (reg' & ss & E & D & R).
  exists reg', ss. split; [exact E|]. split; [|apply D]. cbn [app] in R. clear -R. induction R; constructor; auto.
  intro t. destruct (deployed_resolves _ _ _ _ _ t H) as (ps & X & Y). eauto.
Qed.
Lemma rejects_final : forall strict now cfg reg, ~ consistent cfg -> di_build strict now cfg reg = Throw ValueError.
Proof.
  intros strict now cfg reg H. unfold di_build. assert (E : di_enter cfg = Throw ValueError); [|rewrite E; reflexivity].
  unfold di_enter. destruct (Nat.eqb_spec (List.length (di_times cfg)) (List.length (di_protos cfg))) as [A|]; [|reflexivity]. cbn [negb].
  destruct (Nat.eqb_spec (List.length (di_nbuild cfg)) (List.length (di_protos cfg))) as [B|]; [|reflexivity]. cbn [negb].
  destruct (Nat.eqb_spec (List.length (di_lifes cfg)) (List.length (di_protos cfg))) as [C|C].
  - destruct H. split; [exact A|]. split; [exact B|]. right. exact C.
  - destruct (di_lifes cfg) as [|l ls] eqn:L; [|reflexivity]. destruct H. split; [exact A|]. split; [exact B|]. left. exact L.
Qed.

(** ** Registers of producers *)
Lemma producers_filter l : producers_of l = filter is_producer l.
Proof. reflexivity. Qed.
Lemma reg_new a l : ~ In (ag_id a) (ids l) -> reg_producer a l = l ++ [a].
Proof.
  intro H. unfold reg_producer. destruct (existsb _ l) eqn:E; [|reflexivity]. apply existsb_exists in E as (b & I & E). apply Nat.eqb_eq in E.
  destruct H. rewrite <- E. apply in_map, I.
Qed.
Lemma ids_producers l x : In x (ids (producers_of l)) -> In x (ids l).
Proof. unfold ids, producers_of. rewrite !in_map_iff. intros (a & E & I). apply filter_In in I as [I _]. eauto. Qed.
Lemma producers_app l1 l2 : producers_of (l1 ++ l2) = producers_of l1 ++ producers_of l2.
Proof. apply filter_app. Qed.
Definition in_ok (s : inst) : Prop := in_producers s = producers_of (in_children s) /\ NoDup (ids (in_children s)).
Lemma built_ok a s : in_ok s -> ~ In (ag_id a) (ids (in_children s)) -> in_ok (child_built a s) /\ in_children (child_built a s) = in_children s ++ [a] /\ in_kind (child_built a s) = in_kind s.
Proof.
  intros [P N] F. assert (ND : NoDup (ids (in_children s ++ [a]))).
  { unfold ids. rewrite map_app. cbn [map]. rewrite <- (rev_involutive (map ag_id (in_children s))).
    change (rev (rev (map ag_id (in_children s))) ++ [ag_id a]) with (rev (ag_id a :: rev (map ag_id (in_children s)))). apply NoDup_rev.
    constructor; [|apply NoDup_rev, N]. intro I. apply in_rev in I. apply F, I. }
  unfold child_built, register, in_ok. destruct (is_producer a) eqn:E; cbn [in_children in_producers in_kind]; rewrite producers_app, (producers_filter [a]); cbn [filter]; rewrite E.
  - split; [|auto]. split; [|exact ND]. rewrite P. apply reg_new. intro I. apply F, ids_producers, I.
  - rewrite app_nil_r. auto.
Qed.
Lemma filter_comm {A} (f g : A -> bool) l : filter f (filter g l) = filter g (filter f l).
Proof. induction l as [|x l IH]; cbn; auto. destruct (g x) eqn:G, (f x) eqn:F; cbn; rewrite ?G, ?F, IH; reflexivity. Qed.
Lemma gone_ok a s : in_ok s -> In a (in_children s) -> in_ok (child_gone a s) /\
  in_children (child_gone a s) = filter (fun b => negb (Nat.eqb (ag_id b) (ag_id a))) (in_children s) /\ in_kind (child_gone a s) = in_kind s.
Proof.
  intros [P N] I. set (f := fun b => negb (Nat.eqb (ag_id b) (ag_id a))).
  assert (ND : NoDup (ids (filter f (in_children s)))).
  { revert N. generalize (in_children s). induction l as [|x l IH]; cbn; auto. intro N. inversion N as [|? ? A B]; subst. destruct (f x); auto.
    cbn. constructor; auto. intro X. apply A. unfold ids in X |- *. rewrite in_map_iff in X |- *. destruct X as (y & E & Y). apply filter_In in Y as [Y _]. eauto. }
  unfold child_gone, unregister, in_ok. destruct (is_producer a) eqn:E; cbn [in_children in_producers in_kind]; fold f.
  - split; [|auto]. split; [|exact ND]. unfold unreg_producer. fold f. rewrite P, !producers_filter. apply filter_comm.
  - split; [|auto]. split; [|exact ND]. rewrite P, !(producers_filter (in_children s)), (producers_filter (filter f (in_children s))). rewrite filter_comm.
    assert (G : forall l, NoDup (ids l) -> In a l -> incl l (in_children s) -> filter f (filter is_producer l) = filter is_producer l).
    { intros l _ _ L. induction l as [|x l IH]; auto. cbn. assert (L' : incl l (in_children s)) by (intros y Hy; apply L; right; exact Hy).
      destruct (is_producer x) eqn:X; cbn; rewrite ?(IH L'); auto. unfold f at 1. destruct (Nat.eqb_spec (ag_id x) (ag_id a)) as [Y|Y]; auto.
      exfalso. assert (x = a); [|congruence]. clear -N I L Y. assert (Ix : In x (in_children s)) by (apply L; left; reflexivity). clear L.
      induction (in_children s) as [|z r IH]; [destruct I|]. cbn in N. inversion N as [|? ? A B]; subst. destruct I as [->|I], Ix as [->|Ix]; auto.
      - exfalso. apply A. rewrite <- Y. apply in_map, Ix.
      - exfalso. apply A. rewrite Y. apply in_map, I. }
    symmetry. apply G; auto. intros y Hy; exact Hy.
Qed.
Lemma register_all l : forall s, in_kind (fold_left (fun st a => register a st) l s) = in_kind s /\
  in_children (fold_left (fun st a => register a st) l s) = in_children s /\ in_builder (fold_left (fun st a => register a st) l s) = in_builder s /\
  (NoDup (ids (in_producers s ++ l)) -> in_producers (fold_left (fun st a => register a st) l s) = in_producers s ++ producers_of l).
Proof.
  induction l as [|a l IH]; intro s; cbn [fold_left].
  - repeat split; auto. intros _. cbn. rewrite app_nil_r. reflexivity.
  - destruct (IH (register a s)) as (A & B & C & D). rewrite A, B, C.
    assert (K : in_kind (register a s) = in_kind s /\ in_children (register a s) = in_children s /\ in_builder (register a s) = in_builder s).
    { unfold register. destruct (is_producer a); auto. }
    destruct K as (K1 & K2 & K3). split; [exact K1|]. split; [exact K2|]. split; [exact K3|]. intro N.
    unfold ids in N. rewrite map_app in N. cbn [map] in N. assert (F : ~ In (ag_id a) (ids (in_producers s))).
    { intro I. apply NoDup_remove_2 in N. apply N, in_app_iff. left. exact I. }
    unfold register in D |- *. rewrite producers_filter in D |- *. cbn [filter]. destruct (is_producer a) eqn:E; cbn [in_producers] in D |- *.
    + rewrite (reg_new a _ F) in D |- *. rewrite D; [rewrite <- app_assoc; reflexivity|]. rewrite <- app_assoc. unfold ids. rewrite map_app. exact N.
    + apply D. unfold ids. rewrite map_app. apply NoDup_remove_1 in N. exact N.
Qed.
Lemma builder_facts reg protos : forall b, (Forall (fun n => lookup reg n <> None) protos -> exists l, mi_builder reg protos b = Ok (b ++ l) /\
   map Some l = filter (fun p => match p with Some q => match pr_caps q with Some _ => true | None => false end | None => false end) (map (lookup reg) protos)) /\
  (~ Forall (fun n => lookup reg n <> None) protos -> mi_builder reg protos b = Throw KeyError).
Proof.
  unfold mi_builder. induction protos as [|n ps IH]; intro b; cbn [loop].
  - split; [|intro H; destruct H; constructor]. intros _. exists []. rewrite app_nil_r. auto.
  - unfold create at 1 3. destruct (lookup reg n) as [a|] eqn:E; cbn [bind].
    + split.
      * intro F. inversion F as [|? ? _ F']; subst. cbn [map filter]. rewrite E. destruct (pr_caps a) eqn:C.
        -- destruct (proj1 (IH (b ++ [a])) F') as (l' & X & Y). exists (a :: l'). rewrite X, <- app_assoc. split; [reflexivity|]. cbn [map]. rewrite Y. reflexivity.
        -- destruct (proj1 (IH b) F') as (l' & X & Y). exists l'. auto.
      * intro F. apply (IH (match pr_caps a with Some _ => b ++ [a] | None => b end)). intro X. apply F. constructor; [congruence|exact X].
    + split; [|reflexivity]. intro F. inversion F; subst. congruence.
Qed.
Lemma start_deploy reg protos ch : in_start reg protos Deploy ch = Ok {| in_kind := Deploy; in_children := ch; in_producers := []; in_builder := [] |}.
Proof. reflexivity. Qed.
Lemma start_manager reg protos ch s : NoDup (ids ch) -> in_start reg protos Manager ch = Ok s -> in_ok s /\ in_children s = ch /\ in_kind s = Manager.
Proof.
  intros N H. unfold in_start, in_enter in H. cbn [in_kind in_children] in H.
  destruct (register_all ch {| in_kind := Manager; in_children := ch; in_producers := []; in_builder := [] |}) as (A & B & C & D).
  destruct (mi_builder reg protos _) as [b| | |]; try discriminate. cbn [bind] in H. injection H as <-. unfold in_ok. cbn [in_children in_producers in_kind].
  rewrite B, A. cbn [in_children in_kind in_producers app] in *. rewrite D by exact N. auto.
Qed.
Lemma run_inst reg protos es : forall s s', in_ok s -> sensible (in_children s) es -> (in_kind s = Deploy -> no_restart es) ->
  in_run reg protos s es = Ok s' -> in_ok s' /\ in_children s' = operating (in_children s) es.
Proof.
  unfold in_run. induction es as [|e es IH]; intros s s' O S K H; cbn [loop] in H.
  - injection H as <-. auto.
  - destruct (in_step reg protos s e) as [s1| | |] eqn:E; try discriminate. cbn [bind] in H.
    assert (K' : in_kind s = Deploy -> no_restart es) by (intro X; specialize (K X); inversion K; assumption).
    destruct e as [a|a|]; cbn [in_step sensible operating] in *.
    + injection E as <-. destruct S as [F S]. destruct (built_ok a s O F) as (O1 & C1 & K1). rewrite <- C1 in S |- *. apply IH; auto. rewrite K1. exact K'.
    + injection E as <-. destruct S as [F S]. destruct (gone_ok a s O F) as (O1 & C1 & K1). rewrite <- C1 in S |- *. apply IH; auto. rewrite K1. exact K'.
    + destruct (in_kind s) eqn:Kd.
      * specialize (K eq_refl). inversion K; congruence.
      * destruct (start_manager _ _ _ _ (proj2 O) E) as (O1 & C1 & K1). rewrite <- C1 in S |- *. apply IH; auto. rewrite K1. discriminate.
Qed.
Lemma manager_final : forall reg protos ch s0 es s, NoDup (ids ch) -> sensible ch es ->
  in_start reg protos Manager ch = Ok s0 -> in_run reg protos s0 es = Ok s ->
  in_producers s = producers_of (operating ch es).
Proof.
  intros reg protos ch s0 es s N S B R. destruct (start_manager _ _ _ _ N B) as (O & C & K). rewrite <- C in S |- *.
  destruct (run_inst reg protos es s0 s O S) as [[P _] E]; [congruence|exact R|]. rewrite P, E. reflexivity.
Qed.
Lemma deploy_final : forall reg protos s0 es s, sensible [] es -> no_restart es ->
  in_start reg protos Deploy [] = Ok s0 -> in_run reg protos s0 es = Ok s ->
  in_producers s = producers_of (operating [] es).
Proof.
  intros reg protos s0 es s S NR B R. rewrite start_deploy in B. injection B as <-.
  destruct (run_inst reg protos es {| in_kind := Deploy; in_children := []; in_producers := []; in_builder := [] |} s) as [[P _] E].
  - split; [reflexivity|constructor].
  - exact S.
  - intros _. exact NR.
  - exact R.
  - rewrite P, E. reflexivity.
Qed.
Lemma capacity_spec a c : capacity a c == makes a c.
Proof.
  unfold capacity, makes. destruct (pr_caps (ag_proto a)) as [l|]; [|reflexivity].
  induction l as [|e l IH]; [reflexivity|]. cbn [filter fold_right]. destruct (String.eqb (fst e) c); [|exact IH].
  cbn [map qsum fold_right]. fold (qsum (map snd (filter (fun x => String.eqb (fst x) c) l))). rewrite IH. reflexivity.
Qed.
Lemma capacity_sum l c : qsum (map (fun a => capacity a c) (producers_of l)) == qsum (map (fun a => makes a c) l).
Proof.
  induction l as [|a l IH]; [reflexivity|].
  assert (Z0 : pr_caps (ag_proto a) = None -> makes a c = 0) by (unfold makes; intros ->; reflexivity).
  cbn [producers_of filter map qsum fold_right]. fold (producers_of l) (qsum (map (fun a => makes a c) l)).
  destruct (pr_caps (ag_proto a)); cbn [map qsum fold_right].
  - fold (qsum (map (fun a => capacity a c) (producers_of l))). rewrite IH, capacity_spec. reflexivity.
  - rewrite IH, (Z0 eq_refl). ring.
Qed.
Lemma manager_capacity_final : forall reg protos ch s0 es s c, NoDup (ids ch) -> sensible ch es ->
  in_start reg protos Manager ch = Ok s0 -> in_run reg protos s0 es = Ok s ->
  total_capacity s c == qsum (map (fun a => makes a c) (operating ch es)).
Proof. intros. unfold total_capacity. erewrite manager_final by eassumption. apply capacity_sum. Qed.
Lemma deploy_capacity_final : forall reg protos s0 es s c, sensible [] es -> no_restart es ->
  in_start reg protos Deploy [] = Ok s0 -> in_run reg protos s0 es = Ok s ->
  total_capacity s c == qsum (map (fun a => makes a c) (operating [] es)).
Proof. intros. unfold total_capacity. erewrite deploy_final by eassumption. apply capacity_sum. Qed.
Lemma builder_final : forall reg protos ch, 
  (Forall (fun n => lookup reg n <> None) protos -> exists s, in_start reg protos Manager ch = Ok s /\
     map Some (in_builder s) = filter (fun p => match p with Some q => match pr_caps q with Some _ => true | None => false end | None => false end) (map (lookup reg) protos)) /\
  (~ Forall (fun n => lookup reg n <> None) protos -> in_start reg protos Manager ch = Throw KeyError).
Proof.
  intros reg protos ch. unfold in_start, in_enter. cbn [in_kind in_children].
  destruct (register_all ch {| in_kind := Manager; in_children := ch; in_producers := []; in_builder := [] |}) as (A & B & C & _).
  destruct (builder_facts reg protos (in_builder (fold_left (fun st a => register a st) ch {| in_kind := Manager; in_children := ch; in_producers := []; in_builder := [] |}))) as [X Y].
  split.
  - intro F. destruct (X F) as (l & E & M). rewrite E. cbn [bind]. eexists. split; [reflexivity|]. cbn [in_builder]. rewrite C. cbn [in_builder app]. exact M.
  - intro F. rewrite (Y F). reflexivity.
Qed.
