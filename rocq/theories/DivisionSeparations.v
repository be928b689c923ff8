(** A separations facility fed with the same material divided differently (C125). *)
From Coq Require Import Lia Lqa.
From Verif Require Import Outcome KernelMaterial KernelResBuf KernelBuf KernelFacts KernelMass KernelBufFacts SeparationsModel
  SeparationsSpec SeparationsProofs SeparationsRun SeparationsTolerance DivisionSpec DivisionProofs DivisionComp.
Local Open Scope Q_scope.

(** ** Separating *)
Lemma nodup_get c k v : NoDup (map fst c) -> In (k, v) c -> cget k c == v.
Proof.
  induction c as [|[k0 v0] c IH]; [contradiction|]. cbn [map fst cget]. intros N I. inversion N as [|? ? N1 N2]; subst. destruct I as [I|I].
  - injection I as -> ->. rewrite Z.eqb_refl, (cget_notin k c) by exact N1. ring.
  - destruct (Z.eqb_spec k0 k) as [->|E]; [exfalso; apply N1, (in_map fst _ _ I)|]. rewrite IH by auto. ring.
Qed.
Lemma nodup_nonneg c : NoDup (map fst c) -> (all_nonneg c = true <-> forall n, 0 <= cget n c).
Proof.
  intro N. rewrite all_nonneg_iff. split; [intros H n; apply cget_nonneg; exact H|]. intro H. apply Forall_forall. intros [k v] I. cbn [snd]. rewrite <- (nodup_get c k v N I). apply H.
Qed.
Lemma sepcomp_nodup effs cm : NoDup (map fst cm) -> NoDup (map fst (sepcomp effs cm)).
Proof.
  induction cm as [|[k v] cm IH]; [auto|]. cbn [map fst]. intro N. inversion N as [|? ? N1 N2]; subst. unfold sepcomp in *. cbn [flat_map fst snd]. destruct (eff_for effs k); cbn [app map fst]; [|auto].
  constructor; [|auto]. intro I. apply N1. apply (sepcomp_keys effs cm k I).
Qed.
Lemma sep_alike effs m m' x : alike m m' -> sep_material effs m = Ok x -> exists x', sep_material effs m' = Ok x' /\ m_qty x == m_qty x' /\ csame (m_comp x) (m_comp x').
Proof.
  intros A H. unfold sep_material in *. fold (sepcomp effs (ccanon (cnorm (m_qty m) (m_comp m)))) in H. fold (sepcomp effs (ccanon (cnorm (m_qty m') (m_comp m')))).
  set (c := sepcomp effs (ccanon (cnorm (m_qty m) (m_comp m)))) in *. set (c' := sepcomp effs (ccanon (cnorm (m_qty m') (m_comp m')))).
  assert (C : csame c c') by (intro n; unfold c, c'; rewrite !cget_sepcomp, !cget_ccanon, (alike_norm _ _ A n); reflexivity).
  destruct (all_nonneg c) eqn:N; [|discriminate]. injection H as <-.
  assert (ND : NoDup (map fst c)) by apply sepcomp_nodup, ccanon_nodup. assert (ND' : NoDup (map fst c')) by apply sepcomp_nodup, ccanon_nodup.
  rewrite (proj2 (nodup_nonneg c' ND')) by (intro n; rewrite <- (C n); apply (proj1 (nodup_nonneg c ND) N)).
  eexists. split; [reflexivity|]. split; [apply csame_sum, C|exact C].
Qed.

(** ** Stores *)
Lemma store_qty b b' : same_store b b' -> b_qty b == b_qty b'. Proof. intros [_ F]. apply alike_qty, F. Qed.
Lemma stock_qty b b' : same_stock b b' -> b_qty b == b_qty b'. Proof. intros (_ & [Q _] & _). exact Q. Qed.
Lemma store_new : same_store new_buf new_buf. Proof. split; [reflexivity|constructor]. Qed.
Lemma qmax_eq a b c : b == c -> Qmax a b == Qmax a c. Proof. intro E. rewrite E. reflexivity. Qed.
Lemma qmin_eq a b c d : a == c -> b == d -> Qmin a b == Qmin c d. Proof. intros E F. rewrite E, F. reflexivity. Qed.
Lemma fits_eq eps b b' q q' : b_cap b = b_cap b' -> b_qty b == b_qty b' -> q == q' -> b_fits eps b q = b_fits eps b' q'.
Proof.
  intros C E F. unfold b_fits, b_space. rewrite C. destruct (b_cap b') as [c|]; [|reflexivity]. apply qleb_eq; [|reflexivity]. rewrite F, (qmax_eq 0 (c - b_qty b) (c - b_qty b')) by lra. reflexivity.
Qed.
Lemma store_push eps b b' m m' f : same_store b b' -> alike m m' -> b_push eps b m = Ok f -> exists f', b_push eps b' m' = Ok f' /\ same_store f f'.
Proof.
  intros S A H. unfold b_push in *. rewrite <- (fits_eq eps b b' (m_qty m) (m_qty m')) by (try apply S; try apply store_qty; try apply A; auto).
  destruct (b_fits eps b (m_qty m)); [|discriminate]. injection H as <-. eexists. split; [reflexivity|]. split; [apply S|]. cbn [b_items]. apply Forall2_app; [apply S|auto].
Qed.
Lemma store_pop b b' q q' tol m r : same_store b b' -> q == q' -> b_pop_tol b q tol = Ok (m, r) -> exists m' r', b_pop_tol b' q' tol = Ok (m', r') /\ alike m m' /\ same_store r r'.
Proof.
  intros [C F] E H. unfold b_pop_tol in *. apply bind_ok in H as ([m1 r1] & P & H). injection H as -> <-. destruct (alike_pop_tol _ _ _ _ _ _ _ F E P) as (m' & r' & -> & A & B). cbn [bind].
  eexists. eexists. split; [reflexivity|]. split; [exact A|]. split; [exact C|exact B].
Qed.
Lemma stock_pop b b' q q' tol m r : same_stock b b' -> q == q' -> b_pop_tol b q tol = Ok (m, r) ->
  exists m' r', b_pop_tol b' q' tol = Ok (m', r') /\ alike m m' /\ mat_ok m /\ mat_ok m' /\ 0 < m_qty m /\ same_stock r r'.
Proof.
  intros (C & L & S & S') E H. unfold b_pop_tol in *. apply bind_ok in H as ([m1 r1] & P & H). injection H as -> <-.
  destruct (layers_pop_tol _ _ _ _ _ _ _ S S' L E P) as (m' & r' & -> & A & O & O' & Q & L' & T & T'). cbn [bind].
  eexists. eexists. split; [reflexivity|]. do 4 (split; [assumption|]). repeat split; try assumption; apply L'.
Qed.
Lemma stock_push eps b b' m m' f : same_stock b b' -> mat_ok m -> mat_ok m' -> 0 < m_qty m -> alike m m' -> b_push eps b m = Ok f ->
  exists f', b_push eps b' m' = Ok f' /\ same_stock f f'.
Proof.
  intros S O O' P A H. unfold b_push in *. rewrite <- (fits_eq eps b b' (m_qty m) (m_qty m')) by (try apply S; try apply stock_qty; try apply A; auto).
  destruct (b_fits eps b (m_qty m)); [|discriminate]. injection H as <-. destruct S as (C & L & S & S'). pose proof (proj1 A) as Q. eexists. split; [reflexivity|]. split; [exact C|]. cbn [b_items].
  split; [apply layers_app; auto using solid_ok, layers_one|]. split; (apply solid_app; [assumption|]); (constructor; [|constructor]); (split; [assumption|lra]).
Qed.
Definition same_streams (bm bm' : bmap) : Prop := Forall2 (fun e e' => fst e = fst e' /\ same_store (snd e) (snd e')) bm bm'.
Lemma streams_find bm bm' k : same_streams bm bm' -> both same_store (bm_find k bm) (bm_find k bm').
Proof. induction 1 as [|[a b] [a' b'] l l' [E S] F IH]; [exact I|]. cbn [fst snd bm_find] in *. subst a'. destruct (String.eqb a k); [exact S|exact IH]. Qed.
Lemma streams_get bm bm' k : same_streams bm bm' -> same_store (bm_get k bm) (bm_get k bm').
Proof. intro H. apply (streams_find _ _ k) in H. unfold bm_get. destruct (bm_find k bm), (bm_find k bm'); try contradiction; [exact H|apply store_new]. Qed.
Lemma streams_set bm bm' k b b' : same_streams bm bm' -> same_store b b' -> same_streams (bm_set k b bm) (bm_set k b' bm').
Proof.
  intros H S. induction H as [|[a x] [a' x'] l l' [E T] F IH]; [constructor; [split; auto|constructor]|]. cbn [fst snd bm_set] in *. subst a'. destruct (String.eqb a k); constructor; auto; split; auto.
Qed.

(** ** Tick *)
Definition same_staged (x y : string * mat) : Prop := fst x = fst y /\ m_qty (snd x) == m_qty (snd y) /\ csame (m_comp (snd x)) (m_comp (snd y)).
Lemma stage_same s s' m m' : same_streams (ps_streams s) (ps_streams s') -> alike m m' -> forall strs st st' q q' r, Forall2 same_staged st st' -> q == q' ->
  loop (stage_one s m) strs (st, q) = Ok r ->
  exists r', loop (stage_one s' m') strs (st', q') = Ok r' /\ Forall2 same_staged (fst r) (fst r') /\ snd r == snd r'.
Proof.
  intros S A. induction strs as [|str strs IH]; intros st st' q q' r F E H; cbn [loop] in *; [injection H as <-; eauto|].
  apply bind_ok in H as ([st1 q1] & H1 & H). unfold stage_one in H1 |- *. apply bind_ok in H1 as (x & X & H1). destruct (sep_alike _ _ _ _ A X) as (x' & -> & Qx & Cx). cbn [bind].
  pose proof (streams_get _ _ (st_name str) S) as B. pose proof (store_qty _ _ B) as Bq. destruct B as [Bc _]. unfold b_space in *. rewrite Bc in H1.
  assert (X' : exists q1', (if true then q1' else q1') == q1 /\ q1' =
     match (match b_cap (bm_get (st_name str) (ps_streams s')) with None => None | Some c => Some (Qmax 0 (c - b_qty (bm_get (st_name str) (ps_streams s')))) end) with
     | None => q' | Some sp => if Qltb 0 (m_qty x') then if Qltb (sp / m_qty x') q' then sp / m_qty x' else q' else q' end).
  { eexists. split; [|reflexivity]. injection H1 as _ <-. destruct (b_cap _) as [c|]; [|symmetry; exact E]. rewrite (qltb_eq 0 0 (m_qty x) (m_qty x')) by (auto; reflexivity). destruct (Qltb 0 (m_qty x')) eqn:P; [|symmetry; exact E].
    assert (D : Qmax 0 (c - b_qty (bm_get (st_name str) (ps_streams s))) / m_qty x == Qmax 0 (c - b_qty (bm_get (st_name str) (ps_streams s'))) / m_qty x') by (rewrite Bq, Qx; reflexivity).
    rewrite (qltb_eq _ _ q q' D E). destruct (Qltb _ q'); symmetry; assumption. }
  destruct X' as (q1' & Eq & Def). rewrite <- Def. clear Def. cbn [bind]. injection H1 as <- Hq. apply (IH _ (st' ++ [(st_name str, x')]) _ q1') in H; [exact H| |symmetry; exact Eq].
  apply Forall2_app; [exact F|]. repeat constructor; auto.
Qed.
Definition same_work (x y : mat * bmap * list (string * Q) * list (string * Q)) : Prop :=
  match x, y with (m, b, l, r), (m', b', l', r') =>
    alike m m' /\ comp_ok (m_comp m) /\ comp_ok (m_comp m') /\ same_streams b b' /\ Forall2 same_named l l' /\ Forall2 same_named r r' end.
Lemma extract_step eps f f' x y nm nm' z : f == f' -> same_work x y -> same_staged nm nm' -> extract_one eps f x nm = Ok z ->
  exists z', extract_one eps f' y nm' = Ok z' /\ same_work z z'.
Proof.
  intros Ef W N H. destruct x as [[[m b] l] r], y as [[[m' b'] l'] r'], nm as [k x], nm' as [k' x']. destruct N as (Ek & Qx & Cx). cbn [fst snd] in Ek, Qx, Cx. subst k'.
  destruct W as (A & O & O' & B & L & R). unfold extract_one in *. apply bind_ok in H as ([[m1 b1] l1] & H1 & H).
  assert (X : exists m1' b1' l1', (if Qltb 0 (m_qty x') then
       let qty := if Qltb (m_qty m') (m_qty x') then m_qty m' else m_qty x' in
       let* '(out, rest) := extract_comp eps (qty * f') (m_comp x') m' in
       let* b0 := b_push eps (bm_get k b') out in
       Ok (rest, bm_set k b0 b', l' ++ [(k, qty * f')])
     else Ok (m', b', l')) = Ok (m1', b1', l1') /\ alike m1 m1' /\ comp_ok (m_comp m1) /\ comp_ok (m_comp m1') /\ same_streams b1 b1' /\ Forall2 same_named l1 l1').
  { rewrite <- (qltb_eq 0 0 (m_qty x) (m_qty x')) by (auto; reflexivity). destruct (Qltb 0 (m_qty x)); [|injection H1 as <- <- <-; eauto 10].
    pose proof (proj1 A) as Qm. cbv zeta in *. rewrite <- (qltb_eq (m_qty m) (m_qty m') (m_qty x) (m_qty x')) by auto.
    assert (E : (if Qltb (m_qty m) (m_qty x) then m_qty m else m_qty x) * f == (if Qltb (m_qty m) (m_qty x) then m_qty m' else m_qty x') * f') by (rewrite Ef; destruct (Qltb (m_qty m) (m_qty x)); [rewrite Qm|rewrite Qx]; reflexivity).
    apply bind_ok in H1 as ([o rest] & X & H1). destruct (alike_extract _ _ _ _ _ _ _ _ _ A Cx E X) as (o' & rest' & -> & Ao & Ar & Or & Or'). cbn [bind].
    apply bind_ok in H1 as (b0 & P & H1). injection H1 as <- <- <-. destruct (store_push _ _ _ _ _ _ (streams_get _ _ k B) Ao P) as (b0' & -> & S0). cbn [bind].
    eexists. eexists. eexists. split; [reflexivity|]. split; [exact Ar|]. split; [exact Or|]. split; [exact Or'|]. split; [apply streams_set; auto|].
    apply Forall2_app; [exact L|]. constructor; [|constructor]. split; [reflexivity|exact E]. }
  cbv zeta in X. destruct X as (m1' & b1' & l1' & -> & A1 & O1 & O1' & B1 & L1). cbn [bind]. injection H as <-. eexists. split; [reflexivity|]. cbn [same_work].
  pose proof (streams_get _ _ k B1) as G. split; [exact A1|]. split; [exact O1|]. split; [exact O1'|]. split; [apply streams_set; auto|]. split; [exact L1|].
  apply Forall2_app; [exact R|]. constructor; [|constructor]. split; [reflexivity|apply store_qty, G].
Qed.
Lemma extract_loop eps f f' : f == f' -> forall st st', Forall2 same_staged st st' -> forall x y z, same_work x y -> loop (extract_one eps f) st x = Ok z ->
  exists z', loop (extract_one eps f') st' y = Ok z' /\ same_work z z'.
Proof.
  intros E st st' F. induction F as [|a a' l l' Ha F IH]; intros x y z W H; cbn [loop] in *; [injection H as <-; eauto|].
  apply bind_ok in H as (z1 & H1 & H). destruct (extract_step _ _ _ _ _ _ _ _ E W Ha H1) as (z1' & -> & W1). cbn [bind]. eauto.
Qed.
(** A part put back into the feed is a proper parcel in both cases. *)
Lemma proper_twin m m' : alike m m' -> mat_ok m -> comp_ok (m_comp m') -> 0 < m_qty m -> mat_ok m'.
Proof.
  intros A O C P. pose proof (csame_sum _ _ (alike_norm _ _ A)) as S. destruct A as [Q _]. destruct O as (_ & _ & [O|O]); [|lra]. split; [lra|]. split; [exact C|]. left.
  pose proof (csum_nonneg _ C) as N. destruct (Qeq_dec (csum (m_comp m')) 0) as [Z|Z]; [|lra]. rewrite norm_sum in S by lra. rewrite (cnorm_zero _ _ Z) in S. lra.
Qed.
Lemma tick_same eps cfg s s' s1 lg : same_plant s s' -> sp_tick eps cfg s = Ok (s1, lg) -> mats_ok (b_items (ps_feed s1)) ->
  exists s1' lg', sp_tick eps cfg s' = Ok (s1', lg') /\ same_plant s1 s1' /\ both same_log lg lg'.
Proof.
  intros (F & L & B) H Ok1. unfold sp_tick in *. pose proof F as (_ & Fl & Fs & Fs').
  destruct (b_items (ps_feed s)) as [|x0 l0] eqn:E0.
  - injection H as <- <-. rewrite (solid_nil _ Fs') by (rewrite <- (proj1 Fl); reflexivity). exists s', None. split; [reflexivity|]. split; [|exact I]. split; [exact F|]. split; [exact L|exact B].
  - assert (N' : b_items (ps_feed s') <> []).
    { intro N. rewrite N in Fl. pose proof (solid_nil _ Fs (proj1 Fl)). congruence. }
    destruct (b_items (ps_feed s')) as [|x0' l0'] eqn:E0'; [congruence|]. clear N'.
    apply bind_ok in H as ([m f] & P & H).
    destruct (stock_pop _ _ _ (Qmin (pc_throughput cfg) (b_qty (ps_feed s'))) _ _ _ F (qmin_eq _ _ _ _ (Qeq_refl _) (stock_qty _ _ F)) P) as (m' & f' & -> & A & O & O' & Pm & Ff). cbn [bind].
    cbv zeta in *. apply bind_ok in H as ([st q] & T & H).
    destruct (stage_same s s' m m' B A _ [] [] 1 1 _ (Forall2_nil _) (Qeq_refl _) T) as ([st' q'] & -> & Fst & Eq). cbn [fst snd bind] in *.
    apply bind_ok in H as (z & X & H).
    assert (W0 : same_work (m, ps_streams s, [], []) (m', ps_streams s', [], [])).
    { split; [exact A|]. split; [exact (proj1 (proj2 O))|]. split; [exact (proj1 (proj2 O'))|]. split; [exact B|]. split; constructor. }
    destruct (extract_loop eps q q' Eq st st' Fst _ _ z W0 X) as (z' & -> & W). cbn [bind].
    destruct z as [[[m1 bm] sp] sr], z' as [[[m1' bm'] sp'] sr']. destruct W as (A1 & O1 & O1' & B1 & Ls & Lr).
    apply bind_ok in H as ([m2 f2] & G & H). pose proof (proj1 A) as Qm. pose proof (proj1 A1) as Qm1.
    apply bind_ok in H as (lf & K & H). injection H as <- <-. cbn [ps_feed] in Ok1.
    assert (G' : exists m2' f2', (if Qeq_bool q' 1 then Ok (m1', f') else
         let* '(back, rest) := extract_qty ((1 - q') * m_qty m') m1' in let* f0 := b_push eps f' back in Ok (rest, f0)) = Ok (m2', f2') /\ alike m2 m2' /\ same_stock f2 f2').
    { rewrite <- (qeqb_eq q q' 1 1) by (auto; reflexivity). destruct (Qeq_bool q 1) eqn:Q1; [injection G as <- <-; eauto|].
      apply bind_ok in G as ([bk rest] & X2 & G). apply bind_ok in G as (f0 & P2 & G). injection G as <- <-. unfold extract_qty in *.
      assert (Ex : (1 - q) * m_qty m == (1 - q') * m_qty m') by (rewrite Eq, Qm; reflexivity).
      rewrite <- (qltb_eq (m_qty m1) (m_qty m1') _ _ Qm1 Ex). destruct (Qltb (m_qty m1) ((1 - q) * m_qty m)) eqn:Lt; [discriminate|]. apply Qltb_false in Lt. injection X2 as <- <-. cbn [bind].
      assert (q <= 1 -> True) by auto. pose proof (b_push_facts _ _ _ _ P2) as (_ & I2 & _).
      assert (Ob : mat_ok {| m_id := m_id m1; m_qty := (1 - q) * m_qty m; m_comp := m_comp m1 |}).
      { rewrite I2 in Ok1. apply Forall_app in Ok1 as (_ & Ok1). inversion Ok1; assumption. }
      assert (Pb : 0 < (1 - q) * m_qty m).
      { destruct Ob as (Ob & _). cbn [m_qty] in Ob. apply Qeq_bool_neq in Q1. destruct (Qlt_le_dec 0 ((1 - q) * m_qty m)) as [?|Z]; [assumption|]. exfalso. apply Q1.
        assert (Z0 : (1 - q) * m_qty m == 0) by lra. apply Qmult_integral in Z0 as [Z0|Z0]; lra. }
      assert (Nm : ~ m_qty m1 == 0) by lra.
      assert (Ab : alike {| m_id := m_id m1; m_qty := (1 - q) * m_qty m; m_comp := m_comp m1 |} {| m_id := m_id m1'; m_qty := (1 - q') * m_qty m'; m_comp := m_comp m1' |}) by (apply alike_cut; auto).
      destruct (stock_push eps f f' _ _ f0 Ff Ob (proper_twin _ _ Ab Ob O1' Pb) Pb Ab P2) as (f0' & -> & S0). cbn [bind].
      eexists. eexists. split; [reflexivity|]. split; [apply alike_cut; auto; lra|exact S0]. }
    destruct G' as (m2' & f2' & -> & A2 & S2). cbn [bind].
    assert (K' : exists lf', (if Qltb 0 (m_qty m2') then b_push eps (ps_left s') m2' else Ok (ps_left s')) = Ok lf' /\ same_store lf lf').
    { rewrite <- (qltb_eq 0 0 (m_qty m2) (m_qty m2')) by (try apply A2; reflexivity). destruct (Qltb 0 (m_qty m2)); [exact (store_push _ _ _ _ _ _ L A2 K)|]. injection K as <-. eauto. }
    destruct K' as (lf' & -> & Sl). cbn [bind]. eexists. eexists. split; [reflexivity|]. split; [split; [exact S2|]; split; [exact Sl|exact B1]|].
    cbn [both]. split; [exact Qm|]. split; [exact Ls|]. cbn [lg_supply]. apply Forall2_app; [exact Lr|]. constructor; [|constructor]. split; [reflexivity|apply store_qty, Sl].
Qed.

(** ** Requests, sales, offers and deliveries *)
Lemma requests_same eps recipe cfg prefs t s s' d r : b_qty (ps_feed s) == b_qty (ps_feed s') -> sp_requests eps recipe cfg prefs t s = Ok (d, r) ->
  exists d' r', sp_requests eps recipe cfg prefs t s' = Ok (d', r') /\ same_named d d' /\ both same_request r r' /\
    (forall x, r = Some x -> rq_qty x = Qmax 0 (pc_feed_size cfg - b_qty (ps_feed s))).
Proof.
  intros E H. unfold sp_requests in *. cbv zeta in *. apply bind_ok in H as (dn & -> & H). cbn [bind].
  assert (Em : Qmax 0 (pc_feed_size cfg - b_qty (ps_feed s)) == Qmax 0 (pc_feed_size cfg - b_qty (ps_feed s'))) by (apply qmax_eq; lra).
  rewrite <- (qleb_eq (inject_Z (pc_exit cfg - t) * pc_throughput cfg) _ (b_qty (ps_feed s)) (b_qty (ps_feed s')) (Qeq_refl _) E).
  destruct (Z.leb 0 (pc_exit cfg) && _)%bool.
  { injection H as <- <-. eexists. eexists. split; [reflexivity|]. split; [split; [reflexivity|exact Em]|]. split; [exact I|discriminate]. }
  rewrite <- (qltb_eq _ _ eps eps Em (Qeq_refl _)). destruct (Qltb _ eps).
  { injection H as <- <-. eexists. eexists. split; [reflexivity|]. split; [split; [reflexivity|exact Em]|]. split; [exact I|discriminate]. }
  apply bind_ok in H as (c & -> & H). cbn [bind]. apply bind_ok in H as (it & -> & H). cbn [bind]. injection H as <- <-.
  eexists. eexists. split; [reflexivity|]. split; [split; [reflexivity|exact Em]|]. split; [split; [exact Em|split; reflexivity]|]. intros x X. injection X as <-. reflexivity.
Qed.
Lemma trades_same eps cfg : forall ts s s' l l' r, same_plant s s' -> Forall2 alike l l' -> loop (trade_one eps cfg) ts (s, l) = Ok r ->
  exists r', loop (trade_one eps cfg) ts (s', l') = Ok r' /\ same_plant (fst r) (fst r') /\ Forall2 alike (snd r) (snd r') /\
    ps_feed (fst r) = ps_feed s /\ ps_feed (fst r') = ps_feed s'.
Proof.
  induction ts as [|[k q] ts IH]; intros s s' l l' r P F H; cbn [loop] in *; [injection H as <-; eexists; split; [reflexivity|cbn [fst snd]; auto]|].
  apply bind_ok in H as ([s1 l1] & H1 & H). unfold trade_one in H1. unfold trade_one at 1. pose proof P as (Pf & Pl & Ps). destruct (String.eqb k (pc_leftover_commod cfg)).
  - cbv zeta in *. apply bind_ok in H1 as ([m b] & X & H1). injection H1 as <- <-.
    destruct (store_pop _ _ _ (Qmin (b_qty (ps_left s')) q) _ _ _ Pl (qmin_eq _ _ _ _ (store_qty _ _ Pl) (Qeq_refl _)) X) as (m' & b' & -> & A & B). cbn [bind].
    destruct (IH {| ps_feed := ps_feed s; ps_left := b; ps_streams := ps_streams s |} {| ps_feed := ps_feed s'; ps_left := b'; ps_streams := ps_streams s' |} (l ++ [m]) (l' ++ [m']) _ ltac:(split; [exact Pf|split; [exact B|exact Ps]]) ltac:(apply Forall2_app; auto) H) as (r' & -> & R).
    eexists. split; [reflexivity|exact R].
  - pose proof (streams_find _ _ k Ps) as Fd. destruct (bm_find k (ps_streams s)) as [sb|]; [|discriminate]. destruct (bm_find k (ps_streams s')) as [sb'|]; [|contradiction]. cbn [both] in Fd.
    cbv zeta in *. apply bind_ok in H1 as ([m b] & X & H1). injection H1 as <- <-.
    destruct (store_pop _ _ _ (Qmin (b_qty sb') q) _ _ _ Fd (qmin_eq _ _ _ _ (store_qty _ _ Fd) (Qeq_refl _)) X) as (m' & b' & -> & A & B). cbn [bind].
    destruct (IH {| ps_feed := ps_feed s; ps_left := ps_left s; ps_streams := bm_set k b (ps_streams s) |} {| ps_feed := ps_feed s'; ps_left := ps_left s'; ps_streams := bm_set k b' (ps_streams s') |} (l ++ [m]) (l' ++ [m']) _ ltac:(split; [exact Pf|split; [exact Pl|apply streams_set; auto]]) ltac:(apply Forall2_app; auto) H) as (r' & -> & R).
    eexists. split; [reflexivity|exact R].
Qed.
Lemma offers_same eps q j ms ms' : Forall2 alike ms ms' -> forall t t', t == t' ->
  Forall2 (fun a b => fst a = fst b /\ alike (snd a) (snd b)) (offer_loop eps q t j ms) (offer_loop eps q t' j ms').
Proof.
  induction 1 as [|m m' l l' A F IH]; intros t t' E; cbn [offer_loop]; [constructor|]. pose proof (proj1 A) as Q. cbv zeta. rewrite <- (qltb_eq eps eps (m_qty m) (m_qty m')) by (auto; reflexivity).
  rewrite <- (qleb_eq q q (t + m_qty m) (t' + m_qty m')) by (try reflexivity; lra). apply Forall2_app.
  - destruct (Qltb eps (m_qty m)); constructor; [split; auto|constructor].
  - destruct (Qle_bool q (t + m_qty m)); [constructor|]. apply IH. lra.
Qed.
Lemma bid_same eps k b b' rs : same_store b b' -> Forall2 same_offer (bid_on eps k b rs) (bid_on eps k b' rs).
Proof.
  intro S. unfold bid_on. destruct rs as [|r rs]; [constructor|]. rewrite <- (qltb_eq (b_qty b) (b_qty b') eps eps (store_qty _ _ S)) by reflexivity. destruct (Qltb (b_qty b) eps); constructor; [|constructor].
  split; [reflexivity|]. split; [apply store_qty, S|]. cbn [bd_bids]. generalize (combine (seq 0 (List.length (r :: rs))) (r :: rs)). intro js. induction js as [|x js IH]; cbn [flat_map]; [constructor|].
  apply Forall2_app; [|exact IH]. apply offers_same; [apply S|reflexivity].
Qed.
Lemma bids_same eps cfg s s' f : same_plant s s' -> Forall2 same_offer (sp_bids eps cfg s f) (sp_bids eps cfg s' f).
Proof.
  intros (_ & L & B). unfold sp_bids. apply Forall2_app; [|apply bid_same, L]. induction B as [|[k b] [k' b'] l l' [E S] F IH]; cbn [flat_map fst snd] in *; [constructor|]. subst k'. apply Forall2_app; [apply bid_same, S|exact IH].
Qed.
Lemma accept_same eps f f' ms ms' c g : 0 <= eps -> same_stock f f' -> same_layers ms ms' -> solid ms -> solid ms' -> b_cap f = Some c ->
  qty_of ms <= Qmax 0 (c - b_qty f) -> loop (b_push eps) ms f = Ok g -> exists g', loop (b_push eps) ms' f' = Ok g' /\ same_stock g g' /\ b_cap g = b_cap f.
Proof.
  intros He S L T T' C Le H. pose proof (stock_qty _ _ S) as Q. pose proof (mats_qty_nonneg _ (solid_ok _ T')) as N. pose proof (proj1 L) as Qs.
  assert (X : exists g', loop (b_push eps) ms' f' = Ok g').
  { destruct (Qlt_le_dec 0 (qty_of ms')) as [P|P].
    - apply (accept_ok_tol eps ms' He f' c); [rewrite <- C; symmetry; apply S|apply solid_ok, T'|]. revert Le. apply Q.max_case_strong; [intros ? ? E; rewrite E; auto| |]; lra.
    - rewrite (solid_nil ms' T') by lra. exists f'. reflexivity. }
  destruct X as (g' & X). exists g'. split; [exact X|]. apply accept_facts in H as (C1 & I1). apply accept_facts in X as (C2 & I2). split; [|exact C1].
  destruct S as (Sc & Sl & S & S'). split; [congruence|]. rewrite I1, I2. split; [apply layers_app; auto using solid_ok|]. split; apply solid_app; assumption.
Qed.

(** ** The whole life *)
Lemma tick_cap eps cfg s s1 lg : sp_tick eps cfg s = Ok (s1, lg) -> b_cap (ps_feed s1) = b_cap (ps_feed s).
Proof.
  intro H. unfold sp_tick in H. destruct (b_items (ps_feed s)) as [|x0 l0]; [injection H as <- <-; reflexivity|]. apply bind_ok in H as ([m f] & P & H). unfold b_pop_tol in P. apply bind_ok in P as ([m0 r0] & _ & P). injection P as <- <-.
  cbv zeta in H. apply bind_ok in H as ([st q] & _ & H). apply bind_ok in H as ([[[m1 bm] sp] sr] & _ & H). apply bind_ok in H as ([m2 f2] & G & H). apply bind_ok in H as (lf & _ & H). injection H as <- <-. cbn [ps_feed].
  destruct (Qeq_bool q 1); [injection G as <- <-; reflexivity|]. apply bind_ok in G as ([bk rest] & _ & G). apply bind_ok in G as (f0 & P & G). injection G as <- <-. apply b_push_facts in P as (C & _). exact C.
Qed.
Lemma step_same eps recipe cfg prefs s s' e e' s2 o : 0 <= eps -> same_plant s s' -> same_deliveries e e' -> b_cap (ps_feed s) = Some (pc_feed_size cfg) ->
  sp_step eps recipe cfg prefs s e = Ok (s2, o) -> qty_of (pe_receipts e) <= asked_for o -> Forall mat_ok (b_items (ps_feed (po_ticked o))) ->
  exists s2' o', sp_step eps recipe cfg prefs s' e' = Ok (s2', o') /\ same_plant s2 s2' /\ same_step o o' /\ b_cap (ps_feed s2) = Some (pc_feed_size cfg).
Proof.
  intros He P (Et & Er & Etr & El & S & S') Cp H Ask Ok1. unfold sp_step in *. apply bind_ok in H as ([s1 lg] & T & H). apply bind_ok in H as ([dm rq] & R & H).
  apply bind_ok in H as ([s3 sh] & Tr & H). apply bind_ok in H as (s4 & Ac & H). injection H as <- <-. cbn [po_ticked] in Ok1. unfold asked_for in Ask. cbn [po_request] in Ask.
  destruct (tick_same _ _ _ _ _ _ P T Ok1) as (s1' & lg' & -> & P1 & Lg). cbn [bind]. rewrite <- Et, <- Er, <- Etr.
  destruct (requests_same _ _ _ _ _ s1 s1' _ _ (stock_qty _ _ (proj1 P1)) R) as (dm' & rq' & -> & Dm & Rq & Rv). cbn [bind]. unfold sp_trades in *.
  destruct (trades_same _ _ _ _ s1' _ [] _ P1 (Forall2_nil _) Tr) as ([s3' sh'] & -> & P3 & Sh & F3 & F3'). cbn [fst snd bind] in *.
  unfold sp_accept in *. apply bind_ok in Ac as (g & G & Ac). injection Ac as <-.
  assert (C3 : b_cap (ps_feed s3) = Some (pc_feed_size cfg)) by (rewrite F3, (tick_cap _ _ _ _ _ T); exact Cp).
  assert (Le : qty_of (pe_receipts e) <= Qmax 0 (pc_feed_size cfg - b_qty (ps_feed s3))).
  { rewrite F3. destruct rq as [x|]; [rewrite <- (Rv x eq_refl); exact Ask|]. pose proof (Q.le_max_l 0 (pc_feed_size cfg - b_qty (ps_feed s1))). lra. }
  destruct (accept_same _ _ _ _ _ _ _ He (proj1 P3) El S S' C3 Le G) as (g' & -> & Sg & Cg). cbn [bind]. eexists. eexists. split; [reflexivity|]. split; [split; [exact Sg|exact (proj2 P3)]|].
  split; [|cbn [ps_feed]; congruence]. split; [exact Lg|]. split; [exact Dm|]. split; [exact Rq|]. split; [apply bids_same, P1|exact Sh].
Qed.
Lemma run_same eps recipe cfg prefs : 0 <= eps -> forall es es', Forall2 same_deliveries es es' -> forall s s' s2 os, same_plant s s' -> b_cap (ps_feed s) = Some (pc_feed_size cfg) ->
  sp_run eps recipe cfg prefs s es = Ok (s2, os) -> Forall2 (fun e o => qty_of (pe_receipts e) <= asked_for o) es os ->
  Forall (fun o => Forall mat_ok (b_items (ps_feed (po_ticked o)))) os ->
  exists s2' os', sp_run eps recipe cfg prefs s' es' = Ok (s2', os') /\ same_plant s2 s2' /\ Forall2 same_step os os'.
Proof.
  intros He es es' F. induction F as [|e e' es es' D F IH]; intros s s' s2 os P C H As Ms; cbn [sp_run] in *; [injection H as <- <-; eauto|].
  apply bind_ok in H as ([s1 o] & H1 & H). apply bind_ok in H as ([s3 os1] & H2 & H). injection H as <- <-. inversion As; subst. inversion Ms; subst.
  destruct (step_same _ _ _ _ _ _ _ _ _ _ He P D C H1) as (s1' & o' & -> & P1 & So & C1); auto. cbn [bind].
  destruct (IH s1 s1' s3 os1 P1 C1 H2) as (s3' & os' & -> & P3 & Sos); auto. cbn [bind]. eexists. eexists. split; [reflexivity|]. auto.
Qed.
