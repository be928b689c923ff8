(** Conversion, Storage and Sink on two scales (C126). *)
From Coq Require Import Lia Lqa.
From Verif Require Import Outcome KernelMaterial KernelResBuf KernelBuf KernelFacts ScaleSpec ScaleProofs.
From Verif Require ConversionModel StorageModel SinkModel.
Local Open Scope Q_scope.

Lemma forall2_cons_inv {A B} (R : A -> B -> Prop) x l y : Forall2 R (x :: l) y -> exists b r, y = b :: r /\ R x b /\ Forall2 R l r.
Proof. intro H. inversion H; subst. eauto. Qed.

Section Scale.
Variable k : Q.
Hypothesis K : 0 < k.
Notation mqty := (more_qty k).

Section Conversion.
Import ConversionModel.
Lemma bulk_more ms ms' m m' : Forall2 (more k) ms ms' -> more k m m' -> Forall2 (more k) (bulk_push ms m) (bulk_push ms' m').
Proof. intros F M. destruct F as [|x y l l' H F]; cbn in *; constructor; auto. apply more_absorb; auto. Qed.
Lemma cv_tick_more c c' s s' : cv_cfg_more k c c' -> cv_more k s s' -> likewise (cv_more k) (cv_tick c s) (cv_tick c' s').
Proof.
  intros (_ & _ & T & _) [I O]. pose proof (mqty _ _ I) as Qe. unfold cv_tick. rewrite (t_ltb k K 0 0 _ _ (t_0 k) Qe). destruct (Qltb 0 (qty_of (vs_input s))); [|split; auto].
  eapply like_bind; [apply more_pop_qty; [exact K|exact I|apply t_min; eauto]|]. intros [m r] [m' r'] [M R]. split; cbn [vs_input vs_output fst snd]; [exact R|]. apply bulk_more; auto.
Qed.
Lemma cv_requests_more c c' s s' : cv_cfg_more k c c' -> cv_more k s s' -> agree (more_asked k) (cv_requests c s) (cv_requests c' s').
Proof.
  intros (In & _ & _ & C) [I _]. pose proof (mqty _ _ I) as Qe. unfold cv_requests. cbv zeta.
  assert (A : times k (cv_available c s) (cv_available c' s')) by (apply t_minus; auto). rewrite (t_leb k K _ _ 0 0 A (t_0 k)). destruct (Qle_bool (cv_available c s) 0); [exact Logic.I|].
  cbn. split; cbn [fst snd]; [|exact A]. rewrite <- In. eapply forall2_map; [apply (forall2_same eq); reflexivity|]. intros a b <-. split; auto.
Qed.
Lemma cv_bids_more s s' rs rs' : cv_more k s s' -> Forall2 (times k) rs rs' -> likewise (agree (more_offered k)) (cv_bids s rs) (cv_bids s' rs').
Proof.
  intros [_ O] R. pose proof (mqty _ _ O) as Qe. unfold cv_bids. cbv zeta. rewrite (t_leb k K _ _ 0 0 Qe (t_0 k)). destruct (Qle_bool (qty_of (vs_output s)) 0) eqn:Z; [exact I|].
  eapply like_bind.
  - eapply (like_loop _ (Forall2 (more_for k))); [|apply (forall2_combine (times k)), R|constructor]. intros a a' x y A [Ei Eq]. pose proof (t_min k K _ _ _ _ Qe Eq) as M. rewrite (t_ltb k K 0 0 _ _ (t_0 k) M).
    destruct (Qltb 0 (Qmin (qty_of (vs_output s)) (snd x))); [|exact A]. destruct O as [|m m' l l' Hm Hl]; [reflexivity|]. cbn. apply Forall2_app; [exact A|]. constructor; [|constructor]. split; [exact Ei|]. cbn [snd].
    apply more_cut; auto.
  - intros b b' B. cbn. split; auto.
Qed.
Lemma cv_trades_more am am' : Forall2 (times k) am am' -> forall o o' sh sh', Forall2 (more k) o o' -> Forall2 (more k) sh sh' ->
  likewise (fun x y => Forall2 (more k) (fst x) (fst y) /\ Forall2 (more k) (snd x) (snd y)) (cv_trades am o sh) (cv_trades am' o' sh').
Proof.
  induction 1 as [|q q' l l' E F IH]; intros o o' sh sh' O Sh; cbn [cv_trades]; [split; auto|]. eapply like_bind; [apply more_pop_qty; eauto|]. intros [m r] [m' r'] [M R]. apply IH; [exact R|]. apply Forall2_app; auto.
Qed.
Lemma cv_accept_more eps eps' c c' : times k eps eps' -> cv_cfg_more k c c' -> forall ms ms', Forall2 (more k) ms ms' -> forall i i', Forall2 (more k) i i' ->
  likewise (Forall2 (more k)) (cv_accept eps c ms i) (cv_accept eps' c' ms' i').
Proof.
  intros E C ms ms' F. induction F as [|m m' l l' M F IH]; intros i i' B; cbn [cv_accept]; [exact B|].
  pose proof (mqty _ _ B) as Qe. assert (D : times k (m_qty m - Qmax 0 (vc_capacity c - qty_of i)) (m_qty m' - Qmax 0 (vc_capacity c' - qty_of i'))).
  { destruct C as (_ & _ & _ & C). apply t_minus; [apply M|]. apply t_max; auto; [apply t_0|]. apply t_minus; auto. }
  rewrite (t_ltb k K _ _ _ _ E D). destruct (Qltb eps (m_qty m - Qmax 0 (vc_capacity c - qty_of i))); [reflexivity|]. apply IH, bulk_more; auto.
Qed.
Lemma cv_step_more eps eps' c c' s s' e e' : times k eps eps' -> cv_cfg_more k c c' -> cv_more k s s' -> cv_env_more k e e' ->
  likewise (fun x y => cv_more k (fst x) (fst y) /\ cv_out_more k (snd x) (snd y)) (cv_step eps c s e) (cv_step eps' c' s' e').
Proof.
  intros E C H (R & Sa & Re). unfold cv_step. eapply like_bind; [apply cv_tick_more; eauto|]. intros s1 s1' H1. eapply like_bind; [apply cv_bids_more; eauto|]. intros b b' B.
  eapply like_bind; [apply cv_trades_more; [exact Sa|apply H1|constructor]|]. intros [o sh] [o' sh'] [O Sh]. eapply like_bind; [apply cv_accept_more; [exact E|exact C|exact Re|apply H1]|]. intros i i' I.
  cbn. split; [split; auto|]. split; [exact H1|]. split; [apply cv_requests_more; auto|]. split; auto.
Qed.
Lemma cv_run_more eps eps' c c' : times k eps eps' -> cv_cfg_more k c c' -> forall es es', Forall2 (cv_env_more k) es es' -> forall s s', cv_more k s s' ->
  likewise (fun x y => cv_more k (fst x) (fst y) /\ Forall2 (cv_out_more k) (snd x) (snd y)) (cv_run eps c s es) (cv_run eps' c' s' es').
Proof.
  intros E C es es' F. induction F as [|e e' l l' He F IH]; intros s s' H; cbn [cv_run]; [split; [exact H|constructor]|].
  eapply like_bind; [apply cv_step_more; eauto|]. intros [s1 o] [s1' o'] [H1 O]. eapply like_bind; [apply IH, H1|]. intros [s2 os] [s2' os'] [H2 Os]. cbn in *. split; [exact H2|]. constructor; auto.
Qed.
End Conversion.

Section Storage.
Import StorageModel.
Definition two (x y : list mat * list mat) : Prop := Forall2 (more k) (fst x) (fst y) /\ Forall2 (more k) (snd x) (snd y).
Lemma st_add_more s s' ms ms' : st_more k s s' -> Forall2 (more k) ms ms' -> st_more k (fold_left st_add_mat ms s) (fold_left st_add_mat ms' s').
Proof.
  intros H F. revert s s' H. induction F as [|m m' l l' M F IH]; intros s s' H; cbn [fold_left]; [exact H|]. apply IH. destruct H as (A & B & C & D & E). repeat split; auto. cbn. apply Forall2_app; auto.
Qed.
Lemma begin_loop_more t ms ms' : Forall2 (more k) ms ms' -> forall p p' ts, Forall2 (more k) p p' ->
  Forall2 (more k) (fst (begin_loop t ms p ts)) (fst (begin_loop t ms' p' ts)) /\ snd (begin_loop t ms p ts) = snd (begin_loop t ms' p' ts).
Proof. induction 1 as [|m m' l l' M F IH]; intros p p' ts P; cbn; [auto|]. apply IH. apply Forall2_app; auto. Qed.
Lemma begin_more t s s' : st_more k s s' -> st_more k (begin_processing t s) (begin_processing t s').
Proof.
  intros (A & B & C & D & E). unfold begin_processing. rewrite C. destruct (begin_loop_more t _ _ A _ _ (ss_entry_times s') B) as [X Y].
  destruct (begin_loop t (ss_inventory s) _ _) as [p ts], (begin_loop t (ss_inventory s') _ _) as [p' ts']. cbn in *. repeat split; auto; constructor.
Qed.
Lemma forall2_firstn {A B} (R : A -> B -> Prop) n l l' : Forall2 R l l' -> Forall2 R (firstn n l) (firstn n l').
Proof. intro F. revert n. induction F; intros [|n]; cbn; constructor; auto. Qed.
Lemma forall2_skipn {A B} (R : A -> B -> Prop) n l l' : Forall2 R l l' -> Forall2 R (skipn n l) (skipn n l').
Proof. intro F. revert n. induction F; intros [|n]; cbn; try constructor; auto. Qed.
Lemma ready_more t s s' : st_more k s s' -> likewise (st_more k) (ready_matl t s) (ready_matl t s').
Proof.
  intros (A & B & C & D & E). unfold ready_matl. rewrite C. destruct (ready_loop t (ss_entry_times s') 0) as [ts n]. unfold zlen. rewrite (forall2_len _ _ _ B). destruct (Z.ltb _ n); [reflexivity|].
  cbn. repeat split; auto; cbn; [apply forall2_skipn; auto|]. apply Forall2_app; auto. apply forall2_firstn; auto.
Qed.
Lemma discrete_more mp mp' r r' : times k mp mp' -> Forall2 (more k) r r' -> forall c c' mv mv', times k c c' -> Forall2 (more k) mv mv' -> two (discrete_loop c mp r mv) (discrete_loop c' mp' r' mv').
Proof.
  intros P F. induction F as [|m m' l l' M F IH]; intros c c' mv mv' C V; cbn [discrete_loop]; [split; [exact V|constructor]|].
  rewrite (t_leb k K _ _ _ _ C P). destruct (Qle_bool c mp); [|split; cbn; auto]. apply IH; [|apply Forall2_app; auto]. apply t_plus; [exact C|]. destruct F as [|x y ? ? X]; [apply t_0|apply X].
Qed.
Lemma process_more eps eps' c c' cap cap' s s' : times k eps eps' -> st_cfg_more k c c' -> times k cap cap' -> st_more k s s' ->
  likewise (fun x y => st_more k (fst x) (fst y) /\ Forall2 (more k) (snd x) (snd y)) (process_mat eps c cap s) (process_mat eps' c' cap' s').
Proof.
  intros E (_ & _ & _ & _ & _ & _ & _ & Di) Cp H. pose proof H as (A & B & C & D & S). unfold process_mat. destruct (ss_ready s) as [|m l] eqn:X1, (ss_ready s') as [|m' l'] eqn:X2; [split; [exact H|constructor]|inversion D|inversion D|].
  pose proof D as F. assert (M : more k m m') by (inversion D; auto). pose proof (mqty _ _ F) as Qe. pose proof (t_min k K _ _ _ _ Cp Qe) as Mp. rewrite <- Di. cbv zeta.
  eapply (like_bind two).
  - destruct (sc_discrete c).
    + rewrite (t_eqb k K _ _ _ _ Mp Qe). destruct (Qeq_bool (Qmin cap (qty_of (m :: l))) (qty_of (m :: l))); [split; [exact F|constructor]|]. cbn [likewise]. apply discrete_more; auto. apply M.
    + eapply like_bind; [apply more_pop_tol; eauto|]. intros [x r] [x' r'] [Hx Hr]. split; [repeat constructor; apply Hx|exact Hr].
  - intros [mv r] [mv' r'] [V R]. cbn in *. split; [|exact V]. repeat split; auto. cbn. apply Forall2_app; auto.
Qed.
Lemma total_more s s' : st_more k s s' -> times k (st_total s) (st_total s').
Proof. intros (A & B & C & D & E). unfold st_total. repeat apply t_plus; auto using more_qty. Qed.
Lemma st_tock_more eps eps' c c' t s s' : times k eps eps' -> st_cfg_more k c c' -> st_more k s s' ->
  likewise (fun x y => st_more k (fst x) (fst y) /\ Forall2 (more k) (to_released (snd x)) (to_released (snd y)) /\ more_named k (to_demand (snd x)) (to_demand (snd y)) /\
                       more_named k (to_supply (snd x)) (to_supply (snd y))) (st_tock eps c t s) (st_tock eps' c' t s').
Proof.
  intros E C H. pose proof (begin_more t _ _ H) as H1. unfold st_tock. cbv zeta. pose proof C as (Ci & Cp & Co & _ & Cr & Ct & Cm & _). unfold ready_time. rewrite <- Cr.
  eapply (like_bind (st_more k)).
  - assert (Z : zlen (ss_inventory (begin_processing t s)) = zlen (ss_inventory (begin_processing t s'))) by (unfold zlen; rewrite (forall2_len _ _ _ (proj1 H1)); reflexivity).
    rewrite <- Z. destruct (_ || _)%bool; [|exact H1]. apply ready_more, H1.
  - intros s2 s2' H2. eapply like_bind; [apply process_more; eauto|]. intros [s3 mv] [s3' mv'] [H3 V]. cbn [fst snd] in *.
    rewrite <- Ci, <- Cp, <- Co. eapply (like_bind eq); [apply like_eq; reflexivity|]. intros d ? <-. eapply (like_bind eq); [apply like_eq; reflexivity|]. intros n ? <-. cbn.
    split; [exact H3|]. split; [exact V|]. split; (split; [reflexivity|]); cbn; [|apply mqty, H3]. apply t_max; auto; [apply t_0|]. apply t_minus; auto. apply total_more, H3.
Qed.
Lemma sell_more eps eps' : times k eps eps' -> forall l l', Forall2 (times k) l l' -> forall a a' b b', Forall2 (more k) a a' -> Forall2 (more k) b b' -> likewise two (sell_all eps l a b) (sell_all eps' l' a' b').
Proof.
  intros E l l' F. induction F as [|q q' l l' Hq F IH]; intros a a' b b' A B; cbn [sell_all]; [split; auto|]. eapply like_bind; [apply more_pop_tol; eauto|]. intros [m r] [m' r'] [M R]. apply IH; [exact R|]. apply Forall2_app; auto.
Qed.
Lemma st_step_more eps eps' c c' s s' e e' : times k eps eps' -> st_cfg_more k c c' -> st_more k s s' -> st_env_more k e e' ->
  likewise (fun x y => st_more k (fst x) (fst y) /\ st_out_more k (snd x) (snd y)) (st_step eps c s e) (st_step eps' c' s' e').
Proof.
  intros E C H (T & Sa & Re). pose proof H as (A & B & C0 & D & S). unfold st_step, st_trade. eapply (like_bind (fun x y => st_more k (fst x) (fst y) /\ Forall2 (more k) (snd x) (snd y))).
  - eapply like_bind; [apply sell_more; [exact E|exact Sa|exact S|constructor]|]. intros [a b] [a' b'] [Ha Hb]. cbn in *. split; [|exact Hb]. apply st_add_more; [|exact Re]. repeat split; auto.
  - intros [s1 so] [s1' so'] [H1 So]. rewrite <- T. cbn [fst snd] in *. eapply like_bind; [apply st_tock_more; eauto|]. intros [s2 o] [s2' o'] (H2 & R & De & Su). cbn in *. split; [exact H2|]. repeat split; auto; try apply De; try apply Su.
Qed.
Lemma st_run_more eps eps' c c' : times k eps eps' -> st_cfg_more k c c' -> forall es es', Forall2 (st_env_more k) es es' -> forall s s', st_more k s s' ->
  likewise (fun x y => st_more k (fst x) (fst y) /\ Forall2 (st_out_more k) (snd x) (snd y)) (st_run eps c s es) (st_run eps' c' s' es').
Proof.
  intros E C es es' F. induction F as [|e e' l l' He F IH]; intros s s' H; cbn [st_run]; [split; [exact H|constructor]|].
  eapply like_bind; [apply st_step_more; eauto|]. intros [s1 o] [s1' o'] [H1 O]. eapply like_bind; [apply IH, H1|]. intros [s2 os] [s2' os'] [H2 Os]. cbn in *. split; [exact H2|]. constructor; auto.
Qed.
End Storage.

Section Sink.
Import SinkModel.
Lemma rsrcs_more l l' : Forall2 (rsrc_more k) l l' -> times k (rsrcs_qty l) (rsrcs_qty l').
Proof. intro F. apply t_sum. eapply forall2_map; [exact F|]. intros a b [H _]. exact H. Qed.
Lemma sk_space_more c c' s s' : sk_cfg_more k c c' -> sk_more k s s' -> times k (sk_space c s) (sk_space c' s').
Proof. intros (_ & _ & _ & M & _) (_ & I & _). apply t_max; auto; [apply t_0|]. apply t_minus; auto. apply rsrcs_more, I. Qed.
Lemma sk_av_more c c' s s' : sk_cfg_more k c c' -> sk_more k s s' -> times k (sk_available c s) (sk_available c' s').
Proof. intros C H. pose proof (sk_space_more _ _ _ _ C H). destruct C as (_ & _ & _ & _ & C & _). apply t_min; auto. apply t_max; auto. apply t_0. Qed.
Lemma sk_amt_more c c' g g' s s' : sk_cfg_more k c c' -> rng_more k g g' -> sk_more k s s' -> times k (sk_request_amt c g s) (sk_request_amt c' g' s').
Proof.
  intros C (G1 & G2 & _) H. pose proof (sk_av_more _ _ _ _ C H) as A. destruct C as (_ & _ & _ & _ & _ & T & Me & Sd & _). unfold sk_request_amt. cbv zeta. rewrite <- T, <- Me, <- Sd.
  destruct (String.eqb _ "None"); [exact A|]. destruct (String.eqb _ "UniformReal"); [apply G1; [apply t_0|exact A]|]. destruct (String.eqb _ "NormalReal"); [|exact A]. apply G2; auto; [| |apply t_0]; apply t_multr; auto; reflexivity.
Qed.
Lemma sk_next_more c c' g g' t : sk_cfg_more k c c' -> rng_more k g g' -> sk_next_buy c g t = sk_next_buy c' g' t.
Proof. intros (_ & _ & _ & _ & _ & _ & _ & _ & T & Me & Sd & Mi & Ma) (_ & _ & G1 & G2). unfold sk_next_buy. rewrite <- T, <- Me, <- Sd, <- Mi, <- Ma, G1, G2. reflexivity. Qed.
Lemma sk_new_more c c' : sk_cfg_more k c c' -> sk_more k (sk_new c) (sk_new c').
Proof. intros (_ & P & _). split; [exact P|]. split; [constructor|]. split; [apply t_0|reflexivity]. Qed.
Lemma sk_enter_more c c' g g' t s s' : sk_cfg_more k c c' -> rng_more k g g' -> sk_more k s s' -> likewise (sk_more k) (sk_enter c g t s) (sk_enter c' g' t s').
Proof.
  intros C G H. pose proof H as (P & I & A & N). unfold sk_enter. rewrite <- P. pose proof C as (Cc & _). rewrite <- Cc. eapply (like_bind eq); [apply like_eq; reflexivity|]. intros p ? <-.
  cbv zeta. cbn. repeat split; auto; cbn; [|apply sk_next_more; auto]. apply sk_amt_more; auto. repeat split; auto.
Qed.
Lemma sk_tick_more eg eg' c c' g g' t s s' : times k eg eg' -> sk_cfg_more k c c' -> rng_more k g g' -> sk_more k s s' ->
  likewise (fun x y => sk_more k (fst x) (fst y) /\ Forall2 (more_named k) (snd x) (snd y)) (sk_tick eg c g t s) (sk_tick eg' c' g' t s').
Proof.
  intros E C G H. pose proof H as (P & I & A & N). unfold sk_tick. cbv zeta. rewrite <- N.
  match goal with |- likewise _ (if Qltb eg (ks_amt ?a) then _ else _) (if Qltb eg' (ks_amt ?b) then _ else _) => set (s1 := a); set (s1' := b) end.
  assert (H1 : sk_more k s1 s1').
  { unfold s1, s1'. destruct (Z.eqb (ks_next s) (-1)); [|destruct (Z.eqb (ks_next s) t)]; (split; [exact P|split; [exact I|split; cbn; [|auto using sk_next_more]]]); auto using sk_amt_more, t_0. }
  pose proof H1 as (_ & _ & A1 & _). rewrite (t_ltb k K _ _ _ _ E A1). destruct (Qltb eg (ks_amt s1)); [|split; [exact H1|constructor]].
  pose proof C as (Cc & _). rewrite <- Cc. eapply (like_bind eq); [apply like_eq; reflexivity|]. intros d1 d2 _. cbn. split; [exact H1|]. eapply forall2_map; [apply (forall2_same eq); reflexivity|]. intros a b <-. split; auto.
Qed.
Lemma sk_mat_more eg eg' rc c c' g g' s s' : times k eg eg' -> sk_cfg_more k c c' -> rng_more k g g' -> sk_more k s s' ->
  likewise (fun x y => sk_more k (fst x) (fst y) /\ agree (mreq_more k) (snd x) (snd y)) (sk_mat_requests eg rc c g s) (sk_mat_requests eg' rc c' g' s').
Proof.
  intros E C G H. pose proof H as (P & I & A & N). unfold sk_mat_requests. cbv zeta. rewrite (t_ltb k K _ _ _ _ (sk_av_more _ _ _ _ C H) A).
  match goal with |- context [if Qltb eg (ks_amt ?a) then _ else _] => set (s1 := a) end.
  match goal with |- context [if Qltb eg' (ks_amt ?b) then _ else _] => set (s1' := b) end.
  assert (H1 : sk_more k s1 s1') by (unfold s1, s1'; destruct (Qltb (sk_available c s) (ks_amt s)); [|exact H]; repeat split; auto; cbn; apply sk_amt_more; auto).
  pose proof C as (Cc & _ & Cr & _). rewrite <- Cr. eapply (like_bind eq); [apply like_eq; reflexivity|]. intros rc1 ? <-.
  pose proof H1 as (P1 & _ & A1 & _). rewrite (t_ltb k K _ _ _ _ E A1). destruct (Qltb eg (ks_amt s1)); [|split; [exact H1|exact Logic.I]].
  rewrite <- Cc, <- P1. eapply (like_bind eq); [apply like_eq; reflexivity|]. intros it ? <-. cbn. split; [exact H1|]. repeat split; auto.
Qed.
Lemma sk_gen_more eg eg' c c' s s' : times k eg eg' -> sk_cfg_more k c c' -> sk_more k s s' -> agree (more_asked k) (sk_gen_requests eg c s) (sk_gen_requests eg' c' s').
Proof.
  intros E (Cc & _) (_ & _ & A & _). unfold sk_gen_requests. rewrite (t_ltb k K _ _ _ _ E A), <- Cc. destruct (Qltb eg (ks_amt s)); [|exact I]. cbn. split; cbn; [|exact A]. eapply forall2_map; [apply (forall2_same eq); reflexivity|]. intros a b <-. split; auto.
Qed.
Lemma sk_accept_more eps eps' c c' : times k eps eps' -> sk_cfg_more k c c' -> forall l l', Forall2 (rsrc_more k) l l' -> forall s s', sk_more k s s' -> likewise (sk_more k) (sk_accept eps c l s) (sk_accept eps' c' l' s').
Proof.
  intros E C l l' F. induction F as [|x y l l' H F IH]; intros s s' S; cbn [sk_accept]; [exact S|]. pose proof (t_minus k _ _ _ _ (proj1 H) (sk_space_more _ _ _ _ C S)) as D.
  rewrite (t_ltb k K _ _ _ _ E D). destruct (Qltb eps (r_qty x - sk_space c s)); [reflexivity|]. apply IH. destruct S as (P & I & A & N). repeat split; auto. cbn. apply Forall2_app; auto.
Qed.
Lemma sk_step_more eps eps' eg eg' rc c c' t s s' e e' : times k eps eps' -> times k eg eg' -> sk_cfg_more k c c' -> sk_more k s s' -> sk_env_more k e e' ->
  likewise (fun x y => sk_more k (fst x) (fst y) /\ sk_out_more k (snd x) (snd y)) (sk_step eps eg rc c t s e) (sk_step eps' eg' rc c' t s' e').
Proof.
  intros E Eg C H (G & G2 & Ms & Ps). unfold sk_step. eapply like_bind; [apply sk_tick_more; eauto|]. intros [s1 d] [s1' d'] [H1 D]. eapply like_bind; [apply sk_mat_more; eauto|]. intros [s2 m] [s2' m'] [H2 M].
  eapply like_bind; [apply (sk_accept_more eps eps' c c' E C); [eapply forall2_map; [exact Ms|]|exact H2]|].
  { intros a b X. split; cbn; apply X. }
  intros s3 s3' H3. cbv zeta. eapply like_bind; [apply (sk_accept_more eps eps' c c' E C); [eapply forall2_map; [exact Ps|]|exact H3]|].
  { intros a b X. split; cbn; [exact X|exact I]. }
  intros s4 s4' H4. cbn in *. split; [exact H4|]. repeat split; auto. apply sk_gen_more; auto.
Qed.
Lemma sk_run_more eps eps' eg eg' rc c c' : times k eps eps' -> times k eg eg' -> sk_cfg_more k c c' -> forall es es', Forall2 (sk_env_more k) es es' -> forall t s s', sk_more k s s' ->
  likewise (fun x y => sk_more k (fst x) (fst y) /\ Forall2 (sk_out_more k) (snd x) (snd y)) (sk_run eps eg rc c t s es) (sk_run eps' eg' rc c' t s' es').
Proof.
  intros E Eg C es es' F. induction F as [|e e' l l' He F IH]; intros t s s' H; cbn [sk_run]; [split; [exact H|constructor]|].
  eapply like_bind; [apply sk_step_more; eauto|]. intros [s1 o] [s1' o'] [H1 O]. eapply like_bind; [apply IH, H1|]. intros [s2 os] [s2' os'] [H2 Os]. cbn in *. split; [exact H2|]. constructor; auto.
Qed.
End Sink.
End Scale.
