(** Proofs for C113. *)
From Coq Require Import Lia Lqa.
From Verif Require Import Outcome KernelMaterial FuelFabModel WeightCacheModel WeightCacheSpec.
Local Open Scope Q_scope.

(** The maps hold what pyne gives. *)
Definition true_maps (D : nucdata) (sp : string) (st : statics) : Prop :=
  forall n a, lookup n (st_absorb st) = Some a ->
    d_xs D n "absorption" sp = Some a /\ exists f, lookup n (st_fiss st) = Some f /\ d_xs D n "fission" sp = Some f.
(** The references hold what pyne gives, once they are set. *)
Definition true_refs (D : nucdata) (sp : string) (st : statics) : Prop :=
  ~ st_u238 st == 0 -> st_u238 st == p_u238 D sp /\ st_pu239 st == p_pu239 D sp.

Lemma known_xs D sp : references_known D sp -> exists fu au fp ap, d_xs D 922380000 "fission" sp = Some fu /\ d_xs D 922380000 "absorption" sp = Some au /\
  d_xs D 942390000 "fission" sp = Some fp /\ d_xs D 942390000 "absorption" sp = Some ap.
Proof.
  intro K. pose proof (K 922380000%Z "fission"%string) as A. pose proof (K 922380000%Z "absorption"%string) as B.
  pose proof (K 942390000%Z "fission"%string) as C. pose proof (K 942390000%Z "absorption"%string) as E. cbn [In] in *.
  destruct (d_xs D 922380000 "fission" sp) as [fu|]; [|exfalso; apply A; auto]. destruct (d_xs D 922380000 "absorption" sp) as [au|]; [|exfalso; apply B; auto].
  destruct (d_xs D 942390000 "fission" sp) as [fp|]; [|exfalso; apply C; auto]. destruct (d_xs D 942390000 "absorption" sp) as [ap|]; [|exfalso; apply E; auto].
  exists fu, au, fp, ap. auto.
Qed.
Lemma nu_u238 sp : nu_of sp 922380000 = 0.
Proof. reflexivity. Qed.
Lemma refs_val D sp : references_known D sp -> exists u p, p_ref D sp 922380000 0 = Some u /\ p_ref D sp 942390000 (nu_of sp 942390000) = Some p /\
  u == p_u238 D sp /\ p == p_pu239 D sp.
Proof.
  intro K. destruct (known_xs D sp K) as (fu & au & fp & ap & A & B & C & E). unfold p_ref, p_u238, p_pu239, p_of. rewrite A, B, C, E.
  eexists. eexists. split; [reflexivity|]. split; [reflexivity|]. split; [rewrite nu_u238|]; reflexivity.
Qed.
Lemma init_ok D sp st st1 b : references_known D sp -> true_maps D sp st -> true_refs D sp st -> init_refs D sp st = (st1, b) ->
  b = true /\ true_maps D sp st1 /\ st_u238 st1 == p_u238 D sp /\ st_pu239 st1 == p_pu239 D sp.
Proof.
  intros K M R H. unfold init_refs in H. destruct (Qeq_bool (st_u238 st) 0) eqn:E.
  - destruct (refs_val D sp K) as (u & p & A & B & C & F). rewrite A, B in H. injection H as <- <-. auto.
  - injection H as <- <-. apply Qeq_bool_neq in E. destruct (R E). auto.
Qed.
(** Cross sections unknown count as zero. *)
Lemma cached_ok D sp n st st1 f a : true_maps D sp st -> cached_xs D sp n st = (st1, (f, a)) ->
  true_maps D sp st1 /\ nu_of sp n * f - a == p_of D sp n /\ st_u238 st1 = st_u238 st /\ st_pu239 st1 = st_pu239 st.
Proof.
  intros M H. unfold cached_xs in H. destruct (lookup n (st_absorb st)) as [a0|] eqn:L.
  - injection H as <- <- <-. destruct (M n a0 L) as (A & f0 & F & X). rewrite F. unfold p_of. rewrite A, X. split; [exact M|]. split; [reflexivity|]. auto.
  - unfold p_of. destruct (d_xs D n "fission" sp) as [f0|] eqn:F; [destruct (d_xs D n "absorption" sp) as [a0|] eqn:A|]; injection H as <- <- <-.
    + split; [|split; [reflexivity|auto]]. intros k x. cbn [st_absorb st_fiss lookup]. destruct (Z.eqb_spec n k) as [->|N].
      * intro H. injection H as <-. split; [exact A|]. exists f0. auto.
      * apply M.
    + split; [exact M|]. split; [ring|auto].
    + split; [exact M|]. split; [ring|auto].
Qed.
Lemma weigh_ok D sp cm : forall w st st1 w1, true_maps D sp st -> st_u238 st == p_u238 D sp -> st_pu239 st == p_pu239 D sp ->
  weigh_cached D sp cm w st = (st1, w1) ->
  true_maps D sp st1 /\ st_u238 st1 == p_u238 D sp /\ st_pu239 st1 == p_pu239 D sp /\
  w1 == w + qsum (map (fun e => snd e * (p_of D sp (fst e) - p_u238 D sp) / (p_pu239 D sp - p_u238 D sp)) cm).
Proof.
  induction cm as [|[n x] cm IH]; intros w st st1 w1 M U P H; cbn [weigh_cached map] in H |- *.
  - injection H as <- <-. split; [exact M|]. split; [exact U|]. split; [exact P|]. unfold qsum. cbn [fold_right]. ring.
  - destruct (cached_xs D sp n st) as [st2 [f a]] eqn:E. destruct (cached_ok D sp n st st2 f a M E) as (M2 & X & U2 & P2).
    apply IH in H as (A & B & C & W); [|exact M2|rewrite U2; exact U|rewrite P2; exact P]. split; [exact A|]. split; [exact B|]. split; [exact C|].
    rewrite W. cbn [fst snd]. unfold qsum. cbn [fold_right]. rewrite X, U2, P2, U, P. ring.
Qed.
Lemma branch_ok D sp c st st1 r : references_known D sp -> true_maps D sp st -> true_refs D sp st -> branch_cached D sp c st = (st1, r) ->
  true_maps D sp st1 /\ true_refs D sp st1 /\ exists w, r = Some w /\ w == cosi_weight D sp c.
Proof.
  intros K M R H. unfold branch_cached in H. destruct (init_refs D sp st) as [st2 b] eqn:E. destruct (init_ok D sp st st2 b K M R E) as (-> & M2 & U & P).
  destruct (weigh_cached D sp (cnorm 1 (atoms D c)) 0 st2) as [st3 w] eqn:W. injection H as <- <-.
  destruct (weigh_ok D sp _ _ _ _ _ M2 U P W) as (A & B & C & V). split; [exact A|]. split; [intro; auto|]. exists w. split; [reflexivity|].
  rewrite V. unfold cosi_weight. ring.
Qed.
Lemma plain_sum (f g : Z * Q -> Q) l : (forall e, f e == g e) -> forall w, fold_left (fun w e => w + f e) l w == w + qsum (map g l).
Proof.
  intro F. induction l as [|e l IH]; intro w; unfold qsum in *; cbn [fold_left map fold_right]; [ring|]. rewrite IH, F. ring.
Qed.
Lemma plain_ok D sp c : references_known D sp -> exists w, branch_plain D sp c = Some w /\ w == cosi_weight D sp c.
Proof.
  intro K. destruct (refs_val D sp K) as (u & p & A & B & C & F). unfold branch_plain. rewrite A, B. eexists. split; [reflexivity|].
  unfold cosi_weight. rewrite plain_sum with (f := fun e => snd e * (match d_xs D (fst e) "fission" sp, d_xs D (fst e) "absorption" sp with
      | Some f, Some a => nu_of sp (fst e) * f - a | _, _ => nu_of sp (fst e) * 0 - 0 end - u) / (p - u))
    (g := fun e => snd e * (p_of D sp (fst e) - p_u238 D sp) / (p_pu239 D sp - p_u238 D sp)); [ring|].
  intro e. unfold p_of. rewrite C, F. destruct (d_xs D (fst e) "fission" sp); [destruct (d_xs D (fst e) "absorption" sp)|]; [reflexivity| |];
    apply Qmult_comp; try reflexivity; apply Qmult_comp; try reflexivity; ring.
Qed.
Definition true_process (D : nucdata) (pr : process) : Prop :=
  (true_maps D "thermal" (pr_thermal pr) /\ true_refs D "thermal" (pr_thermal pr)) /\
  (true_maps D "fission_spectrum_ave" (pr_fast pr) /\ true_refs D "fission_spectrum_ave" (pr_fast pr)).
Lemma process0_ok D : true_process D process0.
Proof. assert (forall sp, true_maps D sp statics0 /\ true_refs D sp statics0) as H by (intro sp; split; [intros n a X; discriminate|intro X; exfalso; apply X; reflexivity]). split; apply H. Qed.
Lemma call_ok D pr sp c pr1 r : references_known D sp -> true_process D pr -> weight_call D pr sp c = (pr1, r) ->
  true_process D pr1 /\ exists w, r = Some w /\ w == cosi_weight D sp c.
Proof.
  intros K [[T1 T2] [F1 F2]] H. unfold weight_call in H. destruct (String.eqb_spec sp "thermal") as [->|N].
  - destruct (branch_cached D "thermal" c (pr_thermal pr)) as [st x] eqn:E. injection H as <- <-. destruct (branch_ok D _ c _ _ _ K T1 T2 E) as (A & B & C).
    split; [split; split; assumption|exact C].
  - destruct (String.eqb_spec sp "fission_spectrum_ave") as [->|N2].
    + destruct (branch_cached D "fission_spectrum_ave" c (pr_fast pr)) as [st x] eqn:E. injection H as <- <-. destruct (branch_ok D _ c _ _ _ K F1 F2 E) as (A & B & C).
      split; [split; split; assumption|exact C].
    + injection H as <- <-. split; [split; split; assumption|]. destruct (plain_ok D sp c K) as (w & A & B). exists w. auto.
Qed.
Lemma calls_final D calls : (forall sp c, In (sp, c) calls -> references_known D sp) ->
  Forall2 (fun call r => exists w, r = Some w /\ w == cosi_weight D (fst call) (snd call)) calls (weight_calls D process0 calls).
Proof.
  assert (forall pr, true_process D pr -> (forall sp c, In (sp, c) calls -> references_known D sp) ->
    Forall2 (fun call r => exists w, r = Some w /\ w == cosi_weight D (fst call) (snd call)) calls (weight_calls D pr calls)) as G.
  { induction calls as [|[sp c] calls IH]; intros pr P K; cbn [weight_calls]; [constructor|].
    destruct (weight_call D pr sp c) as [pr1 r] eqn:E. destruct (call_ok D pr sp c pr1 r) as [P1 R]; [apply (K sp c); left; reflexivity|exact P|exact E|].
    constructor; [exact R|]. apply IH; [exact P1|]. intros sp' c' I. apply (K sp' c'). right. exact I. }
  intro K. apply G; [apply process0_ok|exact K].
Qed.
(** Without the data of a reference the first call fails. *)
Lemma missing_final D sp c : ~ references_known D sp -> weight_calls D process0 [(sp, c)] = [None].
Proof.
  intro N. assert (p_ref D sp 922380000 0 = None \/ p_ref D sp 942390000 (nu_of sp 942390000) = None) as H.
  { unfold p_ref. destruct (d_xs D 922380000 "fission" sp) as [fu|] eqn:A; [|auto]. destruct (d_xs D 922380000 "absorption" sp) as [au|] eqn:B; [|auto].
    destruct (d_xs D 942390000 "fission" sp) as [fp|] eqn:C; [|auto]. destruct (d_xs D 942390000 "absorption" sp) as [ap|] eqn:E; [|auto].
    exfalso. apply N. intros n r [<-|[<-|[]]] [<-|[<-|[]]]; congruence. }
  assert (forall sp0, sp = sp0 -> snd (branch_cached D sp0 c statics0) = None) as G.
  { intros sp0 <-. unfold branch_cached, init_refs. cbn [st_u238 statics0]. replace (Qeq_bool 0 0) with true by reflexivity.
    destruct (p_ref D sp 922380000 0); [|reflexivity]. destruct H as [H|H]; [discriminate|]. rewrite H. reflexivity. }
  cbn [weight_calls]. destruct (weight_call D process0 sp c) as [pr r] eqn:E. f_equal. unfold weight_call, process0 in E. cbn [pr_thermal pr_fast] in E.
  destruct (String.eqb_spec sp "thermal") as [->|X].
  - specialize (G _ eq_refl). destruct (branch_cached D "thermal" c statics0) as [st x]. injection E as _ <-. exact G.
  - destruct (String.eqb_spec sp "fission_spectrum_ave") as [->|X2].
    + specialize (G _ eq_refl). destruct (branch_cached D "fission_spectrum_ave" c statics0) as [st x]. injection E as _ <-. exact G.
    + injection E as _ <-. unfold branch_plain. destruct (p_ref D sp 922380000 0); [|reflexivity]. destruct H as [H|H]; [discriminate|]. rewrite H. reflexivity.
Qed.
