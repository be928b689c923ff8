(** Vocabulary for C124: the exact and the double-precision model of the same code do the same. *)
From Coq Require Import ZArith Reals QArith Qreals List.
From Flocq Require Import Core.Core IEEE754.BinarySingleNaN.
From Verif Require Import Outcome KernelMaterial KernelResBuf KernelBuf DoubleModel ConversionDoubleModel SinkDoubleModel.
From Verif Require ConversionModel SourceModel SinkModel.
Local Open Scope R_scope.

(** The double [x] has the value [q]. *)
Definition stands_for (x : double) (q : Q) : Prop := is_finite x = true /\ B2R x = Q2R q.
(** [q] is a whole multiple of 2 ^ e. *)
Definition multiple_of (e : Z) (q : Q) : Prop := exists k : Z, Q2R q = IZR k * bpow radix2 e.
(** An amount: not negative, a multiple of 2 ^ e, at most 2 ^ 53 times 2 ^ e. *)
Definition plain_amount (e : Z) (q : Q) : Prop := multiple_of e q /\ 0 <= Q2R q <= bpow radix2 (e + 53).
(** Both succeed, with results related by [R], or both report the same error. *)
Definition agree {A B} (R : A -> B -> Prop) (a : outcome A) (b : outcome B) : Prop :=
  match a, b with Ok x, Ok y => R x y | Throw e, Throw e' => e = e' | _, _ => False end.

(** The quantities of deliveries and of sales: the double has the value of the exact amount, a multiple of 2 ^ e. *)
Definition like_amount (e : Z) (q : Q) (x : double) : Prop := stands_for x q /\ multiple_of e q.
(** Nothing in both, or an amount and a double with its value. *)
Definition like_option (q : option Q) (x : option double) : Prop :=
  match q, x with None, None => True | Some a, Some b => stands_for b a | _, _ => False end.

(** *** Conversion *)
Section CONVERSION.
Import ConversionModel.
(** The same quantities in both buffers; a bulk buffer holds one parcel at most. *)
Definition conversion_like (e : Z) (s : cv_state) (d : conv_d) : Prop :=
  stands_for (cd_in d) (qty_of (vs_input s)) /\ stands_for (cd_out d) (qty_of (vs_output s)) /\
  plain_amount e (qty_of (vs_input s)) /\ plain_amount e (qty_of (vs_output s)) /\
  Forall mat_ok (vs_input s) /\ Forall mat_ok (vs_output s) /\ (List.length (vs_input s) <= 1)%nat /\ (List.length (vs_output s) <= 1)%nat.
(** The same sales and the same deliveries. *)
Definition conversion_step_like (e : Z) (en : cv_env) (ed : conv_env_d) : Prop :=
  Forall2 (like_amount e) (ve_sales en) (ce_sales ed) /\ Forall mat_ok (ve_receipts en) /\
  Forall2 (like_amount e) (map m_qty (ve_receipts en)) (ce_receipts ed).
(** The same limit of the bids and the same request. *)
Definition conversion_out_like (o : cv_out) (d : conv_out_d) : Prop :=
  stands_for (co_offer d) (qty_of (vs_output (vo_ticked o))) /\ like_option (option_map snd (vo_requests o)) (co_request d).
(** All that a facility holds, and all that it is ever sent. *)
Definition conversion_holds (s : cv_state) : R := Q2R (qty_of (vs_input s)) + Q2R (qty_of (vs_output s)).
Definition conversion_received (es : list cv_env) : Q := qsum (map m_qty (List.concat (map ve_receipts es))).
End CONVERSION.

(** *** Source *)
Section SOURCE.
Import SourceModel.
(** The same inventory. *)
Definition source_like (e : Z) (s : sr_state) (stock : double) : Prop :=
  stands_for stock (b_qty (ss_inv s)) /\ plain_amount e (b_qty (ss_inv s)) /\ Forall mat_ok (b_items (ss_inv s)).
(** Material is not packaged, transport not limited, and the amounts of the trades are the same. *)
Definition source_step_like (e : Z) (en : sr_env) (amts : list double) : Prop :=
  (forall i q, se_fill en i q = q :: nil) /\ (forall n, (n <= se_ship en n)%Z) /\ Forall2 (like_amount e) (map fst (se_trades en)) amts.
End SOURCE.

(** *** Sink *)
Section SINK.
Import SinkModel.
(** The same inventory. *)
Definition sink_like (e : Z) (s : sk_state) (x : double) : Prop := stands_for x (rsrcs_qty (ks_inv s)) /\ plain_amount e (rsrcs_qty (ks_inv s)).
(** A sink that buys in every time step (the schedule "None") and has a preference for every commodity. *)
Definition sink_ready (cfg : sk_cfg) (s : sk_state) : Prop := ks_next s = (-1)%Z /\ List.length (ks_prefs s) = List.length (kc_commods cfg).
(** A step in which the sink buys, of the amount available, and the same deliveries of materials and products. *)
Definition sink_step_like (e : Z) (en : sk_env) (ed : sink_env_d) : Prop :=
  sd_buys ed = true /\ sd_draw ed = None /\ Forall2 (like_amount e) (map m_qty (ke_mats en)) (sd_mats ed) /\ Forall2 (like_amount e) (ke_prods en) (sd_prods ed) /\
  Forall (fun m => 0 <= m_qty m)%Q (ke_mats en) /\ Forall (fun q => 0 <= q)%Q (ke_prods en).
(** The same request, of materials and of products. *)
Definition sink_out_like (o : sk_out) (d : sink_out_d) : Prop :=
  like_option (option_map mq_qty (ko_mat o)) (so_request d) /\ like_option (option_map snd (ko_gen o)) (so_request d).
(** All that a sink is ever sent. *)
Definition sink_received (es : list sk_env) : Q := qsum (List.concat (map (fun en => map m_qty (ke_mats en) ++ ke_prods en) es)).
End SINK.
