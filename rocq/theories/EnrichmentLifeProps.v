(** Property C103 of the Enrichment facility.  The statement uses EnrichmentSpec.v. *)
From Coq Require Import Lia Lqa.
From Verif Require Import Outcome KernelMaterial KernelResBuf KernelBuf KernelFacts KernelMass KernelBufFacts
  EnrichmentModel EnrichmentSpec EnrichmentProofs EnrichmentRun EnrichmentBids EnrichmentLife EnrichmentProps.
Local Open Scope Q_scope.

(** ** C103: a whole simulation without failure *)
(** Full statement: the same for feed of any kind and for product of any assay that is bid
    on.  False: see C46_impure_refuted (impurities) and C75_served_refuted (product poorer
    than the feed).  What holds: with enrichable feed and orders for product at least as
    rich as the feed no step of any scenario fails, and every trade is served in full. *)
Theorem C103_keeps_working_partial : forall eps eg V aw recipe cfg c, 0 <= eps -> 0 <= eg -> (forall n, 0 < aw n) ->
  (forall x y, x == y -> V x == V y) -> recipes_ok recipe -> 0 <= ec_max_feed cfg ->
  0 <= ec_tails_assay cfg -> ec_tails_assay cfg <= 1 -> 0 <= ec_swu_capacity cfg ->
  recipe (ec_feed_recipe cfg) = Some c -> uranium_only c -> ec_tails_assay cfg < mass_assay c ->
  forall es s0, en_build eps recipe cfg = Ok s0 -> orderly eps eg V aw recipe cfg s0 es ->
  exists s os, en_run eps eg V aw recipe cfg s0 es = Ok (s, os) /\
    Forall2 (fun e o => Forall2 (served cfg) (ee_trades e) (eo_shipped o)) es os.
Proof. exact keeps_working. Qed.
Print Assumptions C103_keeps_working_partial.
(** Feed arrives, product is sold while more arrives, then product and tails are sold. *)
Definition nl_offer : mat := match en_get_bids 0 nx_eg nx_aw nx_cfg [] [nx_offer 3] nx_t with
  | Ok (_, B) => match eb_product B with Some pb => match pb_offers pb with (_, o) :: _ => o | [] => nx_offer 0 end | None => nx_offer 0 end
  | _ => nx_offer 0 end.
Definition nl_sale (q : Q) : en_trade := {| et_commod := "leu"; et_offer := nl_offer; et_amt := q |}.
Definition nl_es : list en_env :=
  [ {| ee_treqs := [nx_offer 1]; ee_preqs := [nx_offer 3]; ee_trades := []; ee_receipts := [Mat 1 20 nx_feed] |};
    {| ee_treqs := [nx_offer 1]; ee_preqs := [nx_offer 3]; ee_trades := [nl_sale 2]; ee_receipts := [Mat 2 8 nx_feed] |};
    {| ee_treqs := [nx_offer 1]; ee_preqs := [nx_offer 3]; ee_trades := [nl_sale 1; nx_tails_sale 1]; ee_receipts := [] |} ].
Example C103_nontrivial : recipes_ok nx_recipe /\ nx_recipe (ec_feed_recipe nx_cfg) = Some nx_feed /\ uranium_only nx_feed /\
  ec_tails_assay nx_cfg < mass_assay nx_feed /\ en_build 0 nx_recipe nx_cfg = Ok nx_s0 /\
  orderly 0 nx_eg nx_V nx_aw nx_recipe nx_cfg nx_s0 nl_es /\
  exists v, en_run 0 nx_eg nx_V nx_aw nx_recipe nx_cfg nx_s0 nl_es = Ok v /\
    Nat.eqb (List.length (en_shipped (snd v))) 3 && Qeq_bool (qty_of (en_shipped (snd v))) 4 &&
    Qeq_bool (b_qty (es_inv (fst v))) 22 && Qeq_bool (b_qty (es_tails (fst v))) 2 = true.
Proof.
  split; [exact nx_recipes|]. split; [reflexivity|]. split; [split; [apply real_compb_sound; reflexivity|reflexivity]|].
  split; [vm_compute; reflexivity|]. split; [exact nx_built|]. split; [apply orderlyb_sound; vm_compute; reflexivity|].
  apply ok_check. vm_compute. reflexivity.
Qed.
