(** Property C114: nothing depends on the addresses at which requests and bids happen to lie.
    Statements use AddressSpec.v; proofs are a single [exact] or a computed witness. *)
From Coq Require Import Permutation Lia.
From Verif Require Import Outcome KernelMaterial KernelBuf FuelFabModel FuelFabProps MixerModel MixerProps
  EnrichmentModel EnrichmentProps AddressModel AddressSpec AddressProofs.
Local Open Scope Q_scope.

(** ** C114: FuelFab *)
(** Wherever the requests of each time step lie, a history gives the same state and the same
    outputs as when requests are identified by their position. *)
Theorem C114_fuel_fab : forall eps nz D recipe cfg prefs es s os, Forall (fun x => placed (snd x)) es ->
  ff_run eps nz D recipe cfg prefs (ff_new cfg) (map fst es) = Ok (s, os) ->
  exists r, ff_run_at eps nz D recipe cfg prefs (ff_new cfg) [] es = Ok (s, r, os).
Proof. exact ff_final. Qed.
Print Assumptions C114_fuel_fab.
(** In the first step nothing is received, so that the requests of the first step are still
    registered in the second, where their memory is used for other requests. *)
Definition ax_idle : ff_env := {| fe_reqs := []; fe_trades := []; fe_receipts := [] |}.
Definition ax_up (j : nat) : Z := (100 + 8 * Z.of_nat j)%Z.
Definition ax_shifted (j : nat) : Z := (92 + 8 * Z.of_nat j)%Z.
Definition ax_es : list (ff_env * (nat -> Z)) := [(ax_idle, ax_up); (hd ax_idle fx_es, ax_shifted); (fx_e, ax_up)].
Example C114_fuel_fab_case : Forall (fun x => placed (snd x)) ax_es /\
  (exists s os, ff_run 0 fx_nz fx_D fx_recipe fx_cfg fx_prefs (ff_new fx_cfg) (map fst ax_es) = Ok (s, os)) /\
  reg_find (ax_shifted 2) (reg_all ax_up 0 [InvFiss; InvFiss; InvFill; InvTopup] []) = Some InvFiss.
Proof.
  split; [|split].
  - apply Forall_forall. intros x I. cbn in I. intros i j. decompose [or] I; subst; try contradiction; cbn [snd]; unfold ax_up, ax_shifted; lia.
  - vm_compute. eexists. eexists. reflexivity.
  - reflexivity.
Qed.

(** ** C114: Mixer *)
Theorem C114_mixer : forall eps cfg es s0 s os, Forall (fun x => placed (snd x)) es ->
  mx_run eps cfg s0 (map fst es) = Ok (s, os) ->
  exists r, mx_run_at eps cfg s0 [] es = Ok (s, r, os).
Proof. exact (fun eps cfg es s0 s os => mx_run_same eps cfg es s0 [] s os). Qed.
Print Assumptions C114_mixer.
Definition ax_ms : list (mx_env * (nat -> Z)) :=
  ({| xe_sales := []; xe_receipts := [] |}, ax_up) :: combine xx_es [ax_shifted; ax_up].
Example C114_mixer_case : Forall (fun x => placed (snd x)) ax_ms /\
  exists s os, mx_run 0 xx_cfg xx_s0 (map fst ax_ms) = Ok (s, os).
Proof.
  split.
  - apply Forall_forall. intros x I. cbn in I. intros i j. decompose [or] I; subst; try contradiction; cbn [snd]; unfold ax_up, ax_shifted; lia.
  - vm_compute. eexists. eexists. reflexivity.
Qed.

(** ** C114: preferences of Enrichment *)
(** The bids of a request come from a map keyed by their addresses, so that the order in which
    they are visited is arbitrary. *)
Theorem C114_enrichment : forall cfg bids bids', Permutation bids bids' -> en_adjust cfg bids = en_adjust cfg bids'.
Proof. exact adjust_perm. Qed.
Print Assumptions C114_enrichment.
Example C114_enrichment_case : Permutation nx_bids (rev nx_bids) /\
  en_adjust nx_cfg (rev nx_bids) = Ok (Some [(3%nat, (-1)%Z); (5%nat, 2%Z); (7%nat, 3%Z)]) /\ nx_bids <> rev nx_bids.
Proof. split; [apply Permutation_rev|]. split; [vm_compute; reflexivity|]. vm_compute. discriminate. Qed.
