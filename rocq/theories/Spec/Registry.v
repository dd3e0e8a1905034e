(** Validator registry changes, written from the consensus specification (electra
    beacon-chain.md), and what the guest's patches may do to exits. *)
From Coq Require Import List NArith Bool Sorting.Sorted.
From Verif.Model Require Import Base Types ConsensusState Multiproof Verify GuestReader.
From Verif.Spec Require Import Merkle MultiproofSpec Ssz Beacon GuestSpec VerifySpec.
Import ListNotations.
Open Scope N_scope.

Definition activation_exit_epoch (cs : ChainSpec) (e : Epoch) : Epoch := e + 1 + max_seed_lookahead cs.
Definition active_in (v : ValidatorInfo) (e : Epoch) : Prop := activation_epoch v <= e < exit_epoch v.

(** Records that differ at most in the exit epoch. *)
Definition with_exit (v : ValidatorInfo) (x : Epoch) : ValidatorInfo :=
  mkValidatorInfo (pubkey v) (effective_balance v) (slashed v) (activation_eligibility_epoch v) (activation_epoch v) x.
Definition with_eligibility (v : ValidatorInfo) (x : Epoch) : ValidatorInfo :=
  mkValidatorInfo (pubkey v) (effective_balance v) (slashed v) x (activation_epoch v) (exit_epoch v).
Definition with_activation (v : ValidatorInfo) (x : Epoch) : ValidatorInfo :=
  mkValidatorInfo (pubkey v) (effective_balance v) (slashed v) (activation_eligibility_epoch v) x (exit_epoch v).
Definition same_but_exit (v w : ValidatorInfo) : Prop := exists x, w = with_exit v x.

(** electra process_registry_updates, for one validator, at epoch [cur] with finalized epoch [fin]:
    the three alternatives of the if/elif/elif, and nothing otherwise. [ejection] is
    EJECTION_BALANCE. initiate_validator_exit does nothing to a validator that is already exiting;
    the exit epoch it assigns depends on the churn, but is never before
    compute_activation_exit_epoch. *)
Inductive spec_update (cs : ChainSpec) (ejection fin cur : N) (v : ValidatorInfo) : ValidatorInfo -> Prop :=
| su_queue :
    activation_eligibility_epoch v = far_future_epoch cs -> min_activation_balance cs <= effective_balance v ->
    spec_update cs ejection fin cur v (with_eligibility v (cur + 1))
| su_eject : forall x,
    ~ (activation_eligibility_epoch v = far_future_epoch cs /\ min_activation_balance cs <= effective_balance v) ->
    active_in v cur -> effective_balance v <= ejection ->
    (if exit_epoch v =? far_future_epoch cs then activation_exit_epoch cs cur <= x else x = exit_epoch v) ->
    spec_update cs ejection fin cur v (with_exit v x)
| su_activate :
    ~ (activation_eligibility_epoch v = far_future_epoch cs /\ min_activation_balance cs <= effective_balance v) ->
    ~ (active_in v cur /\ effective_balance v <= ejection) ->
    activation_eligibility_epoch v <= fin -> activation_epoch v = far_future_epoch cs ->
    spec_update cs ejection fin cur v (with_activation v (activation_exit_epoch cs cur))
| su_nothing :
    ~ (activation_eligibility_epoch v = far_future_epoch cs /\ min_activation_balance cs <= effective_balance v) ->
    ~ (active_in v cur /\ effective_balance v <= ejection) ->
    ~ (activation_eligibility_epoch v <= fin /\ activation_epoch v = far_future_epoch cs) ->
    spec_update cs ejection fin cur v v.

(** A whole registry, index by index. *)
Definition registry_rel (R : ValidatorInfo -> ValidatorInfo -> Prop) (m m' : list (N * ValidatorInfo)) : Prop :=
  Forall2 (fun a b => fst a = fst b /\ R (snd a) (snd b)) m m'.

(** Registry updates at the ends of epochs [e], [e]+1, ..., with the given finalized epochs. *)
Inductive spec_updates (cs : ChainSpec) (ejection : N) : Epoch -> list Epoch -> list (N * ValidatorInfo) -> list (N * ValidatorInfo) -> Prop :=
| sus_nil : forall e m, spec_updates cs ejection e [] m m
| sus_cons : forall e fin fins m m1 m2,
    registry_rel (spec_update cs ejection fin e) m m1 -> spec_updates cs ejection (e + 1) fins m1 m2 ->
    spec_updates cs ejection e (fin :: fins) m m2.

(** ** Patched exits *)
(** The exit epoch the guest compares a patch against: the one of the patch one epoch earlier, or
    else the registry's. *)
Definition previous_exit (patches : bmap StatePatch) (v : ValidatorInfo) (i : ValidatorIndex) (pe : Epoch) : Epoch :=
  match bm_get patches (pe - 1) with
  | Some p => match bm_get (validator_exits p) i with Some x => x | None => exit_epoch v end
  | None => exit_epoch v
  end.
(** The exits of patch [p] of epoch [pe] that are new and not later than [horizon]. *)
Definition new_exits (patches : bmap StatePatch) (reg : bmap ValidatorInfo) (horizon pe : Epoch) (p : StatePatch)
  : list (ValidatorInfo * Epoch) :=
  flat_map (fun ix => match bm_get reg (fst ix) with
                      | Some v => if negb (previous_exit patches v (fst ix) pe =? snd ix) && (snd ix <=? horizon)
                                  then [(v, snd ix)] else []
                      | None => []
                      end) (validator_exits p).
Fixpoint sum (l : list N) : N := match l with [] => 0 | x :: r => x + sum r end.
Definition new_exit_balance patches reg horizon pe p : N :=
  sum (map (fun ve => effective_balance (fst ve)) (new_exits patches reg horizon pe p)).

(** get_balance_churn_limit of the specification. *)
Definition churn_limit (cs : ChainSpec) (total : N) : N :=
  let c := N.max (min_per_epoch_churn_limit_electra cs) (total / churn_limit_quotient cs) in
  c - c mod effective_balance_increment cs.

(** The earliest exit epoch and the churn that patches are checked against. *)
Definition earliest_exit (cs : ChainSpec) (si : StateInfo) (trusted : Epoch) : Epoch :=
  N.max (N.min (si_earliest_exit_epoch si) (si_earliest_consolidation_epoch si)) (activation_exit_epoch cs trusted).
Definition exit_churn (cs : ChainSpec) (reg : bmap ValidatorInfo) (trusted : Epoch) : N :=
  2 * churn_limit cs (balance_of cs (filter (fun kv => is_active_at (snd kv) trusted) reg)).
(** The numbers fit into 64 bits. *)
Definition exit_numbers_fit (cs : ChainSpec) (reg : bmap ValidatorInfo) (trusted : Epoch) : Prop :=
  churn_limit_quotient cs <> 0 /\ effective_balance_increment cs <> 0 /\
  weight (filter (fun kv => is_active_at (snd kv) trusted) reg) < 2 ^ 64 /\
  exit_churn cs reg trusted < 2 ^ 64 /\ activation_exit_epoch cs trusted < 2 ^ 64.

(** BTreeMaps are sorted by key. *)
Definition sorted_map {V} (m : list (N * V)) : Prop := StronglySorted N.lt (map fst m).
Definition wf_patches (patches : bmap StatePatch) : Prop :=
  sorted_map patches /\ Forall (fun ep => sorted_map (validator_exits (snd ep))) patches.

(** Same voting rights: key, balance, slashing status, activation and exit. *)
Definition same_voter (X : Externals) (v : Validator) (vi : ValidatorInfo) : Prop :=
  pk_serialize X (pubkey vi) = v_pubkey v /\ effective_balance vi = v_effective_balance v /\
  slashed vi = v_slashed v /\ activation_epoch vi = v_activation_epoch v /\ exit_epoch vi = v_exit_epoch v.
(** [l] lists, in index order, exactly the validators of [vs] that are active at [e]. *)
Definition active_validators_of (X : Externals) (vs : list Validator) (e : Epoch) (l : list (N * ValidatorInfo)) : Prop :=
  sorted_map l /\
  (forall i vi, In (i, vi) l ->
     exists v, nth_error vs (N.to_nat i) = Some v /\ v_activation_epoch v <= e < v_exit_epoch v /\ same_voter X v vi) /\
  (forall i v, nth_error vs (N.to_nat i) = Some v -> v_activation_epoch v <= e < v_exit_epoch v ->
     exists vi, In (i, vi) l).

(** ** The state an input commits to *)
(** The input's finalized root is that of the block header [h], whose state is [s]; the input's
    proofs have fewer than 64 levels and no hash collides on them. *)
Record committed (X : Externals) (gi : GuestInput) (h : Header) (s : State) : Prop := {
  cm_hash : hash32 (sha256 X);
  cm_keys : pk48 X;
  cm_header : wf_header h;
  cm_state : wf_state s;
  cm_block_root : root (finalized (gi_consensus_state gi)) = mroot (sha256 X) (header_tree (sha256 X) h);
  cm_state_root : hd_state_root h = mroot (sha256 X) (state_tree (sha256 X) s);
  cm_block_proof : checkable (sha256 X) (header_tree (sha256 X) h) (gi_beacon_block gi);
  cm_state_proof : checkable (sha256 X) (state_tree (sha256 X) s) (gi_beacon_state gi);
  cm_validators_proof : checkable (sha256 X) (registry_tree (sha256 X) (st_validators s)) (gi_active_validators gi);
  cm_patches : wf_patches (gi_patches gi) }.

(** Same validator, up to the in-memory representation of its key. *)
Definition same_info (X : Externals) (a b : ValidatorInfo) : Prop :=
  pk_serialize X (pubkey a) = pk_serialize X (pubkey b) /\ effective_balance a = effective_balance b /\
  slashed a = slashed b /\ activation_eligibility_epoch a = activation_eligibility_epoch b /\
  activation_epoch a = activation_epoch b /\ exit_epoch a = exit_epoch b.

(** The link [l] is signed by a supermajority of the validators that state [s] says are active at
    its target epoch. *)
Definition signed_by_state (X : Externals) (cfg : Config) (cs : ChainSpec) (s : State) (l : Link)
           (atts : list Attestation) : Prop :=
  exists av sets P,
    active_validators_of X (st_validators s) (epoch (target l)) av /\
    Forall2 (aggregate_ok X cs (fork_at_epoch cs (epoch (target l))) (st_genesis_validators_root s) av l) atts sets /\
    union_of sets P /\ enough cfg cs av P.
