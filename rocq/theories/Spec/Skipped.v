(** C74: the trusted block may be older than the epoch it is the checkpoint of, when the slots between
    are empty. What the specification's epoch processing does to activations in that time (electra
    beacon-chain.md, process_registry_updates without ejections). *)
From Coq Require Import List NArith Bool.
From Verif.Model Require Import Base Types.
From Verif.Spec Require Import Ssz Beacon.
Import ListNotations.
Open Scope N_scope.

Definition FAR_FUTURE_EPOCH : N := 2 ^ 64 - 1.
Definition is_eligible_for_activation_queue (v : Validator) : bool :=
  (v_activation_eligibility_epoch v =? FAR_FUTURE_EPOCH) && (32000000000 <=? v_effective_balance v).
Definition is_eligible_for_activation (fin : N) (v : Validator) : bool :=
  (v_activation_eligibility_epoch v <=? fin) && (v_activation_epoch v =? FAR_FUTURE_EPOCH).
(** At the end of epoch [cur], with finalized epoch [fin]. *)
Definition update_validator (fin cur : N) (v : Validator) : Validator :=
  if is_eligible_for_activation_queue v then
    mkValidator (v_pubkey v) (v_withdrawal_credentials v) (v_effective_balance v) (v_slashed v) (cur + 1) (v_activation_epoch v) (v_exit_epoch v) (v_withdrawable_epoch v)
  else if is_eligible_for_activation fin v then
    mkValidator (v_pubkey v) (v_withdrawal_credentials v) (v_effective_balance v) (v_slashed v) (v_activation_eligibility_epoch v) (cur + 5) (v_exit_epoch v) (v_withdrawable_epoch v)
  else v.
(** The epochs from [a] to before [b]. *)
Definition epochs_between (a b : N) : list N := map (fun k => a + N.of_nat k) (seq 0 (N.to_nat (b - a))).
(** The registry at the start of epoch [e], if [s] is the last state before and only activations
    happen in the empty slots. *)
Definition registry_at (s : State) (e : N) : list Validator :=
  map (fun v => fold_left (fun v cur => update_validator (epoch (st_finalized s)) cur v) (epochs_between (st_slot s / 32) e) v) (st_validators s).
Definition state_at_start (s : State) (e : N) : State :=
  mkState (st_fulu s) (st_genesis_validators_root s) (st_slot s) (st_fork s) (registry_at s e) (st_finalized s)
    (st_earliest_exit_epoch s) (st_earliest_consolidation_epoch s) (st_other s).
