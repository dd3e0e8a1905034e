(** core/src/guest_gindices.rs (generated constants). *)
From Coq Require Import NArith.
From Verif.Model Require Import Base.
Open Scope N_scope.

Definition slot_gindex : N := 66.                            (* :19-21 *)
Definition finalized_checkpoint_epoch_gindex : N := 168.     (* :24-26 *)
Definition genesis_validators_root_gindex : N := 65.         (* :29-31 *)
Definition fork_previous_version_gindex : N := 268.          (* :34-36 *)
Definition fork_current_version_gindex : N := 269.           (* :39-41 *)
Definition fork_epoch_gindex : N := 270.                     (* :44-46 *)
Definition validators_gindex : N := 75.                      (* :49-51 *)
Definition earliest_exit_epoch_gindex : N := 95.             (* :54-56 *)
Definition earliest_consolidation_epoch_gindex : N := 97.    (* :59-61 *)
Definition state_root_gindex : N := 11.                      (* :64-66 *)
Definition block_slot_gindex : N := 8.                       (* :69-71 *)
(** The common shape of :74-120. The u64 operations wrap; one final reduction gives the same value. *)
Definition validator_field_gindex (c : N) (i : N) : N :=
  wrap64 ((2199023255552 + i) * 8 * (c / 8) + c mod 8).
Definition public_key_0_gindex := validator_field_gindex 16.                 (* :74-78 *)
Definition public_key_1_gindex := validator_field_gindex 17.                 (* :81-85 *)
Definition effective_balance_gindex := validator_field_gindex 10.            (* :88-92 *)
Definition activation_eligibility_epoch_gindex := validator_field_gindex 12. (* :95-99 *)
Definition activation_epoch_gindex := validator_field_gindex 13.             (* :102-106 *)
Definition exit_epoch_gindex := validator_field_gindex 14.                   (* :109-113 *)
Definition slashed_gindex := validator_field_gindex 11.                      (* :116-120 *)
