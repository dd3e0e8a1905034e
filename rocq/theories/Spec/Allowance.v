(** What may leave the validator set between the trusted state and a vote, in the figures of the two
    networks, for C65. *)
From Coq Require Import List NArith.
From Verif.Model Require Import Base Types ConsensusState GuestReader.
From Verif.Spec Require Import VerifySpec Registry.
Import ListNotations.
Open Scope N_scope.

(** Gwei that may exit per epoch when [total] Gwei are active: twice the larger of 128 ETH and
    1/65536 of the total, in whole ETH (exits and consolidations are counted separately by the protocol). *)
Definition exit_allowance (total : N) : N := 2 * 10 ^ 9 * N.max 128 (total / (65536 * 10 ^ 9)).
(** The balance active at the trusted epoch. *)
Definition active_total (reg : bmap ValidatorInfo) (trusted : Epoch) : N :=
  weight (filter (fun kv => is_active_at (snd kv) trusted) reg).
(** The first epoch a new exit may have: four epochs of lookahead after the next one, or later when both
    queues of the trusted state have already moved on. *)
Definition first_new_exit (si : StateInfo) (trusted : Epoch) : Epoch :=
  N.max (trusted + 5) (N.min (si_earliest_exit_epoch si) (si_earliest_consolidation_epoch si)).
