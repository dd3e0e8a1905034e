(** Specification: Casper FFG with one-finality, as in docs/src/01_consensus_algorithm.md
    ("Atomic Finalization"). Only the data types of the model are used. *)
From Coq Require Import List NArith.
From Verif.Model Require Import Base Types ConsensusState.
Import ListNotations.
Open Scope N_scope.

Definition u64 (x : N) : Prop := x < 2 ^ 64.
Definition wf_checkpoint (c : Checkpoint) : Prop := u64 (epoch c) /\ length (root c) = 32%nat.
Definition wf_link (l : Link) : Prop := wf_checkpoint (source l) /\ wf_checkpoint (target l).
Definition wf_state (s : ConsensusState) : Prop :=
  wf_checkpoint (current_justified s) /\ wf_checkpoint (finalized s).

(** The genesis checkpoint: epoch 0 and the all-zero root. *)
Definition genesis_cp : Checkpoint := mkCheckpoint 0 (repeat Byte.x00 32).
Definition genesis_state : ConsensusState := mkCS genesis_cp genesis_cp.

(** A consistent state: finality is strictly behind justification, or we are at genesis. *)
Definition valid_state (s : ConsensusState) : Prop :=
  epoch (finalized s) < epoch (current_justified s) \/ s = genesis_state.

(** The effect of one supermajority link. *)
Inductive ffg_step : ConsensusState -> Link -> ConsensusState -> Prop :=
| ffg_finalize : forall j f t,
    epoch t = epoch j + 1 ->
    ffg_step (mkCS j f) (mkLink j t) (mkCS t j)
| ffg_justify : forall j f t,
    epoch t > epoch j + 1 ->
    ffg_step (mkCS j f) (mkLink j t) (mkCS t f).

(** The effect of a sequence of links. *)
Inductive ffg_run : ConsensusState -> list Link -> ConsensusState -> Prop :=
| run_nil : forall s, ffg_run s [] s
| run_cons : forall s l s1 ls s2, ffg_step s l s1 -> ffg_run s1 ls s2 -> ffg_run s (l :: ls) s2.

(** Checkpoints that advance: same or later epoch, and equal if the epoch is equal. *)
Definition cp_advances (a b : Checkpoint) : Prop := epoch a < epoch b \/ a = b.

(** Atomic finalization (docs/src/01): links c -> b1 -> ... -> bk, each spanning more than one
    epoch except the last, which spans exactly one; the result finalizes b(k-1) and justifies bk. *)
Inductive atomic_finalization : Checkpoint -> list Link -> Checkpoint -> Checkpoint -> Prop :=
| af_last : forall c t, epoch t = epoch c + 1 -> atomic_finalization c [mkLink c t] c t
| af_skip : forall c b ls f t,
    epoch b > epoch c + 1 -> atomic_finalization b ls f t ->
    atomic_finalization c (mkLink c b :: ls) f t.
