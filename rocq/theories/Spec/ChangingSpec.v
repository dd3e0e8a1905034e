(** What relates a beacon node that changes its answers to one that does not. *)
From Coq Require Import List NArith.
From Verif.Model Require Import Base Types Verify HostChain HostStore HostInput ChangingNode CliRun.
From Verif.Spec Require Import Merkle Beacon.
Import ListNotations.
Open Scope N_scope.

(** Every answer of [c] about a slot is an answer to the same question at one of the moments from
    number [a] on and before number [b]. *)
Definition drawn_from (ch : nat -> Chain) (a b : nat) (c : Chain) : Prop :=
  (forall s, exists i, (a <= i < b)%nat /\ ch_state c s = ch_state (ch i) s) /\
  (forall s, exists i, (a <= i < b)%nat /\ ch_block c s = ch_block (ch i) s).

(** Headers that are asked for by root [r] are headers with that root, and no two of them show a
    collision of the hash function. *)
Definition genuine_headers (X : Externals) (m : nat -> Moment) (r : Root) : Prop :=
  (forall i h, mo_headers (m i) r = Ok (Some h) -> wf_header h /\ tree_root X (header_tree (sha256 X) h) = r) /\
  (forall i j h h', mo_headers (m i) r = Ok (Some h) -> mo_headers (m j) r = Ok (Some h') ->
     injective_on (sha256 X) (hash_inputs (sha256 X) (header_tree (sha256 X) h) ++ hash_inputs (sha256 X) (header_tree (sha256 X) h'))).

(** A beacon node that does not change, made of the answers of one that does: the block of the trusted
    checkpoint is the one given first, the header of the finalized block the one given last. *)
Definition settled (states : Slot -> answer HState) (m : nat -> Moment) (fuel : nat) (n : Node) : Prop :=
  exists k, drawn_from (fun i => mo_chain (m i)) 1 k (nd_chain n) /\
    nd_blocks n = mo_blocks (m 0%nat) /\ nd_headers n = mo_headers (m (S k)) /\
    nd_states n = states /\ nd_fuel n = fuel.
