(** methods/guest/src/lib.rs: the zkVM guest program. *)
From Coq Require Import List NArith Bool.
From Verif.Model Require Import Base Types ConsensusState Verify GuestReader.
Import ListNotations.

(** methods/guest/src/lib.rs:18-53 [entry]. [decode] is [bincode::deserialize] (external).
    The result is the committed journal; any failure aborts the guest ([Panic]) and commits
    nothing. Logging is not modelled. *)
Definition entry (X : Externals) (decode : bytes -> option GuestInput) (cs : ChainSpec) (cfg : Config)
           (frame : bytes) : outcome unit bytes :=
  gi <- expect (decode frame) ;;
  r <- unwrap (into_reader X cs gi) ;;
  pre <- unwrap (rd_consensus_state (guest_reader r)) ;;
  '(post, slot) <- unwrap (verify X cfg (guest_reader r)) ;;
  Ok (journal_encode pre post slot).
