(** core/src/consensus_state.rs and core/src/abi.rs. *)
From Coq Require Import List NArith Bool.
From Verif.Model Require Import Base Types.
Import ListNotations.
Open Scope N_scope.

(** consensus_state.rs:26-30. *)
Record ConsensusState := mkCS {
  current_justified : Checkpoint;
  finalized : Checkpoint }.
Definition cs_eqb (a b : ConsensusState) : bool :=
  checkpoint_eqb (current_justified a) (current_justified b)
  && checkpoint_eqb (finalized a) (finalized b).
Definition cs_default : ConsensusState := mkCS checkpoint_default checkpoint_default.

(** consensus_state.rs:33-43. *)
Inductive ConsensusError := InvalidState | InvalidTransition | TwoFinality | CArith (e : ArithError).

(** consensus_state.rs:84-87 [is_valid]. *)
Definition is_valid (s : ConsensusState) : bool :=
  (epoch (finalized s) <? epoch (current_justified s)) || cs_eqb s cs_default.

(** consensus_state.rs:58-65 [new]. *)
Definition cs_new {E} (j f : Checkpoint) : outcome E ConsensusState :=
  let s := mkCS j f in
  _ <- assert_ (is_valid s) ;; Ok s.

(** consensus_state.rs:98-128 [state_transition]. [&&] short-circuits, so [safe_add] is only
    evaluated when the source matches. *)
Definition state_transition (s : ConsensusState) (l : Link) : outcome ConsensusError ConsensusState :=
  _ <- assert_ (is_valid s) ;;
  c1 <- (if checkpoint_eqb (current_justified s) (source l)
         then e <- safe_add CArith (epoch (source l)) 1 ;; Ok (epoch (target l) =? e)
         else Ok false) ;;
  if (c1 : bool) then Ok (mkCS (target l) (source l)) else
  c2 <- (if checkpoint_eqb (current_justified s) (source l)
         then e <- safe_add CArith (epoch (current_justified s)) 1 ;; Ok (e <? epoch (target l))
         else Ok false) ;;
  if (c2 : bool) then Ok (mkCS (target l) (finalized s)) else
  Err InvalidTransition.

(** consensus_state.rs:191-197 [less_or_equal]. *)
Definition cs_less_or_equal (a b : ConsensusState) : bool :=
  checkpoint_le (finalized a) (finalized b)
  && checkpoint_le (current_justified a) (current_justified b).

(** consensus_state.rs:140-189 [transition_link]. *)
Definition transition_link (s o : ConsensusState) : outcome ConsensusError (option Link) :=
  _ <- assert_ (is_valid s) ;;
  _ <- ensure (is_valid o) InvalidTransition ;;
  _ <- ensure (cs_less_or_equal s o) InvalidTransition ;;
  if checkpoint_eqb (current_justified s) (current_justified o) then
    _ <- ensure (checkpoint_eqb (finalized s) (finalized o)) InvalidTransition ;;
    Ok None
  else
    let tgt := current_justified o in
    if negb (checkpoint_eqb (finalized s) (finalized o)) then
      if checkpoint_eqb (finalized o) (current_justified s)
         && (sat_sub (epoch tgt) (epoch (finalized o)) =? 1) then
        Ok (Some (mkLink (finalized o) tgt))
      else if sat_sub (epoch tgt) (epoch (finalized o)) =? 2 then
        Err TwoFinality
      else Err InvalidTransition
    else
      _ <- ensure (1 <? sat_sub (epoch tgt) (epoch (current_justified s))) InvalidTransition ;;
      Ok (Some (mkLink (current_justified s) tgt)).

(** ** ABI (core/src/abi.rs:20-36; alloy encoding of static structs: one 32-byte word per leaf
    field, in declaration order, uint64 big-endian left padded with zeros). *)
Definition abi_uint64 (x : N) : bytes := zero_bytes 24 ++ be_bytes 8 x.
(** abi.rs:21-24, 39-46. *)
Definition abi_checkpoint (c : Checkpoint) : bytes := abi_uint64 (epoch c) ++ root c.
(** abi.rs:26-29, 58-65: current_justified first. *)
Definition abi_state (s : ConsensusState) : bytes :=
  abi_checkpoint (current_justified s) ++ abi_checkpoint (finalized s).
(** abi.rs:31-35, 77-92: [Journal::new] and [encode]. *)
Definition journal_encode (pre post : ConsensusState) (slot : N) : bytes :=
  abi_state pre ++ abi_state post ++ abi_uint64 slot.
(** consensus_state.rs:200-204. *)
Definition abi_encoded_size : nat := 128.

(** consensus_state.rs:207-211 [abi_encode]. *)
Definition abi_encode {E} (s : ConsensusState) : outcome E bytes :=
  _ <- assert_ (is_valid s) ;; Ok (abi_state s).

(** alloy non-validating [abi_decode] of [State]: the first four words are read, a [uint64] is
    the low eight bytes of its word, extra bytes are ignored; too short is an error. *)
Inductive AbiError := AbiOverrun | AbiCustom (e : ConsensusError).
Definition abi_word (data : bytes) (i : nat) : outcome AbiError bytes :=
  ok_or (slice data (32 * i) 32) AbiOverrun.
Definition abi_word_uint64 (w : bytes) : N := be_val (skipn 24 w).
Definition abi_decode_checkpoint (data : bytes) (i : nat) : outcome AbiError Checkpoint :=
  we <- abi_word data i ;;
  wr <- abi_word data (i + 1) ;;
  Ok (mkCheckpoint (abi_word_uint64 we) wr).
(** consensus_state.rs:214-220 [abi_decode] with abi.rs:67-75 [try_from]: [ConsensusState::new]
    asserts validity before the [ensure!] can run. *)
Definition abi_decode (data : bytes) : outcome AbiError ConsensusState :=
  j <- abi_decode_checkpoint data 0 ;;
  f <- abi_decode_checkpoint data 2 ;;
  s <- cs_new j f ;;
  _ <- ensure (is_valid s) (AbiCustom InvalidState) ;;
  Ok s.
