(** host/src/input_reader/assert_input_reader.rs: a reader that asks two readers and insists on the
    same answers. *)
From Coq Require Import List NArith Bool.
From Verif.Model Require Import Base Types ConsensusState Verify.
Import ListNotations.
Open Scope N_scope.

(** Rust's derived [PartialEq] of the compared types ([beacon_types::Attestation] compares its enum
    variant, its bit fields, its data and its signature). *)
Definition option_eqb {A} (eqb : A -> A -> bool) (a b : option A) : bool :=
  match a, b with Some x, Some y => eqb x y | None, None => true | _, _ => false end.
Fixpoint list_eqb {A} (eqb : A -> A -> bool) (a b : list A) : bool :=
  match a, b with
  | [], [] => true
  | x :: a, y :: b => eqb x y && list_eqb eqb a b
  | _, _ => false
  end.
Definition data_eqb (a b : AttestationData) : bool :=
  (ad_slot a =? ad_slot b) && (ad_index a =? ad_index b)
  && bytes_eqb (ad_beacon_block_root a) (ad_beacon_block_root b)
  && checkpoint_eqb (ad_source a) (ad_source b) && checkpoint_eqb (ad_target a) (ad_target b).
Definition attestation_eqb (a b : Attestation) : bool :=
  eqb (att_electra a) (att_electra b)
  && list_eqb eqb (aggregation_bits a) (aggregation_bits b)
  && list_eqb eqb (committee_bits a) (committee_bits b)
  && data_eqb (att_data a) (att_data b) && bytes_eqb (att_signature a) (att_signature b).
Definition info_eqb (a b : ValidatorInfo) : bool :=
  bytes_eqb (pubkey a) (pubkey b) && (effective_balance a =? effective_balance b)
  && eqb (slashed a) (slashed b)
  && (activation_eligibility_epoch a =? activation_eligibility_epoch b)
  && (activation_epoch a =? activation_epoch b) && (exit_epoch a =? exit_epoch b).

(** assert_input_reader.rs:49-54 and the same lines of every other method: the answer of reader a with
    [?], that of reader b with [unwrap], [assert_eq!], and a's answer. *)
Definition both {A} (eqb : A -> A -> bool) (a b : outcome ReaderError A) : outcome ReaderError A :=
  x <- a ;;
  y <- unwrap b ;;
  _ <- assert_ (eqb x y) ;;
  Ok x.

(** assert_input_reader.rs:73-82: index, and the validator with b's balance and exit epoch. *)
Definition same_validator (a b : ValidatorIndex * ValidatorInfo) : bool :=
  (fst a =? fst b)
  && info_eqb (mkValidatorInfo (pubkey (snd a)) (effective_balance (snd b)) (slashed (snd a))
                 (activation_eligibility_epoch (snd a)) (activation_epoch (snd a)) (exit_epoch (snd b)))
              (snd b).

(** assert_input_reader.rs:36-131 [AssertInputReader]. Simplifications: [chain_spec] answers a's spec
    (lines 41-46 compare it with b's: [verify_asserted] in Model/AssertStream.v); the iterators of lines 63-92 and 103-120 compare element by
    element while being consumed, this definition compares the whole lists first. The
    validators are collected before use; Model/AssertStream.v compares the attestations one by one. *)
Definition assert_reader (A B : Reader) : Reader := {|
  rd_chain_spec := rd_chain_spec A;
  rd_genesis_validators_root := both bytes_eqb (rd_genesis_validators_root A) (rd_genesis_validators_root B);
  rd_fork := fun e => both fork_eqb (rd_fork A e) (rd_fork B e);
  rd_active_validators := fun e =>
    both (list_eqb same_validator) (rd_active_validators A e) (rd_active_validators B e);
  rd_randao_mix := fun e i => both (option_eqb bytes_eqb) (rd_randao_mix A e i) (rd_randao_mix B e i);
  rd_attestations := both (list_eqb attestation_eqb) (rd_attestations A) (rd_attestations B);
  rd_consensus_state := both cs_eqb (rd_consensus_state A) (rd_consensus_state B);
  rd_slot_for_block := fun r => both N.eqb (rd_slot_for_block A r) (rd_slot_for_block B r) |}.
