(** The format of a serialized guest input, written as a relation between values and byte strings: an
    independent description of what a reader accepts. Platform words have [w] bits. *)
From Coq Require Import String List Arith NArith Bool Sorted.
From Coq.Init Require Import Byte.
From Verif.Model Require Import Base Types ConsensusState Multiproof GuestReader InputCodec.
Import ListNotations.
Open Scope list_scope.
Open Scope N_scope.
Notation length := List.length.

Definition format (A : Type) := A -> bytes -> Prop.
(** The number that bytes denote, the lowest first, and bits, the lowest first. *)
Fixpoint number_of (b : bytes) : N := match b with [] => 0 | d :: r => Byte.to_N d + 256 * number_of r end.
Fixpoint bits_of (l : list bool) : N := match l with [] => 0 | d :: r => N.b2n d + 2 * bits_of r end.

(** A number in [k] bytes, below a bound. *)
Definition number (k : nat) (bound : N) : format N := fun x b => length b = k /\ number_of b = x /\ x < bound.
Definition word (w : N) : format N := number 8 (2 ^ w).
(** One after the other. *)
Definition then_ (P Q : bytes -> Prop) (b : bytes) : Prop := exists b1 b2, b = b1 ++ b2 /\ P b1 /\ Q b2.
Infix ";;;" := then_ (at level 61, right associativity).
(** A byte string with its length, or of a given length. *)
Definition byte_string (w : N) : format bytes := fun s => word w (N.of_nat (length s)) ;;; eq s.
Definition hash_string (w : N) : format bytes := fun s b => byte_string w s b /\ length s = 32%nat.
(** A list with its length. *)
Definition listed {A} (w : N) (R : format A) : format (list A) := fun l =>
  word w (N.of_nat (length l)) ;;; (fun b => exists bs, b = concat bs /\ Forall2 R l bs).
(** A map: a list of entries, of which the last one for a key counts. *)
Definition map_entry {V} (K : format N) (R : format V) : format (N * V) := fun kv => K (fst kv) ;;; R (snd kv).
Definition mapped {V} (w : N) (K : format N) (R : format V) : format (bmap V) := fun m b =>
  exists l, listed w (map_entry K R) l b /\
    StronglySorted (fun x y : N * V => fst x < fst y) m /\
    (forall k v, In (k, v) m <-> exists l1 l2, l = l1 ++ (k, v) :: l2 /\ forall v', ~ In (k, v') l2).
(** A vector of bits: its order, the width of its words, the position of its first bit in the first
    word, the number of bits, and the words; less than an eighth of what the platform can address. *)
Definition bit_vector (w : N) : format (list bool) := fun l b =>
  N.of_nat (length l) < 2 ^ (w - 3) /\
  exists first_bit words data,
    (byte_string w (list_byte_of_string "bitvec::order::Lsb0") ;;; eq [x20] ;;; number 1 32 first_bit ;;;
     number 8 (2 ^ 64) (N.of_nat (length l)) ;;; word w words ;;; eq data) b /\
    N.of_nat (length data) = 4 * words /\ first_bit + N.of_nat (length l) <= 32 * words /\
    (forall i, (i < length l)%nat -> nth i l false = N.testbit (number_of data) (first_bit + N.of_nat i)).
Definition multiproof_format (w : N) : format Multiproof := fun m =>
  byte_string w (mp_data m) ;;; bit_vector w (mp_value_mask m) ;;; bit_vector w (mp_descriptor m) ;;; word w (mp_max_stack_depth m).
(** A public key: 96 bytes that the BLS library accepts. *)
Definition key_format (C : Codec) : format PublicKey := fun k b => length b = 96%nat /\ pk_parse C b = Some k.
Definition patch_format (w : N) : format StatePatch := fun p =>
  mapped w (number 4 (2 ^ 32)) (hash_string w) (randao_mixes p) ;;; mapped w (word w) (number 8 (2 ^ 64)) (validator_exits p).
Definition checkpoint_format (w : N) : format Checkpoint := fun c => number 8 (2 ^ 64) (epoch c) ;;; hash_string w (root c).
Definition consensus_format (w : N) : format ConsensusState := fun s =>
  checkpoint_format w (current_justified s) ;;; checkpoint_format w (finalized s).

(** An attestation in SSZ: which kind, then the offset of the bit list, the data, the signature, for
    Electra the committee bits, and the bit list with its end marked by a one. *)
Definition hash32 : format bytes := fun s b => b = s /\ length s = 32%nat.
Definition ssz_checkpoint_format : format Checkpoint := fun c => number 8 (2 ^ 64) (epoch c) ;;; hash32 (root c).
Definition data_format : format AttestationData := fun d =>
  number 8 (2 ^ 64) (ad_slot d) ;;; number 8 (2 ^ 64) (ad_index d) ;;; hash32 (ad_beacon_block_root d) ;;;
  ssz_checkpoint_format (ad_source d) ;;; ssz_checkpoint_format (ad_target d).
Definition bitlist_format (limit : N) : format (list bool) := fun l b =>
  N.of_nat (length l) <= limit /\ length b = (length l / 8 + 1)%nat /\ number_of b = bits_of l + 2 ^ N.of_nat (length l).
Definition bitfield_format (n : N) : format (list bool) := fun l b =>
  N.of_nat (length l) = n /\ N.of_nat (length b) = (n + 7) / 8 /\ number_of b = bits_of l.
Definition signature_format (C : Codec) : format bytes := fun s b => b = s /\ length s = 96%nat /\ sig_ok C s = true.
Definition attestation_format (C : Codec) : format Attestation := fun a =>
  if att_electra a then
    eq [x01] ;;; number 4 (2 ^ 32) (4 + 128 + 96 + (max_committees C + 7) / 8) ;;; data_format (att_data a) ;;;
    signature_format C (att_signature a) ;;; bitfield_format (max_committees C) (committee_bits a) ;;;
    bitlist_format (max_per_slot C) (aggregation_bits a)
  else fun b => committee_bits a = [] /\
    (eq [x00] ;;; number 4 (2 ^ 32) (4 + 128 + 96) ;;; data_format (att_data a) ;;; signature_format C (att_signature a) ;;;
     bitlist_format (max_per_committee C) (aggregation_bits a)) b.

Definition input_format (C : Codec) (w : N) : format GuestInput := fun gi =>
  multiproof_format w (gi_beacon_block gi) ;;; multiproof_format w (gi_beacon_state gi) ;;;
  multiproof_format w (gi_active_validators gi) ;;; listed w (key_format C) (gi_public_keys gi) ;;;
  mapped w (number 8 (2 ^ 64)) (patch_format w) (gi_patches gi) ;;; consensus_format w (gi_consensus_state gi) ;;;
  listed w (fun a b => exists s, attestation_format C a s /\ byte_string w s b) (gi_attestations gi) ;;;
  listed w (multiproof_format w) (gi_block_slot_proofs gi).
