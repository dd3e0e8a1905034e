(** The serialization of the guest's input: the derived [Serialize]/[Deserialize] of [GuestInput]
    (core/src/input_reader/guest_input_reader.rs:40-80) and of its parts with the adapters of
    core/src/serde_utils.rs, as written by [bincode::serialize] (host/src/bin/zkasper_cli.rs:407) and
    read by [bincode::deserialize] (methods/guest/src/lib.rs:26, zkasper_cli.rs:427). bincode 1.3,
    bitvec, alloy-primitives and the SSZ encoding of attestations are external; their formats are
    written out here from their documentation. *)
From Coq Require Import String List NArith Bool.
From Coq.Init Require Import Byte.
From Verif.Model Require Import Base Types ConsensusState Multiproof StateFile GuestReader.
Import ListNotations.
Open Scope list_scope.
Open Scope N_scope.

(** The parts of the BLS library and of [EthSpec] that the format depends on:
    [serialize_uncompressed]/[deserialize_uncompressed] of public keys, the test that 96 bytes are an
    aggregate signature, and the limits of an attestation's bit fields. *)
Record Codec := mkCodec {
  pk_raw : PublicKey -> bytes;
  pk_parse : bytes -> option PublicKey;
  sig_ok : bytes -> bool;
  max_per_committee : N;
  max_per_slot : N;
  max_committees : N }.

(** ** Bits and bytes *)
Fixpoint bits_val (l : list bool) : N :=
  match l with [] => 0 | b :: r => (if b then 1 else 0) + 2 * bits_val r end.
(** Eight bits to a byte, lowest first. The last byte is filled up with zeros. *)
Fixpoint bits_bytes_aux (fuel : nat) (l : list bool) : bytes :=
  match fuel, l with
  | S f, _ :: _ => byte_of_N (bits_val (firstn 8 l)) :: bits_bytes_aux f (skipn 8 l)
  | _, _ => []
  end.
Definition bits_bytes (l : list bool) : bytes := bits_bytes_aux (length l) l.
Definition byte_bits (b : byte) : list bool :=
  map (fun i => N.testbit (Byte.to_N b) (N.of_nat i)) (seq 0 8).
Definition bytes_bits (b : bytes) : list bool := flat_map byte_bits b.

(** ** bincode: reading from a byte slice *)
Definition parser (A : Type) := bytes -> option (A * bytes).
Definition pret {A} (x : A) : parser A := fun b => Some (x, b).
Definition pfail {A} : parser A := fun _ => None.
Definition pbind {A B} (p : parser A) (f : A -> parser B) : parser B :=
  fun b => match p b with Some (x, r) => f x r | None => None end.
Notation "x <~ p ;; q" := (pbind p (fun x => q)) (at level 61, p at next level, right associativity).
Definition take (n : N) : parser bytes :=
  fun b => if blen b <? n then None else Some (firstn (N.to_nat n) b, skipn (N.to_nat n) b).
(** Integers are stored with their full width, little-endian. *)
Definition p_int (k : nat) : parser N := b <~ take (N.of_nat k) ;; pret (le_val b).
(** [usize] and every length are stored as u64; on a platform of [w] bits a larger value is an
    error. *)
Definition p_usize (w : N) : parser N := n <~ p_int 8 ;; if n <? 2 ^ w then pret n else pfail.
(** [serialize_bytes], [serialize_str], and sequences of u8: a length and the bytes. *)
Definition p_bytes (w : N) : parser bytes := n <~ p_usize w ;; take n.
Definition e_int (k : nat) (x : N) : bytes := le_bytes k x.
Definition e_bytes (b : bytes) : bytes := e_int 8 (blen b) ++ b.
(** Sequences: a length and the elements. Every element read below takes at least one byte, so that a
    length beyond the remaining bytes, rejected here at once, fails in the code when the bytes run out. *)
Fixpoint p_repeat {A} (p : parser A) (k : nat) : parser (list A) :=
  match k with
  | O => pret []
  | S k' => x <~ p ;; r <~ p_repeat p k' ;; pret (x :: r)
  end.
Definition p_seq {A} (w : N) (p : parser A) : parser (list A) :=
  n <~ p_usize w ;; fun b => if blen b <? n then None else p_repeat p (N.to_nat n) b.
Definition e_seq {A} (e : A -> bytes) (l : list A) : bytes :=
  e_int 8 (N.of_nat (length l)) ++ flat_map e l.
(** [BTreeMap]: a sequence of pairs, inserted one after the other (also with serde_with). *)
Definition p_pair {A B} (p : parser A) (q : parser B) : parser (A * B) := x <~ p ;; y <~ q ;; pret (x, y).
Definition p_map {V} (w : N) (p : parser N) (q : parser V) : parser (bmap V) :=
  l <~ p_seq w (p_pair p q) ;; pret (bm_of_list l).
Definition e_map {V} (e : N -> bytes) (f : V -> bytes) (m : bmap V) : bytes :=
  e_seq (fun kv => e (fst kv) ++ f (snd kv)) m.

(** ** alloy-primitives: [B256] in a binary format is a byte string of 32 bytes *)
Definition p_b256 (w : N) : parser bytes :=
  b <~ p_bytes w ;; if blen b =? 32 then pret b else pfail.
Definition e_b256 : bytes -> bytes := e_bytes.

(** ** bitvec: [BitVec<u32, Lsb0>] as the struct (order, head (width, index), bits, data) *)
Definition order_name : bytes := list_byte_of_string "bitvec::order::Lsb0".
(** A little-endian u32 with bits ordered from the lowest is four bytes with bits ordered from the
    lowest. Unused bits of the last word are written as zeros. *)
Definition words (l : list bool) : N := (N.of_nat (length l) + 31) / 32.
Definition e_bits (l : list bool) : bytes :=
  e_bytes order_name ++ e_int 1 32 ++ e_int 1 0 ++ e_int 8 (N.of_nat (length l))
  ++ e_int 8 (words l) ++ bits_bytes (l ++ repeat false (N.to_nat (32 * words l) - length l)).
(** The order and the width must match; the bits start at [index] in the first word and must be
    within the data; a bit vector holds less than 2^(w-3) bits. *)
Definition p_bits (w : N) : parser (list bool) :=
  o <~ p_bytes w ;;
  width <~ p_int 1 ;;
  index <~ p_int 1 ;;
  bits <~ p_int 8 ;;
  n <~ p_usize w ;;
  data <~ take (4 * n) ;;
  if bytes_eqb o order_name && (width =? 32) && (index <? 32) && (bits <? 2 ^ (w - 3)) && (index + bits <=? 32 * n)
  then pret (firstn (N.to_nat bits) (skipn (N.to_nat index) (bytes_bits data)))
  else pfail.

(** ** ssz-multiproofs/src/multiproof.rs:34-48 [Multiproof] *)
Definition e_multiproof (m : Multiproof) : bytes :=
  e_bytes (mp_data m) ++ e_bits (mp_value_mask m) ++ e_bits (mp_descriptor m) ++ e_int 8 (mp_max_stack_depth m).
Definition p_multiproof (w : N) : parser Multiproof :=
  d <~ p_bytes w ;; v <~ p_bits w ;; s <~ p_bits w ;; n <~ p_usize w ;; pret (mkMultiproof d v s n).

(** ** serde_utils.rs:23-40 [UncompressedPublicKey]: 96 bytes without a length *)
Definition e_key (C : Codec) (k : PublicKey) : bytes := pk_raw C k.
Definition p_key (C : Codec) : parser PublicKey :=
  b <~ take 96 ;; match pk_parse C b with Some k => pret k | None => pfail end.

(** ** core/src/state_patch.rs:22-28 [StatePatch] with serde_utils.rs:42-70 [U64] *)
Definition e_patch (p : StatePatch) : bytes :=
  e_map (e_int 4) e_b256 (randao_mixes p) ++ e_map (e_int 8) (e_int 8) (validator_exits p).
Definition p_patch (w : N) : parser StatePatch :=
  m <~ p_map w (p_int 4) (p_b256 w) ;; x <~ p_map w (p_usize w) (p_int 8) ;; pret (mkStatePatch m x).

(** ** core/src/lib.rs:150-182 [Checkpoint] and core/src/consensus_state.rs:26-30 [ConsensusState] *)
Definition e_checkpoint (c : Checkpoint) : bytes := e_int 8 (epoch c) ++ e_b256 (root c).
Definition p_checkpoint (w : N) : parser Checkpoint := e <~ p_int 8 ;; r <~ p_b256 w ;; pret (mkCheckpoint e r).
Definition e_state (s : ConsensusState) : bytes := e_checkpoint (current_justified s) ++ e_checkpoint (finalized s).
Definition p_state (w : N) : parser ConsensusState :=
  j <~ p_checkpoint w ;; f <~ p_checkpoint w ;; pret (mkCS j f).

(** ** serde_utils.rs:72-97 [DiskAttestation]: the SSZ encoding of Lighthouse's [AttestationOnDisk], a
    union of the two kinds of attestations, as a byte string *)
Definition ssz_checkpoint (c : Checkpoint) : bytes := le_bytes 8 (epoch c) ++ root c.
Definition ssz_data (d : AttestationData) : bytes :=
  le_bytes 8 (ad_slot d) ++ le_bytes 8 (ad_index d) ++ ad_beacon_block_root d
  ++ ssz_checkpoint (ad_source d) ++ ssz_checkpoint (ad_target d).
(** [sub b i n]: [n] bytes from position [i]. *)
Definition sub (b : bytes) (i n : nat) : bytes := firstn n (skipn i b).
Definition unssz_data (b : bytes) : AttestationData :=
  mkAttestationData (le_val (sub b 0 8)) (le_val (sub b 8 8)) (sub b 16 32)
    (mkCheckpoint (le_val (sub b 48 8)) (sub b 56 32)) (mkCheckpoint (le_val (sub b 88 8)) (sub b 96 32)).
(** [BitList]: the bits, a one, and zeros to the end of the byte. *)
Definition ssz_bitlist (l : list bool) : bytes := bits_bytes (l ++ [true]).
Fixpoint strip (l : list bool) : list bool :=
  match l with [] => [] | true :: r => r | false :: r => strip r end.
Definition unssz_bitlist (limit : N) (b : bytes) : option (list bool) :=
  match rev b with
  | [] => None
  | z :: _ =>
      if byte_eqb z x00 then None
      else let l := rev (strip (rev (bytes_bits b))) in
           if N.of_nat (length l) <=? limit then Some l else None
  end.
(** [BitVector]: the number of bits is fixed, unused bits must be zero. *)
Definition ssz_bitvector (l : list bool) : bytes := bits_bytes l.
Definition unssz_bitvector (n : N) (b : bytes) : option (list bool) :=
  let l := bytes_bits b in
  if (blen b =? (n + 7) / 8) && forallb negb (skipn (N.to_nat n) l) then Some (firstn (N.to_nat n) l) else None.
Definition att_shape (C : Codec) (electra : bool) : shape :=
  [None; Some 128; Some 96] ++ (if electra then [Some ((max_committees C + 7) / 8)] else []).
Definition att_parts (a : Attestation) : list part :=
  [PVar (ssz_bitlist (aggregation_bits a)); PFix (ssz_data (att_data a)); PFix (att_signature a)]
  ++ (if att_electra a then [PFix (ssz_bitvector (committee_bits a))] else []).
Definition ssz_attestation (a : Attestation) : bytes :=
  (if att_electra a then x01 else x00) :: encode_container (att_parts a).
Definition unssz_attestation (C : Codec) (b : bytes) : option Attestation :=
  match b with
  | s :: body =>
      if byte_eqb s x00 then
        match decode_container (att_shape C false) body with
        | Some [PVar bits; PFix d; PFix sg] =>
            match unssz_bitlist (max_per_committee C) bits with
            | Some l => if sig_ok C sg then Some (mkAttestation false l [] (unssz_data d) sg) else None
            | None => None
            end
        | _ => None
        end
      else if byte_eqb s x01 then
        match decode_container (att_shape C true) body with
        | Some [PVar bits; PFix d; PFix sg; PFix cb] =>
            match unssz_bitlist (max_per_slot C) bits, unssz_bitvector (max_committees C) cb with
            | Some l, Some c => if sig_ok C sg then Some (mkAttestation true l c (unssz_data d) sg) else None
            | _, _ => None
            end
        | _ => None
        end
      else None
  | [] => None
  end.
Definition e_attestation (a : Attestation) : bytes := e_bytes (ssz_attestation a).
Definition p_attestation (C : Codec) (w : N) : parser Attestation :=
  b <~ p_bytes w ;; match unssz_attestation C b with Some a => pret a | None => pfail end.

(** ** guest_input_reader.rs:40-80 [GuestInput], fields in declaration order *)
Definition encode_input (C : Codec) (gi : GuestInput) : bytes :=
  e_multiproof (gi_beacon_block gi) ++ e_multiproof (gi_beacon_state gi) ++ e_multiproof (gi_active_validators gi)
  ++ e_seq (e_key C) (gi_public_keys gi) ++ e_map (e_int 8) e_patch (gi_patches gi)
  ++ e_state (gi_consensus_state gi) ++ e_seq e_attestation (gi_attestations gi)
  ++ e_seq e_multiproof (gi_block_slot_proofs gi).
Definition p_input (C : Codec) (w : N) : parser GuestInput :=
  bb <~ p_multiproof w ;;
  bs <~ p_multiproof w ;;
  av <~ p_multiproof w ;;
  pk <~ p_seq w (p_key C) ;;
  pt <~ p_map w (p_int 8) (p_patch w) ;;
  st <~ p_state w ;;
  at_ <~ p_seq w (p_attestation C w) ;;
  sp <~ p_seq w (p_multiproof w) ;;
  pret (mkGuestInput bb bs av pk pt st at_ sp).
(** [bincode::deserialize] on a platform of [w] bits; bytes behind the value are ignored. *)
Definition decode_input (C : Codec) (w : N) (b : bytes) : option GuestInput :=
  match p_input C w b with Some (gi, _) => Some gi | None => None end.
