(** SSZ merkleization of containers, and the signing root of an attestation, written from the
    consensus specification (ssz/simple-serialize.md, phase0/beacon-chain.md). *)
From Coq Require Import List Arith NArith Bool.
From Verif.Model Require Import Base Types.
Import ListNotations.
Open Scope N_scope.

(** Pad with zero chunks to 2^d leaves and hash pairwise. *)
Fixpoint merkleize (H : bytes -> bytes) (d : nat) (chunks : list bytes) : bytes :=
  match d with
  | O => match chunks with c :: _ => c | [] => repeat Byte.x00 32 end
  | S d' => H (merkleize H d' (firstn (Nat.pow 2 d') chunks) ++ merkleize H d' (skipn (Nat.pow 2 d') chunks))
  end.
(** The root of a container with the given field roots. *)
Definition container (H : bytes -> bytes) (fields : list bytes) : bytes :=
  merkleize H (Nat.log2_up (length fields)) fields.
(** A value of a fixed-size type of [n] bytes, padded on the right to a chunk. *)
Definition chunk (n : nat) (b : bytes) : bytes := b ++ repeat Byte.x00 (32 - n).
Definition ssz_u64 (x : N) : bytes := chunk 8 (le_bytes 8 x).
Definition ssz_checkpoint (H : bytes -> bytes) (c : Checkpoint) : bytes :=
  container H [ssz_u64 (epoch c); root c].
Definition ssz_attestation_data (H : bytes -> bytes) (d : AttestationData) : bytes :=
  container H [ssz_u64 (ad_slot d); ssz_u64 (ad_index d); ad_beacon_block_root d;
               ssz_checkpoint H (ad_source d); ssz_checkpoint H (ad_target d)].
(** The fork version in force at an epoch. *)
Definition version_at (f : Fork) (e : Epoch) : Version :=
  if e <? fork_epoch f then previous_version f else current_version f.
(** Signature domain: 4-byte domain type, then 28 bytes of the fork-data root. *)
Definition domain (H : bytes -> bytes) (domain_type : N) (version : Version) (gvr : Root) : bytes :=
  le_bytes 4 domain_type ++ firstn 28 (container H [chunk 4 version; gvr]).
(** What validators sign for attestation data [d]. *)
Definition attestation_signing_root (H : bytes -> bytes) (d : AttestationData) (dom : bytes) : bytes :=
  container H [ssz_attestation_data H d; dom].
