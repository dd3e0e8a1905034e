(** Lighthouse [tree_hash_root], [get_domain] and [signing_root] for attestations: external code,
    transcribed from the consensus specification. [H] is SHA-256 of the concatenated children. *)
From Coq Require Import List NArith Bool.
From Verif.Model Require Import Base Types.
Import ListNotations.
Open Scope N_scope.

Definition chunk_of_u64 (x : N) : bytes := le_bytes 8 x ++ zero_bytes 24.
Definition zero_chunk : bytes := zero_bytes 32.

(** hash_tree_root(Checkpoint). *)
Definition htr_checkpoint (H : bytes -> bytes) (c : Checkpoint) : bytes :=
  H (chunk_of_u64 (epoch c) ++ root c).

(** hash_tree_root(AttestationData): five fields padded to eight leaves. *)
Definition htr_attestation_data (H : bytes -> bytes) (d : AttestationData) : bytes :=
  let n01 := H (chunk_of_u64 (ad_slot d) ++ chunk_of_u64 (ad_index d)) in
  let n23 := H (ad_beacon_block_root d ++ htr_checkpoint H (ad_source d)) in
  let n45 := H (htr_checkpoint H (ad_target d) ++ zero_chunk) in
  let n67 := H (zero_chunk ++ zero_chunk) in
  H (H (n01 ++ n23) ++ H (n45 ++ n67)).

(** [Fork::get_fork_version]. *)
Definition get_fork_version (f : Fork) (e : Epoch) : Version :=
  if e <? fork_epoch f then previous_version f else current_version f.

(** [ChainSpec::compute_domain]: domain type (u32 LE) and 28 bytes of hash_tree_root(ForkData). *)
Definition compute_domain (H : bytes -> bytes) (dom : N) (v : Version) (gvr : Root) : bytes :=
  le_bytes 4 dom ++ firstn 28 (H ((v ++ zero_bytes 28) ++ gvr)).

(** [ChainSpec::get_domain] for [Domain::BeaconAttester]. *)
Definition get_attester_domain (H : bytes -> bytes) (cs : ChainSpec) (e : Epoch) (f : Fork) (gvr : Root)
  : bytes :=
  compute_domain H (domain_beacon_attester cs) (get_fork_version f e) gvr.

(** [SignedRoot::signing_root]: hash_tree_root(SigningData{object_root, domain}). *)
Definition signing_root (H : bytes -> bytes) (d : AttestationData) (domain : bytes) : bytes :=
  H (htr_attestation_data H d ++ domain).
