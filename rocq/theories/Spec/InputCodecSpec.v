(** When a guest input can be written and read back: all numbers fit their types, byte strings have
    their fixed lengths, maps are maps. *)
From Coq Require Import List NArith Bool Sorted.
From Verif.Model Require Import Base Types ConsensusState Multiproof StateFile GuestReader InputCodec.
Import ListNotations.
Open Scope N_scope.

Definition u64 (x : N) : Prop := x < 2 ^ 64.
Definition b32 (b : bytes) : Prop := length b = 32%nat.
(** A map: keys strictly increasing. *)
Definition is_map {V} (m : bmap V) : Prop := StronglySorted (fun a b : N * V => fst a < fst b) m.
(** At most what a vector of a platform with [w] bits can hold. *)
Definition short {A} (w : N) (l : list A) : Prop := N.of_nat (length l) < 2 ^ w.

Record wf_multiproof (w : N) (m : Multiproof) : Prop := {
  wm_data : short w (mp_data m);
  wm_mask : short (w - 3) (mp_value_mask m);
  wm_descriptor : short (w - 3) (mp_descriptor m);
  wm_depth : mp_max_stack_depth m < 2 ^ w }.
(** The key survives its 96-byte form. *)
Definition wf_key (C : Codec) (k : PublicKey) : Prop := length (pk_raw C k) = 96%nat /\ pk_parse C (pk_raw C k) = Some k.
Record wf_patch (w : N) (p : StatePatch) : Prop := {
  wp_mixes : is_map (randao_mixes p) /\ short w (randao_mixes p) /\ Forall (fun kv => fst kv < 2 ^ 32 /\ b32 (snd kv)) (randao_mixes p);
  wp_exits : is_map (validator_exits p) /\ short w (validator_exits p) /\ Forall (fun kv => fst kv < 2 ^ w /\ u64 (snd kv)) (validator_exits p) }.
Definition wf_checkpoint (c : Checkpoint) : Prop := u64 (epoch c) /\ b32 (root c).
Record wf_attestation (C : Codec) (a : Attestation) : Prop := {
  wa_bits : N.of_nat (length (aggregation_bits a)) <= (if att_electra a then max_per_slot C else max_per_committee C);
  wa_committees : N.of_nat (length (committee_bits a)) = (if att_electra a then max_committees C else 0);
  wa_slot : u64 (ad_slot (att_data a));
  wa_index : u64 (ad_index (att_data a));
  wa_root : b32 (ad_beacon_block_root (att_data a));
  wa_source : wf_checkpoint (ad_source (att_data a));
  wa_target : wf_checkpoint (ad_target (att_data a));
  wa_signature : length (att_signature a) = 96%nat /\ sig_ok C (att_signature a) = true }.
Record wf_input (C : Codec) (w : N) (gi : GuestInput) : Prop := {
  wi_block : wf_multiproof w (gi_beacon_block gi);
  wi_state : wf_multiproof w (gi_beacon_state gi);
  wi_validators : wf_multiproof w (gi_active_validators gi);
  wi_keys : short w (gi_public_keys gi) /\ Forall (wf_key C) (gi_public_keys gi);
  wi_patches : is_map (gi_patches gi) /\ short w (gi_patches gi) /\ Forall (fun kv => u64 (fst kv) /\ wf_patch w (snd kv)) (gi_patches gi);
  wi_consensus : wf_checkpoint (current_justified (gi_consensus_state gi)) /\ wf_checkpoint (finalized (gi_consensus_state gi));
  wi_attestations : short w (gi_attestations gi) /\ Forall (wf_attestation C) (gi_attestations gi);
  wi_slots : short w (gi_block_slot_proofs gi) /\ Forall (wf_multiproof w) (gi_block_slot_proofs gi) }.

(** The bit fields of an attestation are at most 256 MiB, and the 96-byte form of a key is canonical. *)
Record sane_codec (C : Codec) : Prop := {
  sc_per_committee : max_per_committee C < 2 ^ 30;
  sc_per_slot : max_per_slot C < 2 ^ 30;
  sc_committees : max_committees C < 2 ^ 30;
  sc_canonical : forall b k, length b = 96%nat -> pk_parse C b = Some k -> pk_raw C k = b }.
