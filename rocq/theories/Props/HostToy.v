(** The toy chain of GuestToy.v as the host sees it: the states at the boundaries of epochs 9, 12
    and 13. *)
From Coq Require Import List Arith ZArith NArith Bool Lia Sorted.
From Coq.Init Require Import Byte.
From Verif.Model Require Import Base Types ConsensusState Multiproof Verify GuestReader Guest HostChain HostStore HostInput.
From Verif.Spec Require Import Merkle Ssz Beacon GuestSpec HostInputSpec.
From Verif.Proof Require Import BaseLemmas.
From Verif.Props Require Import VerifyProps GuestToy.
Import ListNotations.
Open Scope N_scope.

(** Keys are one byte, padded with zeros. *)
Definition h_deserialize (b : bytes) : option PublicKey :=
  if bytes_eqb b (firstn 1 b ++ repeat x00 47) then Some (firstn 1 b) else None.
Lemma h_decodes : decodes g_X h_deserialize.
Proof.
  intros b pk. unfold h_deserialize. destruct (bytes_eqb b (firstn 1 b ++ repeat x00 47)) eqn:E; [|discriminate].
  apply bytes_eqb_eq in E. intros [= <-]. cbn [pk_serialize g_X]. destruct b as [|x b]; [discriminate|]. exact (eq_sym E).
Qed.
Definition h_mixes : list bytes := map (fun k => toy_root (N.of_nat k)) (seq 0 16).
(** Validator 5 leaves the set at epoch 16, which the state at epoch 12 does not know yet. *)
Definition h_vs13 : list Validator :=
  map (fun iv => if Nat.eqb (fst iv) 5 then g_validator 4 0 0 16 else snd iv) (combine (seq 0 10) g_vs).
Definition h_state (slot : N) (vs : list Validator) : State :=
  mkState false toy_gvr slot (fork_at_epoch toy_cs (slot / 2)) vs (mkCheckpoint 7 (toy_root 7)) 12 13 (fun k => MLeaf (toy_root k)).
Definition h_hstate (slot : N) (vs : list Validator) : HState :=
  mkHState true (h_state slot vs) (mkHeader slot 3 (toy_root (slot - 1)) (toy_root 0) (MLeaf (toy_root (100 * slot + slot)))) h_mixes.
Definition h_states_of (vs13 : list Validator) (slot : Slot) : answer HState :=
  if slot =? 18 then Ok (h_hstate 18 g_vs)
  else if slot =? 24 then Ok (h_hstate 24 g_vs)
  else if slot =? 26 then Ok (h_hstate 26 vs13)
  else Err (NotFound slot).
Definition h_states := h_states_of h_vs13.
(** The same without the exit. *)
Definition h_quiet := h_states_of g_vs.
Definition h_headers (r : Root) : outcome N (option Header) := Ok (if bytes_eqb r g_root12 then Some g_header12 else None).
Definition h_post : ConsensusState := mkCS (mkCheckpoint 13 (toy_root 13)) (mkCheckpoint 12 g_root12).
Definition h_reads : Reads := recorded_reads g_X toy_cs g_atts h_post.
Definition h_R : Reader := host_reader toy_cs h_deserialize h_states h_headers g_trusted g_atts.
Definition h_R_quiet : Reader := host_reader toy_cs h_deserialize h_quiet h_headers g_trusted g_atts.
Example h_input : to_input g_X toy_cs h_deserialize h_states h_headers (finalized g_trusted) h_R h_reads = Ok g_input.
Proof. vm_compute. reflexivity. Qed.
