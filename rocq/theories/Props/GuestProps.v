(** C28-C30, C36, C47: what the guest reads from its proofs. *)
From Coq Require Import List Arith ZArith NArith Bool Lia Sorted String.
From Coq.Init Require Import Byte.
From Verif.Model Require Import Base Types ConsensusState Multiproof Builder Gindices Verify GuestReader.
From Verif.Spec Require Import Merkle MultiproofSpec Ssz Beacon GuestSpec.
From Verif.Proof Require Import BaseLemmas MerkleP MultiproofP MultiproofMoreP BeaconP GuestP.
From Verif.Props Require Import VerifyProps GuestToy.
Import ListNotations.
Open Scope string_scope.
Open Scope list_scope.
Open Scope N_scope.
Notation length := List.length.

(** *** C28 *)
(** The constants are the SSZ generalized indices of their fields, for both state versions. *)
Theorem C28_state_and_block_indices : forall T, T = T_electra_state \/ T = T_fulu_state ->
  generalized_index T [Field "genesis_validators_root"] 1 = Some genesis_validators_root_gindex /\
  generalized_index T [Field "slot"] 1 = Some slot_gindex /\
  generalized_index T [Field "fork"; Field "previous_version"] 1 = Some fork_previous_version_gindex /\
  generalized_index T [Field "fork"; Field "current_version"] 1 = Some fork_current_version_gindex /\
  generalized_index T [Field "fork"; Field "epoch"] 1 = Some fork_epoch_gindex /\
  generalized_index T [Field "validators"] 1 = Some validators_gindex /\
  generalized_index T [Field "finalized_checkpoint"; Field "epoch"] 1 = Some finalized_checkpoint_epoch_gindex /\
  generalized_index T [Field "earliest_exit_epoch"] 1 = Some earliest_exit_epoch_gindex /\
  generalized_index T [Field "earliest_consolidation_epoch"] 1 = Some earliest_consolidation_epoch_gindex /\
  generalized_index T_header [Field "state_root"] 1 = Some state_root_gindex /\
  generalized_index T_header [Field "slot"] 1 = Some block_slot_gindex.
Proof. intros T [-> | ->]; repeat split; reflexivity. Qed.
(** The validator field indices, relative to the validators list, for every index the list can have. *)
Theorem C28_validator_indices : forall i, i < 2 ^ 40 ->
  let at_ p := generalized_index T_validators (Index i :: p) 1 in
  at_ [Field "public_key"; Index 0] = Some (public_key_0_gindex i) /\
  at_ [Field "public_key"; Index 47] = Some (public_key_1_gindex i) /\
  at_ [Field "effective_balance"] = Some (effective_balance_gindex i) /\
  at_ [Field "slashed"] = Some (slashed_gindex i) /\
  at_ [Field "activation_eligibility_epoch"] = Some (activation_eligibility_epoch_gindex i) /\
  at_ [Field "activation_epoch"] = Some (activation_epoch_gindex i) /\
  at_ [Field "exit_epoch"] = Some (exit_epoch_gindex i) /\
  generalized_index T_validators [Length] 1 = Some 3.
Proof. exact validator_indices. Qed.
(** Different validators and different fields never share an index, nor the length's index 3. *)
Definition field_codes : list N := [16; 17; 10; 12; 13; 14; 11].
Theorem C28_validator_indices_distinct : forall i j c d, i < 2 ^ 40 -> j < 2 ^ 40 ->
  In c field_codes -> In d field_codes ->
  (validator_field_gindex c i = validator_field_gindex d j -> c = d /\ i = j) /\
  validator_field_gindex c i <> 3.
Proof.
  intros i j c d Hi Hj Hc Hd.
  assert (c < 32 /\ d < 32) as [Hc32 Hd32].
  { split; [revert Hc|revert Hd]; simpl; intuition (subst; reflexivity). }
  rewrite !validator_field_gindex_small by auto. change (2 * 2 ^ 40) with 2199023255552.
  change (2 ^ 40) with 1099511627776 in *.
  repeat match goal with H : In _ field_codes |- _ => destruct H as [<-|H]; [|try (revert H; fail)] end;
  repeat destruct Hc as [<-|Hc]; try contradiction; repeat destruct Hd as [<-|Hd]; try contradiction;
  match goal with |- context [?a / 8] => idtac end;
  change (16 / 8) with 2; change (17 / 8) with 2; change (16 mod 8) with 0; change (17 mod 8) with 1;
    change (10 / 8) with 1; change (11 / 8) with 1; change (12 / 8) with 1; change (13 / 8) with 1; change (14 / 8) with 1;
    change (10 mod 8) with 2; change (11 mod 8) with 3; change (12 mod 8) with 4; change (13 mod 8) with 5; change (14 mod 8) with 6; lia.
Qed.
(** In the Merkle tree of a state, a header or a validator list these positions hold the fields. *)
Theorem C28_positions_hold_fields : forall H s h vs i v,
  nth_error vs (N.to_nat i) = Some v -> i < 2 ^ 40 -> length (v_pubkey v) = 48%nat ->
  node_at H (state_tree H s) (path_of slot_gindex) = Some (ssz_u64 (st_slot s)) /\
  node_at H (state_tree H s) (path_of genesis_validators_root_gindex) = Some (st_genesis_validators_root s) /\
  node_at H (state_tree H s) (path_of fork_previous_version_gindex) = Some (chunk 4 (previous_version (st_fork s))) /\
  node_at H (state_tree H s) (path_of fork_current_version_gindex) = Some (chunk 4 (current_version (st_fork s))) /\
  node_at H (state_tree H s) (path_of fork_epoch_gindex) = Some (ssz_u64 (fork_epoch (st_fork s))) /\
  node_at H (state_tree H s) (path_of validators_gindex) = Some (mroot H (registry_tree H (st_validators s))) /\
  node_at H (state_tree H s) (path_of finalized_checkpoint_epoch_gindex) = Some (ssz_u64 (epoch (st_finalized s))) /\
  node_at H (state_tree H s) (path_of earliest_exit_epoch_gindex) = Some (ssz_u64 (st_earliest_exit_epoch s)) /\
  node_at H (state_tree H s) (path_of earliest_consolidation_epoch_gindex) = Some (ssz_u64 (st_earliest_consolidation_epoch s)) /\
  node_at H (header_tree H h) (path_of block_slot_gindex) = Some (ssz_u64 (hd_slot h)) /\
  node_at H (header_tree H h) (path_of state_root_gindex) = Some (hd_state_root h) /\
  node_at H (registry_tree H vs) (path_of (public_key_0_gindex i)) = Some (firstn 32 (v_pubkey v)) /\
  node_at H (registry_tree H vs) (path_of (public_key_1_gindex i)) = Some (chunk 16 (skipn 32 (v_pubkey v))) /\
  node_at H (registry_tree H vs) (path_of (effective_balance_gindex i)) = Some (ssz_u64 (v_effective_balance v)) /\
  node_at H (registry_tree H vs) (path_of (slashed_gindex i)) = Some (chunk 1 [if v_slashed v then x01 else x00]) /\
  node_at H (registry_tree H vs) (path_of (activation_eligibility_epoch_gindex i)) = Some (ssz_u64 (v_activation_eligibility_epoch v)) /\
  node_at H (registry_tree H vs) (path_of (activation_epoch_gindex i)) = Some (ssz_u64 (v_activation_epoch v)) /\
  node_at H (registry_tree H vs) (path_of (exit_epoch_gindex i)) = Some (ssz_u64 (v_exit_epoch v)) /\
  node_at H (registry_tree H vs) (path_of 3) = Some (ssz_u64 (N.of_nat (length vs))).
Proof.
  intros H s h vs i v Hv Hi Hp. destruct (node_at_state H s) as (N1 & N2 & N3 & N4 & N5 & N6 & N7 & N8 & N9).
  destruct (node_at_validator H vs i v Hv Hi Hp) as (M1 & M2 & M3 & M4 & M5 & M6 & M7).
  pose proof (node_at_header_slot H h). pose proof (node_at_header_state H h). pose proof (node_at_registry_length H vs).
  repeat match goal with |- _ /\ _ => split end; assumption.
Qed.
(** The trees are the SSZ merkleization: a tree filled with items has the root of their roots. *)
Theorem C28_trees_are_ssz : forall H d items, mroot H (fill H d items) = merkleize H d (map (mroot H) items).
Proof. exact fill_root. Qed.

Example C28_nonvacuous : exit_epoch_gindex 1099511627775 = 26388279066622 /\ nth_error g_vs 4 = Some (g_validator 40 0 0 5) /\
  wrap64 26388279066622 = 26388279066622.
Proof. vm_compute. auto. Qed.

(** *** C29 *)
(** If the trusted root is that of a header whose state root is that of a state, then everything the
    guest takes from the state is what that state says. *)
Theorem C29_state_fields : forall X cs gi r h s,
  let H := sha256 X in
  hash32 H -> wf_header h -> wf_state s ->
  root (finalized (gi_consensus_state gi)) = mroot H (header_tree H h) ->
  hd_state_root h = mroot H (state_tree H s) ->
  checkable H (header_tree H h) (gi_beacon_block gi) ->
  checkable H (state_tree H s) (gi_beacon_state gi) ->
  into_reader X cs gi = Ok r ->
  extract_beacon_state_multiproof (gi_beacon_state gi) =
    Ok (mkStateInfo (st_genesis_validators_root s) (st_slot s) (st_fork s)
          (mroot H (registry_tree H (st_validators s))) (epoch (st_finalized s))
          (st_earliest_exit_epoch s) (st_earliest_consolidation_epoch s)) /\
  rd_genesis_validators_root (guest_reader r) = Ok (st_genesis_validators_root s) /\
  st_fork s = fork_at_epoch cs (st_slot s / slots_per_epoch cs) /\
  mp_verify H (gi_active_validators gi) (mroot H (registry_tree H (st_validators s))) = Ok tt.
Proof.
  intros X cs gi r h s H Hh Wh Ws R1 R2 C1 C2 E.
  apply into_reader_ok in E as (sr & si & vals & E1 & E2 & E3 & E4 & E5 & E6 & E7 & E8 & E9 & E10 & E11 & E12 & E13 & E14 & E15).
  fold H in E1, E3, E5. rewrite R1 in E1.
  apply (block_state_root_ok H h) in E2. 2:{ apply values_true_verified; auto. now apply header_tree_wf. }
  subst sr. rewrite R2 in E3.
  pose proof E4 as E4'. apply (state_info_ok H s) in E4'; auto.
  2:{ apply values_true_verified; auto. now apply state_tree_wf. }
  rewrite E4 in *. subst si. cbn [si_fork si_slot si_validators_root si_genesis_validators_root] in *.
  split; [reflexivity|]. split; [|split; [exact E7|exact E5]].
  unfold guest_reader. cbn [rd_genesis_validators_root]. now rewrite E12.
Qed.

Example C29_nonvacuous : hash32 (sha256 g_X) /\ wf_header g_header /\ wf_state g_state /\
  root (finalized (gi_consensus_state g_input)) = g_root /\ hd_state_root g_header = g_state_root /\
  checkable (sha256 g_X) (header_tree (sha256 g_X) g_header) (gi_beacon_block g_input) /\
  checkable (sha256 g_X) (state_tree (sha256 g_X) g_state) (gi_beacon_state g_input) /\
  into_reader g_X toy_cs g_input = Ok g_reader /\
  rd_genesis_validators_root (guest_reader g_reader) = Ok toy_gvr.
Proof.
  split; [exact g_hash32|]. split; [apply g_wf|]. split; [apply g_wf|]. split; [reflexivity|]. split; [reflexivity|].
  split; [exact g_check_block|]. split; [exact g_check_state|]. split; [exact g_accepted|].
  vm_compute. reflexivity.
Qed.

(** *** C30 *)
Theorem C30_registry_faithful : forall X vs cur mp pks out,
  let H := sha256 X in
  hash32 H -> pk48 X -> wf_registry vs ->
  mp_verify H mp (mroot H (registry_tree H vs)) = Ok tt -> checkable H (registry_tree H vs) mp ->
  extract_validators_multiproof X mp pks cur = Ok out ->
  faithful_registry X vs cur out.
Proof. intros. eapply extract_validators_ok; eauto. Qed.
(** Extraction never runs out of the model's fuel: the loop's own tests decide the result. *)
Theorem C30_fuel_enough : forall X mp pks cur k,
  extract_loop X (S (length (mp_values mp)) + k) cur (mp_values mp) pks 0 [] = extract_validators_multiproof X mp pks cur.
Proof. intros. apply extract_fuel. lia. Qed.

Example C30_nonvacuous : exists out,
  mp_verify (sha256 g_X) g_validators_proof (mroot (sha256 g_X) (registry_tree (sha256 g_X) g_vs)) = Ok tt /\
  checkable (sha256 g_X) (registry_tree (sha256 g_X) g_vs) g_validators_proof /\ wf_registry g_vs /\ pk48 g_X /\
  extract_validators_multiproof g_X g_validators_proof (gi_public_keys g_input) 9 = Ok out /\
  map fst out = [0; 1; 2; 3; 5; 6; 7; 8; 9] /\ faithful_registry g_X g_vs 9 out.
Proof.
  destruct (extract_validators_multiproof g_X g_validators_proof (gi_public_keys g_input) 9) as [out|e|] eqn:E.
  2,3: exfalso; revert E; vm_compute; discriminate.
  assert (V : mp_verify (sha256 g_X) g_validators_proof (mroot (sha256 g_X) (registry_tree (sha256 g_X) g_vs)) = Ok tt).
  { vm_compute. reflexivity. }
  assert (W : wf_registry g_vs) by apply g_wf.
  exists out. split; [exact V|]. split; [exact g_check_registry|]. split; [exact W|]. split; [exact g_pk48|].
  split; [reflexivity|]. split.
  - apply (f_equal (fun o => match o with Ok m => map fst m | _ => [] end)) in E. cbv beta iota in E.
    rewrite <- E. vm_compute. reflexivity.
  - eapply (C30_registry_faithful g_X g_vs 9 g_validators_proof); eauto using g_hash32, g_pk48. exact g_check_registry.
Qed.
(** At trusted epoch 4 validator 4 has not exited yet, so the same proof is refused. *)
Example C30_truncation_refused : extract_validators_multiproof g_X g_validators_proof (gi_public_keys g_input) 4 = Panic.
Proof. vm_compute. reflexivity. Qed.

(** *** C36 *)
Theorem C36_finalized_slot : forall X cs gi r h slot,
  let H := sha256 X in
  hash32 H -> wf_header h ->
  (forall mp, In mp (gi_block_slot_proofs gi) -> checkable H (header_tree H h) mp) ->
  into_reader X cs gi = Ok r ->
  rd_slot_for_block (guest_reader r) (mroot H (header_tree H h)) = Ok slot -> slot = hd_slot h.
Proof.
  intros X cs gi r h slot H Hh Wh C E G.
  apply into_reader_ok in E as (sr & si & vals & E1 & E2 & E3 & E4 & E5 & E6 & E7 & E8 & E9 & E10 & _).
  cbn [guest_reader rd_slot_for_block] in G. apply (proj1 (ok_or_ok _ _ _)) in G.
  eapply block_slot_ok; eauto.
Qed.

Example C36_nonvacuous : wf_header g_header12 /\
  (forall mp, In mp (gi_block_slot_proofs g_input) -> checkable (sha256 g_X) (header_tree (sha256 g_X) g_header12) mp) /\
  into_reader g_X toy_cs g_input = Ok g_reader /\ g_root12 = mroot g_hash (header_tree g_hash g_header12) /\
  rd_slot_for_block (guest_reader g_reader) g_root12 = Ok 24.
Proof.
  split; [apply g_wf|]. split. { intros mp [<-|[]]. exact g_check_slot. }
  split; [exact g_accepted|]. split; vm_compute; reflexivity.
Qed.

(** *** C47 *)
Theorem C47_u64_roundtrip : forall x, x < 2 ^ 64 -> u64_from_chunk (ssz_u64 x) = x.
Proof. exact u64_from_ssz. Qed.
Theorem C47_bool_exact : forall c (b : bool), length c = 32%nat ->
  (@bool_from_chunk MPError c = Ok b <-> c = chunk 1 [if b then x01 else x00]) /\
  ((forall b' : bool, c <> chunk 1 [if b' then x01 else x00]) -> @bool_from_chunk MPError c = Panic).
Proof.
  intros c b Hc.
  assert (Iff : forall b' : bool, @bool_from_chunk MPError c = Ok b' <-> c = chunk 1 [if b' then x01 else x00]).
  { intros b'. split.
    - intros E. apply bool_from_chunk_ok in E as (n & ->). simpl in Hc. rewrite repeat_length in Hc.
      replace n with 31%nat by lia. reflexivity.
    - intros ->. apply bool_from_ssz. }
  split; [apply Iff|]. intros Hn. destruct (@bool_from_chunk MPError c) as [b'|e|] eqn:E; auto.
  - exfalso. apply (Hn b'). now apply Iff.
  - exfalso. destruct c as [|a r]; [discriminate|]. cbn [bool_from_chunk] in E. unfold assert_ in E.
    destruct (forallb (byte_eqb x00) r); [|discriminate]. cbn [bind] in E. destruct a; discriminate.
Qed.
Theorem C47_public_key_chunks : forall X pk c1 c2, length (pk_serialize X pk) = 48%nat ->
  length c1 = 32%nat -> length c2 = 32%nat ->
  (has_compressed_chunks X pk c1 c2 = true <-> c1 ++ c2 = pk_serialize X pk ++ repeat x00 16).
Proof.
  intros X pk c1 c2 Hp H1 H2. unfold has_compressed_chunks. rewrite !andb_true_iff, !bytes_eqb_eq.
  change (zero_bytes 16) with (repeat x00 16). set (b := pk_serialize X pk) in *.
  rewrite (firstn_all2 (n := 16) (skipn 32 b)) by (rewrite skipn_length; lia). split.
  - intros [[E1 E2] E3]. rewrite <- E1. rewrite <- (firstn_skipn 16 c2), <- E2, E3.
    rewrite app_assoc, firstn_skipn. reflexivity.
  - intros E. rewrite <- (firstn_skipn 32 b), <- app_assoc in E. apply app_inj_length in E as [E1 E2].
    2:{ rewrite firstn_length. lia. }
    assert (L : length (skipn 32 b) = 16%nat) by (rewrite skipn_length; lia).
    split; [split|]; [auto| |].
    + rewrite E2, firstn_app, L, firstn_all2, Nat.sub_diag, firstn_O by lia. now rewrite app_nil_r.
    + rewrite E2, skipn_app, L, skipn_all2 by lia. reflexivity.
Qed.
Example C47_nonvacuous :
  u64_from_chunk (ssz_u64 (2 ^ 64 - 1)) = 2 ^ 64 - 1 /\ u64_from_chunk (ssz_u64 (2 ^ 64)) = 0 /\
  @bool_from_chunk MPError (chunk 1 [x02]) = Panic /\
  @bool_from_chunk MPError (x01 :: repeat x00 30 ++ [x01]) = Panic /\
  has_compressed_chunks g_X (g_key 3) (firstn 32 (pk_serialize g_X (g_key 3))) (repeat x00 32) = true /\
  has_compressed_chunks g_X (g_key 3) (firstn 32 (pk_serialize g_X (g_key 3))) (repeat x00 31 ++ [x01]) = false.
Proof. vm_compute. auto 10. Qed.

Print Assumptions C28_state_and_block_indices.
Print Assumptions C28_validator_indices.
Print Assumptions C28_validator_indices_distinct.
Print Assumptions C28_positions_hold_fields.
Print Assumptions C28_trees_are_ssz.
Print Assumptions C29_state_fields.
Print Assumptions C30_registry_faithful.
Print Assumptions C30_fuel_enough.
Print Assumptions C36_finalized_slot.
Print Assumptions C47_u64_roundtrip.
Print Assumptions C47_bool_exact.
Print Assumptions C47_public_key_chunks.
