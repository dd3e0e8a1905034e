(** C74: what a journal means when the trusted block is older than its checkpoint's epoch. *)
From Coq Require Import List Arith NArith Bool Lia Sorted Permutation.
From Coq Require Import ZifyBool ZifyNat ZifyN.
From Coq.Init Require Import Byte.
From Verif.Model Require Import Base Types TreeHash Multiproof Gindices Shuffle Committee ConsensusState Verify GuestReader Guest Cli HostChain HostStore HostInput InputCodec Networks.
From Verif.Spec Require FFG.
From Verif.Spec Require Import FFG Merkle Ssz Beacon Registry GuestSpec Committees VerifySpec HostInputSpec InputCodecSpec NetworkSpec ShuffleSpec Meaning Skipped.
From Verif.Proof Require Import BaseLemmas VerifyP GuestP EndToEndP ShuffleP SkippedP.
From Verif.Props Require Import CommitteeProps VerifyProps GuestToy ReplayProps InputCodecProps ClientProps NetworkProps ShuffleProps MeaningProps.
Import ListNotations.
Open Scope N_scope.

(** ** Nothing changes within the lookahead of the block's own state *)
Definition advanced (s : State) (e : N) (v : Validator) : Validator :=
  fold_left (fun v cur => update_validator (epoch (st_finalized s)) cur v) (epochs_between (st_slot s / 32) e) v.
Lemma advanced_keeps s e v : let w := advanced s e v in
  v_pubkey w = v_pubkey v /\ v_effective_balance w = v_effective_balance v /\ v_slashed w = v_slashed v /\ v_exit_epoch w = v_exit_epoch v /\
  (v_activation_epoch w = v_activation_epoch v \/ (v_activation_epoch v = 2 ^ 64 - 1 /\ st_slot s / 32 + 5 <= v_activation_epoch w)).
Proof.
  unfold advanced. assert (H : forall x, In x (epochs_between (st_slot s / 32) e) -> st_slot s / 32 <= x) by (intros x Hx; apply epochs_between_In in Hx; lia).
  revert v. induction (epochs_between (st_slot s / 32) e) as [|x es IH]; intros v; [cbn; auto 6|]. cbn [fold_left].
  destruct (IH (fun y Hy => H y (or_intror Hy)) (update_validator (epoch (st_finalized s)) x v)) as (I1 & I2 & I3 & I4 & I5). clear IH. specialize (H x (or_introl eq_refl)).
  cbv zeta in *. set (w := fold_left _ es _) in *. clearbody w.
  unfold update_validator in I1, I2, I3, I4, I5. destruct (is_eligible_for_activation_queue v); [cbn in *; auto 6|].
  destruct (is_eligible_for_activation (epoch (st_finalized s)) v) eqn:E; [|cbn in *; auto 6].
  cbn in *. repeat (split; [assumption|]). right. unfold is_eligible_for_activation, FAR_FUTURE_EPOCH in E. split; [lia|]. destruct I5 as [->|[_ I5]]; lia.
Qed.
Lemma registry_at_nth s e i : nth_error (registry_at s e) i = option_map (advanced s e) (nth_error (st_validators s) i).
Proof. apply nth_error_map. Qed.
Lemma registry_at_balance s e i : balance_at (registry_at s e) i = balance_at (st_validators s) i.
Proof. unfold balance_at. rewrite registry_at_nth. destruct (nth_error _ _) as [v|]; [|reflexivity]. apply (advanced_keeps s e v). Qed.
Lemma registry_at_slashed s e i : is_slashed (registry_at s e) i = is_slashed (st_validators s) i.
Proof. unfold is_slashed. rewrite registry_at_nth. destruct (nth_error _ _) as [v|]; [|reflexivity]. apply (advanced_keeps s e v). Qed.
Lemma registry_at_key s e i : key_at (registry_at s e) i = key_at (st_validators s) i.
Proof. unfold key_at. rewrite registry_at_nth. destruct (nth_error _ _) as [v|]; [|reflexivity]. apply (advanced_keeps s e v). Qed.

(** A state of the epoch itself is its own start. *)
Lemma state_at_own_start s : state_at_start s (st_slot s / 32) = s.
Proof.
  unfold state_at_start, registry_at, epochs_between. rewrite N.sub_diag. cbn [N.to_nat seq map fold_left].
  rewrite map_id. now destruct s.
Qed.
(** Before any activation made in the empty slots takes effect, the registry is that of the state. *)
Theorem C74_same_active : forall s t e, e <= st_slot s / 32 + 4 -> e < 2 ^ 64 - 1 ->
  active_indices (registry_at s t) e = active_indices (st_validators s) e.
Proof.
  intros s t e He Hf. apply sorted_ext; [apply active_indices_sorted|apply active_indices_sorted|]. intros i. rewrite !active_indices_In. split.
  - intros (w & E & A). rewrite registry_at_nth in E. destruct (nth_error (st_validators s) (N.to_nat i)) as [v|]; [|discriminate]. injection E as <-.
    exists v. split; [reflexivity|]. destruct (advanced_keeps s t v) as (_ & _ & _ & X1 & X2). cbv zeta in *. lia.
  - intros (v & E & A). exists (advanced s t v). split; [rewrite registry_at_nth, E; reflexivity|].
    destruct (advanced_keeps s t v) as (_ & _ & _ & X1 & X2). cbv zeta in *. lia.
Qed.
Lemma justified_near X n s t mix l g : epoch (target l) <= st_slot s / 32 + 4 -> epoch (target l) < 2 ^ 64 - 1 ->
  justified_by X n (state_at_start s t) mix l g -> justified_by X n s mix l g.
Proof.
  intros He Hf [J1 J2]. cbn [state_at_start st_validators] in J2.
  assert (At : forall a, ad_target (att_data a) = target l -> attesting_indices X (registry_at s t) mix a = attesting_indices X (st_validators s) mix a).
  { intros a E. unfold attesting_indices. rewrite E, C74_same_active by assumption. reflexivity. }
  split.
  - rewrite Forall_forall in *. intros a Ha. destruct (J1 a Ha) as (V1 & V2 & V3 & V4 & V5 & V6 & keys & V7 & V8).
    cbn [state_at_start st_validators st_genesis_validators_root] in *. rewrite At in V6, V7 by exact V3.
    repeat (split; [assumption|]). exists keys. split; [|exact V8]. rewrite V7. apply map_ext. intros i. apply registry_at_key.
  - rewrite C74_same_active in J2 by assumption.
    assert (Ev : voters X (registry_at s t) mix (epoch (target l)) g = voters X (st_validators s) mix (epoch (target l)) g).
    { unfold voters. rewrite C74_same_active by assumption. apply filter_ext. intros i. rewrite registry_at_slashed. f_equal.
      rewrite Forall_forall in J1. clear -J1 At. induction g as [|a g IH]; [reflexivity|]. cbn [existsb]. rewrite IH by (intros x Hx; apply J1; now right).
      rewrite At; [reflexivity|]. exact (proj1 (proj2 (proj2 (J1 a (or_introl eq_refl))))). }
    rewrite Ev in J2.
    assert (Et : forall L, total_balance (registry_at s t) L = total_balance (st_validators s) L).
    { intros L. unfold total_balance. f_equal. induction L as [|i L IH]; [reflexivity|]. cbn [fold_right]. now rewrite IH, registry_at_balance. }
    rewrite !Et in J2. exact J2.
Qed.

(** ** The meaning of a journal *)
Lemma run_means_start n X0 C gi r gs post slot : let X := with_swap_or_not X0 64 in
  usize_bits X0 = 32 -> wf_input C 32 gi -> into_reader X (network_spec n) gi = Ok r ->
  verify X (config_for n) (guest_reader r) = Ok (post, slot) -> groups (gi_attestations gi) gs ->
  accepted_chain (gi_consensus_state gi) (map fst gs) post ->
  Forall (fun g => within_bounds (config_for n) (network_spec n) (finalized (gi_consensus_state gi)) (fst g)) gs ->
  forall h s, committed X gi h s -> let trusted := epoch (finalized (gi_consensus_state gi)) in
    st_slot s / 32 <= trusted -> epoch (st_finalized s) <= st_slot s / 32 ->
    (forall e, trusted < e <= trusted + 4 -> N.of_nat (length (active_indices (registry_at s trusted) e)) < 2 ^ 21) ->
    forall l g, In (l, g) gs ->
      electra_epoch n <= epoch (target l) <= trusted + 4 /\ trusted + 5 < 2 ^ 64 /\
      exists mix, length mix = 32%nat /\ justified_by X n (state_at_start s trusted) mix l g.
Proof.
  intros X U R2 R3 R4 R5 R6 R7 h s Hc trusted Hs Hf Hn l g Hg.
  assert (Bt : trusted + 5 < 2 ^ 64).
  { pose proof (reader_registry X (network_spec n) gi r h s Hc R3) as (_ & _ & _ & _ & _ & _ & _ & _ & _ & B & _).
    unfold activation_exit_epoch in B. replace (max_seed_lookahead (network_spec n)) with 4 in B by (destruct n; reflexivity). fold trusted in B. lia. }
  destruct (run_means_in n X0 C gi r gs post slot U R2 R3 R4 R5 R6 R7 h s (state_at_start s trusted) Hc eq_refl) with (l := l) (g := g) as (B & mix & L & J);
    [|exact Hn|exact Hg|].
  - intros Ht e avl He A. fold trusted in Ht, He |- *.
    assert (Hcj : trusted < epoch (current_justified (gi_consensus_state gi))).
    { destruct (accept_guarded _ _ _ R6) as (_ & _ & [V|V]); [exact V|]. unfold trusted in Ht. rewrite V in Ht. change (epoch (finalized genesis_state)) with 0 in Ht. lia. }
    apply (reader_active_start X (network_spec n)) with (gi := gi) (r := r) (h := h); try (destruct n; reflexivity); auto; fold trusted; lia.
  - split; [exact B|]. split; [exact Bt|]. exists mix. split; [exact L|exact J].
Qed.
(** As C69, but the trusted block may be older than its checkpoint's epoch, because slots were empty
    before the epoch and at its start. Then every link is justified under the registry at the start of
    the trusted epoch; and under the registry of the block's own state, if its target is within four
    epochs of that. *)
Theorem C74_journal_means : forall n X0 C stdin journal, let X := with_swap_or_not X0 64 in
  sane_codec C -> usize_bits X0 = 32 ->
  guest_for n X (decode_input C 32) stdin = Ok journal ->
  exists frame gi pre post slot,
    decode_input C 32 frame = Some gi /\ gi_consensus_state gi = pre /\ journal = journal_encode pre post slot /\
    forall h s, committed X gi h s -> let trusted := epoch (finalized pre) in
      st_slot s / 32 <= trusted -> epoch (st_finalized s) <= st_slot s / 32 ->
      (forall e, trusted < e <= trusted + 4 -> N.of_nat (length (active_indices (registry_at s trusted) e)) < 2 ^ 21) ->
      exists gs, groups (gi_attestations gi) gs /\ accepted_chain pre (map fst gs) post /\
        forall l g, In (l, g) gs ->
          electra_epoch n <= epoch (target l) <= trusted + 4 /\
          exists mix, length mix = 32%nat /\ justified_by X n (state_at_start s trusted) mix l g /\
            (epoch (target l) <= st_slot s / 32 + 4 -> justified_by X n s mix l g).
Proof.
  intros n X0 C stdin journal X S U H. rewrite C65_same_parameters in H.
  destruct (guest_run C 32 X _ _ stdin journal S W32 H) as (frame & gi & r & gs & post & slot & R1 & R2 & R3 & R4 & R5 & R6 & R7 & R8 & _).
  exists frame, gi, (gi_consensus_state gi), post, slot.
  split; [exact R1|]. split; [reflexivity|]. split; [exact R8|]. intros h s Hc trusted Hs Hf Hn.
  exists gs. split; [exact R5|]. split; [exact R6|].
  assert (R7' : Forall (fun g => within_bounds (config_for n) (network_spec n) (finalized (gi_consensus_state gi)) (fst g)) gs).
  { rewrite Forall_forall in *. intros x Hx. now apply R7. }
  intros l g Hg.
  destruct (run_means_start n X0 C gi r gs post slot U R2 R3 R4 R5 R6 R7' h s Hc Hs Hf Hn l g Hg) as (B & Bt & mix & L & J).
  split; [exact B|]. exists mix. split; [exact L|]. split; [exact J|]. fold trusted in B, Bt. intros Hl. apply (justified_near _ _ _ trusted); [exact Hl|lia|exact J].
Qed.

(** The registry at the start of the trusted epoch is known only up to ejections: the specification
    can eject a validator in the empty slots, and it then counts as active four epochs after the
    trusted one for the program but not for the chain. *)
Theorem C74_ejection_refuted : exists s trusted v (w : ValidatorInfo),
  st_validators s = [v] /\ trusted = st_slot s / 32 + 1 /\ epoch (st_finalized s) <= st_slot s / 32 /\
  spec_update (network_spec Mainnet) 16000000000 (epoch (st_finalized s)) (st_slot s / 32)
    (mkValidatorInfo (v_pubkey v) (v_effective_balance v) (v_slashed v) (v_activation_eligibility_epoch v) (v_activation_epoch v) (v_exit_epoch v)) w /\
  active_indices (registry_at s trusted) (trusted + 4) = [0] /\ ~ active_in w (trusted + 4).
Proof.
  pose (v := mkValidator [] [] 16000000000 false 0 0 (2 ^ 64 - 1) (2 ^ 64 - 1)).
  exists (mkState true [] 3231 (fork_at_epoch (network_spec Mainnet) 100) [v] (mkCheckpoint 98 []) 0 0 (fun _ => MLeaf [])), 101, v,
    (mkValidatorInfo [] 16000000000 false 0 0 105).
  repeat (split; [vm_compute; first [reflexivity|discriminate]|]). split; [|split; [vm_compute; reflexivity|]].
  - apply (su_eject _ _ _ _ (mkValidatorInfo [] 16000000000 false 0 0 (2 ^ 64 - 1)) 105).
    + intros [E _]. vm_compute in E. discriminate.
    + split; vm_compute; [discriminate|reflexivity].
    + vm_compute. discriminate.
    + vm_compute. discriminate.
  - intros [_ E]. vm_compute in E. discriminate.
Qed.

(** *** Example: mainnet, the last slot before the trusted epoch has the block *)
Definition k_T : N := w_trust Mainnet.
(** The ninth validator is activated in the empty slots. *)
Definition k_vs : list Validator := w_vs ++ [mkValidator (g_key 8 ++ repeat x00 47) (toy_root 8) 32000000000 false (k_T - 5) g_far g_far g_far].
Definition k_state : State :=
  mkState false toy_gvr (32 * k_T - 1) (fork_at_epoch (network_spec Mainnet) (k_T - 1)) k_vs
    (mkCheckpoint (k_T - 3) (toy_root 7)) 0 0 (fun k => MLeaf (toy_root k)).
Definition k_state_root : bytes := Eval vm_compute in mroot g_hash (state_tree g_hash k_state).
Definition k_header : Header := mkHeader (32 * k_T - 1) 3 (toy_root 17) k_state_root (MLeaf (toy_root 1818)).
Definition k_root : bytes := Eval vm_compute in mroot g_hash (header_tree g_hash k_header).
Definition k_header3 : Header := mkHeader (32 * (k_T + 3)) 5 (toy_root 5) (toy_root 5151) (MLeaf (toy_root 5252)).
Definition k_root3 : bytes := Eval vm_compute in mroot g_hash (header_tree g_hash k_header3).
Definition k_pre : ConsensusState := mkCS (mkCheckpoint (k_T + 1) (toy_root 31)) (mkCheckpoint k_T k_root).
Definition k_post : ConsensusState := mkCS (mkCheckpoint (k_T + 4) (toy_root 34)) (mkCheckpoint (k_T + 3) k_root3).
Definition k_l1 : Link := mkLink (current_justified k_pre) (finalized k_post).
Definition k_l2 : Link := mkLink (finalized k_post) (current_justified k_post).
Definition k_att (l : Link) (voter : N * N) : Attestation :=
  let e := epoch (target l) in
  let d := toy_data (32 * e + fst voter) l in
  mkAttestation true [true] (true :: repeat false 63) d
    (g_sig (signing_root g_hash d (get_attester_domain g_hash (network_spec Mainnet) e (fork_at_epoch (network_spec Mainnet) e) toy_gvr)
       ++ g_key (snd voter))).
(** Slot in the epoch and validator: eight active in the first target epoch, nine in the second. *)
Definition k_votes1 : list (N * N) := [(3, 3); (7, 2); (11, 0); (15, 7); (19, 1); (23, 6); (27, 4)].
Definition k_votes2 : list (N * N) := [(3, 2); (7, 5); (10, 8); (14, 0); (17, 1); (21, 6); (24, 7); (28, 3)].
Definition k_state_proof : Multiproof := Eval vm_compute in g_build (state_tree g_hash k_state) w_fields.
Definition k_registry_proof : Multiproof :=
  Eval vm_compute in g_build (registry_tree g_hash k_vs) (3 :: flat_map g_all_fields [0; 1; 2; 3; 4; 5; 6; 7; 8]).
Definition k_input : GuestInput :=
  mkGuestInput (g_build (header_tree g_hash k_header) [state_root_gindex]) k_state_proof k_registry_proof
    (map g_key [0; 1; 2; 3; 4; 5; 6; 7; 8])
    (map (fun e => (e, mkStatePatch [((e - 2) mod 65536, toy_root 10)] [])) [k_T + 3; k_T + 4])
    k_pre (map (k_att k_l1) k_votes1 ++ map (k_att k_l2) k_votes2) [g_build (header_tree g_hash k_header3) [block_slot_gindex]].
Example C74_nonvacuous :
  guest_for Mainnet y_X (decode_input n_codec 32) (encode_input_stdin (encode_input n_codec k_input)) = Ok (journal_encode k_pre k_post (32 * (k_T + 3))).
Proof. run. Qed.
Example C74_registry : active_indices (st_validators k_state) (k_T + 4) = [0; 1; 2; 3; 4; 5; 6; 7] /\
  active_indices (registry_at k_state k_T) (k_T + 4) = [0; 1; 2; 3; 4; 5; 6; 7; 8] /\
  active_indices (registry_at k_state k_T) (k_T + 3) = [0; 1; 2; 3; 4; 5; 6; 7].
Proof. split; [|split]; vm_compute; reflexivity. Qed.
Lemma k_check_registry : checkable g_hash (registry_tree g_hash k_vs) k_registry_proof.
Proof. apply checkableb_ok. vm_compute. reflexivity. Qed.
Lemma k_check_state : checkable g_hash (state_tree g_hash k_state) k_state_proof.
Proof. apply checkableb_ok. vm_compute. reflexivity. Qed.
Lemma k_check_block : checkable g_hash (header_tree g_hash k_header) (g_build (header_tree g_hash k_header) [state_root_gindex]).
Proof. apply checkableb_ok. vm_compute. reflexivity. Qed.
Example C74_committed : committed y_X k_input k_header k_state /\ st_slot k_state / 32 + 1 = k_T /\ epoch (finalized k_pre) = k_T /\
  epoch (st_finalized k_state) <= st_slot k_state / 32 /\
  (forall e, k_T < e <= k_T + 4 -> N.of_nat (length (active_indices (registry_at k_state k_T) e)) < 2 ^ 21).
Proof.
  split.
  - constructor; [exact g_hash32|exact g_pk48| | |vm_compute; reflexivity|vm_compute; reflexivity|exact k_check_block|exact k_check_state|exact k_check_registry|].
    + repeat split; vm_compute; reflexivity.
    + unfold wf_state. split; [vm_compute; reflexivity|]. split; [vm_compute; reflexivity|].
      split. { split; [|split]; vm_compute; reflexivity. }
      split.
      { split; [|vm_compute; congruence]. unfold k_state, st_validators, k_vs, w_vs. cbn [map app].
        repeat (apply Forall_cons; [unfold wf_validator; repeat match goal with |- _ /\ _ => split end; vm_compute; reflexivity|]). constructor. }
      repeat (split; [vm_compute; reflexivity|]). intros k. apply le_bytes_length.
    + split; repeat constructor.
  - split; [vm_compute; reflexivity|]. split; [reflexivity|]. split; [vm_compute; discriminate|].
    intros e He. assert (E : e = k_T + 1 \/ e = k_T + 2 \/ e = k_T + 3 \/ e = k_T + 4) by lia. destruct E as [->|[->|[->| ->]]]; vm_compute; reflexivity.
Qed.

Print Assumptions C74_same_active.
Print Assumptions C74_journal_means.
Print Assumptions C74_ejection_refuted.
Print Assumptions C74_nonvacuous.
Print Assumptions C74_registry.
Print Assumptions C74_committed.
