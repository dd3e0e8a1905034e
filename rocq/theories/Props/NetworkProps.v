(** C65: the programs for mainnet and Sepolia. *)
From Coq Require Import List Arith ZArith NArith Bool Lia.
From Coq Require Import ZifyBool ZifyNat ZifyN.
From Coq.Init Require Import Byte.
From Verif.Model Require Import Base Types ConsensusState Multiproof Builder Gindices TreeHash Committee Verify GuestReader Guest Cli InputCodec Networks.
From Verif.Spec Require Import FFG Merkle MultiproofSpec Ssz Beacon Committees GuestSpec Registry VerifySpec Safety HostInputSpec InputCodecSpec ClientSpec NetworkSpec.
From Verif.Proof Require Import BaseLemmas VerifyP GuestP SafetyP EndToEndP ClientP.
From Verif.Props Require Import VerifyProps GuestToy EndToEndProps InputCodecProps ClientProps.
Import ListNotations.
Open Scope N_scope.
Notation length := List.length.

(** *** Parameters *)
(** Host and guest use the same parameters for a network. *)
Theorem C65_same_parameters n X decode stdin :
  guest_for n X decode stdin = guest_main X decode (network_spec n) (config_for n) stdin.
Proof. destruct n; reflexivity. Qed.
(** The parameters meet the conditions of the other theorems, on both platforms. *)
Theorem C65_parameters n X :
  sane_spec (on_platform X 32) (network_spec n) /\ sane_spec (on_platform X 64) (network_spec n) /\
  far_future_epoch (network_spec n) = 2 ^ 64 - 1 /\
  epoch_lookahead_limit (config_for n) <= max_seed_lookahead (network_spec n) /\
  justification_threshold_quotient (config_for n) = 100 /\ justification_threshold_factor (config_for n) = percent n /\
  2 * 100 <= 3 * percent n.
Proof.
  assert (D : forall b, 16 <= b -> N.divide 65536 (2 ^ b)).
  { intros b Hb. exists (2 ^ (b - 16)). change 65536 with (2 ^ 16). rewrite <- N.pow_add_r. f_equal. lia. }
  destruct n; (split; [|split]); try (repeat split; try (vm_compute; (reflexivity || discriminate)); apply D; vm_compute; discriminate);
    repeat split; vm_compute; discriminate.
Qed.
(** Committees of the 32-bit guest are exact for fewer than 2^21 active validators, and for no more
    (see C16). *)
Theorem C65_committees_fit n X active : active < 2 ^ 21 ->
  fits_platform (on_platform X 32) (slots_per_epoch (network_spec n)) (committee_count (network_spec n) active) active.
Proof.
  intros Ha. set (c := committee_count (network_spec n) active).
  assert (Hc : 1 <= c <= 64).
  { unfold c, committee_count. replace (max_committees_per_slot (network_spec n)) with 64 by (destruct n; reflexivity). lia. }
  replace (slots_per_epoch (network_spec n)) with 32 by (destruct n; reflexivity).
  unfold fits_platform. cbn [usize_bits on_platform]. change (2 ^ 32) with 4294967296. change (2 ^ 21) with 2097152 in Ha.
  clearbody c. split; [lia|]. split; [lia|]. split; [exists 134217728; reflexivity|]. split; [lia|nia].
Qed.
(** The supported epochs are those from Electra on. *)
Theorem C65_supported n e :
  (fork_rank (min_version (config_for n)) <= fork_rank (fork_name_at_epoch (network_spec n) e) <= fork_rank (max_version (config_for n)))
  <-> electra_epoch n <= e.
Proof.
  destruct n; unfold fork_name_at_epoch, forks_desc, network_spec, mainnet_spec, sepolia_spec, preset, electra_epoch;
    cbn [fork_name_from cs_fork_epoch mainnet_fork_epoch sepolia_fork_epoch config_for DEFAULT_CONFIG SEPOLIA_CONFIG min_version max_version];
    repeat match goal with |- context [if ?x <=? e then _ else _] => destruct (N.leb_spec x e) end; cbn [fork_rank]; lia.
Qed.
(** The fork version signed over. *)
Theorem C65_versions n e : electra_epoch n <= e ->
  version_at (fork_at_epoch (network_spec n) e) e = if e <? fulu_epoch n then electra_version n else fulu_version n.
Proof.
  intros He. unfold fork_at_epoch.
  assert (F : fork_name_at_epoch (network_spec n) e = if e <? fulu_epoch n then Electra else Fulu).
  { destruct n; unfold fork_name_at_epoch, forks_desc, network_spec, mainnet_spec, sepolia_spec, preset, electra_epoch, fulu_epoch in *;
      cbn [fork_name_from cs_fork_epoch mainnet_fork_epoch sepolia_fork_epoch];
      repeat match goal with |- context [if ?x <=? e then _ else _] => destruct (N.leb_spec x e) end;
      match goal with |- context [e <? ?x] => destruct (N.ltb_spec e x) end; try reflexivity; lia. }
  rewrite F. destruct n; unfold electra_epoch, fulu_epoch in *;
    match goal with |- context [e <? ?x] => destruct (N.ltb_spec e x) end;
    unfold network_spec, mainnet_spec, sepolia_spec, preset; cbn [cs_fork_epoch cs_fork_version mainnet_fork_epoch sepolia_fork_epoch mainnet_fork_version sepolia_fork_version];
    unfold version_at; cbn [fork_epoch current_version previous_version];
    match goal with |- context [if ?b then _ else _] => destruct b eqn:B end; try reflexivity; lia.
Qed.

(** *** Committed journals *)
Definition network_proven (n : Network) (X : Externals) (C : Codec) : bytes -> Prop :=
  fun j => exists stdin, guest_for n X (decode_input C 32) stdin = Ok j.
Lemma network_proven_proven n X C j : network_proven n X C j <-> ClientSpec.proven X C 32 (network_spec n) (config_for n) j.
Proof. unfold network_proven, ClientSpec.proven. split; intros [i H]; exists i; [rewrite <- C65_same_parameters|rewrite C65_same_parameters]; exact H. Qed.
Lemma W32 : 32 <= 32 <= 64. Proof. lia. Qed.

(** A journal of a network's program starts from a state of the network's supported era: never from
    the all-zero genesis state, and never from an epoch more than four before Electra. It finalizes
    one to three further epochs. *)
Theorem C65_era n X C stdin journal : sane_codec C ->
  guest_for n X (decode_input C 32) stdin = Ok journal ->
  exists pre post slot,
    journal = journal_encode pre post slot /\
    abi_decode (firstn 128 journal) = Ok pre /\ abi_decode (skipn 128 journal) = Ok post /\
    pre <> genesis_state /\ electra_epoch n <= epoch (finalized pre) + 4 /\
    electra_epoch n <= epoch (current_justified post) /\
    epoch (finalized pre) + 1 <= epoch (finalized post) <= epoch (finalized pre) + 3.
Proof.
  intros S H. rewrite C65_same_parameters in H.
  destruct (guest_run C 32 X _ _ stdin journal S W32 H) as (frame & gi & r & gs & post & slot & R1 & R2 & R3 & R4 & R5 & R6 & R7 & R8 & R9 & R10 & _ & _ & R11 & R12).
  assert (T : forall l, In l (map fst gs) -> electra_epoch n <= epoch (target l) <= epoch (finalized (gi_consensus_state gi)) + 4).
  { intros l Hl. apply in_map_iff in Hl as (g & <- & Hg). rewrite Forall_forall in R7. destruct (R7 g Hg) as [[B1 B2] _].
    apply C65_supported in B2. replace (epoch_lookahead_limit (config_for n)) with 4 in B1 by (destruct n; reflexivity). lia. }
  destruct (accepted_finalizes _ _ _ R6) as [I _]. apply T in I. cbn [target] in I.
  exists (gi_consensus_state gi), post, slot. repeat (split; [assumption|]).
  split; [|lia]. intros E. rewrite E in I. change (epoch (finalized genesis_state)) with 0 in I.
  destruct n; unfold electra_epoch in I; lia.
Qed.
(** The threshold in percent. *)
Theorem C65_threshold n av P : enough (config_for n) (network_spec n) av P <->
  percent n * balance_of (network_spec n) av <= 100 * balance_of (network_spec n) (unslashed P).
Proof.
  unfold enough. destruct n; cbn [config_for DEFAULT_CONFIG SEPOLIA_CONFIG justification_threshold_factor justification_threshold_quotient percent]; lia.
Qed.
(** Soundness of the programs: as C37, with every condition on the configuration and the epochs
    discharged. What is left is that the trusted root commits to a state of the trusted epoch. *)
Theorem C65_soundness n X C stdin journal : sane_codec C ->
  guest_for n X (decode_input C 32) stdin = Ok journal ->
  exists frame gi post slot,
    decode_input C 32 frame = Some gi /\ journal = journal_encode (gi_consensus_state gi) post slot /\
    forall h s, committed X gi h s -> st_slot s / 32 = epoch (finalized (gi_consensus_state gi)) ->
      st_fork s = fork_at_epoch (network_spec n) (epoch (finalized (gi_consensus_state gi))) /\
      exists gs, groups (gi_attestations gi) gs /\ accepted_chain (gi_consensus_state gi) (map fst gs) post /\
        Forall (fun g => exists av sets P,
          electra_epoch n <= epoch (target (fst g)) <= epoch (finalized (gi_consensus_state gi)) + 4 /\
          active_validators_of X (st_validators s) (epoch (target (fst g))) av /\
          Forall2 (aggregate_ok X (network_spec n) (fork_at_epoch (network_spec n) (epoch (target (fst g)))) (st_genesis_validators_root s) av (fst g)) (snd g) sets /\
          union_of sets P /\ percent n * balance_of (network_spec n) av <= 100 * balance_of (network_spec n) (unslashed P)) gs.
Proof.
  intros S H. destruct (C65_era n X C stdin journal S H) as (pre & post' & slot' & E1 & E2 & E3 & _ & E5 & _).
  rewrite C65_same_parameters in H.
  destruct (guest_run C 32 X _ _ stdin journal S W32 H) as (frame & gi & r & gs & post & slot & R1 & R2 & R3 & R4 & R5 & R6 & R7 & R8 & R9 & R10 & _ & _ & R11 & R12).
  rewrite E2 in R9. injection R9 as ->. exists frame, gi, post, slot. split; [exact R1|]. split; [exact R8|]. intros h s Hc Hs.
  assert (Hs' : st_slot s / slots_per_epoch (network_spec n) = epoch (finalized (gi_consensus_state gi))) by (destruct n; exact Hs).
  split.
  { pose proof (reader_fork X _ gi r h s Hc R3) as F. now rewrite Hs' in F. }
  exists gs. split; [exact R5|]. split; [exact R6|]. rewrite Forall_forall in *. intros g Hg. destruct (R7 g Hg) as [[B1 B2] (av & P & B3)].
  assert (Ht : epoch (finalized (gi_consensus_state gi)) < epoch (target (fst g))) by (eapply accepted_targets; [exact R6|now apply in_map]).
  destruct (C65_parameters n X) as (_ & _ & P1 & P2 & _).
  assert (L : epoch_lookahead_limit (config_for n) = 4 /\ max_seed_lookahead (network_spec n) = 4) by (destruct n; split; reflexivity).
  destruct (guest_link X (network_spec n) (config_for n) gi r h s (fst g) (snd g) av P Hc R3 P1) as (av' & sets & P' & L1 & L2 & L3 & L4); auto; try lia.
  { assert (5 <= electra_epoch n) by (destruct n; vm_compute; discriminate). lia. }
  exists av', sets, P'. apply C65_supported in B2. split; [lia|]. split; [exact L1|]. split; [exact L2|]. split; [exact L3|]. now apply C65_threshold.
Qed.

(** *** Keeping the networks apart *)
(** A state of the other network is rejected. *)
Theorem C65_other_network n m X gi h s : n <> m -> committed X gi h s ->
  st_fork s = fork_at_epoch (network_spec m) (st_slot s / 32) -> forall r, into_reader X (network_spec n) gi <> Ok r.
Proof.
  intros Hn Hc Hf r E. apply (reader_fork X _ gi r h s Hc) in E.
  replace (slots_per_epoch (network_spec n)) with 32 in E by (destruct n; reflexivity). rewrite Hf in E.
  apply (f_equal current_version) in E. unfold fork_at_epoch in E. cbn [current_version] in E.
  assert (V : forall k e, fork_name_at_epoch (network_spec k) e <> Gloas).
  { intros k e. destruct k; unfold fork_name_at_epoch, forks_desc, network_spec, mainnet_spec, sepolia_spec, preset;
      cbn [fork_name_from cs_fork_epoch mainnet_fork_epoch sepolia_fork_epoch];
      repeat match goal with |- context [if ?x <=? e then _ else _] => destruct (N.leb_spec x e) end; discriminate. }
  pose proof (V n (st_slot s / 32)) as Vn. pose proof (V m (st_slot s / 32)) as Vm.
  destruct (fork_name_at_epoch (network_spec n) (st_slot s / 32)), (fork_name_at_epoch (network_spec m) (st_slot s / 32)), n, m;
    try contradiction; try (now apply Hn); discriminate.
Qed.
(** Votes of one network do not count on the other: equal signing domains would show two different
    messages whose hashes agree in the first 28 bytes. The same for Electra and Fulu votes of one
    network. *)
Lemma versions_differ n m e e' : electra_epoch n <= e -> electra_epoch m <= e' ->
  n <> m \/ (n = m /\ e < fulu_epoch n <= e') ->
  version_at (fork_at_epoch (network_spec n) e) e <> version_at (fork_at_epoch (network_spec m) e') e'.
Proof.
  intros He He' Hd. rewrite !C65_versions by assumption.
  destruct Hd as [Hd|[<- Hd]].
  - destruct (e <? fulu_epoch n), (e' <? fulu_epoch m), n, m; try (now elim Hd); discriminate.
  - destruct (N.ltb_spec e (fulu_epoch n)), (N.ltb_spec e' (fulu_epoch n)); try lia. destruct n; discriminate.
Qed.
Theorem C65_domains_differ H n m e e' g g' : electra_epoch n <= e -> electra_epoch m <= e' ->
  n <> m \/ (n = m /\ e < fulu_epoch n <= e') ->
  domain H (domain_beacon_attester (network_spec n)) (version_at (fork_at_epoch (network_spec n) e) e) g
  = domain H (domain_beacon_attester (network_spec m)) (version_at (fork_at_epoch (network_spec m) e') e') g' ->
  exists a b, a <> b /\ firstn 28 (H a) = firstn 28 (H b).
Proof.
  intros He He' Hd E. pose proof (versions_differ n m e e' He He' Hd) as V.
  set (v := version_at (fork_at_epoch (network_spec n) e) e) in *. set (v' := version_at (fork_at_epoch (network_spec m) e') e') in *.
  assert (L : forall k x, electra_epoch k <= x -> length (version_at (fork_at_epoch (network_spec k) x) x) = 4%nat).
  { intros k x Hx. rewrite C65_versions by assumption. destruct (x <? fulu_epoch k), k; reflexivity. }
  exists (chunk 4 v ++ g), (chunk 4 v' ++ g'). split.
  - intros Ea. apply V. apply (f_equal (firstn 4)) in Ea. clear - Ea L He He'. unfold chunk in Ea.
    pose proof (L n e He) as L1. pose proof (L m e' He') as L2. fold v in L1. fold v' in L2. clearbody v v'.
    destruct v as [|a1 [|a2 [|a3 [|a4 [|]]]]], v' as [|b1 [|b2 [|b3 [|b4 [|]]]]]; try discriminate. exact Ea.
  - replace (domain_beacon_attester (network_spec n)) with 1 in E by (destruct n; reflexivity).
    replace (domain_beacon_attester (network_spec m)) with 1 in E by (destruct m; reflexivity).
    unfold domain in E. apply app_inv_head in E. exact E.
Qed.

(** *** Clients *)
Theorem C65_client_progress n X C s js u : sane_codec C -> follows (network_proven n X C) s js u ->
  let k := N.of_nat (length js) in
  epoch (finalized s) + k <= epoch (finalized u) <= epoch (finalized s) + 3 * k.
Proof.
  intros S F.
  assert (G : follows (ClientSpec.proven X C 32 (network_spec n) (config_for n)) s js u).
  { induction F as [s|s j t js u Hp D1 D2 F IH]; [constructor|]. econstructor; eauto. now apply network_proven_proven. }
  pose proof (C64_progress X C 32 _ _ S W32 s js u G) as P. cbn zeta in *.
  replace (epoch_lookahead_limit (config_for n)) with 4 in P by (destruct n; reflexivity). lia.
Qed.
(** Two clients in conflict: the votes of two slashable supermajority links; if both were checked
    against the same active set, 70% of its balance on mainnet and 40% on Sepolia signed both. *)
Theorem C65_client_safety n X C s ja jb ua ub : sane_codec C ->
  ja <> [] -> jb <> [] -> follows (network_proven n X C) s ja ua -> follows (network_proven n X C) s jb ub ->
  exists pa pb,
    explained X C 32 (network_spec n) (config_for n) s ja ua pa /\ explained X C 32 (network_spec n) (config_for n) s jb ub pb /\
    (conflicting (current_justified s) (links pa) (links pb) (finalized ua) (finalized ub) ->
     exists a b ava avb Pa Pb,
       In a (votes pa) /\ In b (votes pb) /\ slashable (v_link a) (v_link b) /\
       backed X (config_for n) a ava Pa /\ backed X (config_for n) b avb Pb /\
       (ava = avb -> 2000000000 <= weight ava ->
        forall both, in_both (unslashed Pa) (unslashed Pb) both ->
          (2 * percent n - 100) * weight ava <= 100 * weight both)).
Proof.
  intros S Na Nb Fa Fb.
  assert (G : forall s js u, follows (network_proven n X C) s js u -> follows (ClientSpec.proven X C 32 (network_spec n) (config_for n)) s js u).
  { clear. intros s js u F. induction F as [s|s j t js u Hp D1 D2 F IH]; [constructor|]. econstructor; eauto. now apply network_proven_proven. }
  destruct (C64_explained X C 32 _ _ S W32 _ _ _ (G _ _ _ Fa)) as [pa Ea].
  destruct (C64_explained X C 32 _ _ S W32 _ _ _ (G _ _ _ Fb)) as [pb Eb].
  exists pa, pb. split; [exact Ea|]. split; [exact Eb|]. intros Hc.
  destruct (C64_accountable_safety X C 32 _ _ s ja jb ua ub pa pb Na Nb Ea Eb Hc) as (a & b & ava & avb & Pa & Pb & H1 & H2 & H3 & H4 & H5 & H6).
  exists a, b, ava, avb, Pa, Pb. repeat (split; [assumption|]). intros <- Hw both Hb. cbn zeta in H6.
  replace (effective_balance_increment (network_spec n)) with 1000000000 in H6 by (destruct n; reflexivity).
  pose proof (supermajority_participants _ _ _ _ _ _ _ H4) as (Nd & _ & _).
  specialize (H6 ltac:(lia) ltac:(lia) ltac:(lia) ava both Nd (incl_refl _) (incl_refl _) Hb).
  destruct n; cbn [config_for DEFAULT_CONFIG SEPOLIA_CONFIG justification_threshold_factor justification_threshold_quotient percent] in *; lia.
Qed.

(** *** Examples *)
(** A toy registry of eight validators with 32 ETH each on either network, ten epochs after Electra:
    one link finalizes the next epoch. *)
Definition w_trust (n : Network) : N := electra_epoch n + 10.
Definition w_vs : list Validator :=
  map (fun i => mkValidator (g_key i ++ repeat x00 47) (toy_root i) 32000000000 false 0 0 g_far g_far) [0; 1; 2; 3; 4; 5; 6; 7].
Definition w_state (n : Network) : State :=
  mkState false toy_gvr (32 * w_trust n) (fork_at_epoch (network_spec n) (w_trust n)) w_vs
    (mkCheckpoint (w_trust n - 2) (toy_root 7)) 0 0 (fun k => MLeaf (toy_root k)).
Definition w_state_root (n : Network) : bytes :=
  Eval vm_compute in match n with Mainnet => mroot g_hash (state_tree g_hash (w_state Mainnet)) | Sepolia => mroot g_hash (state_tree g_hash (w_state Sepolia)) end.
Definition w_header (n : Network) : Header := mkHeader (32 * w_trust n) 3 (toy_root 17) (w_state_root n) (MLeaf (toy_root 1818)).
Definition w_root (n : Network) : bytes := mroot g_hash (header_tree g_hash (w_header n)).
Definition w_header1 (n : Network) : Header := mkHeader (32 * w_trust n + 32) 4 (toy_root 23) (toy_root 2424) (MLeaf (toy_root 2323)).
Definition w_root1 (n : Network) : bytes := mroot g_hash (header_tree g_hash (w_header1 n)).
Definition w_pre (n : Network) : ConsensusState :=
  mkCS (mkCheckpoint (w_trust n + 1) (w_root1 n)) (mkCheckpoint (w_trust n) (w_root n)).
Definition w_link (n : Network) : Link := mkLink (mkCheckpoint (w_trust n + 1) (w_root1 n)) (mkCheckpoint (w_trust n + 2) (toy_root 99)).
Definition w_fields : list N :=
  [genesis_validators_root_gindex; slot_gindex; fork_previous_version_gindex; fork_current_version_gindex;
   fork_epoch_gindex; validators_gindex; finalized_checkpoint_epoch_gindex; earliest_exit_epoch_gindex;
   earliest_consolidation_epoch_gindex].
Definition w_state_proof (n : Network) : Multiproof :=
  Eval vm_compute in match n with Mainnet => g_build (state_tree g_hash (w_state Mainnet)) w_fields | Sepolia => g_build (state_tree g_hash (w_state Sepolia)) w_fields end.
Definition w_registry_proof : Multiproof :=
  Eval vm_compute in g_build (registry_tree g_hash w_vs) (3 :: flat_map g_all_fields [0; 1; 2; 3; 4; 5; 6; 7]).
Definition w_att (n m : Network) (k : N) : Attestation :=
  let l := w_link n in
  let d := toy_data (32 * (w_trust n + 2) + 4 * k + 3) l in
  mkAttestation true [true] (true :: repeat false 63) d
    (g_sig (signing_root g_hash d (get_attester_domain g_hash (network_spec m) (epoch (target l)) (fork_at_epoch (network_spec m) (epoch (target l))) toy_gvr)
       ++ [byte_of_N (107 - k)])).
Definition w_input (n m : Network) (ks : list N) : GuestInput :=
  mkGuestInput (g_build (header_tree g_hash (w_header n)) [state_root_gindex]) (w_state_proof n) w_registry_proof
    (map g_key [0; 1; 2; 3; 4; 5; 6; 7]) [(w_trust n + 2, mkStatePatch [((w_trust n) mod 65536, toy_root 10)] [])]
    (w_pre n) (map (w_att n m) ks) [g_build (header_tree g_hash (w_header1 n)) [block_slot_gindex]].
Definition w_post (n : Network) : ConsensusState :=
  mkCS (mkCheckpoint (w_trust n + 2) (toy_root 99)) (mkCheckpoint (w_trust n + 1) (w_root1 n)).
Definition w_run (n m : Network) (ks : list N) : outcome unit bytes :=
  guest_for n g_X (decode_input n_codec 32) (encode_input_stdin (encode_input n_codec (w_input n m ks))).
(** Seven of eight voters are enough on both networks. *)
Example C65_nonvacuous n : w_run n n [0; 1; 2; 3; 4; 5; 6] = Ok (journal_encode (w_pre n) (w_post n) (32 * w_trust n + 32)).
Proof. destruct n; run. Qed.
Lemma w_checkable : checkable g_hash (registry_tree g_hash w_vs) w_registry_proof.
Proof. apply checkableb_ok. vm_compute. reflexivity. Qed.
Example C65_soundness_nonvacuous n : committed g_X (w_input n n [0; 1; 2; 3; 4; 5; 6]) (w_header n) (w_state n) /\
  st_slot (w_state n) / 32 = epoch (finalized (gi_consensus_state (w_input n n [0; 1; 2; 3; 4; 5; 6]))).
Proof.
  split; [|destruct n; vm_compute; reflexivity].
  constructor; [exact g_hash32|exact g_pk48| | |destruct n; vm_compute; reflexivity|destruct n; vm_compute; reflexivity| | |exact w_checkable|].
  - destruct n; repeat split; vm_compute; reflexivity.
  - unfold wf_state. split; [destruct n; vm_compute; reflexivity|]. split; [destruct n; vm_compute; reflexivity|].
    split. { destruct n; (split; [|split]); vm_compute; reflexivity. }
    split.
    { split; [|destruct n; vm_compute; congruence]. unfold w_state, st_validators, w_vs. cbn [map].
      repeat (apply Forall_cons; [unfold wf_validator; repeat match goal with |- _ /\ _ => split end; vm_compute; reflexivity|]). constructor. }
    repeat (split; [destruct n; vm_compute; reflexivity|]). intros k. apply le_bytes_length.
  - apply checkableb_ok. destruct n; vm_compute; reflexivity.
  - apply checkableb_ok. destruct n; vm_compute; reflexivity.
  - split; repeat constructor.
Qed.
(** Six of eight (75%) are enough on Sepolia only, five on neither. Votes signed for one network
    abort the other's program. *)
Example C65_thresholds_differ :
  w_run Sepolia Sepolia [0; 1; 2; 3; 4; 5] = Ok (journal_encode (w_pre Sepolia) (w_post Sepolia) (32 * w_trust Sepolia + 32)) /\
  w_run Mainnet Mainnet [0; 1; 2; 3; 4; 5] = Panic /\ w_run Sepolia Sepolia [0; 1; 2; 3; 4] = Panic /\
  w_run Sepolia Mainnet [0; 1; 2; 3; 4; 5; 6] = Panic /\ w_run Mainnet Sepolia [0; 1; 2; 3; 4; 5; 6] = Panic.
Proof. split; [run|]. do 3 (split; [vm_compute; reflexivity|]). vm_compute. reflexivity. Qed.
Example C65_client_nonvacuous n : follows (network_proven n g_X n_codec) (w_pre n)
  [journal_encode (w_pre n) (w_post n) (32 * w_trust n + 32)] (w_post n).
Proof.
  apply (follows_step _ _ _ (w_post n)); [|destruct n; vm_compute; reflexivity|destruct n; vm_compute; reflexivity|constructor].
  eexists. exact (C65_nonvacuous n).
Qed.
(** An input of the other network is rejected. *)
Example C65_other_network_nonvacuous : exists r, into_reader g_X (network_spec Sepolia) (w_input Sepolia Sepolia [0]) = Ok r /\
  forall r', into_reader g_X (network_spec Mainnet) (w_input Sepolia Sepolia [0]) <> Ok r'.
Proof.
  assert (E : match into_reader g_X (network_spec Sepolia) (w_input Sepolia Sepolia [0]) with Ok _ => true | _ => false end = true) by (vm_compute; reflexivity).
  destruct (into_reader g_X (network_spec Sepolia) (w_input Sepolia Sepolia [0])) as [r| |]; try discriminate. exists r. split; [reflexivity|].
  intros r' E'. assert (F : match into_reader g_X (network_spec Mainnet) (w_input Sepolia Sepolia [0]) with Ok _ => true | _ => false end = false) by (vm_compute; reflexivity).
  rewrite E' in F. discriminate.
Qed.

Print Assumptions C65_same_parameters.
Print Assumptions C65_parameters.
Print Assumptions C65_committees_fit.
Print Assumptions C65_supported.
Print Assumptions C65_versions.
Print Assumptions C65_era.
Print Assumptions C65_threshold.
Print Assumptions C65_soundness.
Print Assumptions C65_other_network.
Print Assumptions C65_domains_differ.
Print Assumptions C65_client_progress.
Print Assumptions C65_client_safety.
Print Assumptions C65_nonvacuous.
Print Assumptions C65_soundness_nonvacuous.
Print Assumptions C65_thresholds_differ.
Print Assumptions C65_client_nonvacuous.
