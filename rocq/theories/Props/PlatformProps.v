(** C87: the guest, on 32-bit words, does what the host does on 64-bit words. *)
From Coq Require Import List NArith Bool Lia.
From Coq.Init Require Import Byte.
From Verif.Model Require Import Base Types TreeHash Gindices ConsensusState Committee Multiproof Verify GuestReader Guest Cli InputCodec Networks Shuffle HostChain HostStore HostInput.
From Verif.Spec Require Import Merkle Ssz Beacon Committees Pipeline VerifySpec HostInputSpec InputCodecSpec PlatformSpec.
From Verif.Proof Require Import BaseLemmas GuestP PatchP PreflightP InputSizeP HostChainP HostGuestP InputCodecP PlatformP.
From Verif.Props Require Import CliProps NetworkProps ShuffleProps HonestProps InputCodecProps VerifyProps GuestToy HostToy PipelineProps MeaningProps CommitteeProps.
Import ListNotations.
Open Scope N_scope.
Notation length := List.length.


Lemma guest_verify X0 cfg R : verify (guest_side X0) cfg R = verify (on_platform (host_side X0) 32) cfg R.
Proof.
  unfold guest_side, host_side, with_swap_or_not, on_platform. cbn [sha256 pk_serialize bls_verify shuffle_list usize_bits].
  apply verify_same_shuffle. intros l rounds seed. apply C68_platforms; discriminate.
Qed.
(** Verification has the same outcome, be it a result, an error or a panic, for any data source with a
    registry that is not too large. *)
Theorem C87_verification n X0 cfg R : rd_chain_spec R = network_spec n -> small_registry R ->
  verify (guest_side X0) cfg R = verify (host_side X0) cfg R.
Proof.
  intros Hs Sm. rewrite guest_verify.
  assert (U : usize_bits (host_side X0) = 64) by reflexivity.
  apply verify_outcome_platform.
  - rewrite Hs. change (host_side X0) with (on_platform (host_side X0) 64). apply C65_parameters.
  - rewrite Hs. apply C65_parameters.
  - apply C68_shuffle_permutes.
  - intros atts a avl Ha Hin Hav. cbv zeta. destruct (Sm atts a avl Ha Hin Hav) as [S1 S2]. rewrite Hs.
    assert (L : N.of_nat (length (bm_of_list avl)) < 2 ^ 21) by (pose proof (bm_of_list_length avl); lia).
    split; [|split; [now apply fits_64|now apply C65_committees_fit]].
    intros i Hi. apply in_map_iff in Hi as ([j v] & <- & Hi). apply bm_of_list_in in Hi. cbn [fst].
    pose proof (S2 j v Hi) as B. unfold usize_max. rewrite U. cbn [on_platform usize_bits]. split; [|exact B].
    eapply N.lt_trans; [exact B|]. vm_compute. reflexivity.
Qed.
(** So do the checks of an input, for every input. *)
Theorem C87_checks X0 cs gi : into_reader (guest_side X0) cs gi = into_reader (host_side X0) cs gi.
Proof.
  rewrite <- (into_reader_platform (host_side X0) 32). unfold guest_side, host_side, with_swap_or_not, on_platform. cbn [sha256 pk_serialize bls_verify shuffle_list usize_bits].
  apply into_reader_same_shuffle.
Qed.

(** ** How large the registry of an input can be *)
Lemma filter_le {A} (f : A -> bool) l : (length (filter f l) <= length l)%nat.
Proof. induction l as [|a l IH]; cbn [filter length]; [lia|]. destruct (f a); cbn [length]; lia. Qed.
Lemma extract_one_consumes X vals pks i vi v' pks' : extract_one X vals pks i = Ok (vi, v', pks') ->
  (length v' < length vals)%nat /\ length pks = S (length pks').
Proof.
  assert (N : forall l g x l', next_checked l g = Ok (x, l') -> length l = S (length l')).
  { intros [|[g' c] r] g x l' H; [discriminate|]. cbn [next_checked] in H. apply bind_ok in H as (? & _ & H). injection H as _ <-. reflexivity. }
  destruct pks as [|pk r]; [discriminate|]. cbn [extract_one]. intros H.
  repeat match goal with H : bind _ _ = Ok _ |- _ => apply bind_ok in H as (? & ? & H); repeat match goal with p : (_ * _)%type |- _ => destruct p end end.
  injection H as _ <- <-.
  repeat match goal with H : next_checked _ _ = Ok _ |- _ => apply N in H end. split; [lia|reflexivity].
Qed.
Lemma extract_loop_size X cur : forall fuel vals pks i cache out, extract_loop X fuel cur vals pks i cache = Ok out ->
  (length out <= length cache + length pks)%nat /\ forall k v, In (k, v) out -> In k (map fst cache) \/ k < i + N.of_nat (length vals).
Proof.
  induction fuel as [|fuel IH]; intros vals pks i cache out H; [discriminate|]. cbn [extract_loop] in H.
  destruct vals as [|[g c] rest]; [discriminate|]. destruct (g =? 3).
  { apply bind_ok in H as (? & _ & H). apply bind_ok in H as (? & _ & H). injection H as <-. split; [lia|]. intros k v Hk. left. now apply (in_map fst) in Hk. }
  destruct (g =? exit_epoch_gindex i).
  - apply bind_ok in H as (? & _ & H). apply IH in H as [H1 H2]. split; [exact H1|]. intros k v Hk. cbn [length]. destruct (H2 k v Hk); [now left|right; lia].
  - apply bind_ok in H as ([[vi v'] pks'] & H0 & H). apply extract_one_consumes in H0 as [L1 L2]. apply IH in H as [H1 H2].
    pose proof (bm_insert_length cache i vi). split; [lia|]. intros k v Hk. destruct (H2 k v Hk) as [Hc|Hc]; [|right; lia].
    apply in_map_iff in Hc as ([k' u] & <- & Hc). apply bm_insert_in in Hc as [E|Hc]; [injection E as -> ->; right; cbn [fst length]; lia|left]. now apply (in_map fst) in Hc.
Qed.
Lemma values_length mp : (length (mp_values mp) <= length (mp_value_mask mp))%nat.
Proof.
  unfold mp_values. rewrite map_length. etransitivity; [apply filter_le|]. rewrite combine_length. lia.
Qed.
(** Whatever a prover supplies, an input that a 32-bit platform can read has a registry with indices below
    2^29, and no more active validators than public keys. *)
Theorem C87_input_registry C X cs gi r : wf_input C 32 gi -> into_reader X cs gi = Ok r ->
  forall e validators, rd_active_validators (guest_reader r) e = Ok validators ->
  (length validators <= length (gi_public_keys gi))%nat /\ forall i v, In (i, v) validators -> i < 2 ^ 29.
Proof.
  intros W H e validators Hv. apply into_reader_ok in H as (sr & si & vals & _ & _ & _ & _ & _ & Hx & _ & Hl & _).
  apply registry_loop_ok in Hl as [Hl _]. rewrite upds_map in Hl.
  unfold extract_validators_multiproof in Hx. apply extract_loop_size in Hx as [L1 L2]. cbn [map fst length] in L1, L2.
  cbn [guest_reader rd_active_validators] in Hv. injection Hv as <-. rewrite Hl. split.
  - etransitivity; [apply filter_le|]. rewrite map_length. exact L1.
  - intros i v Hi. apply filter_In in Hi as [Hi _]. apply in_map_iff in Hi as ([j u] & E & Hi). cbn [fst snd] in E. injection E as <- _.
    destruct (L2 j u Hi) as [[]|B]. pose proof (values_length (gi_active_validators gi)).
    pose proof (wm_mask _ _ (wi_validators _ _ _ W)) as M. unfold short in M. change (32 - 3) with 29 in M. lia.
Qed.

(** ** The guest program *)
(** For every input that the guest can read and in which fewer than 2^21 validators are active at the
    epochs voted for, the guest program and the same program on the host end in the same way: they
    commit the same journal or both abort. *)
Theorem C87_guest_active n C X0 frame gi : sane_codec C ->
  decode_input C 32 frame = Some gi ->
  (forall r a validators, into_reader (host_side X0) (network_spec n) gi = Ok r -> In a (gi_attestations gi) ->
     rd_active_validators (guest_reader r) (epoch (ad_target (att_data a))) = Ok validators -> N.of_nat (length validators) < 2 ^ 21) ->
  entry (guest_side X0) (decode_input C 32) (network_spec n) (config_for n) frame =
  entry (host_side X0) (decode_input C 64) (network_spec n) (config_for n) frame.
Proof.
  intros S D K. unfold entry. rewrite D, (C63_platforms C 32 64 frame gi ltac:(discriminate) D). cbn [expect bind].
  destruct (C63_decoded C 32 frame gi S ltac:(split; discriminate) D) as [W _].
  rewrite C87_checks. destruct (into_reader (host_side X0) (network_spec n) gi) as [r| |] eqn:E; cbn [unwrap bind]; [|reflexivity|reflexivity].
  destruct (unwrap (rd_consensus_state (guest_reader r))) as [pre| |]; cbn [bind]; [|reflexivity|reflexivity].
  pose proof E as E'. apply into_reader_ok in E as (sr & si & vals & _ & _ & _ & _ & _ & _ & _ & _ & _ & _ & E & _ & _ & _ & Ea).
  rewrite (C87_verification n); [reflexivity|exact E|].
  intros atts a validators Hat Hin Hv. cbn [guest_reader rd_attestations] in Hat. injection Hat as <-. rewrite Ea in Hin.
  split; [exact (K r a validators eq_refl Hin Hv)|].
  destruct (C87_input_registry C _ _ _ _ W E' _ _ Hv) as [_ B2].
  intros i v Hi. specialize (B2 i v Hi). change (2 ^ 29) with 536870912 in B2. change (2 ^ 32 - 1) with 4294967295. lia.
Qed.
(** In particular if the input has fewer than 2^21 public keys. *)
Theorem C87_guest n C X0 frame gi : sane_codec C ->
  decode_input C 32 frame = Some gi -> N.of_nat (length (gi_public_keys gi)) < 2 ^ 21 ->
  entry (guest_side X0) (decode_input C 32) (network_spec n) (config_for n) frame =
  entry (host_side X0) (decode_input C 64) (network_spec n) (config_for n) frame.
Proof.
  intros S D K. apply (C87_guest_active n C X0 frame gi S D). intros r a validators E _ Hv.
  destruct (C63_decoded C 32 frame gi S ltac:(split; discriminate) D) as [W _].
  destruct (C87_input_registry C _ _ _ _ W E _ _ Hv) as [B1 _]. lia.
Qed.
(** What the guest cannot read it aborts on; whatever it reads, the host reads as the same input. *)
Theorem C87_reading n C X0 frame : sane_codec C ->
  match decode_input C 32 frame with
  | None => entry (guest_side X0) (decode_input C 32) (network_spec n) (config_for n) frame = Panic
  | Some gi => decode_input C 64 frame = Some gi
  end.
Proof.
  intros S. destruct (decode_input C 32 frame) as [gi|] eqn:D; [exact (C63_platforms C 32 64 frame gi ltac:(discriminate) D)|].
  unfold entry. rewrite D. reflexivity.
Qed.
(** The tool's [verify] and [sync] in the zkVM ([--mode r0vm]), for every input that the guest can read and
    whose pre-state is the expected one: the outcome is that of the run on the host alone, with the same
    error if it fails. *)
Theorem C87_r0vm_is_native n C X0 input gi : sane_codec C ->
  decode_input C 32 input = Some gi -> N.of_nat (length (gi_public_keys gi)) < 2 ^ 21 -> N.of_nat (length input) < 2 ^ 32 ->
  let executor b := match guest_for n (guest_side X0) (decode_input C 32) (encode_input_stdin b) with Ok j => Some j | _ => None end in
  run_verify (host_side X0) (decode_input C 64) executor (network_spec n) (config_for n) true (gi_consensus_state gi) input =
  run_verify (host_side X0) (decode_input C 64) executor (network_spec n) (config_for n) false (gi_consensus_state gi) input.
Proof.
  intros S D K L executor.
  pose proof (C63_platforms C 32 64 input gi ltac:(discriminate) D) as D64.
  pose proof (C63_cross_check C 64 (host_side X0) (network_spec n) (config_for n) input gi S ltac:(split; discriminate) D64) as X. cbv zeta in X.
  assert (E : executor input = match entry (host_side X0) (decode_input C 64) (network_spec n) (config_for n) input with Ok j => Some j | _ => None end).
  { unfold executor. rewrite C65_same_parameters, C44_guest_input by exact L. now rewrite (C87_guest n C X0 input gi S D K). }
  unfold run_verify in *. rewrite E. exact X.
Qed.

(** ** The inputs that the tool prepares *)
(** Such an input has no more keys than the registry of the trusted state has validators. *)
Theorem C87_prepared_keys X cs pk_deserialize states headers blocks collect cfg fe gi pre post slot st :
  (forall c cst atts, collect c = Ok (cst, atts) -> finalized cst = c) -> hash32 (sha256 X) ->
  prepare_input X cs pk_deserialize states headers blocks collect cfg fe = Ok (gi, pre, post, slot) ->
  checkpoint_state X cs states (finalized pre) = Ok st -> wf_registry (st_validators (hs_state st)) ->
  (length (gi_public_keys gi) <= length (st_validators (hs_state st)))%nat.
Proof.
  intros Hco Hh P Ec Wr. apply prepare_input_inv in P as (_ & _ & _ & E & _); [|exact Hco].
  unfold to_input in E. unfold checkpoint_state in Ec.
  apply bind_ok in E as (st' & E1 & E). apply (proj1 (map_err_ok _ _ _)) in E1. rewrite Ec in E1. injection E1 as <-.
  apply bind_ok in E as (bp & Eb & E). apply bind_ok in E as ([] & Vb & E). apply bind_ok in E as (? & _ & E).
  apply bind_ok in E as (sp & Es & E). apply bind_ok in E as ([] & Vs & E). apply bind_ok in E as (active & Ea & E).
  apply bind_ok in E as ([vp keys] & Ev & E). apply bind_ok in E as ([] & Vv & E). apply bind_ok in E as (patches & _ & E).
  apply bind_ok in E as (sps & El & E). apply bind_ok in E as (cst & Ecs & E). apply bind_ok in E as (ats & Eat & E). injection E as <-.
  cbn [gi_public_keys]. exact (proj2 (registry_proof_size _ _ _ _ _ _ _ Hh Wr Ev)).
Qed.

(** ** The bound is needed; a case that meets the hypotheses *)
(** With 2^21 or more active validators the two platforms differ: see [C16_guest_32bit_refuted]. *)
Example C87_nonvacuous n : exists gi,
  let input := encode_input n_codec gi in
  decode_input n_codec 32 input = Some gi /\ N.of_nat (length (gi_public_keys gi)) < 2 ^ 21 /\ N.of_nat (length input) < 2 ^ 32 /\
  entry (guest_side z_X0) (decode_input n_codec 32) (network_spec n) (config_for n) input = Ok (journal_encode (w_pre n) (w_post n) (32 * w_trust n + 32)).
Proof.
  destruct (C70_nonvacuous n) as (gi & P & G & D & L). exists gi. cbv zeta. split; [exact D|]. split; [|split; [exact L|]].
  - pose proof (C87_prepared_keys _ _ _ _ _ _ _ _ _ _ _ _ _ (z_hstate n (w_trust n)) (collect_from_ok (network_spec n) (z_chain n) 5) (sd_hash _ _ _ _ _ _ _ (z_sound n)) P) as B.
    assert (W : wf_registry (st_validators (hs_state (z_hstate n (w_trust n))))) by apply (sd_state _ _ _ _ _ _ _ (z_sound n)).
    specialize (B (z_checkpoint n) W). change (st_validators (hs_state (z_hstate n (w_trust n)))) with w_vs in B.
    change (length w_vs) with 8%nat in B. change (2 ^ 21) with 2097152. lia.
  - rewrite C65_same_parameters, C44_guest_input in G by exact L. exact G.
Qed.
Print Assumptions C87_verification.
Print Assumptions C87_checks.
Print Assumptions C87_input_registry.
Print Assumptions C87_guest_active.
Print Assumptions C87_guest.
Print Assumptions C87_reading.
Print Assumptions C87_r0vm_is_native.
Print Assumptions C87_prepared_keys.
Print Assumptions C87_nonvacuous.
