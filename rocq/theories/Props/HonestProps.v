(** C70: on an honest chain the tool and the network's program do their job, down to the bytes: votes
    that the consensus specification accepts make the host build an input, the program reads that
    input from its framed bytes, and commits the chain's next finalized state. *)
From Coq Require Import List Arith NArith Bool Lia Sorted Permutation.
From Coq Require Import ZifyBool ZifyNat ZifyN.
From Coq.Init Require Import Byte.
From Verif.Model Require Import Base Types TreeHash Gindices Shuffle Committee ConsensusState Verify GuestReader Guest Cli CliRun HostChain HostStore HostInput StateFile InputCodec Networks.
From Verif.Spec Require FFG.
From Verif.Spec Require Import FFG Merkle Ssz Beacon Registry GuestSpec Committees VerifySpec HostSpec Pipeline HostInputSpec InputCodecSpec NetworkSpec ShuffleSpec Meaning Honest.
From Verif.Proof Require Import BaseLemmas VerifyP ShareP GuestP EndToEndP HostChainP HostInputP HostGuestP PreflightP ShuffleP InputWfP InputSizeP PipelineP.
From Verif.Props Require Import CommitteeProps VerifyProps GuestToy HostToy HostInputProps CliProps ReplayProps PipelineProps InputCodecProps ClientProps NetworkProps ShuffleProps MeaningProps.
Import ListNotations.
Open Scope N_scope.

(** ** Inputs that the host builds are small and well-formed *)
(** Some 400 bytes for every entry of the registry, 17 kB for every aggregate, 16 bytes for every exit
    to be patched. *)
Theorem C70_input_size : forall C X cs pk_deserialize states headers blocks collect cfg fe gi pre post slot st,
  (forall c cst atts, collect c = Ok (cst, atts) -> finalized cst = c) -> sane_spec X cs -> mainnet_limits C ->
  prepare_input X cs pk_deserialize states headers blocks collect cfg fe = Ok (gi, pre, post, slot) ->
  checkpoint_state X cs states (finalized pre) = Ok st ->
  sound_data X cs pk_deserialize headers (finalized pre) st [root (finalized post)] ->
  typed_answers C cs pk_deserialize states (gi_attestations gi) ->
  wf_checkpoint (current_justified pre) -> wf_checkpoint (finalized pre) ->
  N.of_nat (length (encode_input C gi)) <=
    400 * N.of_nat (length (st_validators (hs_state st))) + 17100 * N.of_nat (length (gi_attestations gi)) + 16 * exit_count gi + 10000.
Proof.
  intros C X cs pkd states headers blocks collect cfg fe gi pre post slot st Hco Sane M P Ec D T W1 W2.
  apply prepare_input_inv in P as (_ & _ & _ & P & _); [|exact Hco].
  eapply to_input_size; eauto.
Qed.
(** The program reads such an input back from its bytes. *)
Theorem C70_input_read : forall C X cs pk_deserialize states headers blocks collect cfg fe gi pre post slot st,
  (forall c cst atts, collect c = Ok (cst, atts) -> finalized cst = c) -> sane_spec X cs -> sane_codec C ->
  prepare_input X cs pk_deserialize states headers blocks collect cfg fe = Ok (gi, pre, post, slot) ->
  checkpoint_state X cs states (finalized pre) = Ok st ->
  sound_data X cs pk_deserialize headers (finalized pre) st [root (finalized post)] ->
  typed_answers C cs pk_deserialize states (gi_attestations gi) ->
  wf_checkpoint (current_justified pre) -> wf_checkpoint (finalized pre) ->
  N.of_nat (length (st_validators (hs_state st))) < 2 ^ 32 ->
  N.of_nat (length (encode_input C gi)) < 2 ^ 32 -> wf_input C 32 gi /\ decode_input C 32 (encode_input C gi) = Some gi.
Proof.
  intros C X cs pkd states headers blocks collect cfg fe gi pre post slot st Hco Sane S P Ec D T W1 W2 Hn L.
  apply prepare_input_inv in P as (_ & _ & _ & P & _); [|exact Hco].
  assert (W : wf_input C 32 gi) by (eapply to_input_wf; eauto). split; [exact W|].
  rewrite <- (app_nil_r (encode_input C gi)). apply C63_round_trip; auto. lia.
Qed.

(** ** Votes the specification accepts are evidence for the verifier *)
Lemma fits_64 n X active : usize_bits X = 64 -> active < 2 ^ 21 ->
  fits_platform X (slots_per_epoch (network_spec n)) (committee_count (network_spec n) active) active.
Proof.
  intros U Ha. set (c := committee_count (network_spec n) active).
  assert (Hc : 1 <= c <= 64).
  { unfold c, committee_count. replace (max_committees_per_slot (network_spec n)) with 64 by (destruct n; reflexivity). lia. }
  replace (slots_per_epoch (network_spec n)) with 32 by (destruct n; reflexivity).
  unfold fits_platform. rewrite U. change (2 ^ 21) with 2097152 in Ha. change (2 ^ 64) with 18446744073709551616.
  clearbody c. split; [lia|]. split; [lia|]. split; [exists 576460752303423488; reflexivity|]. split; [lia|nia].
Qed.
Lemma NoDup_map_filter {A} (f : A -> bool) (g : A -> N) l : NoDup (map g l) -> NoDup (map g (filter f l)).
Proof.
  induction l as [|x l IH]; cbn [filter map]; intros H; [constructor|]. inversion H as [|? ? H1 H2]; subst. destruct (f x); [|auto].
  cbn [map]. constructor; [|auto]. intros Hx. apply H1. apply in_map_iff in Hx as (y & E & Hy). apply filter_In in Hy as [Hy _]. rewrite <- E. now apply in_map.
Qed.
Lemma map_fst_filter {V} (f : N -> bool) (l : list (N * V)) : map fst (filter (fun x => f (fst x)) l) = filter f (map fst l).
Proof. induction l as [|x l IH]; cbn [filter map]; [reflexivity|]. destruct (f (fst x)); cbn [map]; now rewrite IH. Qed.
Lemma filter_filter_and {A} (f g : A -> bool) l : filter f (filter g l) = filter (fun x => g x && f x) l.
Proof. induction l as [|x l IH]; cbn [filter]; [reflexivity|]. destruct (g x); cbn [filter andb]; rewrite IH; reflexivity. Qed.
(** [l] lists the validators of [vs] active at [e] with their keys, balances and slashing status. *)
Definition lists_voters (X : Externals) (vs : list Validator) (e : Epoch) (l : list (N * ValidatorInfo)) : Prop :=
  sorted_map l /\
  (forall i vi, In (i, vi) l ->
     exists v, nth_error vs (N.to_nat i) = Some v /\ v_activation_epoch v <= e < v_exit_epoch v /\
       pk_serialize X (pubkey vi) = v_pubkey v /\ effective_balance vi = v_effective_balance v /\ slashed vi = v_slashed v) /\
  (forall i v, nth_error vs (N.to_nat i) = Some v -> v_activation_epoch v <= e < v_exit_epoch v -> exists vi, In (i, vi) l).
Section Voters.
  Variables (X : Externals) (vs : list Validator) (e : Epoch) (av : list (N * ValidatorInfo)).
  Hypothesis Hav : lists_voters X vs e av.
  Lemma lv_indices : map fst av = active_indices vs e.
  Proof.
    destruct Hav as (H1 & H2 & H3). apply sorted_ext; [exact H1|apply active_indices_sorted|]. intros i.
    rewrite active_indices_In, in_map_iff. split.
    - intros ([j vi] & <- & Hi). destruct (H2 _ _ Hi) as (v & E & A & _). eauto.
    - intros (v & E & A). destruct (H3 _ _ E A) as [vi Hi]. exists (i, vi). auto.
  Qed.
  Lemma lv_weight L : incl L av -> weight L = fold_right (fun i t => balance_at vs i + t) 0 (map fst L).
  Proof.
    induction L as [|[i vi] L IH]; intros HL; cbn [weight map fold_right]; [reflexivity|].
    rewrite IH by (intros x Hx; apply HL; now right). f_equal. cbn [fst snd].
    destruct Hav as (_ & H2 & _). destruct (H2 i vi (HL _ (or_introl eq_refl))) as (v & E & _ & _ & B & _).
    unfold balance_at. now rewrite E.
  Qed.
  Lemma lv_slashed i vi : In (i, vi) av -> is_slashed vs i = slashed vi.
  Proof.
    intros Hi. destruct Hav as (_ & H2 & _). destruct (H2 _ _ Hi) as (v & E & _ & _ & _ & B). unfold is_slashed. now rewrite E.
  Qed.
  Lemma lv_keys L : incl L av -> map (pk_serialize X) (map (fun x => pubkey (snd x)) L) = map (key_at vs) (map fst L).
  Proof.
    intros HL. rewrite !map_map. apply map_ext_in. intros [i vi] Hi. cbn [fst snd].
    destruct Hav as (_ & H2 & _). destruct (H2 i vi (HL _ Hi)) as (v & E & _ & B & _). unfold key_at. now rewrite E.
  Qed.
End Voters.
Lemma active_weight X vs e avl : lists_voters X vs e avl -> weight avl <= all_balances vs.
Proof.
  intros A. rewrite (lv_weight _ _ _ _ A avl) by apply incl_refl. rewrite (lv_indices _ _ _ _ A).
  pose proof (sum_index (fun k => balance_at vs (N.of_nat k)) vs (map N.to_nat (active_indices vs e))) as S.
  assert (E : forall l, fold_right (fun i t => balance_at vs i + t) 0 l = Registry.sum (map (fun k => balance_at vs (N.of_nat k)) (map N.to_nat l))).
  { induction l as [|i l IH]; cbn [fold_right map Registry.sum]; [reflexivity|]. rewrite IH, N2Nat.id. reflexivity. }
  rewrite E. apply S.
  - apply FinFun.Injective_map_NoDup; [intros a b H; lia|]. apply sorted_NoDup, active_indices_sorted.
  - intros k Hk. apply in_map_iff in Hk as (i & <- & Hi). apply active_indices_In in Hi as (v & Hv & _). apply nth_error_Some. congruence.
  - intros k v _ Hv. unfold balance_at. now rewrite Nat2N.id, Hv.
Qed.
(** Valid votes stand for the balance of the specification's voters. *)
Lemma votes_shares n X0 bits R l g s mix avl : let X := with_swap_or_not X0 64 in
  let e := epoch (target l) in let vs := st_validators s in
  usize_bits X0 = 64 -> bits = 32 \/ bits = 64 -> signatures_by_bytes X0 ->
  rd_chain_spec R = network_spec n -> rd_fork R e = Ok (fork_at_epoch (network_spec n) e) ->
  rd_genesis_validators_root R = Ok (st_genesis_validators_root s) ->
  rd_active_validators R e = Ok avl -> lists_voters X vs e avl ->
  rd_randao_mix R e ((e + 65534) mod 65536) = Ok (Some mix) ->
  electra_epoch n <= e -> e + 65536 < 2 ^ 64 ->
  N.of_nat (length vs) < 2 ^ 32 -> N.of_nat (length (active_indices vs e)) < 2 ^ 21 -> all_balances vs < 2 ^ 62 ->
  g <> [] -> (forall a, In a g -> link_of a = l) ->
  Forall (vote_valid X n s mix l) g ->
  Forall (includable X vs mix) g ->
  link_shares (on_platform X bits) R l g (total_balance vs (active_indices vs e)) (total_balance vs (voters X vs mix e g)).
Proof.
  intros X e vs U Hb Inj Hcs Hfk Hg Hac A Hmx He Hep Hlen Hact Hbal Hne Hl Jv Hinc.
  pose proof (lv_indices _ _ _ _ A) as Ai.
  assert (Av : active_set avl avl) by (pose proof (active_set_of_list avl) as Q; rewrite bm_of_list_sorted_id in Q by (apply bm_sorted_keys, A); exact Q).
  set (cps := committees_per_slot (N.of_nat (length (active_indices vs e)))).
  assert (Ec : committee_count (network_spec n) (N.of_nat (length avl)) = cps).
  { unfold cps. rewrite <- Ai, map_length. destruct n; reflexivity. }
  assert (E32 : slots_per_epoch (network_spec n) = 32) by (destruct n; reflexivity).
  assert (E90 : shuffle_round_count (network_spec n) = 90) by (destruct n; reflexivity).
  assert (E1 : domain_beacon_attester (network_spec n) = 1) by (destruct n; reflexivity).
  set (seed := sha256 X ([x01; x00; x00; x00] ++ le_bytes 8 e ++ mix)).
  assert (Nonempty : active_indices vs e <> []).
  { destruct g as [|a g]; [easy|]. inversion Jv as [|? ? V _]; subst. destruct V as (_ & _ & V3 & _ & _ & V & _). unfold attesting_indices in V.
    rewrite V3 in V. fold e vs in V. intros Q. rewrite Q in V. now apply V. }
  destruct (proj2 (C68_result_iff N (sha256 X0) 64 64 (active_indices vs e) 90 seed ltac:(lia))) as [sh Hsh].
  { split; [exact Nonempty|]. split; [|discriminate]. change (2 ^ 24) with 16777216. change (2 ^ 21) with 2097152 in Hact. lia. }
  pose proof (Permutation_length (C68_permutes _ _ _ _ _ _ _ _ Hsh)) as Lsh.
  pose (sel := fun a => filter (fun x : N * ValidatorInfo => mem (fst x) (attesting_indices X vs mix a)) avl).
  pose (P := filter (fun x : N * ValidatorInfo => existsb (fun a => mem (fst x) (attesting_indices X vs mix a)) g) avl).
  assert (Sub : forall a, In a g -> forall i, In i (attesting_indices X vs mix a) -> In i (active_indices vs e)).
  { intros a Ha i Hi. unfold attesting_indices in Hi. apply filter_In in Hi as [Hi _].
    now rewrite (f_equal (fun x => epoch (target x)) (Hl a Ha) : epoch (ad_target (att_data a)) = e) in Hi. }
  assert (Sfst : forall a, In a g -> map fst (sel a) = attesting_indices X vs mix a).
  { intros a Ha. unfold sel. rewrite (map_fst_filter (fun i => mem i (attesting_indices X vs mix a))). rewrite Ai. apply sorted_ext.
    - apply sorted_filter, active_indices_sorted.
    - unfold attesting_indices. apply sorted_filter, active_indices_sorted.
    - intros i. rewrite filter_In, mem_In. split; [tauto|]. intros Hi. split; [now apply (Sub a)|exact Hi]. }
  assert (Incl : forall a, incl (sel a) avl) by (intros a x Hx; apply filter_In in Hx; tauto).
  unfold link_shares. rewrite Hcs. fold e.
  exists (fork_at_epoch (network_spec n) e), (st_genesis_validators_root s), avl, avl, mix, sh, (map sel g), P. cbv zeta.
  rewrite Ec, E32, E90, E1. change (le_bytes 4 1) with [x01; x00; x00; x00]. fold seed.
  assert (Q : seed_epoch_index (network_spec n) e = (e + 65534) mod 65536).
  { unfold seed_epoch_index. destruct n; (replace (e + _ - _ - 1) with (e + 65534); [reflexivity|]);
      unfold network_spec, mainnet_spec, sepolia_spec, preset; cbn [epochs_per_historical_vector min_seed_lookahead]; lia. }
  assert (EH : epochs_per_historical_vector (network_spec n) = 65536) by (destruct n; reflexivity).
  rewrite Q, EH.
  assert (Fit : fits_platform (on_platform X bits) 32 cps (N.of_nat (length (active_indices vs e)))).
  { assert (F : fits_platform (on_platform X bits) (slots_per_epoch (network_spec n))
        (committee_count (network_spec n) (N.of_nat (length (active_indices vs e)))) (N.of_nat (length (active_indices vs e))))
      by (destruct Hb as [-> | ->]; [apply C65_committees_fit; exact Hact|apply fits_64; [reflexivity|exact Hact]]).
    rewrite E32 in F. replace (committee_count _ _) with cps in F by (destruct n; reflexivity). exact F. }
  split; [exact Hfk|]. split; [exact Hg|]. split; [exact Hac|]. split; [exact Av|].
  split. { intros ->. cbn [map] in Ai. now rewrite <- Ai in Nonempty. }
  split.
  { apply Forall_forall. intros [i vi] Hi. cbn [fst]. destruct A as (_ & A2 & _). destruct (A2 i vi Hi) as (v & Hv & _).
    assert (nth_error vs (N.to_nat i) <> None) as Hn by congruence. apply nth_error_Some in Hn. cbn [on_platform usize_bits].
    change (2 ^ 32) with 4294967296 in Hlen. destruct Hb as [-> | ->]; [change (2 ^ 32) with 4294967296|change (2 ^ 64) with 18446744073709551616]; lia. }
  split; [exact Hep|]. split; [exact Hmx|].
  split. { cbn [on_platform X with_swap_or_not shuffle_list]. rewrite Ai, U. exact Hsh. }
  split. { rewrite <- Lsh. exact Fit. }
  assert (Es : forall a, In a g -> map (committee_of sh 32 cps (ad_slot (att_data a))) (set_positions (committee_bits a))
     = map (spec_beacon_committee (sha256 X) seed 90 (active_indices vs e) 32 cps (ad_slot (att_data a))) (set_positions (committee_bits a))).
  { intros a Ha. rewrite Forall_forall in Hinc. destruct (Hinc a Ha) as (B & _). cbv zeta in B.
    rewrite (f_equal (fun x => epoch (target x)) (Hl a Ha) : epoch (ad_target (att_data a)) = e) in B. fold cps in B.
    apply map_ext_in. intros ci Hci. rewrite Forall_forall in B. specialize (B ci Hci).
    unfold committee_of, spec_beacon_committee. pose proof (N.mod_lt (ad_slot (att_data a)) 32). destruct Fit as (F1 & F2 & _).
    change 90%nat with (N.to_nat 90). eapply committee_segment; eauto; nia. }
  split.
  { clear P. assert (G : forall a, In a g -> bits_well_formed sh 32 cps a /\
      aggregate_ok (on_platform X bits) (network_spec n) (fork_at_epoch (network_spec n) e) (st_genesis_validators_root s) avl l a (sel a) /\
      StronglySorted N.lt (map fst (sel a)) /\ (forall i, In i (map fst (sel a)) <-> In i (attesters_of sh 32 cps a))).
    { intros a Ha. pose proof (f_equal (fun x => epoch (target x)) (Hl a Ha) : epoch (ad_target (att_data a)) = e) as Ea.
      assert (I : forall i, In i (map fst (sel a)) <-> In i (attesters_of sh 32 cps a)).
      { intros i. rewrite (Sfst a Ha). unfold attesting_indices, attesters_of. rewrite (Es a Ha), Ea. fold cps seed. rewrite filter_In, mem_In.
        split; [tauto|]. intros Hi. split; [|exact Hi].
        assert (In i sh) as Hs.
        { rewrite <- (Es a Ha) in Hi. apply CommitteeP.select_incl in Hi. apply in_concat in Hi as (cm & Hc & Hi). apply in_map_iff in Hc as (ci & <- & _).
          unfold committee_of, segment in Hi. set (a1 := N.to_nat _) in Hi. set (b1 := N.to_nat _) in Hi.
          rewrite <- (firstn_skipn b1 sh). apply in_or_app. right. rewrite <- (firstn_skipn a1 (skipn b1 sh)). apply in_or_app. now left. }
        eapply Permutation_in; [symmetry; exact (C68_permutes _ _ _ _ _ _ _ _ Hsh)|exact Hs]. }
      rewrite Forall_forall in Hinc, Jv. specialize (Hinc a Ha). specialize (Jv a Ha).
      destruct Jv as (V1 & V2 & V3 & V4 & V5 & V6 & keys & V7 & V8). fold vs in V6, V7.
      split.
      { unfold includable in Hinc. rewrite Ea in Hinc. fold cps seed in Hinc. unfold bits_well_formed. rewrite (Es a Ha). exact Hinc. }
      split; [|split].
      - split; auto.
        + now rewrite E32.
        + split; [|split].
          * intros Q0. apply V6. rewrite <- (Sfst a Ha), Q0. reflexivity.
          * rewrite (Sfst a Ha). apply sorted_NoDup. unfold attesting_indices. apply sorted_filter, active_indices_sorted.
          * apply Incl.
        + rewrite E1. fold e. unfold e. rewrite C65_versions by exact He.
          rewrite <- V8. apply Inj. change (pk_serialize X0) with (pk_serialize X). rewrite (lv_keys _ _ _ _ A (sel a) (Incl a)), (Sfst a Ha). exact (eq_sym V7).
      - rewrite (Sfst a Ha). unfold attesting_indices. apply sorted_filter, active_indices_sorted.
      - exact I. }
    clear - G. induction g as [|a g IH]; cbn [map]; constructor.
    - apply G. now left.
    - apply IH. intros b Hb. apply G. now right. }
  split.
  { split.
    - unfold P. apply NoDup_map_filter. apply sorted_NoDup, A.
    - intros x. unfold P. rewrite filter_In, existsb_exists. split.
      + intros (Hx & a & Ha & M). exists (sel a). split; [now apply in_map|]. apply filter_In. auto.
      + intros (sg & Hs & Hx). apply in_map_iff in Hs as (a & <- & Ha). apply filter_In in Hx as [Hx M]. split; [exact Hx|]. exists a. auto. }
  assert (IncP : incl (unslashed P) avl).
  { intros x Hx. apply filter_In in Hx as [Hx _]. apply filter_In in Hx as [Hx _]. exact Hx. }
  assert (Ev : map fst (unslashed P) = voters X vs mix e g).
  { unfold voters. rewrite <- Ai. unfold unslashed, P. rewrite <- (map_fst_filter (fun i => existsb (fun a => mem i (attesting_indices X vs mix a)) g && negb (is_slashed vs i))).
    f_equal. rewrite filter_filter_and. apply filter_ext_in. intros [i vi] Hi. cbn [fst snd]. now rewrite (lv_slashed _ _ _ _ A i vi Hi). }
  pose proof (active_weight _ _ _ _ A) as Wa.
  assert (Wp : weight (unslashed P) <= weight avl) by (unfold unslashed, P; etransitivity; [apply weight_filter_le|apply weight_filter_le]).
  assert (B1 : balance_of (network_spec n) avl = total_balance vs (active_indices vs e)).
  { replace (balance_of (network_spec n) avl) with (N.max 1000000000 (weight avl)) by (destruct n; reflexivity).
    rewrite (lv_weight _ _ _ _ A avl) by apply incl_refl. now rewrite Ai. }
  assert (B2 : balance_of (network_spec n) (unslashed P) = total_balance vs (voters X vs mix e g)).
  { replace (balance_of (network_spec n) (unslashed P)) with (N.max 1000000000 (weight (unslashed P))) by (destruct n; reflexivity).
    rewrite (lv_weight _ _ _ _ A (unslashed P)) by exact IncP. now rewrite Ev. }
  split; [now rewrite B1, B2|].
  replace (balance_of (network_spec n) avl) with (N.max 1000000000 (weight avl)) by (destruct n; reflexivity).
  replace (balance_of (network_spec n) (unslashed P)) with (N.max 1000000000 (weight (unslashed P))) by (destruct n; reflexivity).
  change (2 ^ 62) with 4611686018427387904 in Hbal. change (2 ^ 64) with 18446744073709551616. lia.
Qed.
Lemma means_evidence n X0 bits R l g s mix avl : let X := with_swap_or_not X0 64 in
  let e := epoch (target l) in let vs := st_validators s in
  usize_bits X0 = 64 -> bits = 32 \/ bits = 64 -> signatures_by_bytes X0 ->
  rd_chain_spec R = network_spec n -> rd_fork R e = Ok (fork_at_epoch (network_spec n) e) ->
  rd_genesis_validators_root R = Ok (st_genesis_validators_root s) ->
  rd_active_validators R e = Ok avl -> lists_voters X vs e avl ->
  rd_randao_mix R e ((e + 65534) mod 65536) = Ok (Some mix) ->
  electra_epoch n <= e -> e + 65536 < 2 ^ 64 ->
  N.of_nat (length vs) < 2 ^ 32 -> N.of_nat (length (active_indices vs e)) < 2 ^ 21 -> all_balances vs < 2 ^ 62 ->
  g <> [] -> (forall a, In a g -> link_of a = l) ->
  justified_by X n s mix l g -> Forall (includable X vs mix) g ->
  link_evidence (on_platform X bits) (config_for n) R l g.
Proof.
  intros X e vs U Hb Inj Hcs Hfk Hg Hac A Hmx He Hep Hlen Hact Hbal Hne Hl [Jv Jt] Hinc.
  fold vs e in Jt. eapply shares_evidence; [eapply (votes_shares n X0 bits R l g s mix avl); eauto|..]; fold X vs e; clear -Jt;
    destruct n; cbn [config_for DEFAULT_CONFIG SEPOLIA_CONFIG justification_threshold_factor justification_threshold_quotient percent] in *; lia.
Qed.

(** ** The host's own answers *)
Lemma host_active X pkd st e l : decodes X pkd -> active_from_state pkd st e = Ok l ->
  lists_voters X (st_validators (hs_state st)) e l.
Proof.
  intros D E. apply active_list in E as (S & _ & G).
  assert (G' : forall i, bm_get l i = match nth_error (st_validators (hs_state st)) (N.to_nat i) with
    | Some v => if is_active_validator v e then match pkd (v_pubkey v) with Some pk => Some (record_of v pk) | None => None end else None
    | None => None end).
  { intros i. destruct (G i) as [G1 _]. rewrite G1, N.sub_0_r. now destruct (N.ltb_spec i 0); [lia|]. }
  split; [now apply bm_sorted_keys|]. split.
  - intros i vi Hi. apply bm_in_get in Hi; [|exact S]. rewrite G' in Hi.
    destruct (nth_error _ _) as [v|]; [|discriminate]. destruct (is_active_validator v e) eqn:Ea; [|discriminate].
    destruct (pkd (v_pubkey v)) as [pk|] eqn:Ek; [|discriminate]. injection Hi as <-. exists v. split; [reflexivity|].
    unfold is_active_validator in Ea. split; [lia|]. unfold record_of. cbn [pubkey effective_balance slashed]. rewrite (D _ _ Ek). auto.
  - intros i v Hv Ha. destruct (G i) as [_ G2]. rewrite N.sub_0_r in G2. specialize (G2 ltac:(lia) v Hv).
    assert (Ea : is_active_validator v e = true) by (unfold is_active_validator; lia). specialize (G2 Ea).
    destruct (pkd (v_pubkey v)) as [pk|] eqn:Ek; [|easy]. exists (record_of v pk). apply bm_get_in. now rewrite G', Hv, Ea, Ek.
Qed.
Lemma active_from_decodable pkd st e : keys_decode pkd (st_validators (hs_state st)) e -> exists l, active_from_state pkd st e = Ok l.
Proof.
  intros K. unfold active_from_state.
  assert (H : forall x, In x (enumerate 0 (st_validators (hs_state st))) -> In (snd x) (st_validators (hs_state st))).
  { generalize 0. induction (st_validators (hs_state st)) as [|v vs IH]; intros k x; cbn [enumerate]; [tauto|]. intros [<-|Hx]; [now left|right; eauto].
    eapply IH; eauto. intros w Hw. apply K. now right. }
  induction (enumerate 0 (st_validators (hs_state st))) as [|x r IH]; cbn [filter map_outcome]; [eauto|].
  destruct IH as [l IH]; [intros y Hy; apply H; now right|].
  destruct (is_active_validator (snd x) e) eqn:Ea; [|eauto]. cbn [map_outcome].
  destruct (K (snd x)) as [pk Ek]; [apply H; now left|unfold is_active_validator in Ea; lia|].
  unfold validator_info at 1. rewrite Ek. cbn [ok_or bind]. rewrite IH. cbn [bind]. eauto.
Qed.
Lemma active_count_indices vs e : active_count vs e = N.of_nat (length (active_indices vs e)).
Proof.
  unfold active_count, active_indices. rewrite map_length. f_equal. generalize 0%nat. induction vs as [|v vs IH]; intros k; cbn [length seq map combine filter]; [reflexivity|].
  cbn [snd]. unfold is_active at 1. destruct ((v_activation_epoch v <=? e) && (e <? v_exit_epoch v)); cbn [length]; now rewrite (IH (S k)).
Qed.
Lemma same_active vs vs' e : (forall i, voting_entry vs e i = voting_entry vs' e i) -> active_indices vs e = active_indices vs' e.
Proof.
  intros H. apply sorted_ext; [apply active_indices_sorted|apply active_indices_sorted|]. intros i. rewrite !active_indices_In. specialize (H i). unfold voting_entry in H.
  split; intros (v & Hv & Ha); rewrite Hv in H.
  - replace ((v_activation_epoch v <=? e) && (e <? v_exit_epoch v)) with true in H by lia.
    destruct (nth_error vs' (N.to_nat i)) as [w|]; [|discriminate]. exists w. split; [reflexivity|].
    destruct ((v_activation_epoch w <=? e) && (e <? v_exit_epoch w)) eqn:Q; [lia|discriminate].
  - replace ((v_activation_epoch v <=? e) && (e <? v_exit_epoch v)) with true in H by lia.
    destruct (nth_error vs (N.to_nat i)) as [w|]; [|discriminate]. exists w. split; [reflexivity|].
    destruct ((v_activation_epoch w <=? e) && (e <? v_exit_epoch w)) eqn:Q; [lia|discriminate].
Qed.

Lemma prepare_input_votes X cs pkd states headers blocks collect cfg fe gi pre post slot :
  (forall c cst atts, collect c = Ok (cst, atts) -> finalized cst = c) ->
  prepare_input X cs pkd states headers blocks collect cfg fe = Ok (gi, pre, post, slot) ->
  collect (finalized pre) = Ok (pre, gi_attestations gi).
Proof.
  intros Hco E. unfold prepare_input in E. apply bind_ok in E as (st & _ & E). apply bind_ok in E as (o & _ & E).
  apply bind_ok in E as (blk & _ & E). apply bind_ok in E as (u & _ & E). set (trusted := mkCheckpoint _ _) in E.
  apply bind_ok in E as ([cst atts] & E1 & E). apply bind_ok in E as ([post' slot'] & E2 & E). apply bind_ok in E as (gi' & E3 & E).
  injection E as -> <- -> ->. apply map_err_ok in E1. pose proof (Hco _ _ _ E1) as E4.
  assert (G : gi_consensus_state gi = cst /\ gi_attestations gi = atts).
  { unfold to_input in E3. repeat (let x := fresh "x" in let H := fresh "H" in apply bind_ok in E3 as (x & H & E3)).
    repeat match goal with H : (match ?p with pair _ _ => _ end) = Ok _ |- _ => destruct p end.
    repeat (let x := fresh "x" in let H := fresh "H" in apply bind_ok in E3 as (x & H & E3)).
    injection E3 as <-. cbn [gi_consensus_state gi_attestations].
    repeat match goal with H : map_err _ _ = Ok _ |- _ => apply map_err_ok in H end.
    repeat match goal with
    | H : rd_consensus_state _ = Ok _ |- _ => cbn [host_reader rd_consensus_state] in H; injection H as <-
    | H : rd_attestations _ = Ok _ |- _ => cbn [host_reader rd_attestations] in H; injection H as <- end. auto. }
  destruct G as [-> ->]. now rewrite E4.
Qed.

(** No exit is patched when no exit epoch changes. *)
Lemma no_exits vs' vs ex : exit_changes vs' vs [] -> exit_changes vs' vs ex -> ex = [].
Proof.
  intros [_ A] [S B]. destruct ex as [|[i x] ex]; [reflexivity|]. specialize (A i). specialize (B i). rewrite <- A in B.
  exfalso. cbn [bm_get] in B. now rewrite N.eqb_refl in B.
Qed.
Lemma exit_count_0 gi : (forall e p, In (e, p) (gi_patches gi) -> validator_exits p = []) -> exit_count gi = 0.
Proof.
  unfold exit_count. induction (gi_patches gi) as [|[e p] ps IH]; intros H; [reflexivity|]. cbn [flat_map snd].
  rewrite (H e p (or_introl eq_refl)). cbn [app]. apply IH. intros e' p' Hp. apply (H e' p'). now right.
Qed.

(** ** The theorem *)
Theorem C70_honest_chain : forall n X0 C pk_deserialize states headers blocks ch fuel trusted e s us t ls bs st sta h,
  let X := with_swap_or_not X0 64 in let cs := network_spec n in let votes := chain_votes ls bs in
  (* a 64-bit host *)
  usize_bits X0 = 64 -> sane_codec C -> mainnet_limits C -> signatures_by_bytes X0 ->
  (* the chain finalizes the trusted checkpoint, and then the next one *)
  next_finality cs ch trusted e s us t ls -> vote_window cs ch ls bs ->
  e <= epoch trusted + N.of_nat fuel -> (length us < fuel)%nat -> (e + 1 + N.of_nat fuel) * 32 < 2 ^ 64 ->
  Forall (fun l => honest_votes n X pk_deserialize states trusted st l (votes_for l (included bs))) ls ->
  headers (root (finalized t)) = Ok (Some h) -> mroot (sha256 X) (header_tree (sha256 X) h) = root (finalized t) ->
  (* the trusted state and its block, and the state at the start of the trusted epoch *)
  checkpoint_state X cs states trusted = Ok st -> hs_supported st = true ->
  blocks (hd_slot (hs_header st)) = Ok (Some (boundary_block X st)) ->
  sound_data X cs pk_deserialize headers trusted st [root (finalized t)] ->
  states (32 * epoch trusted) = Ok sta -> keys_decode pk_deserialize (st_validators (hs_state sta)) (epoch trusted) ->
  (* the later states have the same voters; no exit epoch changes *)
  steady_chain cs states trusted st votes ->
  (forall e st', In e (target_epochs votes) -> states (32 * e) = Ok st' ->
     exit_changes (st_validators (hs_state st')) (st_validators (hs_state st)) []) ->
  (* types and sizes *)
  typed_answers C cs pk_deserialize states votes -> wf_checkpoint (current_justified s) -> wf_checkpoint trusted ->
  epoch (current_justified s) < 2 ^ 63 -> 1 <= epoch trusted < 2 ^ 58 ->
  N.of_nat (length (st_validators (hs_state st))) < 2 ^ 22 -> all_balances (st_validators (hs_state st)) < 2 ^ 62 ->
  N.of_nat (length votes) < 2 ^ 17 ->
  exists gi,
    prepare_input X cs pk_deserialize states headers blocks (collect_from cs ch fuel) (config_for n) (epoch trusted) = Ok (gi, s, t, hd_slot h) /\
    guest_for n (with_swap_or_not (on_platform X0 32) 64) (decode_input C 32) (encode_input_stdin (encode_input C gi))
    = Ok (journal_encode s t (hd_slot h)) /\
    (* the bytes are read back, by a 32-bit program as well *)
    decode_input C 32 (encode_input C gi) = Some gi /\ N.of_nat (length (encode_input C gi)) < 2 ^ 32.
Proof.
  intros n X0 C pkd states headers blocks ch fuel trusted e s us t ls bs st sta h X cs votes U S Ml Inj Nf Vw F1 F2 F3 Hv Hh Hr Ec Hsup Hblk D
    Hsta Ksta Sc Hx T W1 W2 Z1 Z2 Z3' Z4 Z5.
  assert (Z3 : N.of_nat (length (st_validators (hs_state st))) < 2 ^ 32) by (change (2 ^ 22) with 4194304 in Z3'; change (2 ^ 32) with 4294967296; lia).
  assert (E32 : slots_per_epoch cs = 32) by (unfold cs; destruct n; reflexivity).
  assert (EX : on_platform X 64 = X) by (unfold on_platform, X, with_swap_or_not; cbn; now rewrite U).
  destruct (C65_parameters n X) as (P32 & P64 & Pff & _). rewrite EX in P64. fold cs in P32, P64, Pff.
  pose proof (nf_trusted _ _ _ _ _ _ _ _ Nf) as Tr.
  assert (M4 : max_seed_lookahead cs = 4) by (unfold cs; destruct n; reflexivity).
  change (2 ^ 63) with 9223372036854775808 in Z1. change (2 ^ 58) with 288230376151711744 in Z2.
  assert (Es : forall x, x <= epoch trusted + 4 -> start_slot cs x = 32 * x).
  { intros x Hx'. unfold start_slot, sat_mul. rewrite E32. change u64_max with 18446744073709551615. lia. }
  change (2 ^ 62) with 4611686018427387904 in Z4.
  destruct (active_from_decodable pkd sta (epoch trusted) Ksta) as [active Ha].
  set (R := host_reader cs pkd states headers s votes).
  assert (Tv : forall x, In x (target_epochs votes) -> exists l, In l ls /\ epoch (target l) = x).
  { intros x Hx'. unfold target_epochs in Hx'. apply in_map_iff in Hx' as (a & <- & Hin). unfold votes, chain_votes in Hin.
    apply in_flat_map in Hin as (l & Hl & Hin). exists l. split; [exact Hl|]. apply votes_for_link in Hin as <-. reflexivity. }
  rewrite Forall_forall in Hv.
  assert (Vt : forall l, In l ls -> In (epoch (target l)) (target_epochs votes)).
  { intros l Hl. pose proof (hv_some _ _ _ _ _ _ _ _ (Hv l Hl)) as Q. destruct (votes_for l (included bs)) as [|a r] eqn:Ea; [easy|].
    assert (In a (votes_for l (included bs))) as Hin by (rewrite Ea; now left).
    unfold target_epochs. apply in_map_iff. exists a. split; [now apply votes_for_link in Hin as <-|]. apply in_flat_map. eauto. }
  assert (Hact : forall x, In x (target_epochs votes) -> active_count (st_validators (hs_state st)) x < 2 ^ 21).
  { intros x Hx'. destruct (Tv x Hx') as (l & Hl & <-). destruct (hv_state _ _ _ _ _ _ _ _ (Hv l Hl)) as (st' & mix & H1 & _ & _ & _ & _ & H2 & _).
    rewrite active_count_indices, <- (same_active (st_validators (hs_state st'))); [exact H2|].
    intros i. apply (sc_voters _ _ _ _ _ Sc); [exact Hx'|]. rewrite Es; [exact H1|]. apply (hv_epoch _ _ _ _ _ _ _ _ (Hv l Hl)). }
  destruct (C57_pipeline X 32 cs pkd states headers blocks ch fuel (config_for n) trusted e s us t ls bs st active h) as (gi & P & G); auto.
  - now rewrite E32.
  - apply Forall_forall. intros l Hl. specialize (Hv l Hl). destruct Hv as [V1 V2 (st' & mix & V3 & V4 & V5 & V6 & V7 & V8 & V9 & V10 & V11)].
    split; [unfold FFG.u64; change (2 ^ 64) with 18446744073709551616; lia|].
    split; [split; [replace (epoch_lookahead_limit (config_for n)) with 4 by (destruct n; reflexivity); lia|apply C65_supported; lia]|].
    split; [exact V1|]. fold votes. fold R.
    destruct (active_from_decodable pkd st' (epoch (target l)) V5) as [avl Hl'].
    assert (Rs : reader_state cs states (epoch (target l)) = Ok st') by (unfold reader_state; rewrite Es, V3 by lia; reflexivity).
    assert (G1 : reader_state cs states (epoch (finalized s)) = Ok sta) by (unfold reader_state; rewrite Tr, Es, Hsta by lia; reflexivity).
    assert (G2 : st_genesis_validators_root (hs_state sta) = st_genesis_validators_root (hs_state st)) by exact (sc_genesis _ _ _ _ _ Sc _ _ Hsta).
    rewrite <- EX. eapply (means_evidence n X0 64 R l _ (hs_state st') mix avl); auto.
    + unfold R. cbn [host_reader rd_fork]. rewrite Rs. cbn [bind]. f_equal. apply (sc_fork _ _ _ _ _ Sc _ st' (Vt l Hl)). rewrite Es by lia. exact V3.
    + unfold R. cbn [host_reader rd_genesis_validators_root]. rewrite G1. cbn [bind]. now rewrite G2, V4.
    + unfold R. cbn [host_reader rd_active_validators]. rewrite Rs. cbn [bind]. exact Hl'.
    + apply host_active with (pkd := pkd); [apply D|exact Hl'].
    + unfold R. cbn [host_reader rd_randao_mix]. rewrite Rs. cbn [bind]. now rewrite V6.
    + apply V2.
    + change (2 ^ 64) with 18446744073709551616. lia.
    + intros a Hin. now apply votes_for_link in Hin.
  - cbn [host_reader rd_active_validators]. unfold reader_state. rewrite Es, Hsta by lia. exact Ha.
  - intros x st' Hx' Hs'. destruct (Tv x Hx') as (l & Hl & El). pose proof (hv_epoch _ _ _ _ _ _ _ _ (Hv l Hl)). rewrite Es in Hs' by lia. eauto.
  - rewrite M4. change (2 ^ 64) with 18446744073709551616. lia.
  - lia.
  - rewrite M4. change (2 ^ 64) with 18446744073709551616. lia.
  - apply C68_shuffle_permutes.
  - split.
    + cbn [X with_swap_or_not usize_bits]. rewrite U. change (2 ^ 64) with 18446744073709551616. change (2 ^ 32) with 4294967296 in Z3. lia.
    + intros x Hx'. apply fits_64; auto.
  - split; [exact Z3|]. intros x Hx'. apply C65_committees_fit; auto.
  - assert (Q1 : churn_limit_quotient cs <> 0 /\ effective_balance_increment cs <> 0 /\
      min_per_epoch_churn_limit_electra cs <= 2 ^ 40 /\ effective_balance_increment cs <= 2 ^ 40).
    { unfold cs. destruct n; (split; [discriminate|split; [discriminate|split; vm_compute; discriminate]]). }
    destruct Q1 as (Q1 & Q2 & Q3 & Q4). change (2 ^ 40) with 1099511627776 in *. split; [exact Q1|]. split; [exact Q2|].
    change (2 ^ 64) with 18446744073709551616. lia.
  - exists gi. split; [exact P|].
    pose proof (collect_from_ok cs ch fuel) as Hco.
    destruct (prepare_input_inv _ _ _ _ _ _ _ _ _ _ _ _ _ Hco P) as (P1 & _ & _ & P2 & _).
    assert (Va : gi_attestations gi = votes).
    { assert (Ha' : collect_from cs ch fuel trusted = Ok (s, gi_attestations gi)) by (rewrite <- Tr; eapply prepare_input_votes; eauto).
      unfold collect_from in Ha'. rewrite (C57_host_collects cs ch trusted e s us t ls bs fuel) in Ha'; auto; rewrite ?E32; auto; [|lia].
      now injection Ha' as <-. }
    assert (Ex : exit_count gi = 0).
    { apply to_input_patches in P2 as (st1 & Q1 & Q2). rewrite Tr, Ec in Q1. injection Q1 as <-. rewrite Va in Q2.
      apply recorded_patches in Q2 as (_ & Q2 & Q3); [|exact P64]. apply exit_count_0. intros x p Hp.
      assert (Te : In x (target_epochs votes)) by (apply Q2; now apply (in_map fst) in Hp).
      destruct (Q3 x p Hp) as (stx & mix & S1 & _ & _ & S4). rewrite Tr in S4. destruct (x =? epoch trusted); [exact S4|].
      eapply no_exits; [|exact S4]. eapply Hx; [exact Te|]. destruct (Tv x Te) as (l & Hl & <-).
      rewrite <- Es; [exact S1|]. apply (hv_epoch _ _ _ _ _ _ _ _ (Hv l Hl)). }
    assert (L : N.of_nat (length (encode_input C gi)) < 2 ^ 32).
    { eapply N.le_lt_trans.
      - eapply (C70_input_size C X cs pkd states headers blocks (collect_from cs ch fuel) (config_for n) (epoch trusted) gi s t (hd_slot h) st); auto; rewrite ?Tr, ?Va; auto.
      - rewrite Va. rewrite Ex. change (2 ^ 22) with 4194304 in Z3'. change (2 ^ 17) with 131072 in Z5.
        change (2 ^ 32) with 4294967296. lia. }
    assert (W : decode_input C 32 (encode_input C gi) = Some gi).
    { eapply (C70_input_read C X cs pkd states headers blocks (collect_from cs ch fuel) (config_for n) (epoch trusted) gi s t (hd_slot h) st); auto; rewrite ?Tr, ?Va; auto. }
    split; [|split; [exact W|exact L]].
    rewrite C65_same_parameters, C44_guest_input by exact L. fold cs.
    rewrite C68_guest_platform by (rewrite ?U; lia). fold X. apply G. exact W.
Qed.

(** ** Non-vacuity: an honest chain on either network *)
(** Its signatures name the first byte of each key. *)
Definition z_serialize (k : PublicKey) : bytes := firstn 48 (k ++ repeat x00 48).
Definition z_X0 : Externals :=
  mkExternals g_hash z_serialize (fun s m ks => bytes_eqb s (g_sig (m ++ map (fun k => hd x00 (z_serialize k)) ks))) (fun _ _ _ => None) 64.
Definition z_X : Externals := with_swap_or_not z_X0 64.
Definition z_atts (n : Network) : list Attestation := map (y_att n (y_order n)) [0; 1; 2; 3; 4; 5; 6].
Definition z_state (n : Network) (e : N) : State :=
  mkState false toy_gvr (32 * e) (fork_at_epoch (network_spec n) e) w_vs
    (mkCheckpoint (w_trust n - 2) (toy_root 7)) 0 0 (fun k => MLeaf (toy_root k)).
Definition z_mixes : list bytes := repeat (toy_root 10) (N.to_nat 65536).
Definition z_hstate (n : Network) (e : N) : HState :=
  mkHState true (z_state n e) (mkHeader (32 * e) 3 (toy_root 17) (toy_root 0) (MLeaf (toy_root 1818))) z_mixes.
Definition z_states (n : Network) (slot : Slot) : answer HState :=
  if slot =? 32 * w_trust n then Ok (z_hstate n (w_trust n))
  else if slot =? 32 * (w_trust n + 2) then Ok (z_hstate n (w_trust n + 2))
  else if slot =? 0 then Ok (z_hstate n 0) else Err (NotFound slot).
Definition z_headers (n : Network) (r : Root) : outcome N (option Header) := Ok (if bytes_eqb r (w_root1 n) then Some (w_header1 n) else None).
Definition z_blocks (n : Network) (slot : Slot) : outcome N (option Header) := Ok (if slot =? 32 * w_trust n then Some (w_header n) else None).
(** The trusted checkpoint is finalized at the start of the second epoch after it, the next one an
    epoch later. The votes are in two blocks. *)
Definition z_bs (n : Network) : list Block := [mkBlock true (firstn 3 (z_atts n)); mkBlock true (skipn 3 (z_atts n))].
Definition z_chain (n : Network) : Chain :=
  mkChain (fun slot => if slot =? (w_trust n + 1) * 32 then Ok (mkCS (mkCheckpoint (w_trust n) (w_root n)) (mkCheckpoint (w_trust n - 1) (toy_root 7)))
                       else if slot =? (w_trust n + 2) * 32 then Ok (w_pre n)
                       else if slot =? (w_trust n + 3) * 32 then Ok (w_post n) else Err 9)
    (fun slot => Ok (if slot =? 32 * (w_trust n + 2) + 20 then Some (mkBlock true (firstn 3 (z_atts n)))
                     else if slot =? 32 * (w_trust n + 2) + 32 then Some (mkBlock true (skipn 3 (z_atts n))) else None))
    (fun _ => Err 9).
Lemma z_next n : next_finality (network_spec n) (z_chain n) (finalized (w_pre n)) (w_trust n + 2) (w_pre n) [] (w_post n) [w_link n].
Proof.
  assert (T : 100 < w_trust n) by (destruct n; vm_compute; reflexivity).
  assert (Hb : forall e s, In (e, s) [(w_trust n + 1, mkCS (mkCheckpoint (w_trust n) (w_root n)) (mkCheckpoint (w_trust n - 1) (toy_root 7)));
    (w_trust n + 2, w_pre n); (w_trust n + 3, w_post n)] -> state_at (network_spec n) (z_chain n) e s).
  { intros e s H. destruct n; repeat destruct H as [H|H]; try contradiction; injection H as <- <-; reflexivity. }
  constructor.
  - split; [cbn [w_pre finalized epoch]; lia|]. split.
    + exists (w_pre n). split; [apply Hb; right; now left|reflexivity].
    + intros e' He'. cbn [w_pre finalized epoch] in *. assert (e' = w_trust n + 1) as -> by lia.
      eexists. split; [apply Hb; now left|]. cbn [finalized epoch]. lia.
  - apply Hb. right. now left.
  - cbn [app states_from]. split; [|exact I]. replace (w_trust n + 2 + 1) with (w_trust n + 3) by lia. apply Hb. right. right. now left.
  - constructor.
  - destruct n; vm_compute; discriminate.
  - cbn [app]. apply hist_link; [left|apply FFG.ffg_finalize|intros [Hg _]; destruct n; discriminate Hg|constructor]; destruct n; vm_compute; reflexivity.
Qed.
Lemma z_window n : vote_window (network_spec n) (z_chain n) [w_link n] (z_bs n).
Proof.
  constructor; [|repeat constructor].
  exists (w_trust n + 2), (w_trust n + 2), (map (fun k => 32 * (w_trust n + 2) + N.of_nat k) (seq 0 33)). split; [|split; [destruct n; vm_compute; reflexivity|split]].
  - split; [|split].
    + intros l [<-|[]]. cbn. lia.
    + exists (w_link n). split; [now left|reflexivity].
    + exists (w_link n). split; [now left|reflexivity].
  - replace (slots_per_epoch (network_spec n)) with 32 by (destruct n; reflexivity). split.
    + generalize 0%nat, 33%nat. intros a k. revert a. induction k as [|k IH]; intros a; cbn [seq map]; constructor; [apply IH|].
      apply Forall_forall. intros x Hx. apply in_map_iff in Hx as (j & <- & Hj). apply in_seq in Hj. lia.
    + intros x. rewrite in_map_iff. split.
      * intros (j & <- & Hj). apply in_seq in Hj. lia.
      * intros Hx. exists (N.to_nat (x - 32 * (w_trust n + 2))). split; [lia|]. apply in_seq. lia.
  - exists (repeat None 20 ++ [nth_error (z_bs n) 0] ++ repeat None 11 ++ [nth_error (z_bs n) 1]). split; [|reflexivity].
    destruct n; repeat constructor.
Qed.
Lemma z_votes n : votes_for (w_link n) (included (z_bs n)) = z_atts n.
Proof.
  rewrite votes_for_eqb. assert (I : included (z_bs n) = z_atts n) by (cbn [z_bs included flat_map bl_attestations]; now rewrite app_nil_r, firstn_skipn).
  rewrite I. assert (F : forallb (fun a => link_eqb (link_of a) (w_link n)) (z_atts n) = true) by (destruct n; vm_compute; reflexivity).
  clear I. induction (z_atts n) as [|a r IH]; [reflexivity|]. cbn [forallb filter] in *. apply andb_prop in F as [-> F]. f_equal. auto.
Qed.
Lemma z_chain_votes n : chain_votes [w_link n] (z_bs n) = z_atts n.
Proof. unfold chain_votes. cbn [flat_map]. now rewrite z_votes, app_nil_r. Qed.
(** Who votes, committee by committee. *)
Lemma z_attesters n k : In k [0; 1; 2; 3; 4; 5; 6] ->
  attesting_indices z_X w_vs (toy_root 10) (y_att n (y_order n) k) = [nth (N.to_nat k) (y_order n) 0].
Proof.
  intros H.
  assert (E : spec_attesters g_hash (g_hash ([x01; x00; x00; x00] ++ le_bytes 8 (w_trust n + 2) ++ toy_root 10)) 90 [0; 1; 2; 3; 4; 5; 6; 7] 32 1
                (y_att n (y_order n) k) = [nth (N.to_nat k) (y_order n) 0]).
  { destruct n; repeat destruct H as [<-|H]; try contradiction; vm_compute; reflexivity. }
  assert (A : active_indices w_vs (w_trust n + 2) = [0; 1; 2; 3; 4; 5; 6; 7]) by (destruct n; vm_compute; reflexivity).
  unfold attesting_indices. change (epoch (ad_target (att_data (y_att n (y_order n) k)))) with (w_trust n + 2). cbv zeta. rewrite A.
  change (committees_per_slot (N.of_nat (length [0; 1; 2; 3; 4; 5; 6; 7]))) with 1. change (sha256 z_X) with g_hash. rewrite E.
  clear E A. destruct n; repeat destruct H as [<-|H]; try contradiction; vm_compute; reflexivity.
Qed.
Lemma z_all n (P : Attestation -> Prop) : (forall k, In k [0; 1; 2; 3; 4; 5; 6] -> P (y_att n (y_order n) k)) -> Forall P (z_atts n).
Proof. intros H. apply Forall_forall. intros a Ha. apply in_map_iff in Ha as (k & <- & Hk). auto. Qed.
Lemma z_justified n : justified_by z_X n (z_state n (w_trust n + 2)) (toy_root 10) (w_link n) (z_atts n).
Proof.
  split.
  - apply z_all. intros k Hk. unfold vote_valid. cbn [z_state st_validators st_genesis_validators_root]. rewrite (z_attesters n k Hk).
    split; [reflexivity|]. split; [reflexivity|]. split; [reflexivity|].
    split; [destruct n; repeat destruct Hk as [<-|Hk]; try contradiction; vm_compute; reflexivity|]. split; [reflexivity|]. split; [discriminate|].
    exists [g_key (nth (N.to_nat k) (y_order n) 0)].
    split; destruct n; repeat destruct Hk as [<-|Hk]; try contradiction; vm_compute; reflexivity.
  - cbn [z_state st_validators]. assert (V : voters z_X w_vs (toy_root 10) (epoch (target (w_link n))) (z_atts n) =
      filter (fun i => existsb (fun k => i =? nth (N.to_nat k) (y_order n) 0) [0; 1; 2; 3; 4; 5; 6] && negb (is_slashed w_vs i)) (active_indices w_vs (w_trust n + 2))).
    { unfold voters. apply filter_ext. intros i. f_equal. unfold z_atts. cbn [map existsb]. rewrite !z_attesters by (cbn [In]; tauto).
      cbn [mem existsb]. now rewrite !orb_false_r. }
    rewrite V. destruct n; vm_compute; discriminate.
Qed.
Lemma z_includable n : Forall (includable z_X w_vs (toy_root 10)) (z_atts n).
Proof.
  apply z_all. intros k Hk. unfold includable.
  assert (A : active_indices w_vs (epoch (ad_target (att_data (y_att n (y_order n) k)))) = [0; 1; 2; 3; 4; 5; 6; 7]) by (destruct n; vm_compute; reflexivity).
  rewrite A. cbv zeta. change (set_positions (committee_bits (y_att n (y_order n) k))) with [0].
  change (committees_per_slot (N.of_nat (length [0; 1; 2; 3; 4; 5; 6; 7]))) with 1.
  split; [constructor; [lia|constructor]|]. exists [[true]]. split; [|repeat constructor].
  cbn [map]. change (aggregation_bits (y_att n (y_order n) k)) with ([true] ++ []). constructor; [|constructor].
  unfold spec_beacon_committee, spec_committee. rewrite ?map_length.
  destruct n; repeat destruct Hk as [<-|Hk]; try contradiction; vm_compute; reflexivity.
Qed.
Lemma z_keys e : keys_decode h_deserialize w_vs e.
Proof. apply h_keys. repeat (apply Forall_cons; [eexists; vm_compute; reflexivity|]). constructor. Qed.
Lemma z_here n : z_states n (32 * w_trust n) = Ok (z_hstate n (w_trust n)).
Proof. unfold z_states. now rewrite N.eqb_refl. Qed.
Lemma z_later n : z_states n (32 * (w_trust n + 2)) = Ok (z_hstate n (w_trust n + 2)).
Proof. destruct n; reflexivity. Qed.
Lemma z_mix i : i < 65536 -> nth_error z_mixes (N.to_nat i) = Some (toy_root 10).
Proof.
  intros Hi. unfold z_mixes. assert (Hi' : (N.to_nat i < N.to_nat 65536)%nat) by lia. revert Hi'. generalize (N.to_nat i), (N.to_nat 65536). clear.
  intros k m. revert k. induction m as [|m IH]; intros [|k] H; cbn [repeat nth_error]; try lia; [reflexivity|]. apply IH. lia.
Qed.
Lemma z_honest n : Forall (fun l => honest_votes n z_X h_deserialize (z_states n) (finalized (w_pre n)) (z_hstate n (w_trust n)) l
  (votes_for l (included (z_bs n)))) [w_link n].
Proof.
  constructor; [|constructor]. rewrite z_votes. constructor.
  - discriminate.
  - destruct n; split; vm_compute; discriminate.
  - exists (z_hstate n (w_trust n + 2)), (toy_root 10).
    change (epoch (target (w_link n))) with (w_trust n + 2). split; [apply z_later|]. split; [reflexivity|]. split; [apply z_keys|].
    split. { cbn [z_hstate hs_randao_mixes]. apply z_mix. apply N.mod_lt. discriminate. }
    split; [vm_compute; reflexivity|]. split; [destruct n; vm_compute; reflexivity|]. split; [vm_compute; reflexivity|].
    split; [apply z_justified|apply z_includable].
Qed.
Lemma z_bytes : signatures_by_bytes z_X0.
Proof.
  intros sig m ks ks' E. cbn [z_X0 bls_verify pk_serialize] in *. rewrite <- !(map_map z_serialize (hd x00)). now rewrite E.
Qed.
Lemma z_decodes : decodes z_X h_deserialize. Proof. exact h_decodes. Qed.
Lemma z_root n : tree_root z_X (state_tree (sha256 z_X) (z_state n (w_trust n))) = w_state_root n.
Proof. destruct n; vm_compute; reflexivity. Qed.
Lemma z_block n : boundary_block z_X (z_hstate n (w_trust n)) = w_header n.
Proof. unfold boundary_block. cbn [z_hstate hs_header hs_state]. rewrite z_root. reflexivity. Qed.
Lemma z_start n e : e <= w_trust n + 2 -> start_slot (network_spec n) e = 32 * e.
Proof.
  intros H. unfold start_slot, sat_mul. replace (slots_per_epoch (network_spec n)) with 32 by (destruct n; reflexivity).
  change u64_max with 18446744073709551615. assert (w_trust n < 1000000) by (destruct n; vm_compute; reflexivity). lia.
Qed.
Lemma z_checkpoint n : checkpoint_state z_X (network_spec n) (z_states n) (finalized (w_pre n)) = Ok (z_hstate n (w_trust n)).
Proof.
  unfold checkpoint_state, state_at_checkpoint, state_at_epoch_boundary, state_at_epoch. cbn [w_pre finalized epoch root].
  rewrite z_start, z_here by lia. cbn [bind]. cbn [z_hstate hs_header hs_state z_state hd_slot st_slot]. rewrite N.eqb_refl. cbn [bind].
  unfold boundary_root. fold (z_state n (w_trust n)). fold (z_hstate n (w_trust n)). rewrite z_block.
  assert (E : bytes_eqb (w_root n) (tree_root z_X (header_tree (sha256 z_X) (w_header n))) = true) by (destruct n; vm_compute; reflexivity).
  rewrite E. reflexivity.
Qed.
Lemma z_sound n : sound_data z_X (network_spec n) h_deserialize (z_headers n) (finalized (w_pre n)) (z_hstate n (w_trust n)) [root (finalized (w_post n))].
Proof.
  destruct (C65_soundness_nonvacuous n) as [[A1 A2 A3 A4 _ _ _ _ _ _] _]. constructor.
  - exact A1.
  - exact A2.
  - exact z_decodes.
  - exact A4.
  - destruct n; repeat split; vm_compute; reflexivity.
  - apply z_keys.
  - destruct n; reflexivity.
  - intros r h _ E. unfold z_headers in E. destruct (bytes_eqb r (w_root1 n)); [|discriminate]. injection E as <-. destruct n; repeat split; vm_compute; reflexivity.
Qed.
Lemma z_targets n e : In e (target_epochs (z_atts n)) -> e = w_trust n + 2.
Proof. intros H. apply in_map_iff in H as (a & <- & Ha). apply in_map_iff in Ha as (k & <- & _). reflexivity. Qed.
Lemma z_steady n : steady_chain (network_spec n) (z_states n) (finalized (w_pre n)) (z_hstate n (w_trust n)) (z_atts n).
Proof.
  constructor.
  - intros s st' E. unfold z_states in E. repeat (destruct (s =? _); [injection E as <-; reflexivity|]). discriminate E.
  - intros st' i v v' E Hv Hv'. cbn [w_pre finalized epoch] in E. rewrite z_start, z_here in E by lia. injection E as <-. congruence.
  - intros e He. apply z_targets in He as ->. destruct n; split; vm_compute; discriminate.
  - intros e st' He E. apply z_targets in He as ->. rewrite z_start, z_later in E by lia. injection E as <-. reflexivity.
  - intros e st' i He E. apply z_targets in He as ->. rewrite z_start, z_later in E by lia. injection E as <-. reflexivity.
Qed.
Lemma z_typed n : typed_answers n_codec (network_spec n) h_deserialize (z_states n) (z_atts n).
Proof.
  constructor.
  - intros b k. unfold h_deserialize. destruct (bytes_eqb b (firstn 1 b ++ repeat x00 47)) eqn:E; [|discriminate]. intros [= <-].
    apply bytes_eqb_eq in E. destruct b as [|x b]; [discriminate E|]. cbn [firstn]. unfold wf_key. cbn [n_codec pk_raw pk_parse].
    split; [reflexivity|]. cbn [app firstn]. replace (bytes_eqb _ _) with true; [reflexivity|]. symmetry. now apply bytes_eqb_eq.
  - intros e st m He E Hm. apply z_targets in He as ->. rewrite z_start, z_later in E by lia. injection E as <-.
    cbn [z_hstate hs_randao_mixes] in Hm. apply repeat_spec in Hm as ->. reflexivity.
  - intros e st v He E Hv. apply z_targets in He as ->. rewrite z_start, z_later in E by lia. injection E as <-.
    cbn [z_hstate hs_state z_state st_validators] in Hv. apply in_map_iff in Hv as (i & <- & _). vm_compute. reflexivity.
  - apply z_all. intros k Hk. destruct n; repeat destruct Hk as [<-|Hk]; try contradiction; (constructor; small || (repeat split; small)).
Qed.
Example C70_nonvacuous n : exists gi,
  prepare_input z_X (network_spec n) h_deserialize (z_states n) (z_headers n) (z_blocks n) (collect_from (network_spec n) (z_chain n) 5) (config_for n) (w_trust n)
  = Ok (gi, w_pre n, w_post n, 32 * w_trust n + 32) /\
  guest_for n (with_swap_or_not (on_platform z_X0 32) 64) (decode_input n_codec 32) (encode_input_stdin (encode_input n_codec gi))
  = Ok (journal_encode (w_pre n) (w_post n) (32 * w_trust n + 32)) /\
  decode_input n_codec 32 (encode_input n_codec gi) = Some gi /\ N.of_nat (length (encode_input n_codec gi)) < 2 ^ 32.
Proof.
  destruct (C70_honest_chain n z_X0 n_codec h_deserialize (z_states n) (z_headers n) (z_blocks n) (z_chain n) 5 (finalized (w_pre n)) (w_trust n + 2)
    (w_pre n) [] (w_post n) [w_link n] (z_bs n) (z_hstate n (w_trust n)) (z_hstate n (w_trust n)) (w_header1 n)) as (gi & P & G); rewrite ?z_chain_votes.
  - reflexivity.
  - exact n_sane.
  - repeat split.
  - exact z_bytes.
  - apply z_next.
  - apply z_window.
  - cbn [w_pre finalized epoch]. lia.
  - cbn [length]. lia.
  - destruct n; vm_compute; reflexivity.
  - apply z_honest.
  - unfold z_headers. cbn [w_post finalized root]. replace (bytes_eqb (w_root1 n) (w_root1 n)) with true; [reflexivity|]. symmetry. now apply bytes_eqb_eq.
  - destruct n; vm_compute; reflexivity.
  - apply z_checkpoint.
  - reflexivity.
  - fold z_X. rewrite z_block. unfold z_blocks. cbn [z_hstate hs_header hd_slot]. now rewrite N.eqb_refl.
  - apply z_sound.
  - apply z_here.
  - apply z_keys.
  - apply z_steady.
  - intros e st' He E. apply z_targets in He as ->. rewrite z_later in E. injection E as <-. apply exit_same.
  - apply z_typed.
  - destruct n; split; vm_compute; reflexivity.
  - destruct n; split; vm_compute; reflexivity.
  - destruct n; vm_compute; reflexivity.
  - destruct n; split; vm_compute; try reflexivity; discriminate.
  - vm_compute. reflexivity.
  - vm_compute. reflexivity.
  - destruct n; vm_compute; reflexivity.
  - exists gi. split; [exact P|exact G].
Qed.

Print Assumptions C70_input_size.
Print Assumptions C70_input_read.
Print Assumptions C70_honest_chain.
Print Assumptions C70_nonvacuous.
