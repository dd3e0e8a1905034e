(** C69: what a committed journal of the mainnet or Sepolia program says about the beacon chain. *)
From Coq Require Import List Arith NArith Bool Lia Sorted Permutation.
From Coq Require Import ZifyBool ZifyNat ZifyN.
From Coq.Init Require Import Byte.
From Verif.Model Require Import Base Types TreeHash Gindices Shuffle Committee ConsensusState Verify GuestReader Guest Cli HostChain HostStore HostInput InputCodec Networks.
From Verif.Spec Require FFG.
From Verif.Spec Require Import FFG Merkle Ssz Beacon Registry GuestSpec Committees VerifySpec HostInputSpec InputCodecSpec NetworkSpec ShuffleSpec Meaning.
From Verif.Proof Require Import BaseLemmas VerifyP GuestP EndToEndP ShuffleP.
From Verif.Props Require Import CommitteeProps VerifyProps GuestToy ReplayProps InputCodecProps ClientProps NetworkProps ShuffleProps.
Import ListNotations.
Open Scope N_scope.

(** ** Lists of indices *)
Lemma mem_In i l : mem i l = true <-> In i l.
Proof. unfold mem. rewrite existsb_exists. split; [intros (x & H & E); apply N.eqb_eq in E; now subst|intros H; exists i; split; [exact H|apply N.eqb_refl]]. Qed.
Lemma sorted_ext (a : list N) : forall b, StronglySorted N.lt a -> StronglySorted N.lt b -> (forall i, In i a <-> In i b) -> a = b.
Proof.
  induction a as [|x a IH]; intros [|y b] Ha Hb H.
  - reflexivity.
  - exfalso. apply (H y). now left.
  - exfalso. apply (H x). now left.
  - apply StronglySorted_inv in Ha as [Ha Fa]. apply StronglySorted_inv in Hb as [Hb Fb].
    rewrite Forall_forall in Fa, Fb.
    assert (E : x = y).
    { destruct (proj1 (H x) (or_introl eq_refl)) as [E|Hx]; [auto|]. destruct (proj2 (H y) (or_introl eq_refl)) as [E|Hy]; [auto|].
      specialize (Fb _ Hx). specialize (Fa _ Hy). lia. }
    subst y. f_equal. apply IH; auto. intros i. split; intros Hi.
    + destruct (proj1 (H i) (or_intror Hi)) as [<-|]; [|assumption]. specialize (Fa _ Hi). lia.
    + destruct (proj2 (H i) (or_intror Hi)) as [<-|]; [|assumption]. specialize (Fb _ Hi). lia.
Qed.
Lemma sorted_filter (f : N -> bool) l : StronglySorted N.lt l -> StronglySorted N.lt (filter f l).
Proof.
  induction 1 as [|x l H IH F]; cbn [filter]; [constructor|]. destruct (f x); [|exact IH]. constructor; [exact IH|].
  rewrite Forall_forall in *. intros y Hy. apply filter_In in Hy as [Hy _]. auto.
Qed.
Lemma active_from_In vs e : forall k i, In i (map fst (filter (fun iv : N * Validator => is_active e (snd iv)) (combine (map N.of_nat (seq k (length vs))) vs))) <->
  exists v, N.of_nat k <= i /\ nth_error vs (N.to_nat i - k) = Some v /\ v_activation_epoch v <= e < v_exit_epoch v.
Proof.
  induction vs as [|v vs IH]; intros k i; cbn [length seq map combine filter].
  - split; [intros []|]. intros (v & _ & E & _). now destruct (N.to_nat i - k)%nat.
  - assert (T : In i (map fst (filter (fun iv : N * Validator => is_active e (snd iv)) (combine (map N.of_nat (seq (S k) (length vs))) vs))) <->
      exists v0, N.of_nat k < i /\ nth_error (v :: vs) (N.to_nat i - k) = Some v0 /\ v_activation_epoch v0 <= e < v_exit_epoch v0).
    { rewrite IH. split; intros (v0 & H1 & H2 & H3); exists v0.
      - replace (N.to_nat i - k)%nat with (S (N.to_nat i - S k)) by lia. cbn [nth_error]. split; [lia|]. split; assumption.
      - replace (N.to_nat i - k)%nat with (S (N.to_nat i - S k)) in H2 by lia. cbn [nth_error] in H2. split; [lia|]. split; assumption. }
    cbn [snd]. destruct (is_active e v) eqn:A; cbn [map fst In]; rewrite T; split.
    + intros [<-|(v0 & H)].
      * exists v. replace (N.to_nat (N.of_nat k) - k)%nat with 0%nat by lia. cbn [nth_error]. unfold is_active in A. split; [lia|]. split; [reflexivity|lia].
      * exists v0. split; [lia|]. tauto.
    + intros (v0 & H1 & H2). destruct (N.eq_dec (N.of_nat k) i) as [<-|]; [now left|]. right. exists v0. split; [lia|tauto].
    + intros (v0 & H1 & H2). exists v0. split; [lia|tauto].
    + intros (v0 & H1 & H2 & H3). exists v0. split; [|tauto]. destruct (N.eq_dec (N.of_nat k) i) as [<-|]; [|lia].
      replace (N.to_nat (N.of_nat k) - k)%nat with 0%nat in H2 by lia. injection H2 as <-. unfold is_active in A. lia.
Qed.
Lemma active_from_sorted vs e : forall k, StronglySorted N.lt (map fst (filter (fun iv : N * Validator => is_active e (snd iv)) (combine (map N.of_nat (seq k (length vs))) vs))).
Proof.
  induction vs as [|v vs IH]; intros k; cbn [length seq map combine filter]; [constructor|].
  cbn [snd]. destruct (is_active e v); [|apply IH]. cbn [map fst]. constructor; [apply IH|].
  apply Forall_forall. intros i Hi. apply active_from_In in Hi as (_ & Hi & _). lia.
Qed.
Lemma active_indices_In vs e i : In i (active_indices vs e) <->
  exists v, nth_error vs (N.to_nat i) = Some v /\ v_activation_epoch v <= e < v_exit_epoch v.
Proof.
  unfold active_indices. rewrite active_from_In. rewrite Nat.sub_0_r. split; intros (v & H); exists v; [tauto|split; [lia|tauto]].
Qed.
Lemma active_indices_sorted vs e : StronglySorted N.lt (active_indices vs e).
Proof. apply active_from_sorted. Qed.

(** ** From the reader's sets to the registry *)
Section State.
  Variables (X : Externals) (vs : list Validator) (e : N) (av : list (N * ValidatorInfo)).
  Hypothesis Hav : active_validators_of X vs e av.

  Lemma av_indices : map fst av = active_indices vs e.
  Proof.
    destruct Hav as (H1 & H2 & H3). apply sorted_ext; [exact H1|apply active_indices_sorted|]. intros i.
    rewrite active_indices_In, in_map_iff. split.
    - intros ([j vi] & <- & Hi). destruct (H2 _ _ Hi) as (v & E & A & _). eauto.
    - intros (v & E & A). destruct (H3 _ _ E A) as [vi Hi]. exists (i, vi). auto.
  Qed.
  Lemma av_weight L : incl L av -> weight L = fold_right (fun i t => balance_at vs i + t) 0 (map fst L).
  Proof.
    induction L as [|[i vi] L IH]; intros HL; cbn [weight map fold_right]; [reflexivity|].
    rewrite IH by (intros x Hx; apply HL; now right). f_equal. cbn [fst snd].
    destruct Hav as (_ & H2 & _). destruct (H2 i vi (HL _ (or_introl eq_refl))) as (v & E & _ & _ & B & _).
    unfold balance_at. now rewrite E.
  Qed.
  Lemma av_slashed i vi : In (i, vi) av -> is_slashed vs i = slashed vi.
  Proof.
    intros Hi. destruct Hav as (_ & H2 & _). destruct (H2 _ _ Hi) as (v & E & _ & _ & _ & B & _). unfold is_slashed. now rewrite E.
  Qed.
  Lemma av_keys L : incl L av -> map (pk_serialize X) (map (fun x => pubkey (snd x)) L) = map (key_at vs) (map fst L).
  Proof.
    intros HL. rewrite !map_map. apply map_ext_in. intros [i vi] Hi. cbn [fst snd].
    destruct Hav as (_ & H2 & _). destruct (H2 i vi (HL _ Hi)) as (v & E & _ & B & _). unfold key_at. now rewrite E.
  Qed.
End State.
Lemma sum_perm (f : N -> N) a b : Permutation a b -> fold_right (fun i t => f i + t) 0 a = fold_right (fun i t => f i + t) 0 b.
Proof. induction 1; cbn [fold_right]; lia. Qed.
Lemma sorted_NoDup l : StronglySorted N.lt l -> NoDup l.
Proof.
  induction 1 as [|x l _ IH F]; constructor; [|exact IH]. intros Hx. rewrite Forall_forall in F. specialize (F _ Hx). lia.
Qed.

(** What the reader's evidence for a link says about the registry. *)
Lemma evidence_means n X0 R l g s : let X := with_swap_or_not X0 64 in
  rd_chain_spec R = network_spec n -> (forall e, rd_fork R e = Ok (fork_at_epoch (network_spec n) e)) ->
  rd_genesis_validators_root R = Ok (st_genesis_validators_root s) ->
  (forall avl, rd_active_validators R (epoch (target l)) = Ok avl -> active_validators_of X (st_validators s) (epoch (target l)) avl) ->
  electra_epoch n <= epoch (target l) -> (forall a, In a g -> link_of a = l) ->
  link_evidence X (config_for n) R l g ->
  exists mix, rd_randao_mix R (epoch (target l)) ((epoch (target l) + 65534) mod 65536) = Ok (Some mix) /\
    justified_by X n s mix l g.
Proof.
  intros X Hcs Hfk Hg Hac He Hl (f & gvr & avl & av & mix & sh & sets & P & K1 & K2 & K3 & K4 & _ & _ & _ & K5 & K6 & K7 & K8 & K9 & K10 & _).
  rewrite Hcs in *. rewrite Hfk in K1. injection K1 as <-. rewrite Hg in K2. injection K2 as <-. apply Hac in K3.
  set (e := epoch (target l)) in *. set (vs := st_validators s) in *.
  assert (av = avl) as ->.
  { rewrite (active_set_unique _ _ K4). apply bm_of_list_sorted_id. apply bm_sorted_keys, K3. }
  pose proof (av_indices _ _ _ _ K3) as Ai.
  exists mix. split.
  { assert (Q : seed_epoch_index (network_spec n) e = (e + 65534) mod 65536).
    { unfold seed_epoch_index. destruct n; (replace (e + _ - _ - 1) with (e + 65534); [reflexivity|]);
        unfold network_spec, mainnet_spec, sepolia_spec, preset; cbn [epochs_per_historical_vector min_seed_lookahead]; lia. }
    now rewrite <- Q. }
  set (cps := committees_per_slot (N.of_nat (length (active_indices vs e)))).
  assert (Ec : committee_count (network_spec n) (N.of_nat (length avl)) = cps).
  { unfold cps. rewrite <- Ai, map_length. destruct n; reflexivity. }
  assert (E32 : slots_per_epoch (network_spec n) = 32) by (destruct n; reflexivity).
  assert (E90 : shuffle_round_count (network_spec n) = 90) by (destruct n; reflexivity).
  assert (E1 : domain_beacon_attester (network_spec n) = 1) by (destruct n; reflexivity).
  rewrite Ec, E32, E90, E1 in *. change (le_bytes 4 1) with [x01; x00; x00; x00] in K6.
  set (seed := sha256 X _) in K6. cbn [X with_swap_or_not shuffle_list sha256] in K6. rewrite Ai in K6.
  assert (Sig : forall a signers, In a g -> 
     bits_well_formed sh 32 cps a -> aggregate_ok X (network_spec n) (fork_at_epoch (network_spec n) e) (st_genesis_validators_root s) avl l a signers ->
     StronglySorted N.lt (map fst signers) -> (forall i, In i (map fst signers) <-> In i (attesters_of sh 32 cps a)) ->
     map fst signers = attesting_indices X vs mix a).
  { intros a signers Ha (B & _) A S I. pose proof (agg_signers _ _ _ _ _ _ _ _ A) as (_ & _ & Inc).
    assert (Es : attesters_of sh 32 cps a = spec_attesters (sha256 X) seed 90 (active_indices vs e) 32 cps a).
    { unfold attesters_of, spec_attesters. f_equal. f_equal. apply map_ext_in. intros ci Hci.
      rewrite Forall_forall in B. specialize (B ci Hci). destruct K7 as (F1 & F2 & _).
      unfold committee_of, spec_beacon_committee. pose proof (N.mod_lt (ad_slot (att_data a)) 32).
      change 90%nat with (N.to_nat 90).
      eapply committee_segment; eauto; nia. }
    unfold attesting_indices. rewrite (f_equal (fun x => epoch (target x)) (Hl a Ha) : epoch (ad_target (att_data a)) = e).
    fold seed cps. apply sorted_ext; [exact S|apply sorted_filter, active_indices_sorted|].
    intros i. rewrite filter_In, mem_In, I, Es. split; [|tauto]. intros Hi. split; [|exact Hi].
    rewrite <- Es in Hi. apply I in Hi. rewrite <- Ai. apply in_map_iff in Hi as (x & <- & Hx). apply in_map. now apply Inc. }
  split.
  - apply Forall_forall. intros a Ha.
    assert (G : exists signers, bits_well_formed sh 32 cps a /\
      aggregate_ok X (network_spec n) (fork_at_epoch (network_spec n) e) (st_genesis_validators_root s) avl l a signers /\
      StronglySorted N.lt (map fst signers) /\ (forall i, In i (map fst signers) <-> In i (attesters_of sh 32 cps a))).
    { clear - K8 Ha. induction K8 as [|x y xs ys Q _ IH]; [destruct Ha|]. destruct Ha as [->|Ha]; [exists y; auto|auto]. }
    destruct G as (signers & B & A & S & I). pose proof (Sig a signers Ha B A S I) as M.
    destruct A as [A1 A2 A3 A4 A5 (A6 & A7 & A8) A9]. rewrite E32 in A4. fold vs. unfold vote_valid. fold vs. rewrite <- M.
    split; [exact A1|]. split; [exact A2|]. split; [exact A3|]. split; [exact A4|]. split; [exact A5|].
    split. { destruct signers; [now elim A6|discriminate]. }
    exists (map (fun x => pubkey (snd x)) signers). split; [exact (av_keys _ _ _ _ K3 _ A8)|].
    rewrite E1 in A9. unfold e in A9. rewrite C65_versions in A9 by exact He. exact A9.
  - fold vs e. apply C65_threshold in K10. unfold total_balance.
    replace (balance_of (network_spec n) avl) with (N.max 1000000000 (weight avl)) in K10 by (destruct n; reflexivity).
    replace (balance_of (network_spec n) (unslashed P)) with (N.max 1000000000 (weight (unslashed P))) in K10 by (destruct n; reflexivity).
    assert (Inc : incl P avl).
    { intros x Hx. apply (proj2 K9) in Hx as (sg & H1 & H2).
      assert (G : exists a, aggregate_ok X (network_spec n) (fork_at_epoch (network_spec n) e) (st_genesis_validators_root s) avl l a sg).
      { clear - K8 H1. induction K8 as [|a y xs ys (_ & Q & _) _ IH]; [destruct H1|]. destruct H1 as [->|H1]; [exists a; exact Q|auto]. }
      destruct G as [a A]. exact (proj2 (proj2 (agg_signers _ _ _ _ _ _ _ _ A)) x H2). }
    rewrite (av_weight _ _ _ _ K3 avl) in K10 by apply incl_refl. rewrite Ai in K10.
    rewrite (av_weight _ _ _ _ K3 (unslashed P)) in K10. 2:{ intros x Hx. apply filter_In in Hx as [Hx _]. now apply Inc. }
    rewrite (sum_perm (balance_at vs) (map fst (unslashed P)) (voters X vs mix e g)) in K10; [exact K10|].
    apply NoDup_Permutation.
    + destruct K9 as [Nd _]. unfold unslashed. clear - Nd. induction P as [|x P IH]; cbn [filter map]; [constructor|].
      cbn [map] in Nd. inversion Nd as [|? ? N1 N2]; subst. destruct (negb _); [|auto]. cbn [map]. constructor; [|auto].
      intros Hx. apply N1. apply in_map_iff in Hx as (y & E & Hy). apply filter_In in Hy as [Hy _]. rewrite <- E. now apply in_map.
    + apply sorted_NoDup. apply sorted_filter, active_indices_sorted.
    + assert (Mem : forall i vi, In (i, vi) avl -> In (i, vi) P <-> existsb (fun a => mem i (attesting_indices X vs mix a)) g = true).
      { intros i vi Hi. rewrite (proj2 K9), existsb_exists. split.
        - intros (sg & H1 & H2).
          assert (G : exists a, In a g /\ bits_well_formed sh 32 cps a /\
            aggregate_ok X (network_spec n) (fork_at_epoch (network_spec n) e) (st_genesis_validators_root s) avl l a sg /\
            StronglySorted N.lt (map fst sg) /\ (forall i, In i (map fst sg) <-> In i (attesters_of sh 32 cps a))).
          { clear - K8 H1. induction K8 as [|a y xs ys Q _ IH]; [destruct H1|]. destruct H1 as [->|H1]; [exists a; split; [now left|exact Q]|].
            destruct (IH H1) as (b & Hb & Q'). exists b. split; [now right|exact Q']. }
          destruct G as (a & Ha & B & A & S & I). exists a. split; [exact Ha|]. apply mem_In. rewrite <- (Sig a sg Ha B A S I).
          apply in_map_iff. exists (i, vi). auto.
        - intros (a & Ha & M). apply mem_In in M.
          assert (G : exists sg, In sg sets /\ bits_well_formed sh 32 cps a /\
            aggregate_ok X (network_spec n) (fork_at_epoch (network_spec n) e) (st_genesis_validators_root s) avl l a sg /\
            StronglySorted N.lt (map fst sg) /\ (forall i, In i (map fst sg) <-> In i (attesters_of sh 32 cps a))).
          { clear - K8 Ha. induction K8 as [|b y xs ys Q _ IH]; [destruct Ha|]. destruct Ha as [->|Ha]; [exists y; split; [now left|exact Q]|].
            destruct (IH Ha) as (z & Hz & Q'). exists z. split; [now right|exact Q']. }
          destruct G as (sg & Hsg & B & A & S & I). exists sg. split; [exact Hsg|]. rewrite <- (Sig a sg Ha B A S I) in M.
          apply in_map_iff in M as ([j vj] & <- & Hj). pose proof (proj2 (proj2 (agg_signers _ _ _ _ _ _ _ _ A)) _ Hj) as Hj'.
          cbn [fst] in *. replace vi with vj; [exact Hj|].
          clear - Hi Hj' K3.
          assert (N := sorted_NoDup _ (proj1 K3)). clear K3. induction avl as [|[k w] L IH]; [destruct Hi|].
          cbn [map fst] in N. inversion N as [|? ? N1 N2]; subst.
          destruct Hi as [Hi|Hi], Hj' as [Hj|Hj].
          + congruence.
          + injection Hi as -> ->. exfalso. apply N1. apply (in_map fst) in Hj. exact Hj.
          + injection Hj as -> ->. exfalso. apply N1. apply (in_map fst) in Hi. exact Hi.
          + auto. }
      intros i. unfold voters, unslashed. rewrite in_map_iff, filter_In, <- Ai, in_map_iff. split.
      * intros ([j vi] & <- & H). cbn [fst]. apply filter_In in H as [H1 H2]. cbn [snd] in H2. split.
        -- exists (j, vi). split; [reflexivity|now apply Inc].
        -- apply andb_true_iff. split; [apply (Mem j vi); [now apply Inc|exact H1]|].
           rewrite (av_slashed _ _ _ _ K3 j vi); [exact H2|now apply Inc].
      * intros [([j vi] & <- & H) H']. cbn [fst] in *. apply andb_true_iff in H' as [H1 H2]. exists (j, vi). split; [reflexivity|].
        apply filter_In. split; [now apply Mem|]. cbn [snd]. now rewrite <- (av_slashed _ _ _ _ K3 j vi).
Qed.

(** ** The theorems *)
(** The reader, asked for active validators of the four epochs after [t] only. *)
Definition near (t : N) (R : Reader) : Reader :=
  mkReader (rd_chain_spec R) (rd_genesis_validators_root R) (rd_fork R)
    (fun e => if (t <? e) && (e <=? t + 4) then rd_active_validators R e else Err RE_Config)
    (rd_randao_mix R) (rd_attestations R) (rd_consensus_state R) (rd_slot_for_block R).
Lemma near_verify X cfg t R post slot st : sane_spec X (rd_chain_spec R) -> epoch_lookahead_limit cfg = 4 ->
  rd_consensus_state R = Ok st -> epoch (finalized st) = t ->
  verify X cfg R = Ok (post, slot) -> verify X cfg (near t R) = Ok (post, slot).
Proof.
  intros Sane L Hst <- V. rewrite <- V. symmetry. apply C56_only_voters_matter; try reflexivity; [exact Sane|].
  intros atts e Ha He. split; [reflexivity|]. split; [reflexivity|]. unfold target_epochs in He. apply in_map_iff in He as (a & <- & Hi).
  destruct (C10_link_bounds X cfg R post slot st V Hst atts a Ha Hi) as ([B1 B2] & _). rewrite L in B2.
  cbn [near rd_active_validators]. replace (_ && _) with true by lia.
  destruct (rd_active_validators R _) as [l|x|]; [|reflexivity|exact I]. unfold same_voters. clear.
  induction l; constructor; auto.
Qed.

(** One accepted input. The active sets are those of the registry of [s']. *)
Lemma run_means_in n X0 C gi r gs post slot : let X := with_swap_or_not X0 64 in
  usize_bits X0 = 32 -> wf_input C 32 gi -> into_reader X (network_spec n) gi = Ok r ->
  verify X (config_for n) (guest_reader r) = Ok (post, slot) -> groups (gi_attestations gi) gs ->
  accepted_chain (gi_consensus_state gi) (map fst gs) post ->
  Forall (fun g => within_bounds (config_for n) (network_spec n) (finalized (gi_consensus_state gi)) (fst g)) gs ->
  forall h s s', committed X gi h s -> st_genesis_validators_root s' = st_genesis_validators_root s ->
    (1 <= epoch (finalized (gi_consensus_state gi)) -> forall e avl,
       epoch (finalized (gi_consensus_state gi)) < e <= epoch (finalized (gi_consensus_state gi)) + 4 ->
       rd_active_validators (guest_reader r) e = Ok avl -> active_validators_of X (st_validators s') e avl) ->
    (forall e, epoch (finalized (gi_consensus_state gi)) < e <= epoch (finalized (gi_consensus_state gi)) + 4 ->
       N.of_nat (length (active_indices (st_validators s') e)) < 2 ^ 21) ->
    forall l g, In (l, g) gs ->
      electra_epoch n <= epoch (target l) <= epoch (finalized (gi_consensus_state gi)) + 4 /\
      exists mix, length mix = 32%nat /\ justified_by X n s' mix l g.
Proof.
  intros X U R2 R3 R4 R5 R6 R7 h s s' Hc Hs Act Hn l g Hg.
  set (t := epoch (finalized (gi_consensus_state gi))) in *.
  rewrite Forall_forall in R7. destruct (R7 _ Hg) as [B1 B2]. cbn [fst snd] in *.
  replace (epoch_lookahead_limit (config_for n)) with 4 in B1 by (destruct n; reflexivity). fold t in B1.
  apply C65_supported in B2.
  assert (Sane : sane_spec X (network_spec n)).
  { destruct (C65_parameters n X) as (A & _). unfold sane_spec in *. cbn [on_platform usize_bits X with_swap_or_not] in *. now rewrite U. }
  assert (Hff : far_future_epoch (network_spec n) = 2 ^ 64 - 1) by (destruct n; reflexivity).
  assert (Ht : 1 <= t). { assert (5 <= electra_epoch n) by (destruct n; vm_compute; discriminate). lia. }
  assert (M4 : max_seed_lookahead (network_spec n) = 4) by (destruct n; reflexivity).
  pose proof (reader_registry X (network_spec n) gi r h s Hc R3) as
    (vals & churn & er & er' & _ & _ & _ & _ & _ & _ & _ & S1 & S2 & S3 & S4 & S5).
  specialize (Act Ht).
  assert (V : verify X (config_for n) (near t (guest_reader r)) = Ok (post, slot)).
  { eapply near_verify; [| | | |exact R4].
    - cbn [guest_reader rd_chain_spec]. now rewrite S1.
    - destruct n; reflexivity.
    - cbn [guest_reader rd_consensus_state]. rewrite S4. reflexivity.
    - reflexivity. }
  assert (Fits : reader_fits X (near t (guest_reader r))).
  { intros e avl av. cbn [near rd_active_validators rd_chain_spec]. destruct (N.ltb_spec t e), (N.leb_spec e (t + 4)); cbn [andb]; try discriminate.
    intros A K. apply Act in A; [|lia].
    assert (av = avl) as -> by (rewrite (active_set_unique _ _ K); apply bm_of_list_sorted_id, bm_sorted_keys, A).
    cbn [guest_reader rd_chain_spec]. rewrite S1.
    specialize (Hn e ltac:(lia)). rewrite <- (av_indices _ _ _ _ A), map_length in Hn.
    pose proof (C65_committees_fit n X _ Hn) as F. unfold fits_platform in *. cbn [on_platform usize_bits X with_swap_or_not] in *. now rewrite U. }
  destruct (C09_committee_members X (config_for n) (near t (guest_reader r)) post slot) as (atts & gs' & G1 & G2 & G3);
    [cbn [near guest_reader rd_chain_spec]; now rewrite S1|apply C68_shuffle_permutes|exact Fits|exact V|].
  cbn [near guest_reader rd_attestations] in G1. rewrite S5 in G1. injection G1 as <-.
  assert (gs' = gs) as -> by (apply groups_chunk in G2, R5; congruence).
  rewrite Forall_forall in G3. specialize (G3 _ Hg). cbn [fst snd] in *.
  assert (Hlt : t < epoch (target l)) by (eapply accepted_targets; [exact R6|now apply (in_map fst) in Hg]).
  split; [split; [exact B2|exact B1]|].
  destruct (evidence_means n X0 (near t (guest_reader r)) l g s') as (mix & M1 & M2); auto.
  - intros e. cbn [near guest_reader rd_fork]. now rewrite S1.
  - cbn [near guest_reader rd_genesis_validators_root]. now rewrite Hs, S2.
  - intros avl. cbn [near rd_active_validators]. replace (_ && _) with true by (fold t in B1; lia). intros A. apply Act in A; [exact A|fold t in B1; lia].
  - intros a Ha. destruct R5 as (_ & R5 & _). rewrite Forall_forall in R5. now apply (R5 _ Hg).
  - exists mix. split; [|exact M2]. cbn [near guest_reader rd_randao_mix] in M1. rewrite S3 in M1. injection M1 as M1.
    apply wi_patches in R2 as (_ & _ & W). rewrite Forall_forall in W. unfold patch_at in M1.
    destruct (bm_get (gi_patches gi) _) as [p|] eqn:Ep; [|discriminate M1]. apply bm_get_in in Ep.
    destruct (W _ Ep) as [_ W']. cbn [snd] in W'. apply wp_mixes in W' as (_ & _ & W'). rewrite Forall_forall in W'.
    apply bm_get_in in M1. destruct (W' _ M1) as [_ L]. exact L.
Qed.

Lemma run_means n X0 C gi r gs post slot : let X := with_swap_or_not X0 64 in
  usize_bits X0 = 32 -> wf_input C 32 gi -> into_reader X (network_spec n) gi = Ok r ->
  verify X (config_for n) (guest_reader r) = Ok (post, slot) -> groups (gi_attestations gi) gs ->
  accepted_chain (gi_consensus_state gi) (map fst gs) post ->
  Forall (fun g => within_bounds (config_for n) (network_spec n) (finalized (gi_consensus_state gi)) (fst g)) gs ->
  forall h s, committed X gi h s -> st_slot s / 32 = epoch (finalized (gi_consensus_state gi)) ->
    (forall e, epoch (finalized (gi_consensus_state gi)) < e <= epoch (finalized (gi_consensus_state gi)) + 4 ->
       N.of_nat (length (active_indices (st_validators s) e)) < 2 ^ 21) ->
    forall l g, In (l, g) gs ->
      electra_epoch n <= epoch (target l) <= epoch (finalized (gi_consensus_state gi)) + 4 /\
      exists mix, length mix = 32%nat /\ justified_by X n s mix l g.
Proof.
  intros X U R2 R3 R4 R5 R6 R7 h s Hc Hs Hn.
  assert (Hs' : st_slot s / slots_per_epoch (network_spec n) = epoch (finalized (gi_consensus_state gi))) by (destruct n; exact Hs).
  apply (run_means_in n X0 C gi r gs post slot U R2 R3 R4 R5 R6 R7 h s s Hc eq_refl); [|exact Hn].
  assert (Hff : far_future_epoch (network_spec n) = 2 ^ 64 - 1) by (destruct n; reflexivity).
  assert (M4 : max_seed_lookahead (network_spec n) = 4) by (destruct n; reflexivity).
  intros Ht e avl He A. eapply (reader_active_of X (network_spec n) gi r h s); eauto; lia.
Qed.

(** A journal committed by the program of a network names two states; let the first name the block of
    a header [h] with state [s] of its epoch, with fewer than 2^21 active validators. Then the second
    state is reached from the first by a chain of links that finalizes it, and every link is justified
    by votes under the registry of [s]: the aggregates are valid for the committees of the
    specification and at least 85 percent (Sepolia: 70) of the active balance is behind them. The one
    thing the program takes from its input is the RANDAO mix of each target epoch. *)
Theorem C69_journal_means : forall n X0 C stdin journal, let X := with_swap_or_not X0 64 in
  sane_codec C -> usize_bits X0 = 32 ->
  guest_for n X (decode_input C 32) stdin = Ok journal ->
  exists frame gi pre post slot,
    decode_input C 32 frame = Some gi /\ gi_consensus_state gi = pre /\ journal = journal_encode pre post slot /\
    forall h s, committed X gi h s -> st_slot s / 32 = epoch (finalized pre) ->
      (forall e, epoch (finalized pre) < e <= epoch (finalized pre) + 4 ->
         N.of_nat (length (active_indices (st_validators s) e)) < 2 ^ 21) ->
      exists gs, groups (gi_attestations gi) gs /\ accepted_chain pre (map fst gs) post /\
        forall l g, In (l, g) gs ->
          electra_epoch n <= epoch (target l) <= epoch (finalized pre) + 4 /\
          exists mix, length mix = 32%nat /\ justified_by X n s mix l g.
Proof.
  intros n X0 C stdin journal X S U H.
  rewrite C65_same_parameters in H.
  destruct (guest_run C 32 X _ _ stdin journal S W32 H) as (frame & gi & r & gs & post & slot & R1 & R2 & R3 & R4 & R5 & R6 & R7 & R8 & _).
  exists frame, gi, (gi_consensus_state gi), post, slot.
  split; [exact R1|]. split; [reflexivity|]. split; [exact R8|]. intros h s Hc Hs Hn.
  exists gs. split; [exact R5|]. split; [exact R6|].
  assert (R7' : Forall (fun g => within_bounds (config_for n) (network_spec n) (finalized (gi_consensus_state gi)) (fst g)) gs).
  { rewrite Forall_forall in *. intros x Hx. now apply R7. }
  exact (run_means n X0 C gi r gs post slot U R2 R3 R4 R5 R6 R7' h s Hc Hs Hn).
Qed.

(** ** Non-vacuity: the toy chain of C65 with the shuffle of the specification *)
Definition y_X : Externals := with_swap_or_not g_X 64.
(** The eight validators in the order of their committees, one in each. *)
Definition y_order (n : Network) : list N := match n with Mainnet => [6; 1; 0; 3; 2; 4; 5; 7] | Sepolia => [3; 0; 5; 6; 7; 4; 2; 1] end.
Example y_shuffled n : swap_or_not g_hash 64 32 [0; 1; 2; 3; 4; 5; 6; 7] 90
  (g_hash ([x01; x00; x00; x00] ++ le_bytes 8 (w_trust n + 2) ++ toy_root 10)) = Some (y_order n).
Proof. destruct n; vm_compute; reflexivity. Qed.
Definition y_att (n : Network) (order : list N) (k : N) : Attestation :=
  let l := w_link n in
  let d := toy_data (32 * (w_trust n + 2) + 4 * k + 3) l in
  mkAttestation true [true] (true :: repeat false 63) d
    (g_sig (signing_root g_hash d (get_attester_domain g_hash (network_spec n) (epoch (target l)) (fork_at_epoch (network_spec n) (epoch (target l))) toy_gvr)
       ++ g_key (nth (N.to_nat k) order 0))).
Definition y_input (n : Network) (order ks : list N) : GuestInput :=
  let gi := w_input n n [] in
  mkGuestInput (gi_beacon_block gi) (gi_beacon_state gi) (gi_active_validators gi) (gi_public_keys gi) (gi_patches gi)
    (gi_consensus_state gi) (map (y_att n order) ks) (gi_block_slot_proofs gi).
Definition y_run (n : Network) (order ks : list N) : outcome unit bytes :=
  guest_for n y_X (decode_input n_codec 32) (encode_input_stdin (encode_input n_codec (y_input n order ks))).
(** Seven of the eight votes, signed by the members of the specification's committees, are accepted. *)
Example C69_nonvacuous n : sane_codec n_codec /\ usize_bits g_X = 32 /\
  y_run n (y_order n) [0; 1; 2; 3; 4; 5; 6] = Ok (journal_encode (w_pre n) (w_post n) (32 * w_trust n + 32)).
Proof. split; [exact n_sane|]. split; [reflexivity|]. destruct n; run. Qed.
Example C69_committed n : committed y_X (y_input n (y_order n) [0; 1; 2; 3; 4; 5; 6]) (w_header n) (w_state n) /\
  st_slot (w_state n) / 32 = epoch (finalized (gi_consensus_state (y_input n (y_order n) [0; 1; 2; 3; 4; 5; 6]))) /\
  (forall e, N.of_nat (length (active_indices (st_validators (w_state n)) e)) < 2 ^ 21).
Proof.
  destruct (C65_soundness_nonvacuous n) as [[A1 A2 A3 A4 A5 A6 A7 A8 A9 A10] B].
  split; [constructor; [exact A1|exact A2|exact A3|exact A4|exact A5|exact A6|exact A7|exact A8|exact A9|exact A10]|]. split; [exact B|].
  intros e. apply N.le_lt_trans with 8; [|reflexivity]. unfold active_indices. rewrite map_length.
  set (l := combine _ _). assert (L : length l = 8%nat) by reflexivity. clearbody l. clear - L.
  assert (length (filter (fun iv => is_active e (snd iv)) l) <= length l)%nat; [|lia].
  clear L. induction l as [|x l IH]; cbn [filter length]; [lia|]. destruct (is_active e (snd x)); cbn [length]; lia.
Qed.
(** Whose vote one of the aggregates is, and what there is to vote with. *)
Example C69_attester : attesting_indices y_X w_vs (toy_root 10) (y_att Mainnet (y_order Mainnet) 2) = [0] /\
  total_balance w_vs (active_indices w_vs (w_trust Mainnet + 2)) = 8 * 32000000000.
Proof. split; vm_compute; reflexivity. Qed.
(** Six votes are too few for mainnet, and votes by members of other committees are no votes. *)
Example C69_rejected : y_run Mainnet (y_order Mainnet) [0; 1; 2; 3; 4; 5] = Panic /\
  y_run Mainnet (y_order Sepolia) [0; 1; 2; 3; 4; 5; 6] = Panic.
Proof. split; vm_compute; reflexivity. Qed.

Print Assumptions C69_journal_means.
