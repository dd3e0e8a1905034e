(** Properties C07-C13, C38, C45, C46, C48: the verification function. *)
From Coq Require Import List ZArith NArith Bool Lia Sorted Permutation.
From Coq Require Import ZifyBool ZifyNat ZifyN.
From Verif.Model Require Import Base Types ConsensusState TreeHash Committee Verify.
From Verif.Spec Require Import FFG Committees Merkle Ssz VerifySpec Safety.
From Verif.Proof Require Import BaseLemmas ConsensusStateP CommitteeP VerifyP VerifyMoreP SafetyP.
Import ListNotations.
Open Scope N_scope.

(** C07: success means that the attestations are consecutive groups for the links of one atomic
    finalization starting at the input's justified checkpoint. *)
Theorem C07_atomic_finalization X cfg R post slot : verify X cfg R = Ok (post, slot) ->
  exists st0 atts gs,
    rd_consensus_state R = Ok st0 /\ rd_attestations R = Ok atts /\ groups atts gs /\
    accepted_chain st0 (map fst gs) post /\
    rd_slot_for_block R (root (finalized post)) = Ok slot.
Proof.
  intros E. apply verify_sound in E as (st0 & atts & gs & H1 & H2 & H3 & H4 & _ & H6).
  exists st0, atts, gs. auto.
Qed.
(** C07: away from the all-zero genesis state the result is exactly the finalization of the last
    source; every link but the last skips an epoch. *)
Theorem C07_result X cfg R post slot st0 : verify X cfg R = Ok (post, slot) ->
  rd_consensus_state R = Ok st0 -> st0 <> genesis_state ->
  exists atts ls, rd_attestations R = Ok atts /\ (forall l, In l ls <-> exists a, In a atts /\ link_of a = l) /\
    atomic_finalization (current_justified st0) ls (finalized post) (current_justified post) /\
    epoch (finalized st0) < epoch (finalized post).
Proof.
  intros E Hs Hg. apply verify_sound in E as (st & atts & gs & H1 & H2 & H3 & H4 & _ & H6).
  rewrite Hs in H1. injection H1 as <-. exists atts, (map fst gs). split; auto. split.
  - intros l. destruct H3 as (Hc & Hgo & _). rewrite <- Hc. rewrite Forall_forall in Hgo. split.
    + intros Hl. apply in_map_iff in Hl as (g & <- & Hin). destruct (Hgo g Hin) as [Hne Hk].
      destruct g as [l [|a r]]; [easy|]. exists a. split; [|apply Hk; simpl; auto].
      apply in_concat. exists (a :: r). split; [|simpl; auto]. apply in_map_iff. eexists. split; [|exact Hin]. reflexivity.
    + intros (a & Ha & <-). apply in_concat in Ha as (g & Hg1 & Hg2). apply in_map_iff in Hg1 as ((l & g') & Eg & Hin).
      simpl in Eg. subst g'. destruct (Hgo _ Hin) as [_ Hk]. rewrite (Hk a Hg2). apply in_map_iff. eexists. split; [|exact Hin]. reflexivity.
  - inversion H4; subst; [|easy]. simpl. split; auto.
    match goal with H : valid_state _ |- _ => destruct H as [Hlt|]; [|easy] end.
    match goal with H : atomic_finalization _ _ _ _ |- _ => destruct (af_guarded _ _ _ _ (finalized st0) H Hlt) as [_ G] end.
    exact G.
Qed.

(** C08: every accepted link is backed by distinct active validators whose unslashed balance reaches
    the threshold. No assumption on RANDAO values, shuffling or the BLS oracle. *)
Theorem C08_supermajority X cfg R post slot : verify X cfg R = Ok (post, slot) ->
  forall atts a, rd_attestations R = Ok atts -> In a atts ->
  exists avl av P,
    rd_active_validators R (epoch (ad_target (att_data a))) = Ok avl /\ active_set avl av /\
    NoDup (map fst P) /\ incl P av /\
    balance_of (rd_chain_spec R) av * justification_threshold_factor cfg
      <= balance_of (rd_chain_spec R) (unslashed P) * justification_threshold_quotient cfg.
Proof.
  intros E atts a Ha Hin. apply verify_sound in E as (st & atts' & gs & H1 & H2 & H3 & H4 & H5 & H6).
  rewrite Ha in H2. injection H2 as <-. destruct H3 as (Hc & Hgo & _).
  rewrite <- Hc in Hin. apply in_concat in Hin as (g & Hg1 & Hg2). apply in_map_iff in Hg1 as ((l & g') & Eg & Hg).
  simpl in Eg. subst g'. rewrite Forall_forall in Hgo, H5. destruct (Hgo _ Hg) as [_ Hk].
  destruct (H5 _ Hg) as [_ (av & P & HS)]. simpl in *. specialize (Hk a Hg2).
  pose proof (supermajority_participants _ _ _ _ _ _ _ HS) as (N1 & N2 & I).
  destruct HS as (f & gvr & avl & sets & _ & _ & Hav & Hact & _ & _ & [En _]).
  exists avl, av, P. subst l. auto 10.
Qed.
(** C08 in plain weights, when the active set holds at least two balance increments. *)
Theorem C08_weights X cfg R post slot : verify X cfg R = Ok (post, slot) ->
  0 < effective_balance_increment (rd_chain_spec R) ->
  forall atts a avl av, rd_attestations R = Ok atts -> In a atts ->
  rd_active_validators R (epoch (ad_target (att_data a))) = Ok avl -> active_set avl av ->
  2 * effective_balance_increment (rd_chain_spec R) <= weight av ->
  exists P, NoDup (map fst P) /\ incl P av /\
    weight av * justification_threshold_factor cfg <= weight (unslashed P) * justification_threshold_quotient cfg /\
    2 * weight av <= 3 * weight (unslashed P).
Proof.
  intros E Hi atts a avl av Ha Hin Hav Hact HT. apply verify_sound in E as (st & atts' & gs & H1 & H2 & H3 & H4 & H5 & H6).
  rewrite Ha in H2. injection H2 as <-. destruct H3 as (Hc & Hgo & _).
  rewrite <- Hc in Hin. apply in_concat in Hin as (g & Hg1 & Hg2). apply in_map_iff in Hg1 as ((l & g') & Eg & Hg).
  simpl in Eg. subst g'. rewrite Forall_forall in Hgo, H5. destruct (Hgo _ Hg) as [_ Hk].
  destruct (H5 _ Hg) as [_ (av' & P & HS)]. simpl in *. specialize (Hk a Hg2). subst l.
  pose proof (supermajority_participants _ _ _ _ _ _ _ HS) as (N1 & N2 & I).
  destruct HS as (f & gvr & avl' & sets & _ & _ & Hav' & Hact' & _ & _ & En). simpl in Hav'.
  rewrite Hav in Hav'. injection Hav' as <-.
  rewrite (active_set_unique _ _ Hact) in *. rewrite (active_set_unique _ _ Hact') in *.
  exists P. split; auto. split; auto. now apply (enough_weights cfg (rd_chain_spec R)).
Qed.

(** C09: the validators counted for a link are exactly the signers of its aggregates, and each of
    them has its key in an aggregate signature over that very link. *)
Theorem C09_signed_link X cfg R post slot : verify X cfg R = Ok (post, slot) ->
  exists atts gs, rd_attestations R = Ok atts /\ groups atts gs /\
  forall l g, In (l, g) gs -> exists f gvr avl av P,
    rd_fork R (epoch (target l)) = Ok f /\ rd_genesis_validators_root R = Ok gvr /\
    rd_active_validators R (epoch (target l)) = Ok avl /\ active_set avl av /\
    enough cfg (rd_chain_spec R) av P /\ NoDup (map fst P) /\
    forall v, In v P -> In v av /\ exists a keys,
      In a g /\ ad_source (att_data a) = source l /\ ad_target (att_data a) = target l /\
      ad_slot (att_data a) / slots_per_epoch (rd_chain_spec R) = epoch (target l) /\
      ad_index (att_data a) = 0 /\ In (pubkey (snd v)) keys /\
      bls_verify X (att_signature a)
        (attestation_signing_root (sha256 X) (att_data a)
           (domain (sha256 X) (domain_beacon_attester (rd_chain_spec R))
                   (version_at f (epoch (target l))) gvr)) keys = true.
Proof.
  intros E. apply verify_sound in E as (st & atts & gs & H1 & H2 & H3 & H4 & H5 & H6).
  exists atts, gs. split; auto. split; auto. intros l g Hg. rewrite Forall_forall in H5.
  destruct (H5 _ Hg) as [_ (av & P & HS)]. pose proof (supermajority_participants _ _ _ _ _ _ _ HS) as (N1 & N2 & I).
  destruct HS as (f & gvr & avl & sets & Hf & Hgv & Hav & Hact & F & [HU1 HU2] & En). simpl in *.
  exists f, gvr, avl, av, P. repeat (split; [assumption|]). intros v Hv. split; auto.
  apply HU2 in Hv as (s & Hs & Hv). clear -F Hs Hv. induction F as [|a s' g sets Ha F IH]; [easy|].
  destruct Hs as [->|Hs].
  - destruct Ha as [_ G2 G3 G4 G5 _ G7]. exists a, (map (fun s => pubkey (snd s)) s). repeat (split; auto); [simpl; auto|].
    now apply in_map with (f := fun s => pubkey (snd s)).
  - destruct IH as (a' & keys & Ha' & R'); auto. exists a', keys. simpl. auto.
Qed.
(** C09: on a platform where the committee arithmetic is exact, the signers of each aggregate are
    the members of the selected committees at the set bits. This is part of [link_evidence]. *)
Theorem C09_committee_members X cfg R post slot :
  sane_spec X (rd_chain_spec R) -> shuffle_permutes X -> reader_fits X R ->
  verify X cfg R = Ok (post, slot) ->
  exists atts gs, rd_attestations R = Ok atts /\ groups atts gs /\
    Forall (fun g => link_evidence X cfg R (fst g) (snd g)) gs.
Proof.
  intros Sane Hp Hf E. pose proof E as E'. apply verify_sound in E' as (st & atts & gs & H1 & H2 & H3 & _).
  exists atts, gs. split; auto. split; auto.
  unfold verify in E. rewrite H1, H2 in E. cbn [unwrap bind] in E. rewrite (groups_chunk _ _ H3) in E. inv_ok.
  eapply loop_evidence; eauto. apply H3.
Qed.

(** C10. *)
Theorem C10_link_bounds X cfg R post slot st0 : verify X cfg R = Ok (post, slot) -> rd_consensus_state R = Ok st0 ->
  forall atts a, rd_attestations R = Ok atts -> In a atts ->
    let e := epoch (ad_target (att_data a)) in
    epoch (finalized st0) < e <= epoch (finalized st0) + epoch_lookahead_limit cfg /\
    fork_rank (min_version cfg) <= fork_rank (fork_name_at_epoch (rd_chain_spec R) e) <= fork_rank (max_version cfg).
Proof.
  intros E Hs atts a Ha Hin. apply verify_sound in E as (st & atts' & gs & H1 & H2 & H3 & H4 & H5 & H6).
  rewrite Ha in H2. injection H2 as <-. rewrite Hs in H1. injection H1 as <-. destruct H3 as (Hc & Hgo & _).
  rewrite <- Hc in Hin. apply in_concat in Hin as (g & Hg1 & Hg2). apply in_map_iff in Hg1 as ((l & g') & Eg & Hg).
  simpl in Eg. subst g'. rewrite Forall_forall in Hgo, H5. destruct (Hgo _ Hg) as [_ Hk].
  destruct (H5 _ Hg) as [[B1 B2] _]. simpl in *. specialize (Hk a Hg2). subst l. simpl in *.
  split; [|auto]. split; [|auto].
  destruct (accepted_is_chain _ _ _ H4) as [Hch _].
  assert (In (link_of a) (map fst gs)) as Hl by (apply in_map_iff; eexists; split; [|exact Hg]; reflexivity).
  pose proof (chain_target_gt _ _ _ Hch Hl) as Hgt. simpl in Hgt.
  assert (valid_state st0) as [Hlt | -> ] by (destruct (accept_guarded _ _ _ H4) as (_ & _ & Hv); exact Hv); [lia|].
  simpl in *. lia.
Qed.
Theorem C10_result_bounds X cfg R post slot st0 : verify X cfg R = Ok (post, slot) -> rd_consensus_state R = Ok st0 ->
  epoch (finalized st0) < epoch (finalized post) /\ epoch (current_justified post) = epoch (finalized post) + 1 /\
  epoch (current_justified post) <= epoch (finalized st0) + epoch_lookahead_limit cfg.
Proof.
  intros E Hs. apply verify_sound in E as (st & atts' & gs & H1 & H2 & H3 & H4 & H5 & H6).
  rewrite Hs in H1. injection H1 as <-. destruct (accepted_is_chain _ _ _ H4) as (Hch & Hl & He).
  split; [|split; auto].
  - destruct H4 as [s ls f t Hv Hg Haf|b ls f t Hb Haf]; simpl.
    + destruct Hv as [Hlt|]; [|easy]. apply (af_guarded _ _ _ _ (finalized s)) in Haf; auto. apply Haf.
    + apply (af_guarded _ _ _ _ genesis_cp) in Haf; auto. apply Haf.
  - apply in_map_iff in Hl as (g & Eg & Hg). rewrite Forall_forall in H5. destruct (H5 _ Hg) as [[B1 _] _].
    rewrite Eg in B1. exact B1.
Qed.

(** C11: completeness. *)
Theorem C11_complete X cfg R st0 atts gs post slot :
  sane_spec X (rd_chain_spec R) -> shuffle_permutes X ->
  rd_consensus_state R = Ok st0 -> rd_attestations R = Ok atts -> groups atts gs ->
  Forall (fun l => u64 (epoch (target l))) (map fst gs) ->
  accepted_chain st0 (map fst gs) post ->
  Forall (fun g => within_bounds cfg (rd_chain_spec R) (finalized st0) (fst g) /\
                   link_evidence X cfg R (fst g) (snd g)) gs ->
  rd_slot_for_block R (root (finalized post)) = Ok slot ->
  verify X cfg R = Ok (post, slot).
Proof. apply verify_complete. Qed.
(** C11: soundness and completeness meet. *)
Theorem C11_exact X cfg R post slot :
  sane_spec X (rd_chain_spec R) -> shuffle_permutes X -> reader_fits X R ->
  (forall atts a, rd_attestations R = Ok atts -> In a atts -> u64 (epoch (ad_target (att_data a)))) ->
  verify X cfg R = Ok (post, slot) <->
  exists st0 atts gs,
    rd_consensus_state R = Ok st0 /\ rd_attestations R = Ok atts /\ groups atts gs /\
    accepted_chain st0 (map fst gs) post /\
    Forall (fun g => within_bounds cfg (rd_chain_spec R) (finalized st0) (fst g) /\
                     link_evidence X cfg R (fst g) (snd g)) gs /\
    rd_slot_for_block R (root (finalized post)) = Ok slot.
Proof. apply verify_exact. Qed.

(** C12: the outcome, including errors and panics, depends only on the listed answers. *)
Theorem C12_replay X cfg R1 R2 :
  sane_spec X (rd_chain_spec R1) ->
  rd_chain_spec R1 = rd_chain_spec R2 ->
  rd_genesis_validators_root R1 = rd_genesis_validators_root R2 ->
  rd_consensus_state R1 = rd_consensus_state R2 ->
  rd_attestations R1 = rd_attestations R2 ->
  (forall atts a, rd_attestations R1 = Ok atts -> In a atts ->
     let e := epoch (ad_target (att_data a)) in
     rd_fork R1 e = rd_fork R2 e /\ rd_active_validators R1 e = rd_active_validators R2 e /\
     rd_randao_mix R1 e (seed_epoch_index (rd_chain_spec R1) e)
       = rd_randao_mix R2 e (seed_epoch_index (rd_chain_spec R1) e)) ->
  (forall st0 atts gs post, rd_consensus_state R1 = Ok st0 -> rd_attestations R1 = Ok atts -> groups atts gs ->
     ffg_run st0 (map fst gs) post ->
     rd_slot_for_block R1 (root (finalized post)) = rd_slot_for_block R2 (root (finalized post))) ->
  verify X cfg R1 = verify X cfg R2.
Proof.
  intros S H1 H2 H3 H4 H5 H6. apply verify_replay; auto. intros atts a Ha Hin.
  destruct (H5 atts a Ha Hin) as (Q1 & Q2 & Q3). split; auto.
Qed.

(** C13: two thirds, for every configuration. *)
Theorem C13_two_thirds X cfg R post slot : verify X cfg R = Ok (post, slot) ->
  forall atts a avl av, rd_attestations R = Ok atts -> In a atts ->
  rd_active_validators R (epoch (ad_target (att_data a))) = Ok avl -> active_set avl av ->
  exists P, NoDup (map fst P) /\ incl P av /\
    2 * balance_of (rd_chain_spec R) av <= 3 * balance_of (rd_chain_spec R) (unslashed P) /\
    forall v, In v P -> exists a' keys, In a' atts /\ link_of a' = link_of a /\ In (pubkey (snd v)) keys /\
      exists msg, bls_verify X (att_signature a') msg keys = true.
Proof.
  intros E atts a avl av Ha Hin Hav Hact. apply verify_sound in E as (st & atts' & gs & H1 & H2 & H3 & H4 & H5 & H6).
  rewrite Ha in H2. injection H2 as <-. destruct H3 as (Hc & Hgo & _).
  pose proof Hin as Hin'. rewrite <- Hc in Hin'. apply in_concat in Hin' as (g & Hg1 & Hg2). apply in_map_iff in Hg1 as ((l & g') & Eg & Hg).
  simpl in Eg. subst g'. rewrite Forall_forall in Hgo, H5. destruct (Hgo _ Hg) as [_ Hk].
  destruct (H5 _ Hg) as [_ (av' & P & HS)]. simpl in *. pose proof (Hk a Hg2) as El.
  pose proof (supermajority_participants _ _ _ _ _ _ _ HS) as (N1 & N2 & I).
  destruct HS as (f & gvr & avl' & sets & _ & _ & Hav' & Hact' & F & [_ HU] & [_ En]). rewrite <- El in Hav'. simpl in Hav'.
  rewrite Hav in Hav'. injection Hav' as <-.
  rewrite (active_set_unique _ _ Hact) in *. rewrite (active_set_unique _ _ Hact') in *.
  exists P. repeat (split; auto). intros v Hv. apply HU in Hv as (s & Hs & Hv).
  assert (forall x, In x g -> In x atts) as Hga.
  { intros x Hx. rewrite <- Hc. apply in_concat. exists g. split; auto. apply in_map_iff. eexists. split; [|exact Hg]. reflexivity. }
  rewrite El. clear -F Hs Hv Hk Hga. induction F as [|b s' g sets Hb F IH]; [easy|]. destruct Hs as [->|Hs].
  - exists b, (map (fun s => pubkey (snd s)) s). split; [apply Hga; simpl; auto|]. split; [apply Hk; simpl; auto|].
    split; [now apply in_map with (f := fun s => pubkey (snd s))|]. eexists. apply Hb.
  - apply IH; auto; intros; [apply Hk|apply Hga]; simpl; auto.
Qed.

(** C38: the RANDAO index, on 32- and 64-bit platforms alike. *)
Theorem C38_seed_index X R e dom :
  usize_bits X = 32 \/ usize_bits X = 64 ->
  epochs_per_historical_vector (rd_chain_spec R) = 65536 -> min_seed_lookahead (rd_chain_spec R) = 1 ->
  get_seed X R e dom =
    if e + 65536 <? 2 ^ 64 then
      match rd_randao_mix R e ((e + 65536 - 1 - 1) mod 65536) with
      | Ok (Some mix) => Ok (sha256 X (dom ++ le_bytes 8 e ++ mix))
      | Ok None => Panic | Err er => Err er | Panic => Panic
      end
    else Err (RE_Arith Overflow).
Proof.
  intros Hu Hn Hm. unfold get_seed, get_randao_mix. rewrite Hn, Hm. unfold safe_add, two64.
  destruct (N.ltb_spec (e + 65536) (2 ^ 64)) as [L|L]; cbn [bind]; auto.
  unfold safe_sub. destruct (N.leb_spec 1 (e + 65536)); [|lia]. cbn [bind].
  destruct (N.leb_spec 1 (e + 65536 - 1)); [|lia]. cbn [bind].
  unfold safe_rem. change (65536 =? 0) with false. cbn [bind].
  assert (wrap_usize X (e + 65536 - 1 - 1) mod 65536 = (e + 65536 - 1 - 1) mod 65536) as ->.
  { unfold wrap_usize. destruct Hu as [-> | ->]; apply mod_divide_mod; try easy; [exists (2 ^ 16)|exists (2 ^ 48)]; reflexivity. }
  rewrite (N.mod_small _ (2 ^ 32)) by (pose proof (N.mod_lt (e + 65536 - 1 - 1) 65536); lia).
  destruct (rd_randao_mix R e _) as [[m|]| |]; reflexivity.
Qed.

(** C45: exact total, at least one increment, or an overflow error; the order does not matter. *)
Theorem C45_total_balance {E} (f : ArithError -> E) cs vs :
  get_total_balance f cs vs =
    if fold_right N.add 0 (map effective_balance vs) <? 2 ^ 64
    then Ok (N.max (fold_right N.add 0 (map effective_balance vs)) (effective_balance_increment cs))
    else Err (f Overflow).
Proof. apply total_balance_eq. Qed.
Theorem C45_order_independent {E} (f : ArithError -> E) cs vs vs' : Permutation vs vs' ->
  get_total_balance f cs vs = get_total_balance f cs vs'.
Proof.
  intros P. rewrite !total_balance_eq. rewrite (sum_of_perm _ _ (Permutation_map effective_balance P)). reflexivity.
Qed.

(** C46: participants' records are always found, and the complete list of reasons for a panic
    contains neither the record lookup nor the state-consistency assertion. *)
Theorem C46_participants_found X R l atts avl c P : (forall a, In a atts -> link_of a = l) ->
  process_group X R (bm_of_list avl) c atts = Ok P ->
  forall i, In i P -> exists v, bm_get (bm_of_list avl) i = Some v.
Proof. apply participants_found. Qed.
Theorem C46_panic_causes X cfg R : shuffle_permutes X -> reader_fits X R ->
  verify X cfg R = Panic -> panic_cause X cfg R.
Proof. apply verify_panic. Qed.

(** C48: without collisions among the messages hashed, a signing root determines data and domain. *)
Theorem C48_signing_root_injective H d1 d2 dom1 dom2 : hash32 H -> wf_data d1 -> wf_data d2 ->
  injective_on H (signing_inputs H d1 dom1 ++ signing_inputs H d2 dom2) ->
  signing_root H d1 dom1 = signing_root H d2 dom2 -> d1 = d2 /\ dom1 = dom2.
Proof. rewrite !signing_root_spec. apply signing_root_injective. Qed.
Theorem C48_domain_injective H cs e1 e2 f1 f2 g1 g2 :
  let v1 := version_at f1 e1 in let v2 := version_at f2 e2 in
  length v1 = 4%nat -> length v2 = 4%nat ->
  (forall a b, In a [chunk 4 v1 ++ g1; chunk 4 v2 ++ g2] -> In b [chunk 4 v1 ++ g1; chunk 4 v2 ++ g2] ->
     firstn 28 (H a) = firstn 28 (H b) -> a = b) ->
  get_attester_domain H cs e1 f1 g1 = get_attester_domain H cs e2 f2 g2 -> v1 = v2 /\ g1 = g2.
Proof. intros v1 v2. rewrite !attester_domain_spec. apply domain_injective. Qed.

(** ** Non-vacuity: a toy chain whose finality proof is accepted *)
(** A toy 32-byte hash (residue modulo a prime) and a toy aggregate signature (message and keys). *)
Definition toy_hash (b : bytes) : bytes := le_bytes 32 ((1 + le_val (b ++ [Byte.x01])) mod (2 ^ 255 - 19)).
Definition toy_X : Externals :=
  mkExternals toy_hash (fun k => k) (fun s m ks => bytes_eqb s (m ++ concat ks)) (fun l _ _ => Some (rev l)) 32.
Lemma toy_permutes : shuffle_permutes toy_X.
Proof. intros l r s sh E. injection E as <-. apply Permutation_rev. Qed.
(** Electra from the start, Fulu at epoch 100, 2 slots per epoch, committees of 2. *)
Definition toy_cs : ChainSpec :=
  mkChainSpec (fun f => match f with Fulu => Some 100 | Gloas => None | _ => Some 0 end)
    (fun f => [byte_of_N (fork_rank f); Byte.x00; Byte.x00; Byte.x00]) (2 ^ 64 - 1) 1 4 90 1 32 128 65536 64 2 1 2 65536.
Definition toy_root (k : N) : bytes := le_bytes 32 k.
Definition toy_val (i : N) : N * ValidatorInfo :=
  (3 * i, mkValidatorInfo [byte_of_N (100 + i)] 32 (i =? 7) 0 0 (2 ^ 64 - 1)).
Definition toy_av : list (N * ValidatorInfo) := map toy_val [0; 1; 2; 3; 4; 5; 6; 7].
Definition toy_fork : Fork := fork_at_epoch toy_cs 12.
Definition toy_gvr : bytes := toy_root 77.
Definition toy_state : ConsensusState := mkCS (mkCheckpoint 10 (toy_root 10)) (mkCheckpoint 9 (toy_root 9)).
Definition toy_data (slot : N) (l : Link) : AttestationData := mkAttestationData slot 0 (toy_root 55) (source l) (target l).
Definition toy_att (slot : N) (l : Link) (bits : list bool) (keys : list N) : Attestation :=
  let d := toy_data slot l in
  mkAttestation true bits (repeat true 2 ++ repeat false 62) d
    (signing_root toy_hash d (get_attester_domain toy_hash toy_cs (epoch (target l)) toy_fork toy_gvr)
       ++ map (fun i => byte_of_N (100 + i)) keys).
Definition toy_l1 := mkLink (mkCheckpoint 10 (toy_root 10)) (mkCheckpoint 12 (toy_root 12)).
Definition toy_l2 := mkLink (mkCheckpoint 12 (toy_root 12)) (mkCheckpoint 13 (toy_root 13)).
Definition toy_atts : list Attestation :=
  [toy_att 24 toy_l1 [true; true; true; true] [4; 5; 6; 7]; toy_att 25 toy_l1 [true; true; true; true] [0; 1; 2; 3];
   toy_att 25 toy_l1 [false; true; true; false] [1; 2];
   toy_att 26 toy_l2 [false; true; true; true] [4; 5; 6]; toy_att 27 toy_l2 [true; true; true; true] [0; 1; 2; 3]].
Definition toy_R (atts : list Attestation) : Reader :=
  mkReader toy_cs (Ok toy_gvr) (fun _ => Ok toy_fork) (fun _ => Ok toy_av)
    (fun e i => if i =? (e + 65534) mod 65536 then Ok (Some (toy_root i)) else Err (RE_Other 1))
    (Ok atts) (Ok toy_state) (fun r => if bytes_eqb r (toy_root 12) then Ok 24 else Err (RE_Other 2)).
Example toy_accepted : verify toy_X DEFAULT_CONFIG (toy_R toy_atts)
  = Ok (mkCS (mkCheckpoint 13 (toy_root 13)) (mkCheckpoint 12 (toy_root 12)), 24).
Proof. vm_compute. reflexivity. Qed.
(** With one more unslashed validator missing, 6/8 of the balance does not reach 85%. *)
Example toy_rejected : verify toy_X DEFAULT_CONFIG
    (toy_R [toy_att 26 (mkLink (source toy_l1) (mkCheckpoint 13 (toy_root 13))) [false; true; true; false] [5; 6];
            toy_att 27 (mkLink (source toy_l1) (mkCheckpoint 13 (toy_root 13))) [true; true; true; true] [0; 1; 2; 3]])
  = Err (ThresholdNotMet 192 217).
Proof. vm_compute. reflexivity. Qed.
Example toy_sane : sane_spec toy_X toy_cs.
Proof. repeat split; try (vm_compute; congruence). exists (2 ^ 16). reflexivity. Qed.
Example toy_fits : reader_fits toy_X (toy_R toy_atts).
Proof.
  intros e avl av E Hact. injection E as <-. rewrite (active_set_unique _ _ Hact). cbn.
  repeat split; try (vm_compute; congruence). exists (2 ^ 31). reflexivity.
Qed.
Example toy_u64 : forall atts a, rd_attestations (toy_R toy_atts) = Ok atts -> In a atts -> u64 (epoch (ad_target (att_data a))).
Proof. intros atts a E. injection E as <-. cbn [In toy_atts]. intros H. repeat destruct H as [<-|H]; try easy; vm_compute; reflexivity. Qed.
(** Replay: the source recorded from the first one, with answers for other epochs, roots and indices removed. *)
Definition toy_R' : Reader :=
  mkReader toy_cs (Ok toy_gvr) (fun e => if e <? 14 then Ok toy_fork else Panic)
    (fun e => if (e =? 12) || (e =? 13) then Ok toy_av else Err RE_Config)
    (fun e i => if i <? 12 then Ok (Some (toy_root i)) else Ok None)
    (Ok toy_atts) (Ok toy_state) (fun r => if bytes_eqb r (toy_root 12) then Ok 24 else Err (RE_Other 2)).
Example toy_replay : verify toy_X DEFAULT_CONFIG (toy_R toy_atts) = verify toy_X DEFAULT_CONFIG toy_R'.
Proof.
  apply C12_replay; try reflexivity.
  - exact toy_sane.
  - intros atts a E. injection E as <-. cbn [In toy_atts]. intros H. repeat destruct H as [<-|H]; try easy; vm_compute; auto.
Qed.
(** A panic with its cause: an attestation for the wrong epoch. *)
Example toy_panic : verify toy_X DEFAULT_CONFIG (toy_R [toy_att 28 toy_l1 [true; true; true; true] [4; 5; 6; 7]]) = Panic.
Proof. vm_compute. reflexivity. Qed.
(** The hypotheses of the injectivity theorem hold for two different votes. *)
Definition injective_onb (H : bytes -> bytes) (l : list bytes) : bool :=
  forallb (fun a => forallb (fun b => implb (bytes_eqb (H a) (H b)) (bytes_eqb a b)) l) l.
Lemma injective_onb_ok H l : injective_onb H l = true -> injective_on H l.
Proof.
  intros E a b Ha Hb Hab. unfold injective_onb in E. rewrite forallb_forall in E. specialize (E a Ha).
  rewrite forallb_forall in E. specialize (E b Hb). rewrite Hab, bytes_eqb_refl in E. now apply bytes_eqb_eq.
Qed.
Definition toy_dom := get_attester_domain toy_hash toy_cs 12 toy_fork toy_gvr.
Example toy_injective : hash32 toy_hash /\ wf_data (toy_data 24 toy_l1) /\ wf_data (toy_data 24 toy_l2) /\
  injective_on toy_hash (signing_inputs toy_hash (toy_data 24 toy_l1) toy_dom ++ signing_inputs toy_hash (toy_data 24 toy_l2) toy_dom).
Proof.
  split; [intros x; apply le_bytes_length|]. split; [repeat split; vm_compute; reflexivity|].
  split; [repeat split; vm_compute; reflexivity|]. apply injective_onb_ok. vm_compute. reflexivity.
Qed.
Example toy_seed : get_seed toy_X (toy_R toy_atts) 12 (le_bytes 4 1) = Ok (toy_hash (le_bytes 4 1 ++ le_bytes 8 12 ++ toy_root 10)).
Proof. vm_compute. reflexivity. Qed.
Example toy_total : get_total_balance VArith toy_cs (map snd toy_av) = Ok 256 /\
  get_total_balance VArith toy_cs [mkValidatorInfo [] (2 ^ 63) false 0 0 0; mkValidatorInfo [] (2 ^ 63) false 0 0 0] = Err (VArith Overflow).
Proof. vm_compute. auto. Qed.

Print Assumptions C07_atomic_finalization.
Print Assumptions C07_result.
Print Assumptions C08_supermajority.
Print Assumptions C08_weights.
Print Assumptions C09_signed_link.
Print Assumptions C09_committee_members.
Print Assumptions C10_link_bounds.
Print Assumptions C10_result_bounds.
Print Assumptions C11_complete.
Print Assumptions C11_exact.
Print Assumptions C12_replay.
Print Assumptions C13_two_thirds.
Print Assumptions C38_seed_index.
Print Assumptions C45_total_balance.
Print Assumptions C45_order_independent.
Print Assumptions C46_participants_found.
Print Assumptions C46_panic_causes.
Print Assumptions C48_signing_root_injective.
Print Assumptions C48_domain_injective.
