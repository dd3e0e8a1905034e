(** Property C68: the shuffle, and the committees it yields. *)
From Coq Require Import List ZArith NArith Arith Bool Lia Permutation.
From Coq Require Import ZifyBool ZifyNat ZifyN.
From Coq.Init Require Import Byte.
From Verif.Model Require Import Base Types Gindices Shuffle Committee ConsensusState Verify GuestReader Guest HostChain HostStore HostInput.
From Verif.Spec Require FFG.
From Verif.Spec Require Import Merkle Ssz Beacon GuestSpec Committees VerifySpec HostInputSpec ShuffleSpec.
From Verif.Proof Require Import BaseLemmas HostGuestP ShuffleP.
From Verif.Props Require Import CommitteeProps VerifyProps GuestToy HostToy HostInputProps ReplayProps.
Import ListNotations.
Open Scope N_scope.
Notation length := List.length.

Lemma usize_half bits : 32 <= bits -> 2 ^ 24 <= (2 ^ bits - 1) / 2.
Proof.
  intros. assert (2 ^ 32 <= 2 ^ bits) by (apply N.pow_le_mono_r; lia). apply N.div_le_lower_bound; [lia|].
  change (2 ^ 32) with 4294967296 in *. change (2 ^ 24) with 16777216. lia.
Qed.

(** When there is a result at all. *)
Theorem C68_result_iff : forall A H pivot_bits bits (input : list A) rounds seed, 32 <= bits ->
  (exists out, swap_or_not H pivot_bits bits input rounds seed = Some out) <->
  input <> [] /\ N.of_nat (length input) <= 2 ^ 24 /\ rounds <> 0.
Proof.
  intros A H pb bits l rounds seed Hb. pose proof (usize_half bits Hb) as Hh. unfold swap_or_not.
  set (m := (2 ^ bits - 1) / 2) in *. clearbody m.
  assert (L : N.of_nat (length l) = 0 <-> l = []) by (destruct l; cbn [length]; split; intros; try discriminate; auto; lia).
  destruct (N.eqb_spec (N.of_nat (length l)) 0) as [E|E]; cbn [orb].
  { split; [intros (? & ?); discriminate|]. intros (Hn & _). now apply L in E. }
  destruct (N.ltb_spec m (N.of_nat (length l))); cbn [orb].
  { split; [intros (? & ?); discriminate|lia]. }
  destruct (N.ltb_spec (2 ^ 24) (N.of_nat (length l))); cbn [orb].
  { split; [intros (? & ?); discriminate|lia]. }
  destruct (N.eqb_spec rounds 0) as [Er|Er].
  { split; [intros (? & ?); discriminate|]. intros (_ & _ & ?). contradiction. }
  split; [|eauto]. intros _. repeat split; auto; intros ->; now apply E.
Qed.
(** Whatever the hash, the seed, the round count and the width of the pivot: the result is a
    permutation of the input. *)
Theorem C68_permutes : forall A H pivot_bits bits (input : list A) rounds seed out,
  swap_or_not H pivot_bits bits input rounds seed = Some out -> Permutation input out.
Proof.
  intros A H pb bits l rounds seed out. unfold swap_or_not. destruct (_ || _); [discriminate|].
  intros E. injection E as <-. apply rounds_permutes.
Qed.
(** In-place swapping with cached hashes computes the index-by-index shuffle of the specification. *)
Theorem C68_shuffled_index : forall A H bits (input : list A) rounds seed out k,
  swap_or_not H 64 bits input rounds seed = Some out -> (k < length input)%nat ->
  nth_error out k = nth_error input (N.to_nat (compute_shuffled_index H seed (N.of_nat (length input)) (N.to_nat rounds) (N.of_nat k))).
Proof.
  intros A H bits l rounds seed out k. unfold swap_or_not. destruct (_ || _); [discriminate|].
  intros E Hk. injection E as <-.
  destruct (rounds_nth H seed 64 (N.to_nat rounds) l (N.of_nat k)) as [E _]; [lia|lia|].
  now rewrite Nat2N.id in E.
Qed.
(** The specification's index function is a permutation of the indices, for every hash. *)
Theorem C68_index_permutation : forall H seed n rounds, 0 < n ->
  (forall i, i < n -> compute_shuffled_index H seed n rounds i < n) /\
  (forall i j, i < n -> j < n -> compute_shuffled_index H seed n rounds i = compute_shuffled_index H seed n rounds j -> i = j).
Proof.
  intros H seed n rounds Hn.
  set (l := map N.of_nat (seq 0 (N.to_nat n))).
  assert (Ll : N.of_nat (length l) = n) by (unfold l; rewrite map_length, seq_length; lia).
  assert (Nl : forall i, i < n -> nth_error l (N.to_nat i) = Some i).
  { intros i Hi. unfold l. rewrite nth_error_map, (nth_error_nth' _ 0%nat) by (rewrite seq_length; lia).
    rewrite seq_nth by lia. cbn. f_equal. lia. }
  assert (R : forall i, i < n -> nth_error (rounds_down H seed 64 rounds l) (N.to_nat i) = Some (compute_shuffled_index H seed n rounds i)
    /\ compute_shuffled_index H seed n rounds i < n).
  { intros i Hi. destruct (rounds_nth H seed 64 rounds l i) as [E L]; [lia|lia|]. rewrite Ll in E, L. split; auto.
    rewrite E. now apply Nl. }
  assert (ND : NoDup (rounds_down H seed 64 rounds l)).
  { eapply Permutation_NoDup; [apply rounds_permutes|]. unfold l. apply FinFun.Injective_map_NoDup; [intros x y; lia|]. apply seq_NoDup. }
  split; [intros i Hi; apply (R i Hi)|]. intros i j Hi Hj E.
  destruct (R i Hi) as [Ei _]. destruct (R j Hj) as [Ej _]. rewrite E, <- Ej in Ei.
  rewrite NoDup_nth_error in ND. apply ND in Ei; [lia|]. rewrite rounds_length. lia.
Qed.
(** With the pivot reduced in 64 bits, every platform of at least 32 bits computes the same. *)
Theorem C68_platforms : forall A H b1 b2 (input : list A) rounds seed, 32 <= b1 -> 32 <= b2 ->
  swap_or_not H 64 b1 input rounds seed = swap_or_not H 64 b2 input rounds seed.
Proof.
  intros A H b1 b2 l rounds seed H1 H2. unfold swap_or_not.
  pose proof (usize_half b1 H1). pose proof (usize_half b2 H2).
  set (m1 := (2 ^ b1 - 1) / 2) in *. set (m2 := (2 ^ b2 - 1) / 2) in *. clearbody m1 m2.
  replace ((N.of_nat (length l) =? 0) || (m1 <? N.of_nat (length l)) || (2 ^ 24 <? N.of_nat (length l)) || (rounds =? 0))
    with ((N.of_nat (length l) =? 0) || (m2 <? N.of_nat (length l)) || (2 ^ 24 <? N.of_nat (length l)) || (rounds =? 0)) by lia.
  reflexivity.
Qed.

(** What the other theorems assume of the shuffle. *)
Theorem C68_shuffle_permutes : forall X pivot_bits, shuffle_permutes (with_swap_or_not X pivot_bits).
Proof. intros X pb l rounds seed sh E. exact (C68_permutes _ _ _ _ _ _ _ _ E). Qed.

Lemma nth_map_seq (A : Type) (f : nat -> A) a n i d : (i < n)%nat -> nth i (map f (seq a n)) d = f (a + i)%nat.
Proof.
  intros Hi. rewrite (nth_indep _ d (f 0%nat)) by (rewrite map_length, seq_length; lia).
  now rewrite map_nth, seq_nth.
Qed.
Lemma list_ext_nth (l1 l2 : list N) : length l1 = length l2 ->
  (forall i, (i < length l1)%nat -> nth i l1 0 = nth i l2 0) -> l1 = l2.
Proof. intros. now apply (nth_ext l1 l2 0 0). Qed.
Lemma nth_firstn_skipn (l : list N) a n i : (i < n)%nat -> nth i (firstn n (skipn a l)) 0 = nth (a + i) l 0.
Proof.
  intros Hi. assert (E : nth i (firstn n (skipn a l)) 0 = nth i (skipn a l) 0).
  { generalize (skipn a l). clear -Hi. intros l. revert n Hi l. induction i; intros [|n] Hi [|x l]; cbn; auto; try lia. apply IHi. lia. }
  rewrite E. clear. revert l. induction a; intros [|x l]; cbn; auto. destruct i; auto.
Qed.
Lemma committee_segment H bits rounds seed indices sh count k :
  swap_or_not H 64 bits indices rounds seed = Some sh -> 0 < count -> k < count ->
  segment sh count k = spec_committee H seed (N.to_nat rounds) indices k count.
Proof.
  intros E Hc Hk. pose proof (Permutation_length (C68_permutes _ _ _ _ _ _ _ _ E)) as L.
  assert (Hle : N.of_nat (length indices) * (k + 1) / count <= N.of_nat (length indices)).
  { apply N.div_le_upper_bound; [lia|]. nia. }
  assert (Hmono : N.of_nat (length indices) * k / count <= N.of_nat (length indices) * (k + 1) / count)
    by (apply N.div_le_mono; nia).
  unfold segment, spec_committee. rewrite <- L.
  set (a := N.of_nat (length indices) * k / count) in *. set (b := N.of_nat (length indices) * (k + 1) / count) in *.
  clearbody a b. apply list_ext_nth.
  - rewrite firstn_length, skipn_length, map_length, seq_length, <- L. lia.
  - rewrite firstn_length, skipn_length, <- L. intros i Hi.
    rewrite nth_firstn_skipn by lia. rewrite nth_map_seq by lia.
    pose proof (C68_shuffled_index _ _ _ _ _ _ _ (N.to_nat a + i) E ltac:(lia)) as Hn.
    destruct (nth_error sh (N.to_nat a + i)) as [v|] eqn:Ev; [|apply nth_error_None in Ev; lia].
    rewrite (nth_error_nth _ _ _ Ev). symmetry. now apply nth_error_nth.
Qed.
(** The cache's committees are the specification's. *)
Theorem C68_committee : forall X0 cs seed indices cps e c, let X := with_swap_or_not X0 64 in
  cc_initialized X cs seed indices cps e = Ok c ->
  fits_platform X (slots_per_epoch cs) cps (N.of_nat (length indices)) ->
  forall slot idx, epoch_of_slot cs slot = e -> idx < cps ->
    get_beacon_committee X cs c slot idx =
    Ok (spec_beacon_committee (sha256 X0) seed (N.to_nat (shuffle_round_count cs)) indices (slots_per_epoch cs) cps slot idx).
Proof.
  intros X0 cs seed indices cps e c X Hi Hf slot idx He Hidx.
  pose proof Hi as Hi'. apply CommitteeP.cc_initialized_inv in Hi' as (_ & _ & sh & Hs & _).
  pose proof Hs as Hs'. cbn [X with_swap_or_not shuffle_list] in Hs'.
  pose proof (C68_permutes _ _ _ _ _ _ _ _ Hs') as Pm. apply Permutation_length in Pm. rewrite Pm in Hf.
  destruct (C18_lookup X cs seed indices cps e c sh Hi Hs Hf slot idx) as [(_ & _ & E)|[(E & _)|(_ & E & _)]]; [|contradiction|lia].
  rewrite E. f_equal. unfold committee_of, spec_beacon_committee. destruct Hf as (F1 & F2 & _).
  pose proof (N.mod_lt slot (slots_per_epoch cs)).
  eapply committee_segment; eauto; nia.
Qed.
(** A cache is built exactly from 1 to 2^24 representable indices. *)
Theorem C68_cache_iff : forall X0 cs seed indices cps e, let X := with_swap_or_not X0 64 in 32 <= usize_bits X0 ->
  (exists c, cc_initialized X cs seed indices cps e = Ok c) <->
  0 < cps /\ indices <> [] /\ N.of_nat (length indices) <= 2 ^ 24 /\ shuffle_round_count cs <> 0 /\
  (forall v, In v indices -> v < 2 ^ usize_bits X0 - 1).
Proof.
  intros X0 cs seed indices cps e X Hb. split.
  - intros (c & Hi). pose proof Hi as Hi'. apply CommitteeP.cc_initialized_inv in Hi as (Hc & Hm & sh & Hs & _).
    cbn [X with_swap_or_not shuffle_list] in Hs.
    destruct (proj1 (C68_result_iff _ _ _ _ _ _ _ Hb) (ex_intro _ _ Hs)) as (R1 & R2 & R3).
    repeat split; auto. clear - Hi'. intros v Hv. unfold cc_initialized in Hi'.
    apply bind_ok in Hi' as (? & _ & Hi'). apply bind_ok in Hi' as (mx & Hmx & Hi').
    apply bind_ok in Hi' as (? & _ & Hi'). apply bind_ok in Hi' as (? & Hlt & _).
    destruct (list_max indices) as [m|] eqn:M; [|discriminate]. injection Hmx as <-.
    apply CommitteeP.list_max_spec in M as [_ M]. specialize (M v Hv).
    unfold usize_max in Hlt. cbn [X with_swap_or_not usize_bits] in Hlt.
    destruct (N.ltb_spec m (2 ^ usize_bits X0 - 1)); [lia|discriminate].
  - intros (Hc & Hi & Hl & Hr & Hv).
    destruct (proj2 (C68_result_iff _ (sha256 X0) 64 _ indices (shuffle_round_count cs) seed Hb)) as [sh Hs]; auto.
    eapply (C18_initialization_total X); eauto. apply C68_shuffle_permutes.
Qed.

(** An accepted finalization rests, vote by vote, on the committee members of the specification: the
    shuffle of the active indices under the seed of the target epoch. *)
Theorem C68_signers : forall X0 cfg R post slot, let X := with_swap_or_not X0 64 in
  sane_spec X (rd_chain_spec R) -> reader_fits X R -> verify X cfg R = Ok (post, slot) ->
  exists atts gs, rd_attestations R = Ok atts /\ groups atts gs /\
  forall l g, In (l, g) gs -> let cs := rd_chain_spec R in let e := epoch (target l) in
    exists f gvr avl av mix,
      rd_fork R e = Ok f /\ rd_genesis_validators_root R = Ok gvr /\
      rd_active_validators R e = Ok avl /\ active_set avl av /\
      rd_randao_mix R e (seed_epoch_index cs e) = Ok (Some mix) /\
      N.of_nat (length av) <= 2 ^ 24 /\
      forall a, In a g -> exists signers, aggregate_ok X cs f gvr av l a signers /\
        forall i, In i (map fst signers) <->
          In i (spec_attesters (sha256 X0) (sha256 X0 (le_bytes 4 (domain_beacon_attester cs) ++ le_bytes 8 e ++ mix))
                  (N.to_nat (shuffle_round_count cs)) (map fst av)
                  (slots_per_epoch cs) (committee_count cs (N.of_nat (length av))) a).
Proof.
  intros X0 cfg R post slot X Sane Hf E.
  destruct (C09_committee_members X cfg R post slot Sane (C68_shuffle_permutes X0 64) Hf E) as (atts & gs & H1 & H2 & H3).
  exists atts, gs. split; [exact H1|]. split; [exact H2|]. intros l g Hg cs e.
  rewrite Forall_forall in H3. specialize (H3 _ Hg). cbn [fst snd] in H3.
  destruct H3 as (f & gvr & avl & av & mix & sh & sets & P & K1 & K2 & K3 & K4 & _ & _ & _ & K5 & K6 & K7 & K8 & _).
  fold cs e in K1, K2, K3, K5, K6, K7, K8.
  exists f, gvr, avl, av, mix. repeat (split; [assumption|]).
  cbn [X with_swap_or_not shuffle_list sha256] in K6. split.
  { unfold swap_or_not in K6. rewrite map_length in K6.
    destruct (N.ltb_spec (2 ^ 24) (N.of_nat (length av))); [|lia]. now rewrite orb_true_r in K6. }
  intros a Ha.
  assert (K9 : exists signers, bits_well_formed sh (slots_per_epoch cs) (committee_count cs (N.of_nat (length av))) a /\
    aggregate_ok X cs f gvr av l a signers /\
    forall i, In i (map fst signers) <-> In i (attesters_of sh (slots_per_epoch cs) (committee_count cs (N.of_nat (length av))) a)).
  { clear - K8 Ha. induction K8 as [|x y xs ys (Q1 & Q2 & _ & Q3) _ IH]; [destruct Ha|].
    destruct Ha as [->|Ha]; [exists y; auto|auto]. }
  destruct K9 as (signers & (B & _) & A & I). exists signers. split; [exact A|]. intros i. rewrite I.
  assert (Es : attesters_of sh (slots_per_epoch cs) (committee_count cs (N.of_nat (length av))) a =
    spec_attesters (sha256 X0) (sha256 X0 (le_bytes 4 (domain_beacon_attester cs) ++ le_bytes 8 e ++ mix))
                  (N.to_nat (shuffle_round_count cs)) (map fst av)
                  (slots_per_epoch cs) (committee_count cs (N.of_nat (length av))) a).
  { unfold attesters_of, spec_attesters. f_equal. f_equal. apply map_ext_in. intros ci Hci.
    rewrite Forall_forall in B. specialize (B ci Hci). destruct K7 as (F1 & F2 & _).
    unfold committee_of, spec_beacon_committee.
    pose proof (N.mod_lt (ad_slot (att_data a)) (slots_per_epoch cs)).
    eapply committee_segment; eauto; nia. }
  now rewrite Es.
Qed.

(** The guest on a platform of [bits] bits runs its own copy of the shuffle, compiled for that
    platform. It computes what the theorems about host and guest assume of it: the host's shuffle. *)
Lemma bind_ext {E A B} (m : outcome E A) (k1 k2 : A -> outcome E B) : (forall x, k1 x = k2 x) -> bind m k1 = bind m k2.
Proof. intros H. destruct m; cbn [bind]; auto. Qed.
Lemma fold_outcome_ext {E A B} (k1 k2 : A -> B -> outcome E A) : (forall a b, k1 a b = k2 a b) ->
  forall l a, fold_outcome k1 l a = fold_outcome k2 l a.
Proof. intros H. induction l as [|x l IH]; intros a; cbn [fold_outcome]; auto. rewrite H. apply bind_ext. auto. Qed.
Lemma verify_same_shuffle h p b f g u cfg R : (forall l r s, f l r s = g l r s) ->
  verify (mkExternals h p b f u) cfg R = verify (mkExternals h p b g u) cfg R.
Proof.
  intros E. set (X1 := mkExternals h p b f u). set (X2 := mkExternals h p b g u).
  assert (C : forall av e, compute_committees X1 R av e = compute_committees X2 R av e).
  { intros av e. unfold compute_committees. change (get_seed X1) with (get_seed X2).
    apply bind_ext. intros seed. apply bind_ext. intros cps. f_equal. unfold cc_initialized.
    apply bind_ext. intros _. apply bind_ext. intros mx. cbn [X1 X2 shuffle_list]. now rewrite E. }
  assert (A : forall cs c slot bits cidx off acc, attesting_loop X1 cs c slot bits cidx off acc = attesting_loop X2 cs c slot bits cidx off acc).
  { intros cs c slot bits. induction cidx as [|i r IH]; intros off acc; [reflexivity|]. cbn [attesting_loop].
    change (get_beacon_committee X1) with (get_beacon_committee X2).
    do 4 (apply bind_ext; intros ?). apply IH. }
  assert (G : forall av c atts, process_group X1 R av c atts = process_group X2 R av c atts).
  { intros av c atts. unfold process_group. apply fold_outcome_ext. intros acc a. f_equal. unfold process_attestation.
    do 3 (apply bind_ext; intros ?). unfold get_attesting_indices. rewrite A. reflexivity. }
  assert (L : forall t st gr, process_link X1 cfg R t st gr = process_link X2 cfg R t st gr).
  { intros t st [l atts]. unfold process_link. apply bind_ext. intros _. apply bind_ext. intros _. apply bind_ext. intros avl.
    rewrite C. apply bind_ext. intros c. rewrite G. reflexivity. }
  unfold verify. apply bind_ext. intros st0. apply bind_ext. intros atts.
  rewrite (fold_outcome_ext _ _ (L (finalized st0))). reflexivity.
Qed.
Lemma into_reader_same_shuffle h p b f g u cs gi :
  into_reader (mkExternals h p b f u) cs gi = into_reader (mkExternals h p b g u) cs gi.
Proof.
  set (X1 := mkExternals h p b f u). set (X2 := mkExternals h p b g u).
  assert (L : forall cur fuel vals pks i cache, extract_loop X1 fuel cur vals pks i cache = extract_loop X2 fuel cur vals pks i cache).
  { intros cur. induction fuel as [|fuel IH]; intros; [reflexivity|]. cbn [extract_loop]. destruct vals as [|[k c] rest]; [reflexivity|].
    destruct (k =? 3); [reflexivity|]. destruct (k =? exit_epoch_gindex i).
    - apply bind_ext. auto.
    - change (extract_one X1) with (extract_one X2). apply bind_ext. intros [[vi v'] pks']. auto. }
  unfold into_reader, extract_validators_multiproof. rewrite L. reflexivity.
Qed.
Theorem C68_guest_platform : forall X0 bits decode cs cfg frame, 32 <= usize_bits X0 -> 32 <= bits ->
  entry (with_swap_or_not (on_platform X0 bits) 64) decode cs cfg frame =
  entry (on_platform (with_swap_or_not X0 64) bits) decode cs cfg frame.
Proof.
  intros X0 bits decode cs cfg frame H1 H2. unfold entry.
  destruct (expect (decode frame)) as [gi| |]; [|reflexivity|reflexivity]. cbn [bind].
  unfold with_swap_or_not, on_platform. cbn [sha256 pk_serialize bls_verify shuffle_list usize_bits].
  erewrite into_reader_same_shuffle. apply bind_ext. intros r. apply bind_ext. intros pre.
  erewrite verify_same_shuffle; [reflexivity|]. intros l rounds seed. now apply C68_platforms.
Qed.
(** C55 without an assumption about the shuffle: host and guest each run their own. *)
Theorem C68_guest_commits_prediction :
  forall X0 bits cs pk_deserialize states headers blocks collect cfg finalized_epoch gi pre post slot decode frame st,
  32 <= usize_bits X0 -> 32 <= bits ->
  let X := with_swap_or_not X0 64 in let Xg := with_swap_or_not (on_platform X0 bits) 64 in
  (forall c cst atts, collect c = Ok (cst, atts) -> finalized cst = c) ->
  prepare_input X cs pk_deserialize states headers blocks collect cfg finalized_epoch = Ok (gi, pre, post, slot) ->
  checkpoint_state X cs states (finalized pre) = Ok st ->
  sound_data X cs pk_deserialize headers (finalized pre) st [root (finalized post)] ->
  steady_chain cs states (finalized pre) st (gi_attestations gi) ->
  (forall e, In e (target_epochs (gi_attestations gi)) -> FFG.u64 e) ->
  epoch (current_justified pre) + 1 + max_seed_lookahead cs < 2 ^ 64 -> 1 <= epoch (finalized pre) ->
  far_future_epoch cs = 2 ^ 64 - 1 -> sane_spec X cs -> sane_spec Xg cs ->
  registry_fits X cs (st_validators (hs_state st)) (target_epochs (gi_attestations gi)) ->
  registry_fits Xg cs (st_validators (hs_state st)) (target_epochs (gi_attestations gi)) ->
  decode frame = Some gi ->
  epoch (finalized pre) + 1 + max_seed_lookahead cs < 2 ^ 64 ->
  balances_fit cs (st_validators (hs_state st)) ->
  (forall e st', In e (target_epochs (gi_attestations gi)) -> states (start_slot cs e) = Ok st' ->
     exit_changes (st_validators (hs_state st')) (st_validators (hs_state st)) []) ->
  entry Xg decode cs cfg frame = Ok (journal_encode pre post slot).
Proof.
  intros. unfold Xg. rewrite C68_guest_platform by assumption.
  eapply C55_guest_commits_prediction; eauto. apply C68_shuffle_permutes.
Qed.

(** ** Non-vacuity *)
(** A toy hash of 32 bytes that depends on all of its input. *)
Definition s_hash (x : bytes) : bytes :=
  let v := fold_left (fun a b => (a * 31 + Byte.to_N b + 7) mod 65521) x 1 in
  map (fun i => byte_of_N (N.shiftr ((v + N.of_nat i) * (v + 40503)) (N.of_nat (Nat.modulo i 7) + 3))) (seq 0 32).
Definition s_input : list N := map (fun i => 1000 + 7 * N.of_nat i) (seq 0 300).
Definition s_seed : bytes := le_bytes 32 0xA5A5A5A5A5A5A5A5.
Definition s_out : list N := match swap_or_not s_hash 64 64 s_input 5 s_seed with Some l => l | None => [] end.
Example s_shuffles : swap_or_not s_hash 64 64 s_input 5 s_seed = Some s_out /\ length s_out = 300%nat /\
  firstn 4 s_out <> firstn 4 s_input /\
  compute_shuffled_index s_hash s_seed 300 5 7 <> 7.
Proof. split; [vm_compute; reflexivity|]. split; [vm_compute; reflexivity|]. split; vm_compute; discriminate. Qed.
(** Three hundred entries cross a block of 256 positions; the two computations agree on all of them. *)
Example s_agrees : s_out = map (fun i => nth (N.to_nat (compute_shuffled_index s_hash s_seed 300 5 (N.of_nat i))) s_input 0) (seq 0 300).
Proof. vm_compute. reflexivity. Qed.
Definition s_X : Externals := mkExternals s_hash (fun k => k) (fun _ _ _ => true) (fun _ _ _ => None) 32.
Definition cache_of (r : outcome CCError CommitteeCache) : CommitteeCache :=
  match r with Ok c => c | _ => mkCC None [] [] 0 0 end.
Definition s_cache : CommitteeCache := cache_of (cc_initialized (with_swap_or_not s_X 64) ex_cs s_seed s_input 2 7).
Example s_committee : cc_initialized (with_swap_or_not s_X 64) ex_cs s_seed s_input 2 7 = Ok s_cache /\
  fits_platform (with_swap_or_not s_X 64) (slots_per_epoch ex_cs) 2 (N.of_nat (length s_input)) /\
  epoch_of_slot ex_cs 29 = 7 /\
  exists cm, get_beacon_committee (with_swap_or_not s_X 64) ex_cs s_cache 29 1 = Ok cm /\ length cm = 38%nat.
Proof.
  split; [vm_compute; reflexivity|]. split.
  { repeat split; try reflexivity. exists (2 ^ 30). reflexivity. }
  split; [reflexivity|]. eexists. split; vm_compute; reflexivity.
Qed.

(** The toy chain of VerifyProps.v, its votes cast by the committees of this shuffle. *)
Definition v_X : Externals := with_swap_or_not toy_X 64.
Definition v_atts : list Attestation :=
  [toy_att 24 toy_l1 [true; true; true; true] [3; 5; 6; 7]; toy_att 25 toy_l1 [true; true; true; true] [0; 1; 2; 4];
   toy_att 25 toy_l1 [false; true; true; false] [0; 1];
   toy_att 26 toy_l2 [true; true; true; false] [3; 5; 6]; toy_att 27 toy_l2 [true; true; true; true] [0; 1; 2; 4]].
Example v_accepted : verify v_X DEFAULT_CONFIG (toy_R v_atts)
  = Ok (mkCS (mkCheckpoint 13 (toy_root 13)) (mkCheckpoint 12 (toy_root 12)), 24) /\
  (forall post, verify v_X DEFAULT_CONFIG (toy_R toy_atts) <> Ok post) /\
  sane_spec v_X toy_cs /\ reader_fits v_X (toy_R v_atts).
Proof.
  split; [vm_compute; reflexivity|]. split; [intros post; vm_compute; discriminate|].
  split; [exact toy_sane|]. exact toy_fits.
Qed.

(** The toy chain of HostToy.v with this shuffle: a 32-bit host, a 64-bit guest. *)
Definition w_X : Externals := with_swap_or_not g_X 64.
Definition w_atts : list Attestation :=
  [g_att 24 g_l1 [true; true; true; true] [1; 2; 3; 4]; g_att 25 g_l1 [true; true; true; true] [0; 5; 6; 7];
   g_att 26 g_l2 [true; true; true; true] [2; 3; 5; 6]; g_att 27 g_l2 [false; true; true; true] [0; 1; 4]].
Definition w_collect (c : Checkpoint) : outcome HostError (ConsensusState * list Attestation) :=
  if checkpoint_eqb c (finalized g_trusted) then Ok (g_trusted, w_atts) else Err BlockMissing.
Definition w_R : Reader := host_reader toy_cs h_deserialize h_quiet h_headers g_trusted w_atts.
Lemma w_sound : sound_data w_X toy_cs h_deserialize h_headers (finalized g_trusted) (h_hstate 18 g_vs) [root (finalized h_post)].
Proof. destruct h_sound. constructor; assumption. Qed.
Lemma w_collect_ok c cst atts : w_collect c = Ok (cst, atts) -> finalized cst = c.
Proof.
  unfold w_collect. destruct (checkpoint_eqb c (finalized g_trusted)) eqn:E; [|discriminate].
  apply checkpoint_eqb_eq in E. intros [= <- <-]. now rewrite E.
Qed.
Lemma w_prepare gi :
  to_input w_X toy_cs h_deserialize h_quiet h_headers (finalized g_trusted) w_R (recorded_reads w_X toy_cs w_atts h_post) = Ok gi ->
  prepare_input w_X toy_cs h_deserialize h_quiet h_headers r_blocks w_collect DEFAULT_CONFIG 9
  = Ok (gi, gi_consensus_state gi, h_post, 24).
Proof.
  intros Ei. unfold prepare_input, state_at_epoch_boundary, state_at_epoch.
  change (h_quiet (start_slot toy_cs 9)) with (@Ok ProviderError _ (h_hstate 18 g_vs)). cbn [bind].
  change (hd_slot (hs_header (h_hstate 18 g_vs)) =? st_slot (hs_state (h_hstate 18 g_vs))) with true. cbn [bind map_err].
  change (r_blocks (hd_slot (hs_header (h_hstate 18 g_vs)))) with (@Ok N _ (Some g_header)). cbn [bind map_err ok_or].
  assert (E : bytes_eqb (hd_state_root g_header) (tree_root w_X (state_tree (sha256 w_X) (hs_state (h_hstate 18 g_vs)))) = true) by (vm_compute; reflexivity).
  rewrite E. cbn [assert_ bind].
  assert (E' : tree_root w_X (header_tree (sha256 w_X) g_header) = root (finalized g_trusted)) by (vm_compute; reflexivity).
  rewrite E'. change (mkCheckpoint 9 (root (finalized g_trusted))) with (finalized g_trusted).
  change (w_collect (finalized g_trusted)) with (@Ok HostError _ (g_trusted, w_atts)). cbn [bind map_err].
  assert (V : verify w_X DEFAULT_CONFIG (preflight_reader (finalized g_trusted) w_R) = Ok (h_post, 24)) by (vm_compute; reflexivity).
  unfold w_R in V. rewrite V. cbn [bind map_err]. unfold w_R in Ei. rewrite Ei. reflexivity.
Qed.
Example C68_commits_nonvacuous : exists gi,
  prepare_input w_X toy_cs h_deserialize h_quiet h_headers r_blocks w_collect DEFAULT_CONFIG 9 = Ok (gi, g_trusted, h_post, 24) /\
  entry (with_swap_or_not (on_platform g_X 64) 64) (fun _ => Some gi) toy_cs DEFAULT_CONFIG [] = Ok (journal_encode g_trusted h_post 24).
Proof.
  assert (T : target_epochs w_atts = target_epochs g_atts) by reflexivity.
  assert (Hc : checkpoint_state w_X toy_cs h_quiet (finalized g_trusted) = Ok (h_hstate 18 g_vs)).
  { unfold checkpoint_state, state_at_checkpoint, state_at_epoch_boundary, state_at_epoch.
    change (h_quiet (start_slot toy_cs (epoch (finalized g_trusted)))) with (@Ok ProviderError _ (h_hstate 18 g_vs)).
    cbn [bind]. change (hd_slot (hs_header (h_hstate 18 g_vs)) =? st_slot (hs_state (h_hstate 18 g_vs))) with true. cbn [bind].
    assert (E : bytes_eqb (root (finalized g_trusted)) (boundary_root w_X (h_hstate 18 g_vs)) = true) by (vm_compute; reflexivity).
    rewrite E. reflexivity. }
  destruct (C52_host_builds_input w_X toy_cs h_deserialize h_quiet h_headers (finalized g_trusted) (h_hstate 18 g_vs) w_R h_active w_atts h_post g_trusted g_header12)
    as (gi & E1).
  - exact w_sound.
  - exact toy_sane.
  - exact Hc.
  - reflexivity.
  - reflexivity.
  - reflexivity.
  - exact h_active_ok.
  - exact h_match.
  - rewrite T, r_targets. intros e He. cbn [In] in He. repeat destruct He as [He|He]; try contradiction; subst e; (eexists; split; [reflexivity|vm_compute; discriminate]).
  - reflexivity.
  - vm_compute. reflexivity.
  - apply w_prepare in E1 as E3.
    destruct (to_input_reads w_X _ _ _ _ _ _ _ gi g_hash32 g_pk48 h_decodes E1) as (_ & _ & cst & _ & _ & _ & _ & _ & C1 & C2 & C3 & _).
    cbn [w_R host_reader rd_consensus_state rd_attestations] in C1, C2. injection C1 as C1. injection C2 as C2. rewrite C3, <- C1 in E3.
    exists gi. split; [exact E3|].
    eapply (C68_guest_commits_prediction g_X 64 toy_cs h_deserialize h_quiet h_headers r_blocks w_collect DEFAULT_CONFIG 9 gi g_trusted h_post 24);
      try rewrite <- C2; try rewrite T.
    + vm_compute. discriminate.
    + vm_compute. discriminate.
    + exact w_collect_ok.
    + exact E3.
    + exact Hc.
    + exact w_sound.
    + destruct (r_steady g_vs) as [S1 S2 S3 S4 S5]; [now right|]. constructor; assumption.
    + exact r_u64.
    + vm_compute. reflexivity.
    + vm_compute. discriminate.
    + reflexivity.
    + exact toy_sane.
    + repeat split; try (vm_compute; congruence). exists (2 ^ 48). reflexivity.
    + apply (r_fits 32). now left.
    + apply (r_fits 64). now right.
    + reflexivity.
    + vm_compute. reflexivity.
    + split; [discriminate|split; [discriminate|vm_compute; reflexivity]].
    + rewrite r_targets. intros e st' He E'. cbn [In] in He.
      repeat destruct He as [He|He]; try contradiction; subst e; injection E' as <-; apply exit_same.
Qed.

(** If the raw pivot were first cast to the platform's [usize], a 32-bit guest would shuffle
    differently from a 64-bit host. *)
Theorem C68_truncated_pivot_refuted : exists H (input : list N) rounds seed out32 out64, hash32 H /\
  swap_or_not H 32 32 input rounds seed = Some out32 /\ swap_or_not H 64 64 input rounds seed = Some out64 /\ out32 <> out64.
Proof.
  exists s_hash, (firstn 7 s_input), 3, s_seed. do 2 eexists. split; [intros x; unfold s_hash; now rewrite map_length, seq_length|].
  split; [vm_compute; reflexivity|]. split; [vm_compute; reflexivity|]. discriminate.
Qed.

Print Assumptions C68_result_iff.
Print Assumptions C68_permutes.
Print Assumptions C68_shuffled_index.
Print Assumptions C68_index_permutation.
Print Assumptions C68_platforms.
Print Assumptions C68_shuffle_permutes.
Print Assumptions C68_committee.
Print Assumptions C68_cache_iff.
Print Assumptions C68_signers.
Print Assumptions C68_guest_platform.
Print Assumptions C68_guest_commits_prediction.
Print Assumptions C68_truncated_pivot_refuted.
