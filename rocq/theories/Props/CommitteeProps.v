(** Properties C16-C19: committees and attesting indices. *)
From Coq Require Import List ZArith NArith Bool Lia Permutation.
From Coq Require Import ZifyBool ZifyNat ZifyN.
From Verif.Model Require Import Base Types Committee.
From Verif.Spec Require Import Committees.
From Verif.Proof Require Import BaseLemmas CommitteeP.
Import ListNotations.
Open Scope N_scope.

Lemma cache_ok_of_init X cs seed indices cps e c sh :
  cc_initialized X cs seed indices cps e = Ok c ->
  shuffle_list X indices (shuffle_round_count cs) seed = Some sh ->
  fits_platform X (slots_per_epoch cs) cps (N.of_nat (length sh)) ->
  cache_ok X cs c e sh cps.
Proof.
  intros Hi Hs Hf. apply cc_initialized_inv in Hi as (_ & _ & sh' & Hs' & H1 & H2 & H3 & H4 & _).
  rewrite Hs in Hs'. injection Hs' as <-. repeat split; auto; apply Hf.
Qed.

(** C16: the committees of all slots of the epoch, in order, spell the shuffled list. *)
Theorem C16_committees_partition X cs seed indices cps e c sh :
  cc_initialized X cs seed indices cps e = Ok c ->
  shuffle_list X indices (shuffle_round_count cs) seed = Some sh ->
  fits_platform X (slots_per_epoch cs) cps (N.of_nat (length sh)) ->
  exists css,
    map_outcome (get_beacon_committees_at_slot X cs c) (slots_of_epoch cs e) = Ok css /\
    length css = N.to_nat (slots_per_epoch cs) /\
    Forall (fun x => length x = N.to_nat cps) css /\
    concat (concat css) = sh.
Proof. intros. eapply epoch_committees, cache_ok_of_init; eauto. Qed.

(** C16: every active validator sits in exactly one committee of exactly one slot. *)
Theorem C16_unique_committee X cs seed indices cps e c :
  shuffle_permutes X -> NoDup indices ->
  cc_initialized X cs seed indices cps e = Ok c ->
  fits_platform X (slots_per_epoch cs) cps (N.of_nat (length indices)) ->
  (forall v, In v indices ->
     exists slot idx cm, epoch_of_slot cs slot = e /\ get_beacon_committee X cs c slot idx = Ok cm /\ In v cm /\
       forall slot' idx' cm', get_beacon_committee X cs c slot' idx' = Ok cm' -> In v cm' ->
         slot' = slot /\ idx' = idx) /\
  (forall slot idx cm, get_beacon_committee X cs c slot idx = Ok cm -> NoDup cm /\ incl cm indices).
Proof.
  intros Hp Hn Hi Hf. pose proof Hi as Hi'. apply cc_initialized_inv in Hi' as (_ & _ & sh & Hs & H1 & H2 & H3 & H4 & _).
  pose proof (Hp _ _ _ _ Hs) as Pm.
  assert (NoDup sh) by (eapply Permutation_NoDup; eauto).
  rewrite (Permutation_length Pm) in Hf.
  assert (Hok : cache_ok X cs c e sh cps) by (eapply cache_ok_of_init; eauto).
  split.
  - intros v Hv. eapply unique_committee; eauto. eapply Permutation_in; eauto.
  - intros slot idx cm G.
    destruct (get_beacon_committee_err X cs c e slot idx H1) as [E1 E2].
    destruct (N.eq_dec (epoch_of_slot cs slot) e) as [He'|]; [|rewrite E1 in G by auto; discriminate].
    destruct (N.lt_ge_cases idx cps) as [Hi'|]; [|rewrite E2 in G by lia; discriminate].
    erewrite get_beacon_committee_ok in G by eauto. injection G as <-. split; [now apply segment_NoDup|].
    intros v Hv. unfold committee_of in Hv. destruct Hf as (F1 & F2 & _).
    pose proof (N.mod_lt slot (slots_per_epoch cs)).
    apply segment_In in Hv as (p & Hp' & _); [|nia|nia].
    apply nth_error_In in Hp'. eapply Permutation_in; [|eassumption]. now symmetry.
Qed.

(** C16, limit of the 32-bit guest: with 2^21 active validators and mainnet's 32*64 committees the
    range arithmetic wraps and the last committee of the epoch cannot be computed at all. *)
Theorem C16_guest_32bit_refuted X cs seed indices e c :
  usize_bits X = 32 -> slots_per_epoch cs = 32 ->
  shuffle_permutes X -> N.of_nat (length indices) = 2 ^ 21 ->
  cc_initialized X cs seed indices 64 e = Ok c ->
  get_beacon_committee X cs c (32 * e + 31) 63 = Err UnableToShuffle.
Proof.
  intros Hu Hspe Hp Hl Hi. apply cc_initialized_inv in Hi as (_ & _ & sh & Hs & H1 & H2 & H3 & H4 & _).
  pose proof (Hp _ _ _ _ Hs) as Pm. apply Permutation_length in Pm.
  unfold get_beacon_committee, is_initialized_at. rewrite H1. cbn [ensure bind].
  assert (epoch_of_slot cs (32 * e + 31) = e) as -> by (unfold epoch_of_slot; rewrite Hspe; lia).
  rewrite N.eqb_refl. cbn [ensure bind]. rewrite H3. change (63 <? 64) with true. cbn [ensure bind].
  unfold compute_committee_index_in_epoch, compute_committee, compute_committee_range_in_epoch, epoch_committee_count, wrap_usize.
  rewrite Hu, H2, H3, H4, Hspe. rewrite <- Pm, Hl.
  assert ((32 * e + 31) mod 2 ^ 32 mod 32 = 31) as -> by lia.
  reflexivity.
Qed.

(** C17. *)
Theorem C17_shuffled_position X cs seed indices cps e c :
  shuffle_permutes X -> NoDup indices ->
  cc_initialized X cs seed indices cps e = Ok c ->
  exists sh, shuffle_list X indices (shuffle_round_count cs) seed = Some sh /\
    (forall v p, shuffled_position c v = Some p <-> nth_error sh (N.to_nat p) = Some v) /\
    (forall v, shuffled_position c v = None <-> ~ In v indices).
Proof.
  intros Hp Hn Hi. pose proof Hi as Hi'. apply cc_initialized_inv in Hi' as (_ & _ & sh & Hs & _ & H2 & _).
  pose proof (Hp _ _ _ _ Hs) as Pm.
  assert (Hn' : NoDup sh) by (eapply Permutation_NoDup; eauto).
  pose proof (shuffled_position_iff _ _ _ _ _ _ _ Hi) as Hpos. rewrite H2 in Hpos. specialize (Hpos Hn').
  exists sh. split; [auto|]. split; [auto|]. intros v. split.
  - intros Hnone Hin. eapply Permutation_in in Hin; eauto. apply In_nth_error in Hin as [p Hin].
    assert (shuffled_position c v = Some (N.of_nat p)) by (apply Hpos; now rewrite Nat2N.id). congruence.
  - intros Hnin. destruct (shuffled_position c v) as [p|] eqn:E; auto. apply Hpos in E. apply nth_error_In in E.
    exfalso. apply Hnin. eapply Permutation_in; [|eassumption]. now symmetry.
Qed.

(** C18: a lookup succeeds exactly inside the epoch and below the committee count, and then returns
    the specified committee; everything else is an error value, never a panic. *)
Theorem C18_lookup X cs seed indices cps e c sh :
  cc_initialized X cs seed indices cps e = Ok c ->
  shuffle_list X indices (shuffle_round_count cs) seed = Some sh ->
  fits_platform X (slots_per_epoch cs) cps (N.of_nat (length sh)) ->
  forall slot idx,
    (epoch_of_slot cs slot = e /\ idx < cps /\
     get_beacon_committee X cs c slot idx = Ok (committee_of sh (slots_per_epoch cs) cps slot idx)) \/
    (epoch_of_slot cs slot <> e /\
     get_beacon_committee X cs c slot idx = Err (NotInitializedAtEpoch (epoch_of_slot cs slot))) \/
    (epoch_of_slot cs slot = e /\ cps <= idx /\
     get_beacon_committee X cs c slot idx = Err (ShuffleIndexOutOfBounds idx)).
Proof.
  intros Hi Hs Hf slot idx. pose proof (cache_ok_of_init _ _ _ _ _ _ _ _ Hi Hs Hf) as Hok.
  pose proof Hok as (H1 & H2 & H3 & _).
  destruct (get_beacon_committee_err X cs c e slot idx H1) as [E1 E2].
  destruct (N.eq_dec (epoch_of_slot cs slot) e) as [He'|]; [|right; left; auto].
  destruct (N.lt_ge_cases idx cps) as [Hi'|].
  - left. repeat split; auto. eapply get_beacon_committee_ok; eauto.
  - right; right. rewrite H3 in E2. auto.
Qed.
(** C18: without any assumption on sizes a committee is never returned outside the epoch. *)
Theorem C18_confined X cs c slot idx cm :
  get_beacon_committee X cs c slot idx = Ok cm ->
  initialized_epoch c = Some (epoch_of_slot cs slot) /\ idx < committees_per_slot c /\ incl cm (shuffling c).
Proof.
  unfold get_beacon_committee, is_initialized_at. intros E. destruct (initialized_epoch c) as [e|]; [|discriminate].
  cbn [ensure bind] in E. destruct (N.eqb_spec (epoch_of_slot cs slot) e) as [->|]; [|discriminate]. cbn [ensure bind] in E.
  destruct (N.ltb_spec idx (committees_per_slot c)); [|discriminate]. cbn [ensure bind] in E.
  split; [auto|]. split; [auto|]. inv_ok. unfold compute_committee in *.
  destruct (compute_committee_range_in_epoch _ _ _ _) as [[a b]|]; [|discriminate].
  destruct (a <=? b); [|discriminate].
  match goal with H : slice _ _ _ = Some _ |- _ => apply slice_some in H as [_ ->] end.
  intros v Hv. rewrite <- (firstn_skipn (N.to_nat a) (shuffling c)). apply in_app_iff. right.
  rewrite <- (firstn_skipn (N.to_nat (b - a)) (skipn (N.to_nat a) (shuffling c))). apply in_app_iff. auto.
Qed.
(** C18: building a cache without validators or with zero committees per slot fails. *)
Theorem C18_initialization_errors X cs seed indices cps e :
  cps = 0 \/ indices = [] -> exists err, cc_initialized X cs seed indices cps e = Err err.
Proof.
  unfold cc_initialized. intros [-> | ->]; [eexists; reflexivity|].
  destruct (0 <? cps); eexists; reflexivity.
Qed.
(** C18: and otherwise succeeds, for every shuffle and all indices that fit [usize]. *)
Theorem C18_initialization_total X cs seed indices cps e sh :
  shuffle_permutes X -> 0 < cps -> indices <> [] -> (forall v, In v indices -> v < usize_max X) ->
  shuffle_list X indices (shuffle_round_count cs) seed = Some sh ->
  exists c, cc_initialized X cs seed indices cps e = Ok c.
Proof.
  intros Hp Hc Hi Hb Hs. eapply cc_initialized_total; eauto. intros v Hv. eapply Permutation_in; [|eassumption].
  symmetry. eauto.
Qed.

(** C19. *)
Theorem C19_attesting_indices X cs seed indices cps e c sh a :
  cc_initialized X cs seed indices cps e = Ok c ->
  shuffle_list X indices (shuffle_round_count cs) seed = Some sh ->
  fits_platform X (slots_per_epoch cs) cps (N.of_nat (length sh)) ->
  epoch_of_slot cs (ad_slot (att_data a)) = e ->
  forall acc, get_attesting_indices X cs c a = Ok acc <->
    bits_well_formed sh (slots_per_epoch cs) cps a /\ bs_sorted acc /\
    forall x, In x acc <-> In x (attesters_of sh (slots_per_epoch cs) cps a).
Proof. intros. eapply get_attesting_indices_spec; eauto. eapply cache_ok_of_init; eauto. Qed.

Theorem C19_attesting_count X cs seed indices cps e c a acc :
  shuffle_permutes X -> NoDup indices ->
  cc_initialized X cs seed indices cps e = Ok c ->
  fits_platform X (slots_per_epoch cs) cps (N.of_nat (length indices)) ->
  epoch_of_slot cs (ad_slot (att_data a)) = e ->
  get_attesting_indices X cs c a = Ok acc -> length acc = popcount (aggregation_bits a).
Proof.
  intros Hp Hn Hi Hf He G. pose proof Hi as Hi'. apply cc_initialized_inv in Hi' as (_ & _ & sh & Hs & _).
  pose proof (Hp _ _ _ _ Hs) as Pm. rewrite (Permutation_length Pm) in Hf.
  apply (C19_attesting_indices X cs seed indices cps e c sh a Hi Hs Hf He) in G as ((Hb & parts & SP & FT) & Hs' & Hin).
  destruct Hf as (F1 & F2 & _).
  pose proof (split_bits_length _ _ _ SP) as Hl.
  rewrite <- (select_length (aggregation_bits a) _ Hl). unfold attesters_of in Hin.
  apply bs_sorted_same_length; auto. apply select_NoDup. apply committees_NoDup; auto.
  - eapply Permutation_NoDup; eauto.
  - apply set_positions_NoDup.
Qed.

(** ** Non-vacuity *)
Definition ex_cs : ChainSpec :=
  mkChainSpec (fun _ => Some 0) (fun _ => []) (2 ^ 64 - 1) 1 4 90 1000000000 32000000000 128000000000 65536
              64 128 1 4 65536.
(** The toy shuffle reverses the list. *)
Definition ex_X : Externals := mkExternals (fun b => b) (fun k => k) (fun _ _ _ => true) (fun l _ _ => Some (rev l)) 32.
Lemma ex_X_permutes : shuffle_permutes ex_X.
Proof. intros l r s sh E. injection E as <-. apply Permutation_rev. Qed.
Definition ex_indices : list N := [3; 5; 6; 8; 9; 12; 15; 16; 20; 21].
Definition ex_cache : CommitteeCache :=
  match cc_initialized ex_X ex_cs [] ex_indices 2 7 with Ok c => c | _ => mkCC None [] [] 0 0 end.
Example ex_cache_ok : cc_initialized ex_X ex_cs [] ex_indices 2 7 = Ok ex_cache.
Proof. reflexivity. Qed.
Example ex_fits : fits_platform ex_X (slots_per_epoch ex_cs) 2 (N.of_nat (length ex_indices)).
Proof. repeat split; try reflexivity. exists (2 ^ 30). reflexivity. Qed.
Example ex_committee : get_beacon_committee ex_X ex_cs ex_cache 29 1 = Ok [15; 12] /\
  get_beacon_committee ex_X ex_cs ex_cache 32 1 = Err (NotInitializedAtEpoch 8) /\
  shuffled_position ex_cache 12 = Some 4 /\ shuffled_position ex_cache 4 = None.
Proof. repeat split; vm_compute; reflexivity. Qed.
Definition ex_att : Attestation :=
  mkAttestation true [true; true; false] [true; true] (mkAttestationData 29 0 [] (mkCheckpoint 6 []) (mkCheckpoint 7 [])) [].
Example ex_attesting : get_attesting_indices ex_X ex_cs ex_cache ex_att = Ok [15; 16].
Proof. reflexivity. Qed.
(** Mainnet's constants. *)
Definition main_cs : ChainSpec :=
  mkChainSpec (fun _ => Some 0) (fun _ => []) (2 ^ 64 - 1) 1 4 90 1000000000 32000000000 128000000000 65536
              64 128 1 32 65536.
(** A validator set for which the 32-bit limit theorem applies. *)
Example ex_limit : exists c, cc_initialized ex_X main_cs [] (N_seq (2 ^ 21)) 64 0 = Ok c /\
  N.of_nat (length (N_seq (2 ^ 21))) = 2 ^ 21.
Proof.
  assert (N.of_nat (length (N_seq (2 ^ 21))) = 2 ^ 21) as L by (rewrite N_seq_length; apply N2Nat.id).
  assert (exists c, cc_initialized ex_X main_cs [] (N_seq (2 ^ 21)) 64 0 = Ok c) as [c Hc].
  { apply (C18_initialization_total ex_X main_cs [] (N_seq (2 ^ 21)) 64 0 (rev (N_seq (2 ^ 21)))).
    - exact ex_X_permutes. - reflexivity.
    - intros E. rewrite E in L. discriminate.
    - intros v Hv. apply in_N_seq in Hv. unfold usize_max. cbn [usize_bits ex_X]. lia.
    - reflexivity. }
  eauto.
Qed.

Print Assumptions C16_committees_partition.
Print Assumptions C16_unique_committee.
Print Assumptions C16_guest_32bit_refuted.
Print Assumptions C17_shuffled_position.
Print Assumptions C18_lookup.
Print Assumptions C18_confined.
Print Assumptions C18_initialization_errors.
Print Assumptions C18_initialization_total.
Print Assumptions C19_attesting_indices.
Print Assumptions C19_attesting_count.
