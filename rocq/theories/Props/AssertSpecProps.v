(** C62, with the chain parameters of the two sources compared too. *)
From Coq Require Import List ZArith NArith Bool Lia.
From Verif.Model Require Import Base Types ConsensusState TreeHash Committee Verify AssertReader AssertStream.
From Verif.Spec Require Import VerifySpec HostInputSpec.
From Verif.Proof Require Import BaseLemmas ConsensusStateP VerifyP VerifyMoreP ReplayP AssertReaderP AssertStreamP.
From Verif.Props Require Import VerifyProps ReplayProps AssertReaderProps AssertStreamProps.
Import ListNotations.
Open Scope N_scope.

(** Two sets of chain parameters are the same: every parameter has the same value. *)
Record same_parameters (a b : ChainSpec) : Prop := {
  sp_fork_epoch : forall f, cs_fork_epoch a f = cs_fork_epoch b f;
  sp_fork_version : forall f, cs_fork_version a f = cs_fork_version b f;
  sp_far_future : far_future_epoch a = far_future_epoch b;
  sp_min_seed_lookahead : min_seed_lookahead a = min_seed_lookahead b;
  sp_max_seed_lookahead : max_seed_lookahead a = max_seed_lookahead b;
  sp_shuffle_round_count : shuffle_round_count a = shuffle_round_count b;
  sp_effective_balance_increment : effective_balance_increment a = effective_balance_increment b;
  sp_min_activation_balance : min_activation_balance a = min_activation_balance b;
  sp_min_churn : min_per_epoch_churn_limit_electra a = min_per_epoch_churn_limit_electra b;
  sp_churn_limit_quotient : churn_limit_quotient a = churn_limit_quotient b;
  sp_max_committees : max_committees_per_slot a = max_committees_per_slot b;
  sp_target_committee_size : target_committee_size a = target_committee_size b;
  sp_domain : domain_beacon_attester a = domain_beacon_attester b;
  sp_slots_per_epoch : slots_per_epoch a = slots_per_epoch b;
  sp_epochs_per_historical_vector : epochs_per_historical_vector a = epochs_per_historical_vector b }.

Lemma chain_spec_eqb_iff a b : chain_spec_eqb a b = true <-> same_parameters a b.
Proof.
  unfold chain_spec_eqb. rewrite !andb_true_iff, !N.eqb_eq, forallb_forall. split.
  - intros H. assert (F : forall f, In f (BaseFork :: forks_desc)) by (intros []; cbn; tauto).
    assert (G : forall f, cs_fork_epoch a f = cs_fork_epoch b f /\ cs_fork_version a f = cs_fork_version b f).
    { intros f. destruct H as [H _]. repeat destruct H as [H _]. specialize (H f (F f)). apply andb_true_iff in H as [H1 H2].
      apply bytes_eqb_eq in H2. split; [|exact H2]. revert H1. apply option_eqb_eq. exact N.eqb_eq. }
    constructor; try tauto; intros f; now destruct (G f).
  - intros [H1 H2 ? ? ? ? ? ? ? ? ? ? ? ? ?]. repeat split; auto. intros f _. rewrite H1, H2, bytes_eqb_refl.
    assert (option_eqb N.eqb (cs_fork_epoch b f) (cs_fork_epoch b f) = true) as -> by (apply (option_eqb_eq N.eqb N.eqb_eq); reflexivity).
    reflexivity.
Qed.

(** A run does not tell sources with the same parameters apart. *)
Definition with_spec (cs : ChainSpec) (R : Reader) : Reader :=
  mkReader cs (rd_genesis_validators_root R) (rd_fork R) (rd_active_validators R) (rd_randao_mix R) (rd_attestations R)
    (rd_consensus_state R) (rd_slot_for_block R).
Lemma fork_name_same a b e : (forall f, cs_fork_epoch a f = cs_fork_epoch b f) -> fork_name_at_epoch a e = fork_name_at_epoch b e.
Proof. intros H. unfold fork_name_at_epoch. induction forks_desc as [|f l IH]; [reflexivity|]. cbn [fork_name_from]. now rewrite H, IH. Qed.
Lemma bind_same {E A B} (x : outcome E A) (k1 k2 : A -> outcome E B) : (forall y, k1 y = k2 y) -> bind x k1 = bind x k2.
Proof. intros H. destruct x; cbn [bind]; auto. Qed.
Section Same.
  Variables (f1 f2 : ForkName -> option Epoch) (v1 v2 : ForkName -> Version) (a b c d e f g h i j k l m : N).
  Hypothesis Hf : forall x, f1 x = f2 x.
  Let c1 := mkChainSpec f1 v1 a b c d e f g h i j k l m.
  Let c2 := mkChainSpec f2 v2 a b c d e f g h i j k l m.
  Lemma attesting_loop_same X cc s bits cidx : forall off acc,
    attesting_loop X c1 cc s bits cidx off acc = attesting_loop X c2 cc s bits cidx off acc.
  Proof.
    induction cidx as [|x r IH]; intros off acc; [reflexivity|]. cbn [attesting_loop].
    change (get_beacon_committee X c1 cc s x) with (get_beacon_committee X c2 cc s x).
    destruct (assert_ _); cbn [bind]; auto. destruct (get_beacon_committee _ _ _ _ _) as [co|?|]; cbn [bind]; auto.
    destruct (committee_attesters _ _ _) as [vs|?|]; cbn [bind]; auto. destruct (assert_ _); cbn [bind]; auto.
  Qed.
  Lemma process_attestation_same X R av cc att :
    process_attestation X (with_spec c1 R) av cc att = process_attestation X (with_spec c2 R) av cc att.
  Proof.
    unfold process_attestation. cbn [with_spec rd_chain_spec].
    assert (G : get_attesting_indices X c1 cc att = get_attesting_indices X c2 cc att).
    { unfold get_attesting_indices. now rewrite attesting_loop_same. }
    rewrite G. reflexivity.
  Qed.
  Lemma process_link_same X cfg R t st lg : process_link X cfg (with_spec c1 R) t st lg = process_link X cfg (with_spec c2 R) t st lg.
  Proof.
    destruct lg as [li atts]. unfold process_link. cbn [with_spec rd_chain_spec rd_active_validators].
    assert (V : validate_link cfg c1 t li = validate_link cfg c2 t li).
    { unfold validate_link. now rewrite (fork_name_same c1 c2) by exact Hf. }
    rewrite V. apply bind_same. intros _. apply bind_same. intros _. apply bind_same. intros avl.
    change (compute_committees X (with_spec c1 R)) with (compute_committees X (with_spec c2 R)).
    apply bind_same. intros cc.
    assert (P : process_group X (with_spec c1 R) (bm_of_list avl) cc atts = process_group X (with_spec c2 R) (bm_of_list avl) cc atts).
    { unfold process_group. generalize (@nil ValidatorIndex). induction atts as [|x r IH]; intros acc; [reflexivity|]. cbn [fold_outcome].
      rewrite process_attestation_same. destruct (process_attestation _ _ _ _ _); cbn [bind]; auto. }
    rewrite P. reflexivity.
  Qed.
  Lemma verify_same_fields X cfg R : verify X cfg (with_spec c1 R) = verify X cfg (with_spec c2 R).
  Proof.
    unfold verify. cbn [with_spec rd_consensus_state rd_attestations rd_slot_for_block].
    destruct (unwrap _) as [st0|?|]; cbn [bind]; auto. destruct (unwrap _) as [atts|?|]; cbn [bind]; auto.
    assert (F : forall gs st, fold_outcome (process_link X cfg (with_spec c1 R) (finalized st0)) gs st =
                              fold_outcome (process_link X cfg (with_spec c2 R) (finalized st0)) gs st).
    { induction gs as [|x r IH]; intros st; [reflexivity|]. cbn [fold_outcome]. rewrite process_link_same.
      destruct (process_link _ _ _ _ _ _); cbn [bind]; auto. }
    rewrite F. reflexivity.
  Qed.
End Same.
Lemma verify_same_parameters X cfg R cs : same_parameters (rd_chain_spec R) cs -> verify X cfg (with_spec cs R) = verify X cfg R.
Proof.
  destruct R as [[f1 v1 a b c d e f g h i j k l m] r1 r2 r3 r4 r5 r6 r7], cs as [f2 v2 a2 b2 c2 d2 e2 f3 g2 h2 i2 j2 k2 l2 m2].
  intros [H1 _ H3 H4 H5 H6 H7 H8 H9 H10 H11 H12 H13 H14 H15]. cbn in H1, H3, H4, H5, H6, H7, H8, H9, H10, H11, H12, H13, H14, H15. subst.
  symmetry. apply (verify_same_fields f1 f2 v1 v2 a2 b2 c2 d2 e2 f3 g2 h2 i2 j2 k2 l2 m2 H1 X cfg
    (mkReader (mkChainSpec f1 v1 a2 b2 c2 d2 e2 f3 g2 h2 i2 j2 k2 l2 m2) r1 r2 r3 r4 r5 r6 r7)).
Qed.

(** The comparison accepts exactly when the parameters are the same, the first source's run accepts and
    the sources agree on all that it reads. *)
Theorem C62_asserted_exact : forall X cfg others A B post slot,
  sane_spec X (rd_chain_spec A) ->
  verify_asserted X cfg others A B = Ok (post, slot) <->
  others = true /\ same_parameters (rd_chain_spec A) (rd_chain_spec B) /\
  verify X cfg A = Ok (post, slot) /\ exists atts, agreeing A B atts (root (finalized post)).
Proof.
  intros X cfg others A B post slot Sane. rewrite <- (C62_streamed_exact X cfg A B post slot Sane), <- chain_spec_eqb_iff.
  unfold verify_asserted. destruct others, (chain_spec_eqb _ _); cbn [andb assert_ bind]; intuition congruence.
Qed.
(** Sources with different parameters are never accepted and never give an error: the run panics. *)
Theorem C62_different_parameters : forall X cfg others A B,
  others = false \/ ~ same_parameters (rd_chain_spec A) (rd_chain_spec B) -> verify_asserted X cfg others A B = Panic.
Proof.
  intros X cfg others A B H. unfold verify_asserted. rewrite <- chain_spec_eqb_iff in H.
  destruct others, (chain_spec_eqb _ _); cbn [andb assert_ bind]; try reflexivity. destruct H; [discriminate|contradiction].
Qed.
(** If the second source also reports the same effective balances, it alone leads to the same result. *)
Theorem C62_asserted_second : forall X cfg others A B post slot,
  sane_spec X (rd_chain_spec A) ->
  (forall atts e la lb, rd_attestations A = Ok atts -> In e (target_epochs atts) ->
     rd_active_validators A e = Ok la -> rd_active_validators B e = Ok lb ->
     map (fun v => effective_balance (snd v)) la = map (fun v => effective_balance (snd v)) lb) ->
  verify_asserted X cfg others A B = Ok (post, slot) -> verify X cfg B = Ok (post, slot).
Proof.
  intros X cfg others A B post slot Sane Hbal V.
  apply C62_asserted_exact in V as (_ & Hs & V & atts & Hg); [|exact Sane].
  rewrite <- (verify_same_parameters X cfg B (rd_chain_spec A)).
  - apply (C62_second_accepts X cfg A (with_spec (rd_chain_spec A) B) post slot Sane eq_refl Hbal).
    apply (C62_transparent X cfg A (with_spec (rd_chain_spec A) B) atts post slot Sane); [|exact V].
    destruct Hg. constructor; assumption.
  - destruct Hs. constructor; auto; intros; symmetry; auto.
Qed.
(** Every error is an error of the first source's own run. *)
Theorem C62_asserted_error_is_first : forall X cfg others A B e,
  verify_asserted X cfg others A B = Err e -> verify X cfg A = Err e.
Proof.
  intros X cfg others A B e. unfold verify_asserted. destruct (others && _); cbn [assert_ bind]; [|discriminate].
  apply C62_streamed_error_is_first.
Qed.

(** Cases. *)
Example C62_asserted_nonvacuous : verify_asserted toy_X DEFAULT_CONFIG true (toy_R toy_atts) a_exits = Ok (a_post, 24).
Proof.
  unfold verify_asserted. assert (chain_spec_eqb (rd_chain_spec (toy_R toy_atts)) (rd_chain_spec a_exits) = true) as -> by (vm_compute; reflexivity).
  exact C62_streamed_nonvacuous.
Qed.
Example C62_asserted_second_nonvacuous : verify toy_X DEFAULT_CONFIG a_exits = Ok (a_post, 24).
Proof.
  apply (C62_asserted_second toy_X DEFAULT_CONFIG true (toy_R toy_atts)); [exact toy_sane| |exact C62_asserted_nonvacuous].
  intros atts e la lb _ _ H1 H2. injection H1 as <-. injection H2 as <-. vm_compute. reflexivity.
Qed.
(** Sources that differ only in when Fulu begins: far later than the run. *)
Definition later_fulu : ChainSpec :=
  mkChainSpec (fun f => match f with Fulu => Some 5000 | _ => cs_fork_epoch toy_cs f end) (cs_fork_version toy_cs)
    (far_future_epoch toy_cs) (min_seed_lookahead toy_cs) (max_seed_lookahead toy_cs) (shuffle_round_count toy_cs)
    (effective_balance_increment toy_cs) (min_activation_balance toy_cs) (min_per_epoch_churn_limit_electra toy_cs)
    (churn_limit_quotient toy_cs) (max_committees_per_slot toy_cs) (target_committee_size toy_cs) (domain_beacon_attester toy_cs)
    (slots_per_epoch toy_cs) (epochs_per_historical_vector toy_cs).
Example C62_different_parameters_nonvacuous :
  verify toy_X DEFAULT_CONFIG (with_spec later_fulu a_exits) = Ok (a_post, 24) /\
  ~ same_parameters (rd_chain_spec (toy_R toy_atts)) (rd_chain_spec (with_spec later_fulu a_exits)) /\
  verify_asserted toy_X DEFAULT_CONFIG true (toy_R toy_atts) (with_spec later_fulu a_exits) = Panic.
Proof.
  assert (N : ~ same_parameters (rd_chain_spec (toy_R toy_atts)) (rd_chain_spec (with_spec later_fulu a_exits))).
  { intros H. pose proof (sp_fork_epoch _ _ H Fulu) as E. vm_compute in E. discriminate. }
  split; [vm_compute; reflexivity|]. split; [exact N|]. apply C62_different_parameters. auto.
Qed.

Print Assumptions C62_asserted_exact.
Print Assumptions C62_different_parameters.
Print Assumptions C62_asserted_second.
Print Assumptions C62_asserted_error_is_first.
