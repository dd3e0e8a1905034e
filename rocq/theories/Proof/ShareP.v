(** What [verify] does with a link whose votes are valid, by the balance behind them (C89). *)
From Coq Require Import List Arith NArith Bool Lia Sorted Permutation.
From Coq Require Import ZifyBool ZifyNat ZifyN.
From Verif.Model Require Import Base Types Committee ConsensusState Verify.
From Verif.Spec Require Import FFG Committees VerifySpec.
From Verif.Proof Require Import BaseLemmas VerifyP.
Import ListNotations.
Open Scope N_scope.

(** [link_evidence] without the threshold: [T] is the active balance, [V] the balance of the unslashed voters. *)
Definition link_shares (X : Externals) (R : Reader) (l : Link) (atts : list Attestation) (T V : N) : Prop :=
  let cs := rd_chain_spec R in
  let e := epoch (target l) in
  exists f gvr avl av mix sh sets P,
    let cps := committee_count cs (N.of_nat (length av)) in
    rd_fork R e = Ok f /\
    rd_genesis_validators_root R = Ok gvr /\
    rd_active_validators R e = Ok avl /\
    active_set avl av /\ av <> [] /\ Forall (fun v => fst v < 2 ^ usize_bits X - 1) av /\
    e + epochs_per_historical_vector cs < 2 ^ 64 /\
    rd_randao_mix R e (seed_epoch_index cs e) = Ok (Some mix) /\
    shuffle_list X (map fst av) (shuffle_round_count cs)
      (sha256 X (le_bytes 4 (domain_beacon_attester cs) ++ le_bytes 8 e ++ mix)) = Some sh /\
    fits_platform X (slots_per_epoch cs) cps (N.of_nat (length sh)) /\
    Forall2 (fun a signers =>
      bits_well_formed sh (slots_per_epoch cs) cps a /\
      aggregate_ok X cs f gvr av l a signers /\
      StronglySorted N.lt (map fst signers) /\
      forall i, In i (map fst signers) <-> In i (attesters_of sh (slots_per_epoch cs) cps a)) atts sets /\
    union_of sets P /\
    (T = balance_of cs av /\ V = balance_of cs (unslashed P)) /\
    2 * balance_of cs av < 2 ^ 64 /\ 3 * balance_of cs (unslashed P) < 2 ^ 64.

Lemma shares_evidence X cfg R l atts T V : link_shares X R l atts T V ->
  T * justification_threshold_factor cfg <= V * justification_threshold_quotient cfg -> 2 * T <= 3 * V ->
  link_evidence X cfg R l atts.
Proof.
  intros (f & gvr & avl & av & mix & sh & sets & P & H1 & H2 & H3 & H4 & H5 & H6 & H7 & H8 & H9 & H10 & H11 & H12 & [-> ->] & H14 & H15) Q1 Q2.
  exists f, gvr, avl, av, mix, sh, sets, P. repeat (split; [assumption|]). split; [split; assumption|]. now split.
Qed.

Lemma process_link_weak X cfg R trusted st l atts T V :
  sane_spec X (rd_chain_spec R) -> shuffle_permutes X -> atts <> [] ->
  finalized st = trusted -> within_bounds cfg (rd_chain_spec R) trusted l ->
  link_shares X R l atts T V ->
  V * justification_threshold_quotient cfg < T * justification_threshold_factor cfg -> justification_threshold_quotient cfg <> 0 ->
  process_link X cfg R trusted st (l, atts)
  = Err (ThresholdNotMet V (wrap64 (T * justification_threshold_factor cfg / justification_threshold_quotient cfg))).
Proof.
  intros Sane Hp Hne Hfin Hb Hev Hw Hq. unfold process_link.
  rewrite Hfin, checkpoint_eqb_refl. cbn [ensure bind].
  rewrite (proj2 (validate_link_ok cfg _ trusted l tt) Hb). cbn [bind].
  destruct Hev as (f & gvr & avl & av & mix & sh & sets & P & Hf & Hg & Hav & Hact & Hnav & Hbd & He & Hm & Hsh & Hfits & F & HU & [-> ->] & Hbal & Hbal').
  rewrite Hav. cbn [map_err bind]. pose proof (active_set_unique _ _ Hact) as Eav.
  assert (bm_sorted av) as Hs by (rewrite Eav; apply bm_of_list_sorted).
  rewrite <- Eav.
  destruct (compute_committees_complete X R av (epoch (target l)) mix sh) as (c & Hc & Hok); auto.
  rewrite Hc. cbn [bind].
  destruct (process_group_complete X R av c l _ sh _ f gvr atts sets Hs Hok eq_refl Hf Hg F [] ltac:(constructor)) as (P' & HP & HPs & Hin).
  unfold process_group. fold (step_att X R av c). rewrite HP. cbn [bind].
  assert (Forall2 (agg X R av l) atts sets) as F'.
  { clear -F Hf Hg. induction F as [|a s atts sets (_ & H & _)]; constructor; auto. exists f, gvr. auto. }
  assert (forall i, In i P' <-> exists s, In s sets /\ In i (map fst s)) as Hin'.
  { intros i. rewrite Hin. simpl. tauto. }
  pose proof (union_records X R av l atts sets P' Hs F' Hin') as HU'.
  pose proof (union_of_eq _ _ _ HU HU') as Pm.
  pose proof (balance_perm (rd_chain_spec R) _ _ Pm) as Eb. rewrite Eb in *.
  assert (Hi : forall i, In i P' -> In i (map fst av)).
  { intros i Hi. apply Hin' in Hi as (s & Hs1 & Hs2). clear -F' Hs1 Hs2. induction F'; [easy|].
    destruct Hs1 as [<-|]; auto. destruct H as (f & g & _ & _ & [_ _ _ _ _ (_ & _ & H) _]).
    apply in_map_iff in Hs2 as (z & <- & Hz). apply in_map. auto. }
  assert (E : check_threshold cfg (rd_chain_spec R) av P' = Err (ThresholdNotMet (balance_of (rd_chain_spec R) (unslashed (records av P')))
    (wrap64 (balance_of (rd_chain_spec R) av * justification_threshold_factor cfg / justification_threshold_quotient cfg)))).
  { assert (HW : weight (unslashed (records av P')) < 2 ^ 64) by (unfold balance_of in Hbal'; lia).
    assert (HT : weight av < 2 ^ 64) by (unfold balance_of in Hbal; lia).
    unfold check_threshold.
    rewrite (proj2 (lookups_expect_ok av P' _) (records_lookup_exists av P' Hs HPs Hi)). cbn [bind].
    rewrite filter_map_snd, bm_values_snd. fold (unslashed (records av P')).
    rewrite (proj2 (total_balance_ok VArith (rd_chain_spec R) (unslashed (records av P')) _) (conj eq_refl HW)).
    rewrite (proj2 (total_balance_ok VArith (rd_chain_spec R) av _) (conj eq_refl HT)). cbn [bind].
    destruct (N.leb_spec (balance_of (rd_chain_spec R) av * justification_threshold_factor cfg) (balance_of (rd_chain_spec R) (unslashed (records av P')) * justification_threshold_quotient cfg)); [lia|].
    destruct (N.eqb_spec (justification_threshold_quotient cfg) 0); [contradiction|]. reflexivity. }
  rewrite E. reflexivity.
Qed.

(** The first link that is too weak decides. *)
Lemma verify_weak X cfg R st0 atts before weak after stw T V :
  sane_spec X (rd_chain_spec R) -> shuffle_permutes X ->
  rd_consensus_state R = Ok st0 -> rd_attestations R = Ok atts -> groups atts (before ++ weak :: after) ->
  guarded_run (finalized st0) st0 (map fst before) stw -> finalized stw = finalized st0 ->
  Forall (fun g => u64 (epoch (target (fst g))) /\ within_bounds cfg (rd_chain_spec R) (finalized st0) (fst g) /\
                   link_evidence X cfg R (fst g) (snd g)) before ->
  within_bounds cfg (rd_chain_spec R) (finalized st0) (fst weak) -> link_shares X R (fst weak) (snd weak) T V ->
  V * justification_threshold_quotient cfg < T * justification_threshold_factor cfg -> justification_threshold_quotient cfg <> 0 ->
  verify X cfg R = Err (ThresholdNotMet V (wrap64 (T * justification_threshold_factor cfg / justification_threshold_quotient cfg))).
Proof.
  intros Sane Hp Hst Ha Hg Hr Hf Hb Hw1 Hw2 Hw3 Hq. unfold verify. rewrite Hst, Ha. cbn [unwrap bind].
  rewrite (groups_chunk _ _ Hg). destruct Hg as (_ & Hok & _). apply Forall_app in Hok as [Hok1 Hok2]. inversion Hok2 as [|? ? Hokw _]; subst.
  assert (L : fold_outcome (process_link X cfg R (finalized st0)) before st0 = Ok stw).
  { apply loop_complete; auto; (eapply Forall_impl; [|exact Hb]); cbn; tauto. }
  assert (A : forall gs st, fold_outcome (process_link X cfg R (finalized st0)) gs st = Ok stw ->
     fold_outcome (process_link X cfg R (finalized st0)) (gs ++ weak :: after) st
     = fold_outcome (process_link X cfg R (finalized st0)) (weak :: after) stw).
  { induction gs as [|g gs IH]; intros st E; cbn [fold_outcome app] in *; [now injection E as ->|].
    destruct (process_link X cfg R (finalized st0) st g) as [st1|x|]; cbn [bind] in *; try discriminate. auto. }
  rewrite (A before st0 L). cbn [fold_outcome]. destruct weak as [l g]. destruct Hokw as [Hne _]. cbn [fst snd] in *.
  erewrite process_link_weak; [reflexivity|..]; eauto.
Qed.
