(** What verification depends on, and the same verification on another platform. *)
From Coq Require Import List Arith ZArith NArith Bool Lia Sorted Permutation.
From Coq Require Import ZifyBool ZifyNat ZifyN.
From Verif.Model Require Import Base Types ConsensusState Committee Verify.
From Verif.Spec Require Import FFG Committees VerifySpec HostInputSpec.
From Verif.Proof Require Import BaseLemmas CommitteeP VerifyP VerifyMoreP.
Import ListNotations.
Open Scope N_scope.
Notation length := List.length.

(** ** Erasing what is not used *)
Definition voter (v : ValidatorInfo) : ValidatorInfo :=
  mkValidatorInfo (pubkey v) (effective_balance v) (slashed v) 0 0 0.
Definition on_snd (kv : N * ValidatorInfo) : N * ValidatorInfo := (fst kv, voter (snd kv)).
Definition map_ok {E A B} (f : A -> B) (o : outcome E A) : outcome E B :=
  match o with Ok a => Ok (f a) | Err e => Err e | Panic => Panic end.
Definition voters (R : Reader) : Reader := {|
  rd_chain_spec := rd_chain_spec R;
  rd_genesis_validators_root := rd_genesis_validators_root R;
  rd_fork := rd_fork R;
  rd_active_validators := fun e => map_ok (map on_snd) (rd_active_validators R e);
  rd_randao_mix := rd_randao_mix R;
  rd_attestations := rd_attestations R;
  rd_consensus_state := rd_consensus_state R;
  rd_slot_for_block := rd_slot_for_block R |}.

Lemma bm_insert_map (m : bmap ValidatorInfo) k v :
  bm_insert (map on_snd m) k (voter v) = map on_snd (bm_insert m k v).
Proof.
  induction m as [|[k' v'] m IH]; [reflexivity|]. cbn [map on_snd fst snd bm_insert].
  destruct (k <? k'); [reflexivity|]. destruct (k =? k'); [reflexivity|]. cbn [map on_snd fst snd]. now rewrite IH.
Qed.
Lemma bm_of_list_map (l : list (N * ValidatorInfo)) : bm_of_list (map on_snd l) = map on_snd (bm_of_list l).
Proof.
  unfold bm_of_list. change (@nil (N * ValidatorInfo)) with (map on_snd []) at 1. generalize (@nil (N * ValidatorInfo)).
  induction l as [|[k v] l IH]; intros m; [reflexivity|]. cbn [map fold_left on_snd fst snd]. rewrite bm_insert_map. apply IH.
Qed.
Lemma bm_get_on_snd (m : bmap ValidatorInfo) k : bm_get (map on_snd m) k = option_map voter (bm_get m k).
Proof. induction m as [|[k' v] m IH]; [reflexivity|]. cbn [map on_snd fst snd bm_get]. destruct (k =? k'); auto. Qed.
Lemma bm_keys_on_snd (m : bmap ValidatorInfo) : bm_keys (map on_snd m) = bm_keys m.
Proof. unfold bm_keys. rewrite map_map. reflexivity. Qed.
Lemma map_outcome_voter {E} (f g : N -> outcome E ValidatorInfo) l : (forall i, g i = map_ok voter (f i)) ->
  map_outcome g l = map_ok (map voter) (map_outcome f l).
Proof.
  intros Hg. induction l as [|i l IH]; [reflexivity|]. cbn [map_outcome]. rewrite Hg, IH.
  destruct (f i); cbn [map_ok bind]; [|reflexivity|reflexivity]. destruct (map_outcome f l); reflexivity.
Qed.
Lemma sum_voter {E} (f : ArithError -> E) l : forall acc, sum_balances f (map voter l) acc = sum_balances f l acc.
Proof.
  unfold sum_balances. induction l as [|v l IH]; intros acc; [reflexivity|]. cbn [map fold_outcome voter effective_balance].
  destruct (safe_add f acc (effective_balance v)); cbn [bind]; auto.
Qed.
Lemma total_voter {E} (f : ArithError -> E) cs l : get_total_balance f cs (map voter l) = get_total_balance f cs l.
Proof. unfold get_total_balance. now rewrite sum_voter. Qed.
Lemma filter_voter l : filter (fun v => negb (slashed v)) (map voter l) = map voter (filter (fun v => negb (slashed v)) l).
Proof. induction l as [|v l IH]; [reflexivity|]. cbn [map filter voter slashed]. destruct (negb (slashed v)); cbn [map]; now rewrite IH. Qed.
Lemma check_threshold_voter cfg cs av P : check_threshold cfg cs (map on_snd av) P = check_threshold cfg cs av P.
Proof.
  unfold check_threshold.
  rewrite (map_outcome_voter (fun i => expect (bm_get av i))).
  2:{ intros i. rewrite bm_get_on_snd. destruct (bm_get av i); reflexivity. }
  destruct (map_outcome _ P) as [vs| |]; cbn [map_ok bind]; [|reflexivity|reflexivity].
  rewrite filter_voter, total_voter.
  replace (bm_values (map on_snd av)) with (map voter (bm_values av)) by (unfold bm_values; rewrite !map_map; reflexivity).
  now rewrite total_voter.
Qed.
Lemma process_attestation_voter X R av c a : process_attestation X (voters R) (map on_snd av) c a = process_attestation X R av c a.
Proof.
  unfold process_attestation. cbn [voters rd_chain_spec].
  destruct (assert_ (att_electra a)); cbn [bind]; auto. destruct (assert_ (_ =? _)); cbn [bind]; auto.
  destruct (assert_ (ad_index _ =? 0)); cbn [bind]; auto.
  destruct (get_attesting_indices _ _ _ _) as [idxs| |]; cbn [map_err bind]; auto.
  rewrite (map_outcome_voter (fun i => ok_or (bm_get av i) (MissingValidatorInfo i))).
  2:{ intros i. rewrite bm_get_on_snd. destruct (bm_get av i); reflexivity. }
  destruct (map_outcome _ idxs) as [vs| |]; cbn [map_ok bind]; auto.
  assert (E : is_valid_indexed_attestation X (voters R) (map voter vs) (att_data a) (att_signature a)
            = is_valid_indexed_attestation X R vs (att_data a) (att_signature a)).
  { unfold is_valid_indexed_attestation. destruct vs as [|v vs]; [reflexivity|]. cbn [map]. cbn [voters rd_fork rd_genesis_validators_root rd_chain_spec].
    destruct (rd_fork R _); cbn [map_err bind]; auto. destruct (rd_genesis_validators_root R); cbn [map_err bind]; auto.
    rewrite map_map. reflexivity. }
  now rewrite E.
Qed.
Lemma process_group_voter X R av c atts : process_group X (voters R) (map on_snd av) c atts = process_group X R av c atts.
Proof.
  unfold process_group. generalize (@nil ValidatorIndex). induction atts as [|a atts IH]; intros acc; [reflexivity|].
  cbn [fold_outcome]. rewrite process_attestation_voter. destruct (process_attestation X R av c a); cbn [bind]; auto.
Qed.
Lemma process_link_voter X cfg R trusted st g : process_link X cfg (voters R) trusted st g = process_link X cfg R trusted st g.
Proof.
  destruct g as [l atts]. unfold process_link. change (rd_chain_spec (voters R)) with (rd_chain_spec R).
  destruct (ensure _ _); cbn [bind]; auto. destruct (validate_link _ _ _ _); cbn [bind]; auto.
  change (rd_active_validators (voters R) (epoch (target l))) with (map_ok (map on_snd) (rd_active_validators R (epoch (target l)))).
  destruct (rd_active_validators R _) as [avl| |]; cbn [map_ok map_err bind]; auto.
  rewrite bm_of_list_map.
  assert (E : compute_committees X (voters R) (map on_snd (bm_of_list avl)) (epoch (target l)) = compute_committees X R (bm_of_list avl) (epoch (target l))).
  { unfold compute_committees. rewrite bm_keys_on_snd. reflexivity. }
  rewrite E. destruct (compute_committees X R _ _) as [c| |]; cbn [bind]; auto.
  rewrite process_group_voter. destruct (process_group X R _ c atts) as [P| |]; cbn [bind]; auto.
  now rewrite check_threshold_voter.
Qed.
Theorem verify_voters X cfg R : verify X cfg (voters R) = verify X cfg R.
Proof.
  unfold verify. cbn [voters rd_consensus_state rd_attestations rd_slot_for_block].
  destruct (rd_consensus_state R) as [st0| |]; cbn [unwrap bind]; auto.
  destruct (rd_attestations R) as [atts| |]; cbn [unwrap bind]; auto.
  assert (E : forall gs st, fold_outcome (process_link X cfg (voters R) (finalized st0)) gs st = fold_outcome (process_link X cfg R (finalized st0)) gs st).
  { induction gs as [|g gs IH]; intros st; [reflexivity|]. cbn [fold_outcome]. rewrite process_link_voter.
    destruct (process_link X cfg R (finalized st0) st g); cbn [bind]; auto. }
  fold (voters R). now rewrite E.
Qed.

(** ** Only the epochs of the targets are read *)
Definition only (es : list Epoch) (R : Reader) : Reader := {|
  rd_chain_spec := rd_chain_spec R;
  rd_genesis_validators_root := rd_genesis_validators_root R;
  rd_fork := rd_fork R;
  rd_active_validators := fun e => if existsb (N.eqb e) es then rd_active_validators R e else Err RE_Config;
  rd_randao_mix := rd_randao_mix R;
  rd_attestations := rd_attestations R;
  rd_consensus_state := rd_consensus_state R;
  rd_slot_for_block := rd_slot_for_block R |}.
Lemma verify_only X cfg R atts : sane_spec X (rd_chain_spec R) -> rd_attestations R = Ok atts ->
  verify X cfg (only (target_epochs atts) R) = verify X cfg R.
Proof.
  intros S Ha. apply verify_replay; auto. cbn [only rd_attestations]. intros atts' a Ha' Hi. rewrite Ha in Ha'. injection Ha' as <-.
  constructor; auto. cbn [only rd_active_validators].
  assert (E : existsb (N.eqb (epoch (ad_target (att_data a)))) (target_epochs atts) = true).
  { apply existsb_exists. exists (epoch (ad_target (att_data a))). split; [|apply N.eqb_refl].
    unfold target_epochs. now apply (in_map (fun a => epoch (ad_target (att_data a)))). }
  now rewrite E.
Qed.

(** ** Another platform *)
Lemma evidence_platform X b cfg R1 R2 l atts :
  rd_chain_spec R1 = rd_chain_spec R2 -> rd_genesis_validators_root R1 = rd_genesis_validators_root R2 ->
  agree_at R1 R2 (epoch (target l)) ->
  (forall avl av, rd_active_validators R1 (epoch (target l)) = Ok avl -> active_set avl av ->
     Forall (fun v => fst v < 2 ^ b - 1) av /\
     fits_platform (on_platform X b) (slots_per_epoch (rd_chain_spec R1)) (committee_count (rd_chain_spec R1) (N.of_nat (length av))) (N.of_nat (length av))) ->
  shuffle_permutes X ->
  link_evidence X cfg R1 l atts -> link_evidence (on_platform X b) cfg R2 l atts.
Proof.
  intros Hcs Hg [A1 A2 A3] Hb Hp (f & gvr & avl & av & mix & sh & sets & P & E). cbv zeta in E.
  destruct E as (E1 & E2 & E3 & E4 & E5 & E6 & E7 & E8 & E9 & E10 & E11 & E12 & E13 & E14 & E15).
  destruct (Hb avl av E3 E4) as [B1 B2].
  pose proof (Permutation_length (Hp _ _ _ _ E9)) as Lsh. rewrite map_length in Lsh.
  rewrite Hcs in *. exists f, gvr, avl, av, mix, sh, sets, P. cbv zeta.
  rewrite <- A1, <- A2, <- A3, <- Hg. cbn [on_platform usize_bits shuffle_list sha256].
  do 9 (split; [assumption|]). split; [rewrite <- Lsh; exact B2|].
  split.
  { clear -E11. induction E11 as [|a s atts sets (Q1 & Q2 & Q3) F IH]; constructor; [|exact IH]. split; [exact Q1|]. split; [|exact Q3].
    destruct Q2; constructor; assumption. }
  split; [exact E12|]. split; [exact E13|]. split; assumption.
Qed.
Theorem verify_platform X b cfg R1 R2 atts post slot :
  sane_spec X (rd_chain_spec R1) -> sane_spec (on_platform X b) (rd_chain_spec R1) -> shuffle_permutes X ->
  rd_chain_spec R1 = rd_chain_spec R2 -> rd_genesis_validators_root R1 = rd_genesis_validators_root R2 ->
  rd_consensus_state R1 = rd_consensus_state R2 -> rd_attestations R1 = Ok atts -> rd_attestations R2 = Ok atts ->
  (forall e, In e (target_epochs atts) -> u64 e /\ agree_at R1 R2 e /\
     forall avl av, rd_active_validators R1 e = Ok avl -> active_set avl av ->
       let n := N.of_nat (length av) in
       Forall (fun v => fst v < 2 ^ b - 1) av /\
       fits_platform X (slots_per_epoch (rd_chain_spec R1)) (committee_count (rd_chain_spec R1) n) n /\
       fits_platform (on_platform X b) (slots_per_epoch (rd_chain_spec R1)) (committee_count (rd_chain_spec R1) n) n) ->
  rd_slot_for_block R2 (root (finalized post)) = Ok slot ->
  verify X cfg R1 = Ok (post, slot) -> verify (on_platform X b) cfg R2 = Ok (post, slot).
Proof.
  intros S1 S2 Hp Hcs Hg Hst Ha1 Ha2 He Hsl E.
  rewrite <- (verify_only X cfg R1 atts S1 Ha1) in E.
  assert (Hu : forall atts' a, Ok (E := ReaderError) atts = Ok atts' -> In a atts' -> In (epoch (ad_target (att_data a))) (target_epochs atts)).
  { intros atts' a H1 H2. injection H1 as <-. unfold target_epochs. now apply (in_map (fun a => epoch (ad_target (att_data a)))). }
  apply verify_exact in E; auto.
  2:{ intros e avl av Hav Hact. cbn [only rd_active_validators rd_chain_spec] in *.
      destruct (existsb (N.eqb e) (target_epochs atts)) eqn:Ex.
      - apply existsb_exists in Ex as (e' & Hi & Ee). apply N.eqb_eq in Ee. subst e'. apply (He e Hi) with (avl := avl); auto.
      - discriminate. }
  2:{ cbn [only rd_attestations]. rewrite Ha1. intros atts' a H1 H2. apply He. eapply Hu; eauto. }
  destruct E as (st0 & atts0 & gs & E1 & E2 & E3 & E4 & E5 & E6). cbn [only rd_consensus_state rd_attestations rd_chain_spec] in *.
  rewrite Ha1 in E2. injection E2 as <-.
  assert (Tg : forall g, In g gs -> In (epoch (target (fst g))) (target_epochs atts)).
  { destruct E3 as (H3 & Hgo & _). intros g Hg'. rewrite Forall_forall in Hgo. destruct (Hgo g Hg') as [Hne Hk].
    destruct g as [l [|a r]]; [easy|]. cbn [fst snd] in *. rewrite <- (Hk a) by (now left). apply (Hu atts a eq_refl).
    rewrite <- H3. apply in_concat. exists (a :: r). split; [|now left]. apply in_map_iff. eexists. split; [|eassumption]. reflexivity. }
  eapply verify_complete; [rewrite <- Hcs; exact S2|exact Hp|rewrite <- Hst; exact E1|exact Ha2|exact E3| |exact E4| |exact Hsl].
  - apply Forall_forall. intros l Hl. apply in_map_iff in Hl as (g & <- & Hg'). apply He. now apply Tg.
  - apply Forall_forall. intros g Hg'. rewrite Forall_forall in E5. destruct (E5 g Hg') as [W L]. rewrite <- Hcs. split; [exact W|].
    destruct (He _ (Tg g Hg')) as (_ & A & B).
    assert (Ex : existsb (N.eqb (epoch (target (fst g)))) (target_epochs atts) = true).
    { apply existsb_exists. eexists. split; [apply (Tg g Hg')|apply N.eqb_refl]. }
    eapply (evidence_platform X b cfg (only (target_epochs atts) R1)); [exact Hcs|exact Hg| | |exact Hp|exact L].
    + destruct A as [A1 A2 A3]. constructor; auto. cbn [only rd_active_validators]. now rewrite Ex.
    + cbn [only rd_active_validators rd_chain_spec]. rewrite Ex. intros avl av H1 H2. destruct (B avl av H1 H2) as (B1 & _ & B2). auto.
Qed.
