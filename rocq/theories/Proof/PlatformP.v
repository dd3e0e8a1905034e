(** Verification on two platforms. *)
From Coq Require Import List NArith Bool Lia Permutation.
From Verif.Model Require Import Base Types ConsensusState Committee Verify Networks.
From Verif.Spec Require Import Committees VerifySpec HostInputSpec.
From Verif.Proof Require Import CommitteeP VerifyMoreP BaseLemmas VerifyP.
Import ListNotations.
Open Scope N_scope.

Lemma bind_same {E A B} (m : outcome E A) (k1 k2 : A -> outcome E B) : (forall x, m = Ok x -> k1 x = k2 x) -> bind m k1 = bind m k2.
Proof. intros H. destruct m; cbn [bind]; auto. Qed.
Lemma fold_same {E A B} (k1 k2 : A -> B -> outcome E A) : forall l a, (forall a b, In b l -> k1 a b = k2 a b) -> fold_outcome k1 l a = fold_outcome k2 l a.
Proof.
  induction l as [|x l IH]; intros a H; [reflexivity|]. cbn [fold_outcome]. rewrite (H a x) by now left. apply bind_same. intros y _. apply IH. intros a' b Hb. apply H. now right.
Qed.

Section Two.
  Variables (X : Externals) (b : N).
  Notation Y := (on_platform X b).

  Lemma committee_platform cs c e sh cps slot idx : cache_ok X cs c e sh cps -> cache_ok Y cs c e sh cps ->
    get_beacon_committee Y cs c slot idx = get_beacon_committee X cs c slot idx.
  Proof.
    intros H1 H2. pose proof H1 as (I & _ & Hc & _).
    destruct (N.eq_dec (epoch_of_slot cs slot) e) as [He|He].
    - destruct (N.lt_ge_cases idx cps) as [Hi|Hi].
      + rewrite (get_beacon_committee_ok Y cs c e sh cps slot idx), (get_beacon_committee_ok X cs c e sh cps slot idx); auto.
      + rewrite (proj2 (get_beacon_committee_err Y cs c e slot idx I)), (proj2 (get_beacon_committee_err X cs c e slot idx I)) by (rewrite ?Hc; auto). reflexivity.
    - rewrite (proj1 (get_beacon_committee_err Y cs c e slot idx I) He), (proj1 (get_beacon_committee_err X cs c e slot idx I) He). reflexivity.
  Qed.
  Lemma loop_platform cs c e sh cps slot bits : cache_ok X cs c e sh cps -> cache_ok Y cs c e sh cps ->
    forall idx off acc, attesting_loop Y cs c slot bits idx off acc = attesting_loop X cs c slot bits idx off acc.
  Proof.
    intros H1 H2. induction idx as [|i idx IH]; intros off acc; [reflexivity|]. cbn [attesting_loop].
    rewrite (committee_platform cs c e sh cps) by assumption.
    do 4 (apply bind_same; intros ? _). apply IH.
  Qed.
  Lemma group_platform R av c e sh cps atts : cache_ok X (rd_chain_spec R) c e sh cps -> cache_ok Y (rd_chain_spec R) c e sh cps ->
    process_group Y R av c atts = process_group X R av c atts.
  Proof.
    intros H1 H2. unfold process_group. apply fold_same. intros acc a _. apply f_equal2; [|reflexivity].
    unfold process_attestation. do 3 (apply bind_same; intros ? _). apply f_equal2; [|reflexivity]. f_equal.
    unfold get_attesting_indices. now rewrite (loop_platform _ c e sh cps).
  Qed.
  Lemma seed_platform R e d : sane_spec X (rd_chain_spec R) -> sane_spec Y (rd_chain_spec R) -> get_seed Y R e d = get_seed X R e d.
  Proof.
    intros (_ & _ & S1 & _ & _ & D1) (_ & _ & _ & _ & _ & D2). unfold get_seed. do 3 (apply bind_same; intros ? _). apply f_equal2; [|reflexivity].
    unfold get_randao_mix, safe_rem, wrap_usize. destruct (N.eqb_spec (epochs_per_historical_vector (rd_chain_spec R)) 0); [contradiction|].
    rewrite !mod_divide_mod; auto; apply N.pow_nonzero; lia.
  Qed.
  Lemma max_bound l m : list_max l = Some m -> In m l.
  Proof.
    destruct l as [|x r]; [discriminate|]. cbn [list_max]. intros [= <-]. revert x. induction r as [|y r IH]; intros x; [now left|]. cbn [fold_left].
    destruct (IH (N.max x y)) as [E|H].
    - rewrite <- E. destruct (N.max_spec x y) as [[_ ->]|[_ ->]]; [right; now left|now left].
    - right. now right.
  Qed.
  Lemma link_platform cfg R trusted st l atts : sane_spec X (rd_chain_spec R) -> sane_spec Y (rd_chain_spec R) -> shuffle_permutes X ->
    (forall avl, rd_active_validators R (epoch (target l)) = Ok avl ->
       let av := bm_of_list avl in let n := N.of_nat (length av) in
       (forall i, In i (bm_keys av) -> i < usize_max X /\ i < usize_max Y) /\
       fits_platform X (slots_per_epoch (rd_chain_spec R)) (committee_count (rd_chain_spec R) n) n /\
       fits_platform Y (slots_per_epoch (rd_chain_spec R)) (committee_count (rd_chain_spec R) n) n) ->
    process_link Y cfg R trusted st (l, atts) = process_link X cfg R trusted st (l, atts).
  Proof.
    intros S1 S2 P F. unfold process_link. do 2 (apply bind_same; intros ? _). apply bind_same. intros avl Ha.
    destruct (rd_active_validators R (epoch (target l))) as [avl'| |] eqn:Ea; try discriminate. cbn [map_err] in Ha. injection Ha as <-.
    destruct (F avl' eq_refl) as (Fi & F1 & F2). cbv zeta in *. set (av := bm_of_list avl') in *.
    assert (C : compute_committees Y R av (epoch (target l)) = compute_committees X R av (epoch (target l))).
    { unfold compute_committees. rewrite seed_platform by assumption. do 2 (apply bind_same; intros ? _). f_equal.
      unfold cc_initialized. apply bind_same. intros _ _. apply bind_same. intros m Hm.
      assert (Lm : list_max (bm_keys av) = Some m) by (destruct (list_max (bm_keys av)); cbn [ok_or] in Hm; congruence).
      apply max_bound, Fi in Lm as [L1 L2]. cbn [on_platform shuffle_list]. apply bind_same. intros sh _.
      apply N.ltb_lt in L1, L2. now rewrite L1, L2. }
    rewrite C. apply bind_same. intros c Hc.
    assert (Ok_ : exists sh cps, cache_ok X (rd_chain_spec R) c (epoch (target l)) sh cps /\ cache_ok Y (rd_chain_spec R) c (epoch (target l)) sh cps).
    { unfold compute_committees in Hc. apply bind_ok in Hc as (seed & _ & Hc). apply bind_ok in Hc as (cps & Hcps & Hc). apply map_err_ok in Hc.
      unfold cc_initialized in Hc. apply bind_ok in Hc as (? & _ & Hc). apply bind_ok in Hc as (m & _ & Hc). apply bind_ok in Hc as (sh & Hsh & Hc).
      apply bind_ok in Hc as (? & _ & Hc). apply bind_ok in Hc as (pos & _ & Hc). injection Hc as <-. apply ok_or_ok in Hsh.
      pose proof (Permutation_length (P _ _ _ _ Hsh)) as Lsh.
      assert (Lk : length (bm_keys av) = length av) by (unfold bm_keys; apply map_length). rewrite Lk in *.
      assert (Ec : cps = committee_count (rd_chain_spec R) (N.of_nat (length av))).
      { unfold get_committee_count_per_slot, safe_div in Hcps. destruct (_ =? 0); [discriminate|]. cbn [bind] in Hcps. destruct (_ =? 0); [discriminate|].
        cbn [bind] in Hcps. injection Hcps as <-. unfold committee_count. reflexivity. }
      rewrite Ec. eexists sh, _. unfold cache_ok. cbn [initialized_epoch shuffling committees_per_slot cc_slots_per_epoch].
      rewrite <- Lsh. auto 10. }
    destruct Ok_ as (sh & cps & K1 & K2). rewrite (group_platform R av c _ sh cps atts K1 K2). reflexivity.
  Qed.
End Two.

Lemma chunk_member l g a : In g (chunk_by_link l) -> In a (snd g) -> In a l.
Proof.
  revert g. induction l as [|x l IH]; intros g Hg Ha; [destruct Hg|]. cbn [chunk_by_link] in Hg.
  destruct (chunk_by_link l) as [|[k gs] r].
  - destruct Hg as [<-|[]]. destruct Ha as [<-|[]]. now left.
  - destruct (link_eqb _ _).
    + destruct Hg as [<-|Hg]; [|right; apply (IH g); [now right|exact Ha]]. destruct Ha as [<-|Ha]; [now left|]. right. apply (IH (k, gs)); [now left|exact Ha].
    + destruct Hg as [<-|[<-|Hg]].
      * cbn in Ha. destruct Ha as [<-|[]]. now left.
      * right. apply (IH (k, gs)); [now left|exact Ha].
      * right. apply (IH g); [now right|exact Ha].
Qed.
Lemma chunk_head l g : In g (chunk_by_link l) -> exists a, In a (snd g) /\ att_link a = fst g.
Proof.
  revert g. induction l as [|x l IH]; intros g Hg; [destruct Hg|]. cbn [chunk_by_link] in Hg.
  destruct (chunk_by_link l) as [|[k gs] r].
  - destruct Hg as [<-|[]]. exists x. split; [now left|reflexivity].
  - destruct (link_eqb _ _) eqn:E.
    + destruct Hg as [<-|Hg]; [|apply IH; now right]. destruct (IH (k, gs) (or_introl eq_refl)) as (a & Ha & Hl). exists a. split; [now right|exact Hl].
    + destruct Hg as [<-|[<-|Hg]]; [exists x; split; [now left|reflexivity]| |]; apply IH; [now left|now right].
Qed.
Theorem verify_outcome_platform X b cfg R : sane_spec X (rd_chain_spec R) -> sane_spec (on_platform X b) (rd_chain_spec R) -> shuffle_permutes X ->
  (forall atts a avl, rd_attestations R = Ok atts -> In a atts -> rd_active_validators R (epoch (ad_target (att_data a))) = Ok avl ->
     let av := bm_of_list avl in let n := N.of_nat (length av) in
     (forall i, In i (bm_keys av) -> i < usize_max X /\ i < usize_max (on_platform X b)) /\
     fits_platform X (slots_per_epoch (rd_chain_spec R)) (committee_count (rd_chain_spec R) n) n /\
     fits_platform (on_platform X b) (slots_per_epoch (rd_chain_spec R)) (committee_count (rd_chain_spec R) n) n) ->
  verify (on_platform X b) cfg R = verify X cfg R.
Proof.
  intros S1 S2 P F. unfold verify. apply bind_same. intros st0 _. apply bind_same. intros atts Ha.
  assert (Ha' : rd_attestations R = Ok atts) by (destruct (rd_attestations R); cbn [unwrap] in Ha; congruence).
  apply f_equal2; [|reflexivity]. apply fold_same. intros st [l g] Hg. apply link_platform; auto. intros avl Hv.
  destruct (chunk_head _ _ Hg) as (a & Hin & El). pose proof (chunk_member _ _ _ Hg Hin) as Hat. cbn [fst] in El.
  apply (F atts a avl Ha' Hat). rewrite <- El in Hv. exact Hv.
Qed.
