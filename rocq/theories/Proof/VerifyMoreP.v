From Coq Require Import List ZArith NArith Bool Lia Sorted Permutation.
From Coq Require Import ZifyBool ZifyNat ZifyN.
From Verif.Model Require Import Base Types ConsensusState TreeHash Committee Verify.
From Verif.Spec Require Import FFG Committees Merkle Ssz VerifySpec.
From Verif.Proof Require Import BaseLemmas ConsensusStateP CommitteeP VerifyP.
Import ListNotations.
Open Scope N_scope.

(** ** Exact characterization *)
Lemma get_seed_inv X R e dom seed : sane_spec X (rd_chain_spec R) -> get_seed X R e dom = Ok seed ->
  e + epochs_per_historical_vector (rd_chain_spec R) < 2 ^ 64 /\
  exists mix, rd_randao_mix R e (seed_epoch_index (rd_chain_spec R) e) = Ok (Some mix) /\
    seed = sha256 X (dom ++ le_bytes 8 e ++ mix).
Proof.
  intros (S1 & S2 & S3 & S4 & S5 & S6) E. pose proof E as E'. apply get_seed_ok in E' as (mix & Hseed & Hm).
  unfold get_seed in E. apply bind_ok in E as (a & E & _). apply safe_add_ok in E as [_ E].
  split; [exact E|]. exists mix. split; auto. unfold seed_epoch_index.
  set (n := epochs_per_historical_vector (rd_chain_spec R)) in *. set (m := min_seed_lookahead (rd_chain_spec R)) in *.
  unfold wrap_usize in Hm. rewrite (mod_divide_mod (e + n - m - 1) n (2 ^ usize_bits X)) in Hm; auto.
  2:{ apply N.pow_nonzero. lia. }
  rewrite (N.mod_small ((e + n - m - 1) mod n) (2 ^ 32)) in Hm; auto. pose proof (N.mod_lt (e + n - m - 1) n S3). lia.
Qed.
Lemma committee_count_inv cs n c : get_committee_count_per_slot cs n = Ok c -> c = committee_count cs n.
Proof. unfold get_committee_count_per_slot. intros E. inv_ok. reflexivity. Qed.
Lemma compute_committees_inv X R av e c : compute_committees X R av e = Ok c ->
  let cs := rd_chain_spec R in
  let cps := committee_count cs (N.of_nat (length av)) in
  exists seed sh, get_seed X R e (le_bytes 4 (domain_beacon_attester cs)) = Ok seed /\
    shuffle_list X (map fst av) (shuffle_round_count cs) seed = Some sh /\ av <> [] /\
    Forall (fun v => fst v < 2 ^ usize_bits X - 1) av /\
    (fits_platform X (slots_per_epoch cs) cps (N.of_nat (length sh)) -> cache_ok X cs c e sh cps).
Proof.
  intros E. unfold compute_committees in E. inv_ok.
  match goal with H : get_committee_count_per_slot _ _ = Ok ?x |- _ => apply committee_count_inv in H; subst x end.
  rewrite bm_keys_fst, map_length in *.
  match goal with H : get_seed _ _ _ _ = Ok ?x |- _ => exists x; rename x into seed end.
  pose proof E as E'. apply cc_initialized_inv in E as (_ & Hne & sh & Hs & H1 & H2 & H3 & H4 & _).
  exists sh. split; auto. split; auto. split; [intros ->; easy|]. split.
  - unfold cc_initialized in E'. inv_ok.
    match goal with H : (_ <? usize_max X) = true |- _ => apply N.ltb_lt in H; rename H into Hm end.
    match goal with H : list_max _ = Some _ |- _ => apply list_max_spec in H as [_ Hmax] end.
    apply Forall_forall. intros v Hv. specialize (Hmax (fst v) (in_map fst _ _ Hv)). unfold usize_max in Hm. lia.
  - intros F. split; [assumption|]. split; [assumption|]. split; [assumption|]. split; assumption.
Qed.

Lemma process_link_evidence X cfg R trusted st l atts st' : sane_spec X (rd_chain_spec R) -> shuffle_permutes X ->
  reader_fits X R -> group_ok (l, atts) ->
  process_link X cfg R trusted st (l, atts) = Ok st' -> link_evidence X cfg R l atts.
Proof.
  intros Sane Hp Hfits [Hne Hl] E. unfold process_link in E. inv_ok. simpl in Hne, Hl.
  match goal with H : rd_active_validators _ _ = Ok ?x |- _ => rename H into Hav; rename x into avl end.
  match goal with H : process_group _ _ _ _ _ = Ok ?x |- _ => rename H into Hg; rename x into P end.
  match goal with H : check_threshold _ _ _ _ = Ok _ |- _ => rename H into Ht end.
  match goal with H : compute_committees _ _ _ _ = Ok ?x |- _ => rename H into Hc; rename x into c end.
  pose proof (active_set_of_list avl) as Hact. specialize (Hfits _ _ _ Hav Hact).
  set (av := bm_of_list avl) in *.
  assert (bm_sorted av) as Hs by apply bm_of_list_sorted.
  apply compute_committees_inv in Hc as (seed & sh & Hseed & Hsh & Hnav & Hbd & Hok).
  pose proof (Permutation_length (Hp _ _ _ _ Hsh)) as Lsh. rewrite map_length in Lsh.
  rewrite <- Lsh in Hok. specialize (Hok Hfits).
  apply get_seed_inv in Hseed as (He & mix & Hm & ->); auto.
  apply (process_group_sound X R av _ l atts Hs Hl [] P) in Hg; [|constructor].
  destruct Hg as [HP (sets & F0 & Hin)].
  assert (Forall2 (agg X R av l) atts sets) as F.
  { clear -F0. induction F0 as [|? ? ? ? [? _]]; constructor; auto. }
  assert (forall i, In i P <-> exists s, In s sets /\ In i (map fst s)) as Hin'.
  { intros i. rewrite Hin. simpl. tauto. }
  pose proof (union_records X R av l atts sets P Hs F Hin') as HU.
  apply check_threshold_ok in Ht as (Hen & _ & _ & B1 & B2); auto.
  2:{ intros i Hi. apply Hin' in Hi as (s & Hs1 & Hs2). clear -F Hs1 Hs2. induction F; [easy|].
      destruct Hs1 as [<-|]; auto. destruct H as (f & g & _ & _ & [_ _ _ _ _ (_ & _ & H) _]).
      apply in_map_iff in Hs2 as (z & <- & Hz). apply in_map. auto. }
  pose proof F as F'. apply agg_common in F' as (f & gvr & Hf & Hgv & F'); auto.
  exists f, gvr, avl, av, mix, sh, sets, (records av P). cbv zeta.
  split; [assumption|]. split; [assumption|]. split; [assumption|]. split; [assumption|]. split; [assumption|].
  split; [assumption|]. split; [assumption|]. split; [assumption|]. split; [assumption|].
  split; [rewrite <- Lsh; assumption|]. split; [|auto].
  clear -F0 F' Hok. induction F' as [|a s atts sets Ha F' IH]; inversion F0 as [|? ? ? ? [_ Hgai] F0']; subst; constructor; auto.
  assert (epoch_of_slot (rd_chain_spec R) (ad_slot (att_data a)) = epoch (target l)) as Eep by apply Ha.
  apply (get_attesting_indices_spec _ _ _ _ _ _ _ _ Hok Eep) in Hgai as (W & S & I). auto.
Qed.

Lemma loop_evidence X cfg R trusted gs : sane_spec X (rd_chain_spec R) -> shuffle_permutes X -> reader_fits X R ->
  Forall group_ok gs -> forall st st',
  fold_outcome (process_link X cfg R trusted) gs st = Ok st' ->
  Forall (fun g => link_evidence X cfg R (fst g) (snd g)) gs.
Proof.
  intros Sane Hp Hfits. induction 1 as [|[l atts] gs Hg Hgs IH]; intros st st' E; [constructor|].
  cbn [fold_outcome] in E. inv_ok. constructor; [|eauto]. eapply process_link_evidence; eauto.
Qed.
Theorem verify_exact X cfg R post slot :
  sane_spec X (rd_chain_spec R) -> shuffle_permutes X -> reader_fits X R ->
  (forall atts a, rd_attestations R = Ok atts -> In a atts -> u64 (epoch (ad_target (att_data a)))) ->
  verify X cfg R = Ok (post, slot) <->
  exists st0 atts gs,
    rd_consensus_state R = Ok st0 /\ rd_attestations R = Ok atts /\ groups atts gs /\
    accepted_chain st0 (map fst gs) post /\
    Forall (fun g => within_bounds cfg (rd_chain_spec R) (finalized st0) (fst g) /\
                     link_evidence X cfg R (fst g) (snd g)) gs /\
    rd_slot_for_block R (root (finalized post)) = Ok slot.
Proof.
  intros Sane Hp Hfits Hu. split.
  - intros E. pose proof E as E'. apply verify_sound in E as (st0 & atts & gs & H1 & H2 & H3 & H4 & H5 & H6).
    exists st0, atts, gs. repeat (split; auto).
    assert (Forall (fun g => link_evidence X cfg R (fst g) (snd g)) gs) as Hev.
    { unfold verify in E'. rewrite H1, H2 in E'. cbn [unwrap bind] in E'. rewrite (groups_chunk _ _ H3) in E'. inv_ok.
      eapply loop_evidence; eauto. apply H3. }
    apply Forall_forall. intros g Hg. rewrite Forall_forall in H5, Hev. split; [apply H5|apply Hev]; auto.
  - intros (st0 & atts & gs & H1 & H2 & H3 & H4 & H5 & H6). eapply verify_complete; eauto.
    apply Forall_forall. intros l Hl. apply in_map_iff in Hl as (g & <- & Hg).
    destruct H3 as (H3 & Hgo & _). rewrite Forall_forall in Hgo. destruct (Hgo g Hg) as [Hne Hk].
    destruct g as [l [|a r]]; [easy|]. simpl in *. rewrite <- (Hk a) by auto. simpl. eapply Hu; eauto.
    rewrite <- H3. apply in_concat. exists (a :: r). split; [|simpl; auto]. apply in_map_iff. eexists. split; [|eassumption]. reflexivity.
Qed.

(** ** Replay *)
Record agree_at (R1 R2 : Reader) (e : Epoch) : Prop := {
  ag_fork : rd_fork R1 e = rd_fork R2 e;
  ag_active : rd_active_validators R1 e = rd_active_validators R2 e;
  ag_randao : rd_randao_mix R1 e (seed_epoch_index (rd_chain_spec R1) e)
            = rd_randao_mix R2 e (seed_epoch_index (rd_chain_spec R1) e) }.
Section Replay.
  Variables (X : Externals) (cfg : Config) (R1 R2 : Reader).
  Hypothesis Hcs : rd_chain_spec R1 = rd_chain_spec R2.
  Hypothesis Hgvr : rd_genesis_validators_root R1 = rd_genesis_validators_root R2.
  Hypothesis Sane : sane_spec X (rd_chain_spec R1).
  Lemma get_seed_agree e dom : agree_at R1 R2 e -> get_seed X R1 e dom = get_seed X R2 e dom.
  Proof.
    intros [_ _ H]. unfold get_seed, get_randao_mix. rewrite <- Hcs. destruct Sane as (S1 & S2 & S3 & S4 & S5 & S6).
    unfold seed_epoch_index in H.
    set (n := epochs_per_historical_vector (rd_chain_spec R1)) in *. set (m := min_seed_lookahead (rd_chain_spec R1)) in *.
    destruct (safe_add RE_Arith e n) as [a| |] eqn:Ea; cbn [bind]; auto. apply safe_add_ok in Ea as [-> Ea].
    destruct (safe_sub RE_Arith (e + n) m) as [b| |] eqn:Eb; cbn [bind]; auto. apply safe_sub_ok in Eb as [-> Eb].
    destruct (safe_sub RE_Arith (e + n - m) 1) as [d| |] eqn:Ed; cbn [bind]; auto. apply safe_sub_ok in Ed as [-> Ed].
    rewrite (proj2 (safe_rem_ok RE_Arith _ n _) (conj eq_refl S3)). cbn [bind].
    unfold wrap_usize. rewrite (mod_divide_mod (e + n - m - 1) n (2 ^ usize_bits X)); auto.
    2:{ apply N.pow_nonzero. lia. }
    rewrite (N.mod_small ((e + n - m - 1) mod n) (2 ^ 32)). 2:{ pose proof (N.mod_lt (e + n - m - 1) n S3). lia. }
    now rewrite H.
  Qed.
  Lemma compute_committees_agree av e : agree_at R1 R2 e -> compute_committees X R1 av e = compute_committees X R2 av e.
  Proof. intros H. unfold compute_committees. rewrite <- Hcs, (get_seed_agree e _ H). reflexivity. Qed.
  Lemma process_attestation_agree av c a : agree_at R1 R2 (epoch (ad_target (att_data a))) ->
    process_attestation X R1 av c a = process_attestation X R2 av c a.
  Proof.
    intros [H _ _]. unfold process_attestation, is_valid_indexed_attestation. rewrite <- Hcs, H, Hgvr. reflexivity.
  Qed.
  Lemma process_group_agree av c atts : (forall a, In a atts -> agree_at R1 R2 (epoch (ad_target (att_data a)))) ->
    forall acc, fold_outcome (step_att X R1 av c) atts acc = fold_outcome (step_att X R2 av c) atts acc.
  Proof.
    induction atts as [|a atts IH]; intros H acc; cbn [fold_outcome]; auto. unfold step_att at 1 3.
    rewrite process_attestation_agree by (apply H; simpl; auto).
    destruct (process_attestation X R2 av c a); cbn [bind]; auto. apply IH. intros. apply H. simpl; auto.
  Qed.
  Lemma process_link_agree trusted st g : group_ok g -> agree_at R1 R2 (epoch (target (fst g))) ->
    process_link X cfg R1 trusted st g = process_link X cfg R2 trusted st g.
  Proof.
    destruct g as [l atts]. intros [Hne Hl] H. simpl in *. unfold process_link. rewrite <- Hcs.
    destruct (ensure _ _); cbn [bind]; auto. destruct (validate_link _ _ _ _); cbn [bind]; auto.
    rewrite (ag_active _ _ _ H). destruct (rd_active_validators R2 _) as [avl| |]; cbn [map_err bind]; auto.
    rewrite (compute_committees_agree _ _ H). destruct (compute_committees X R2 _ _) as [c| |]; cbn [bind]; auto.
    unfold process_group. fold (step_att X R1 (bm_of_list avl) c) (step_att X R2 (bm_of_list avl) c).
    rewrite process_group_agree; auto. intros z Hz. specialize (Hl z Hz). subst l. exact H.
  Qed.
  Lemma loop_agree trusted gs : Forall group_ok gs -> Forall (fun g => agree_at R1 R2 (epoch (target (fst g)))) gs ->
    forall st, fold_outcome (process_link X cfg R1 trusted) gs st = fold_outcome (process_link X cfg R2 trusted) gs st.
  Proof.
    induction 1 as [|g gs Hg Hgs IH]; intros Ha st; cbn [fold_outcome]; auto. inversion Ha; subst.
    rewrite process_link_agree by auto. destruct (process_link X cfg R2 trusted st g); cbn [bind]; auto.
  Qed.
End Replay.
Theorem verify_replay X cfg R1 R2 :
  sane_spec X (rd_chain_spec R1) ->
  rd_chain_spec R1 = rd_chain_spec R2 ->
  rd_genesis_validators_root R1 = rd_genesis_validators_root R2 ->
  rd_consensus_state R1 = rd_consensus_state R2 ->
  rd_attestations R1 = rd_attestations R2 ->
  (forall atts a, rd_attestations R1 = Ok atts -> In a atts -> agree_at R1 R2 (epoch (ad_target (att_data a)))) ->
  (forall st0 atts gs post, rd_consensus_state R1 = Ok st0 -> rd_attestations R1 = Ok atts -> groups atts gs ->
     ffg_run st0 (map fst gs) post ->
     rd_slot_for_block R1 (root (finalized post)) = rd_slot_for_block R2 (root (finalized post))) ->
  verify X cfg R1 = verify X cfg R2.
Proof.
  intros Sane Hcs Hg Hst Ha Hag Hslot. unfold verify. rewrite <- Hst, <- Ha.
  destruct (rd_consensus_state R1) as [st0| |] eqn:Es; cbn [unwrap bind]; auto.
  destruct (rd_attestations R1) as [atts| |] eqn:Ea; cbn [unwrap bind]; auto.
  pose proof (chunk_groups atts) as Hgs. pose proof Hgs as (Hc & Hgo & _).
  rewrite (loop_agree X cfg R1 R2); auto.
  - destruct (fold_outcome (process_link X cfg R2 (finalized st0)) (chunk_by_link atts) st0) as [st| |] eqn:El; cbn [bind]; auto.
    destruct (ensure _ _); cbn [bind]; auto. apply loop_sound in El as [Hr _]; auto.
    apply guarded_run_run in Hr. rewrite (Hslot st0 atts (chunk_by_link atts) st); auto.
  - apply Forall_forall. intros g Hin. rewrite Forall_forall in Hgo. destruct (Hgo g Hin) as [Hne Hk].
    destruct g as [l [|a r]]; [easy|]. simpl in *. rewrite <- (Hk a) by auto. simpl. apply (Hag atts); auto.
    rewrite <- Hc. apply in_concat. exists (a :: r). split; [|simpl; auto]. apply in_map_iff. eexists. split; [|eassumption]. reflexivity.
Qed.

(** ** Panics *)
Lemma bind_panic {E A B} (m : outcome E A) (k : A -> outcome E B) : bind m k = Panic ->
  m = Panic \/ exists a, m = Ok a /\ k a = Panic.
Proof. destruct m; simpl; intros; eauto; try discriminate; auto. Qed.
Lemma ensure_panic {E} c (e : E) : ensure c e = Panic -> False.
Proof. destruct c; discriminate. Qed.
Lemma map_err_panic {E F A} (f : E -> F) (m : outcome E A) : map_err f m = Panic -> m = Panic.
Proof. destruct m; simpl; congruence. Qed.
Lemma safe_panic {E} (f : ArithError -> E) a b :
  safe_add f a b <> Panic /\ safe_sub f a b <> Panic /\ safe_mul f a b <> Panic /\ safe_div f a b <> Panic /\ safe_rem f a b <> Panic.
Proof.
  unfold safe_add, safe_sub, safe_mul, safe_div, safe_rem.
  destruct (_ <? _), (_ <=? _), (_ * _ <? _), (_ =? 0); repeat split; discriminate.
Qed.
Lemma ok_or_panic {E A} (o : option A) (e : E) : ok_or o e = Panic -> False.
Proof. destruct o; discriminate. Qed.
Lemma map_outcome_panic {E A B} (f : A -> outcome E B) l : map_outcome f l = Panic -> exists x, In x l /\ f x = Panic.
Proof.
  induction l as [|a l IH]; simpl; [discriminate|]. intros H. apply bind_panic in H as [H|(b & _ & H)].
  - exists a. auto.
  - apply bind_panic in H as [H|(bs & _ & H)]; [|discriminate]. destruct (IH H) as (x & H1 & H2). eauto.
Qed.
Lemma total_balance_panic {E} (f : ArithError -> E) cs vs : get_total_balance f cs vs = Panic -> False.
Proof.
  unfold get_total_balance, sum_balances. intros H. apply bind_panic in H as [H|(t & _ & H)]; [|discriminate].
  revert H. generalize 0. induction vs as [|v vs IH]; simpl; [discriminate|]. intros acc H.
  apply bind_panic in H as [H|(t & _ & H)]; [|eauto]. now apply safe_panic in H.
Qed.
Lemma get_beacon_committee_panic X cs c s i : get_beacon_committee X cs c s i = Panic -> False.
Proof.
  unfold get_beacon_committee. intros H.
  repeat (apply bind_panic in H as [H|(? & _ & H)]; [now apply ensure_panic in H|]). now apply ok_or_panic in H.
Qed.
Lemma fill_positions_panic sh : forall i pos, fill_positions sh i pos = Panic -> False.
Proof.
  induction sh as [|v sh IH]; simpl; intros i pos H; [discriminate|].
  apply bind_panic in H as [H|(? & _ & H)]; [now apply ok_or_panic in H|eauto].
Qed.
Lemma cc_initialized_panic X cs seed idx cps e : cc_initialized X cs seed idx cps e = Panic -> False.
Proof.
  unfold cc_initialized. intros H.
  apply bind_panic in H as [H|(? & _ & H)]; [now apply ensure_panic in H|].
  apply bind_panic in H as [H|(? & _ & H)]; [now apply ok_or_panic in H|].
  apply bind_panic in H as [H|(? & _ & H)]; [now apply ok_or_panic in H|].
  apply bind_panic in H as [H|(? & _ & H)]; [now apply ensure_panic in H|].
  apply bind_panic in H as [H|(? & _ & H)]; [now apply fill_positions_panic in H|discriminate].
Qed.

Section Panics.
  Variables (X : Externals) (cfg : Config) (R : Reader) (atts0 : list Attestation).
  Hypothesis Hatts : rd_attestations R = Ok atts0.
  Hypothesis Hp : shuffle_permutes X.
  Hypothesis Hfits : reader_fits X R.
  Lemma get_seed_panic e dom : get_seed X R e dom = Panic -> panic_cause X cfg R.
  Proof.
    unfold get_seed, get_randao_mix. intros H.
    apply bind_panic in H as [H|(? & _ & H)]; [now apply safe_panic in H|].
    apply bind_panic in H as [H|(? & _ & H)]; [now apply safe_panic in H|].
    apply bind_panic in H as [H|(? & _ & H)]; [now apply safe_panic in H|].
    apply bind_panic in H as [H|(? & _ & H)]; [|discriminate].
    apply bind_panic in H as [H|(i & _ & H)]; [now apply safe_panic in H|].
    apply bind_panic in H as [H|(o & Ho & H)].
    - eapply pc_randao; eauto.
    - destruct o; [discriminate|]. eapply pc_randao; eauto.
  Qed.
  Lemma compute_committees_panic av e : compute_committees X R av e = Panic -> panic_cause X cfg R.
  Proof.
    unfold compute_committees. intros H.
    apply bind_panic in H as [H|(? & _ & H)]; [apply map_err_panic in H; now apply get_seed_panic in H|].
    apply bind_panic in H as [H|(? & _ & H)].
    - unfold get_committee_count_per_slot in H.
      apply bind_panic in H as [H|(? & _ & H)]; [now apply safe_panic in H|].
      apply bind_panic in H as [H|(? & _ & H)]; [now apply safe_panic in H|discriminate].
    - apply map_err_panic in H. now apply cc_initialized_panic in H.
  Qed.
  Lemma process_attestation_panic avl c a : In a atts0 ->
    rd_active_validators R (epoch (ad_target (att_data a))) = Ok avl ->
    compute_committees X R (bm_of_list avl) (epoch (ad_target (att_data a))) = Ok c ->
    process_attestation X R (bm_of_list avl) c a = Panic -> panic_cause X cfg R.
  Proof.
    intros Hin Hav Hc H. unfold process_attestation in H.
    apply bind_panic in H as [H|(? & _ & H)].
    { eapply pc_attestation; eauto. destruct (att_electra a); [discriminate|auto]. }
    apply bind_panic in H as [H|(u & Hep & H)].
    { eapply pc_attestation; eauto. right; left. unfold epoch_of_slot in H. intros E. rewrite E, N.eqb_refl in H. discriminate. }
    apply bind_panic in H as [H|(? & _ & H)].
    { eapply pc_attestation; eauto. right; right. intros E. rewrite E in H. discriminate. }
    apply bind_panic in H as [H|(idxs & Hidx & H)].
    { apply map_err_panic in H. apply assert_ok, N.eqb_eq in Hep.
      apply compute_committees_inv in Hc as (seed & sh & _ & Hsh & _ & _ & Hok).
      pose proof (active_set_of_list avl) as Hact. specialize (Hfits _ _ _ Hav Hact).
      pose proof (Permutation_length (Hp _ _ _ _ Hsh)) as Lsh. rewrite map_length in Lsh.
      rewrite <- Lsh in Hok. specialize (Hok Hfits).
      eapply pc_bits; eauto. intros W.
      assert (exists acc, get_attesting_indices X (rd_chain_spec R) c a = Ok acc) as [acc E]; [|congruence].
      exists (bs_extend [] (attesters_of sh (slots_per_epoch (rd_chain_spec R))
         (committee_count (rd_chain_spec R) (N.of_nat (length (bm_of_list avl)))) a)).
      eapply get_attesting_indices_spec; eauto. split; auto. split; [apply bs_extend_sorted; constructor|].
      intros z. rewrite bs_extend_In. simpl. tauto. }
    apply bind_panic in H as [H|(vs & _ & H)].
    { apply map_outcome_panic in H as (z & _ & H). now apply ok_or_panic in H. }
    apply bind_panic in H as [H|(b & _ & H)].
    - unfold is_valid_indexed_attestation in H. destruct vs; [discriminate|].
      apply bind_panic in H as [H|(? & _ & H)]; [apply map_err_panic in H; eapply pc_fork; eauto|].
      apply bind_panic in H as [H|(? & _ & H)]; [apply map_err_panic in H; eapply pc_gvr; eauto|discriminate].
    - apply bind_panic in H as [H|(? & _ & H)]; [now apply ensure_panic in H|discriminate].
  Qed.
  Lemma process_group_panic l avl c atts : incl atts atts0 -> (forall a, In a atts -> link_of a = l) ->
    rd_active_validators R (epoch (target l)) = Ok avl ->
    compute_committees X R (bm_of_list avl) (epoch (target l)) = Ok c ->
    forall acc, fold_outcome (step_att X R (bm_of_list avl) c) atts acc = Panic -> panic_cause X cfg R.
  Proof.
    intros Hi Hl Hav Hc. induction atts as [|a atts IH]; intros acc H; [discriminate|].
    cbn [fold_outcome] in H. unfold step_att in H at 1. apply bind_panic in H as [H|(? & _ & H)].
    - apply bind_panic in H as [H|(? & _ & H)]; [|discriminate].
      assert (target l = ad_target (att_data a)) as E by (rewrite <- (Hl a); simpl; auto).
      rewrite E in *. eapply process_attestation_panic; eauto. apply Hi. simpl; auto.
    - eapply IH; eauto.
      + intros z Hz. apply Hi. simpl; auto.
      + intros; apply Hl; simpl; auto.
  Qed.
  Lemma check_threshold_panic cs av P : bm_sorted av -> bs_sorted P -> (forall i, In i P -> In i (map fst av)) ->
    check_threshold cfg cs av P = Panic -> panic_cause X cfg R.
  Proof.
    intros Hs HP Hi H. unfold check_threshold in H.
    rewrite (proj2 (lookups_expect_ok av P _) (records_lookup_exists av P Hs HP Hi)) in H. cbn [bind] in H.
    apply bind_panic in H as [H|(w & _ & H)]; [now apply total_balance_panic in H|].
    apply bind_panic in H as [H|(t & _ & H)]; [now apply total_balance_panic in H|].
    apply bind_panic in H as [H|(u & Hu & H)].
    - destruct (_ <=? _); [discriminate|]. destruct (justification_threshold_quotient cfg =? 0) eqn:Eq; [|discriminate].
      apply pc_quotient. lia.
    - destruct (_ <=? _) eqn:El in Hu; [|destruct (_ =? 0); discriminate].
      apply bind_panic in H as [H|(t3 & H3 & H)]; [now apply safe_panic in H|].
      apply bind_panic in H as [H|(t2 & H2 & H)]; [now apply safe_panic in H|].
      apply safe_mul_ok in H3 as [-> _], H2 as [-> _].
      destruct (t * 2 <=? w * 3) eqn:E; [discriminate|]. apply N.leb_le in El. apply N.leb_gt in E.
      destruct (N.eq_dec (justification_threshold_quotient cfg) 0) as [Hq|Hq]; [now apply pc_quotient|].
      apply pc_threshold.
      set (f := justification_threshold_factor cfg) in *. set (q := justification_threshold_quotient cfg) in *.
      clearbody f q. clear -El E Hq. nia.
  Qed.
  Lemma process_link_panic trusted st l atts : incl atts atts0 -> group_ok (l, atts) -> valid_state st ->
    process_link X cfg R trusted st (l, atts) = Panic -> panic_cause X cfg R.
  Proof.
    intros Hi [Hne Hl] Hv H. simpl in Hne, Hl. unfold process_link in H.
    apply bind_panic in H as [H|(? & _ & H)]; [now apply ensure_panic in H|].
    apply bind_panic in H as [H|(? & _ & H)].
    { unfold validate_link in H. apply bind_panic in H as [H|(? & _ & H)]; now apply ensure_panic in H. }
    apply bind_panic in H as [H|(avl & Hav & H)]; [apply map_err_panic in H; eapply pc_active; eauto|].
    apply map_err_ok in Hav.
    apply bind_panic in H as [H|(c & Hc & H)]; [now apply compute_committees_panic in H|].
    apply bind_panic in H as [H|(P & Hg & H)]; [eapply process_group_panic; eauto|].
    apply bind_panic in H as [H|(u & Ht & H)].
    - assert (bm_sorted (bm_of_list avl)) as Hs by apply bm_of_list_sorted.
      apply (process_group_sound X R _ _ l atts Hs Hl [] P) in Hg; [|constructor].
      destruct Hg as [HP (sets & F & Hin)]. eapply check_threshold_panic; eauto.
      intros i Hi'. apply Hin in Hi' as [[]|(s & Hs1 & Hs2)]. clear -F Hs1 Hs2. induction F; [easy|].
      destruct Hs1 as [<-|]; auto. destruct H as [(f & g & _ & _ & [_ _ _ _ _ (_ & _ & H) _]) _].
      apply in_map_iff in Hs2 as (z & <- & Hz). apply in_map. auto.
    - apply bind_panic in H as [H|(st' & Hst & H)].
      + apply map_err_panic, state_transition_panic_iff in H. easy.
      + apply map_err_ok, state_transition_sound in Hst as [_ Hstep].
        apply bind_panic in H as [H|(? & _ & H)]; [|discriminate].
        rewrite (proj2 (is_valid_iff st')) in H; [discriminate|]. eapply ffg_step_valid; eauto.
  Qed.
  Lemma loop_panic trusted gs : Forall (fun g => incl (snd g) atts0) gs -> Forall group_ok gs -> forall st, valid_state st ->
    fold_outcome (process_link X cfg R trusted) gs st = Panic -> panic_cause X cfg R.
  Proof.
    intros Hi Hg. revert Hi. induction Hg as [|[l atts] gs Hgo Hgs IH]; intros Hi st Hv H; [discriminate|].
    inversion Hi; subst. cbn [fold_outcome] in H. apply bind_panic in H as [H|(st' & Hst & H)].
    - eapply process_link_panic; eauto.
    - apply process_link_sound in Hst as (_ & _ & _ & _ & Hstep); auto. apply (IH H3 st'); auto. eapply ffg_step_valid; eauto.
  Qed.
End Panics.
Theorem verify_panic X cfg R : shuffle_permutes X -> reader_fits X R ->
  verify X cfg R = Panic -> panic_cause X cfg R.
Proof.
  intros Hp Hf H. unfold verify in H.
  destruct (rd_consensus_state R) as [st0| |] eqn:Es; cbn [unwrap bind] in H;
    try (apply pc_state; rewrite Es; discriminate).
  destruct (rd_attestations R) as [atts| |] eqn:Ea; cbn [unwrap bind] in H;
    try (apply pc_attestations; rewrite Ea; discriminate).
  destruct (is_valid st0) eqn:Ev.
  2:{ eapply pc_invalid_state; eauto. now apply is_valid_false. }
  apply is_valid_iff in Ev. pose proof (chunk_groups atts) as (Hc & Hgo & _).
  apply bind_panic in H as [H|(st & _ & H)].
  - apply (loop_panic X cfg R atts Ea Hp Hf (finalized st0) (chunk_by_link atts)) with (st := st0); auto. apply Forall_forall. intros g Hg a Ha. rewrite <- Hc. apply in_concat.
    exists (snd g). split; auto. now apply in_map.
  - apply bind_panic in H as [H|(? & _ & H)]; [now apply ensure_panic in H|].
    apply bind_panic in H as [H|(? & _ & H)]; [apply map_err_panic in H; eapply pc_slot_lookup; eauto|discriminate].
Qed.
Theorem participants_found X R l atts avl c P : (forall a, In a atts -> link_of a = l) ->
  process_group X R (bm_of_list avl) c atts = Ok P -> forall i, In i P -> exists v, bm_get (bm_of_list avl) i = Some v.
Proof.
  intros Hl Hg i Hi. assert (bm_sorted (bm_of_list avl)) as Hs by apply bm_of_list_sorted.
  apply (process_group_sound X R _ _ l atts Hs Hl [] P) in Hg; [|constructor].
  destruct Hg as [HP (sets & F & Hin)].
  apply Hin in Hi as [[]|(s & Hs1 & Hs2)].
  destruct (bm_get (bm_of_list avl) i) eqn:E; eauto. exfalso. apply bm_get_None in E. apply E.
  clear -F Hs1 Hs2. induction F; [easy|].
  destruct Hs1 as [<-|]; auto. destruct H as [(f & g & _ & _ & [_ _ _ _ _ (_ & _ & H) _]) _].
  apply in_map_iff in Hs2 as (z & <- & Hz). apply in_map. auto.
Qed.

(** ** Total balance *)
Fixpoint sum_of (l : list N) : N := match l with [] => 0 | x :: r => x + sum_of r end.
Lemma sum_balances_iff {E} (f : ArithError -> E) vs : forall acc, acc < 2 ^ 64 ->
  sum_balances f vs acc = if acc + sum_of (map effective_balance vs) <? 2 ^ 64
                          then Ok (acc + sum_of (map effective_balance vs)) else Err (f Overflow).
Proof.
  unfold sum_balances. induction vs as [|v vs IH]; intros acc Ha; cbn [fold_outcome map sum_of].
  - rewrite N.add_0_r. destruct (N.ltb_spec acc (2 ^ 64)); [auto|lia].
  - unfold safe_add at 1. unfold two64. destruct (N.ltb_spec (acc + effective_balance v) (2 ^ 64)); cbn [bind].
    + rewrite IH by auto. rewrite N.add_assoc. reflexivity.
    + destruct (N.ltb_spec (acc + (effective_balance v + sum_of (map effective_balance vs))) (2 ^ 64)); [lia|auto].
Qed.
Lemma total_balance_eq {E} (f : ArithError -> E) cs vs :
  get_total_balance f cs vs = if sum_of (map effective_balance vs) <? 2 ^ 64
                              then Ok (N.max (sum_of (map effective_balance vs)) (effective_balance_increment cs)) else Err (f Overflow).
Proof.
  unfold get_total_balance. rewrite sum_balances_iff by reflexivity. rewrite N.add_0_l.
  destruct (_ <? _); reflexivity.
Qed.
Lemma sum_of_perm a b : Permutation a b -> sum_of a = sum_of b.
Proof. induction 1; simpl; lia. Qed.

(** ** Signing roots *)
(** All messages hashed when a signing root is computed. *)
Definition checkpoint_inputs (c : Checkpoint) : list bytes := [ssz_u64 (epoch c) ++ root c].
Definition signing_inputs (H : bytes -> bytes) (d : AttestationData) (dom : bytes) : list bytes :=
  let z := repeat Byte.x00 32 in
  let s := ssz_checkpoint H (ad_source d) in
  let t := ssz_checkpoint H (ad_target d) in
  let a := ssz_u64 (ad_slot d) ++ ssz_u64 (ad_index d) in
  let b := ad_beacon_block_root d ++ s in
  let c := t ++ z in
  checkpoint_inputs (ad_source d) ++ checkpoint_inputs (ad_target d) ++
  [a; b; c; z ++ z; H a ++ H b; H c ++ H (z ++ z); H (H a ++ H b) ++ H (H c ++ H (z ++ z));
   ssz_attestation_data H d ++ dom].
Definition wf_data (d : AttestationData) : Prop :=
  ad_slot d < 2 ^ 64 /\ ad_index d < 2 ^ 64 /\ length (ad_beacon_block_root d) = 32%nat /\ wf_checkpoint (ad_source d) /\ wf_checkpoint (ad_target d).
Lemma ssz_u64_inj x y : x < 2 ^ 64 -> y < 2 ^ 64 -> ssz_u64 x = ssz_u64 y -> x = y.
Proof.
  intros Hx Hy E. unfold ssz_u64, chunk in E. apply app_inj_length in E as [E _]; [|now rewrite !le_bytes_length].
  apply le_bytes_inj in E; auto; rewrite two64_256; auto.
Qed.
Lemma ssz_u64_length x : length (ssz_u64 x) = 32%nat.
Proof. unfold ssz_u64, chunk. now rewrite app_length, le_bytes_length, repeat_length. Qed.
Theorem signing_root_injective H d1 d2 dom1 dom2 : hash32 H -> wf_data d1 -> wf_data d2 ->
  injective_on H (signing_inputs H d1 dom1 ++ signing_inputs H d2 dom2) ->
  attestation_signing_root H d1 dom1 = attestation_signing_root H d2 dom2 -> d1 = d2 /\ dom1 = dom2.
Proof.
  intros H32 W1 W2 Inj E.
  assert (K : forall a b, In a (signing_inputs H d1 dom1) -> In b (signing_inputs H d2 dom2) -> H a = H b -> a = b).
  { intros a b Ha Hb. apply Inj; apply in_app_iff; auto. }
  clear Inj. destruct W1 as (S1 & I1 & B1 & Src1 & T1), W2 as (S2 & I2 & B2 & Src2 & T2).
  destruct d1 as [s1 i1 b1 c1 t1], d2 as [s2 i2 b2 c2 t2]. cbn [ad_slot ad_index ad_beacon_block_root ad_source ad_target] in *.
  unfold signing_inputs, checkpoint_inputs in K. cbn [ad_slot ad_index ad_beacon_block_root ad_source ad_target app] in K.
  set (z := repeat Byte.x00 32) in *.
  set (A1 := ssz_u64 s1 ++ ssz_u64 i1) in *. set (A2 := ssz_u64 s2 ++ ssz_u64 i2) in *.
  set (D1 := mkAttestationData s1 i1 b1 c1 t1) in *. set (D2 := mkAttestationData s2 i2 b2 c2 t2) in *.
  set (P1 := b1 ++ ssz_checkpoint H c1) in *. set (P2 := b2 ++ ssz_checkpoint H c2) in *.
  set (Q1 := ssz_checkpoint H t1 ++ z) in *. set (Q2 := ssz_checkpoint H t2 ++ z) in *.
  assert (ssz_attestation_data H D1 = H (H (H A1 ++ H P1) ++ H (H Q1 ++ H (z ++ z)))) as R1 by reflexivity.
  assert (ssz_attestation_data H D2 = H (H (H A2 ++ H P2) ++ H (H Q2 ++ H (z ++ z)))) as R2 by reflexivity.
  assert (attestation_signing_root H D1 dom1 = H (ssz_attestation_data H D1 ++ dom1)) as S1' by reflexivity.
  assert (attestation_signing_root H D2 dom2 = H (ssz_attestation_data H D2 ++ dom2)) as S2' by reflexivity.
  rewrite S1', S2' in E. apply K in E; [|simpl; auto 20|simpl; auto 20].
  assert (forall a b c d, H a ++ c = H b ++ d -> H a = H b /\ c = d) as Sp.
  { intros a b c d HE. apply app_inj_length in HE; auto. now rewrite !H32. }
  rewrite R1, R2 in E. apply Sp in E as [E ->]. split; auto.
  apply K in E; [|simpl; auto 20|simpl; auto 20]. apply Sp in E as [Ea Eb].
  apply K in Ea; [|simpl; auto 20|simpl; auto 20]. apply Sp in Ea as [Ea1 Ea2].
  apply K in Eb; [|simpl; auto 20|simpl; auto 20]. apply Sp in Eb as [Eb1 _].
  apply K in Ea1; [|simpl; auto 20|simpl; auto 20]. apply K in Ea2; [|simpl; auto 20|simpl; auto 20].
  apply K in Eb1; [|simpl; auto 20|simpl; auto 20].
  unfold A1, A2 in Ea1. apply app_inj_length in Ea1 as [E1 E2]; [|now rewrite !ssz_u64_length].
  apply ssz_u64_inj in E1; auto. apply ssz_u64_inj in E2; auto.
  unfold P1, P2 in Ea2. apply app_inj_length in Ea2 as [E3 E4]; [|congruence].
  assert (forall c, ssz_checkpoint H c = H (ssz_u64 (epoch c) ++ root c)) as Rc by reflexivity.
  unfold Q1, Q2 in Eb1. rewrite !Rc in *. apply Sp in Eb1 as [E5 _].
  apply K in E4; [|simpl; auto 20|simpl; auto 20]. apply K in E5; [|simpl; auto 20|simpl; auto 20].
  assert (forall c c', wf_checkpoint c -> wf_checkpoint c' -> ssz_u64 (epoch c) ++ root c = ssz_u64 (epoch c') ++ root c' -> c = c') as Ic.
  { intros [e r] [e' r'] [Hu _] [Hu' _] HE. cbn [epoch root] in *. apply app_inj_length in HE as [Q ->]; [|now rewrite !ssz_u64_length].
    apply ssz_u64_inj in Q; auto. congruence. }
  apply Ic in E4; auto. apply Ic in E5; auto. unfold D1, D2. congruence.
Qed.
Theorem domain_injective H dt v1 v2 g1 g2 : length v1 = 4%nat -> length v2 = 4%nat ->
  (forall a b, In a [chunk 4 v1 ++ g1; chunk 4 v2 ++ g2] -> In b [chunk 4 v1 ++ g1; chunk 4 v2 ++ g2] ->
     firstn 28 (H a) = firstn 28 (H b) -> a = b) ->
  domain H dt v1 g1 = domain H dt v2 g2 -> v1 = v2 /\ g1 = g2.
Proof.
  intros L1 L2 Inj E. unfold domain in E. apply app_inv_head in E.
  apply (Inj (chunk 4 v1 ++ g1) (chunk 4 v2 ++ g2)) in E; [|simpl; auto|simpl; auto].
  unfold chunk in E. rewrite <- !app_assoc in E.
  apply app_inj_length in E as [-> E]; [|congruence]. apply app_inv_head in E. auto.
Qed.
