(** Lemmas for C81: which attestations are given, and in which order. *)
From Coq Require Import List Arith ZArith NArith Bool Lia Sorted Permutation.
From Coq Require Import ZifyBool ZifyNat ZifyN.
From Verif.Model Require Import Base Types ConsensusState Committee Verify.
From Verif.Spec Require Import FFG VerifySpec VotesSpec.
From Verif.Proof Require Import BaseLemmas ConsensusStateP CommitteeP VerifyP VerifyMoreP SafetyP.
Import ListNotations.
Open Scope N_scope.

Lemma verify_votes X cfg R atts post slot :
  verify X cfg (with_attestations R atts) = Ok (post, slot) <->
  exists st0, rd_consensus_state R = Ok st0 /\ fold_outcome (process_link X cfg R (finalized st0)) (chunk_by_link atts) st0 = Ok post /\
    finalized post <> finalized st0 /\ rd_slot_for_block R (root (finalized post)) = Ok slot.
Proof.
  unfold verify. cbn [with_attestations rd_consensus_state rd_attestations rd_slot_for_block].
  change (process_link X cfg (with_attestations R atts)) with (process_link X cfg R).
  destruct (rd_consensus_state R) as [st0|x|]; cbn [unwrap bind]; [|split; [discriminate|intros (? & ? & _); discriminate]..].
  split.
  - intros H. apply bind_ok in H as (st & Hf & H). apply bind_ok in H as (u & He & H). apply bind_ok in H as (sl & Hs & H). injection H as <- <-.
    exists st0. apply ensure_ok in He. rewrite negb_true_iff, checkpoint_eqb_neq in He. apply map_err_ok in Hs. auto.
  - intros (st1 & [= <-] & Hf & Hn & Hs). rewrite Hf. cbn [bind]. rewrite (proj2 (checkpoint_eqb_neq _ _) Hn). cbn [negb ensure bind]. rewrite Hs. reflexivity.
Qed.

(** ** One group *)
Section Group.
  Variables (X : Externals) (R : Reader) (av : bmap ValidatorInfo) (c : CommitteeCache).
  Notation pa := (process_attestation X R av c).

  Lemma group_fold : forall atts acc P, bs_sorted acc ->
    fold_outcome (fun acc a => idxs <- pa a ;; Ok (bs_extend acc idxs)) atts acc = Ok P <->
    bs_sorted P /\ (forall a, In a atts -> exists idxs, pa a = Ok idxs) /\
    (forall i, In i P <-> In i acc \/ exists a idxs, In a atts /\ pa a = Ok idxs /\ In i idxs).
  Proof.
    induction atts as [|a atts IH]; intros acc P Hs; cbn [fold_outcome].
    - split.
      + intros [= <-]. split; [exact Hs|]. split; [easy|]. intros i. split; [now left|]. intros [H|(a & idxs & [] & _)]. exact H.
      + intros (H1 & _ & H2). f_equal. apply bs_sorted_ext; auto. intros i. rewrite H2. split; [now left|]. intros [H|(a & idxs & [] & _)]. exact H.
    - destruct (pa a) as [idxs|x|] eqn:Ea; cbn [bind].
      + rewrite IH by now apply bs_extend_sorted. split; intros (H1 & H2 & H3); (split; [exact H1|]).
        * split; [intros b [<-|Hb]; eauto|]. intros i. rewrite H3, bs_extend_In. split.
          -- intros [[H|H]|(b & ib & Hb & Eb & Hi)]; [now left| |].
             ++ right. exists a, idxs. split; [now left|]. auto.
             ++ right. exists b, ib. split; [now right|]. auto.
          -- intros [H|(b & ib & [<-|Hb] & Eb & Hi)]; [left; now left| |].
             ++ rewrite Ea in Eb. injection Eb as <-. left. now right.
             ++ right. exists b, ib. auto.
        * split; [intros b Hb; apply H2; now right|]. intros i. rewrite H3, bs_extend_In. split.
          -- intros [H|(b & ib & [<-|Hb] & Eb & Hi)]; [left; now left| |].
             ++ rewrite Ea in Eb. injection Eb as <-. left. now right.
             ++ right. exists b, ib. auto.
          -- intros [[H|H]|(b & ib & Hb & Eb & Hi)]; [now left| |].
             ++ right. exists a, idxs. split; [now left|]. auto.
             ++ right. exists b, ib. split; [now right|]. auto.
      + split; [discriminate|]. intros (_ & H & _). destruct (H a (or_introl eq_refl)) as (idxs & Hx). congruence.
      + split; [discriminate|]. intros (_ & H & _). destruct (H a (or_introl eq_refl)) as (idxs & Hx). congruence.
  Qed.
  Lemma group_ok_iff atts P : process_group X R av c atts = Ok P <->
    bs_sorted P /\ (forall a, In a atts -> exists idxs, pa a = Ok idxs) /\
    (forall i, In i P <-> exists a idxs, In a atts /\ pa a = Ok idxs /\ In i idxs).
  Proof.
    unfold process_group. rewrite group_fold by constructor. split; intros (H1 & H2 & H3); (split; [exact H1|]; split; [exact H2|]); intros i; rewrite H3.
    - split; [intros [[]|H]; exact H|now right].
    - split; [now right|intros [[]|H]; exact H].
  Qed.
  (** A group of processable attestations is processed. *)
  Lemma group_exists atts : (forall a, In a atts -> exists idxs, pa a = Ok idxs) -> exists P, process_group X R av c atts = Ok P.
  Proof.
    unfold process_group. generalize (@nil ValidatorIndex). induction atts as [|a atts IH]; intros acc H; cbn [fold_outcome]; [eauto|].
    destruct (H a (or_introl eq_refl)) as (idxs & ->). cbn [bind]. apply IH. intros b Hb. apply H. now right.
  Qed.
  Lemma group_mono atts atts' P P' : incl atts' atts -> process_group X R av c atts = Ok P -> process_group X R av c atts' = Ok P' -> incl P' P.
  Proof.
    intros Hi H H' i Hx. apply group_ok_iff in H as (_ & _ & H). apply group_ok_iff in H' as (_ & _ & H'). apply H. apply H' in Hx as (a & ix & A & B & C).
    exists a, ix. auto.
  Qed.
  Lemma processed_active a idxs i : bm_sorted av -> pa a = Ok idxs -> In i idxs -> In i (map fst av).
  Proof.
    intros Hs H Hi. unfold process_attestation in H. apply bind_ok in H as (? & _ & H). apply bind_ok in H as (? & _ & H). apply bind_ok in H as (? & _ & H).
    apply bind_ok in H as (ix & _ & H). apply bind_ok in H as (vs & Hv & H). apply bind_ok in H as (? & _ & H). apply bind_ok in H as (? & _ & H).
    injection H as <-. apply lookups_ok in Hv. clear -Hv Hi. induction Hv as [|j v l vs E F IH]; [easy|]. destruct Hi as [<-|Hi]; auto.
    apply bm_get_in in E. now apply (in_map fst) in E.
  Qed.
End Group.

(** ** The threshold *)
Lemma records_mono av P P' : incl P' P -> incl (records av P') (records av P).
Proof. intros Hi x Hx. apply records_In in Hx as [A B]. apply records_In. auto. Qed.
Lemma unslashed_mono P P' : incl P' P -> incl (unslashed P') (unslashed P).
Proof. intros Hi x Hx. unfold unslashed in *. apply filter_In in Hx as [A B]. apply filter_In. auto. Qed.
Lemma records_nodup av P : bm_sorted av -> NoDup (map fst (records av P)).
Proof. intros Hs. apply bs_sorted_NoDup, sorted_filter_fst. now apply bm_sorted_keys. Qed.
Lemma records_weight av P P' : bm_sorted av -> incl P' P -> weight (unslashed (records av P')) <= weight (unslashed (records av P)).
Proof.
  intros Hs Hi. apply weight_incl; [now apply unslashed_NoDup, records_nodup|]. now apply unslashed_mono, records_mono.
Qed.
Lemma records_all av P : bm_sorted av -> weight (unslashed (records av P)) <= weight av.
Proof.
  intros Hs. apply weight_incl; [now apply unslashed_NoDup, records_nodup|]. intros x Hx. apply unslashed_incl in Hx. now apply records_In in Hx.
Qed.

Definition weak_config (cfg : Config) : Prop :=
  justification_threshold_quotient cfg = 0 \/ 3 * justification_threshold_factor cfg < 2 * justification_threshold_quotient cfg.
Lemma threshold_fewer cfg cs av P P' : bm_sorted av -> bs_sorted P -> bs_sorted P' -> (forall i, In i P -> In i (map fst av)) -> incl P' P ->
  check_threshold cfg cs av P = Ok tt ->
  check_threshold cfg cs av P' = Ok tt \/ (exists m n, check_threshold cfg cs av P' = Err (ThresholdNotMet m n)) \/
  (check_threshold cfg cs av P' = Panic /\ weak_config cfg).
Proof.
  intros Hs HP HP' Ha Hi H. apply check_threshold_ok in H as ([E1 E2] & W1 & W2 & W3 & W4); auto.
  assert (Ha' : forall i, In i P' -> In i (map fst av)) by auto.
  pose proof (records_weight av P P' Hs Hi) as Hw.
  pose proof (records_lookup_exists av P' Hs HP' Ha') as L. unfold check_threshold.
  rewrite (proj2 (lookups_expect_ok av P' _) L). cbn [bind]. rewrite filter_map_snd.
  assert (W1' : weight (unslashed (records av P')) < 2 ^ 64) by (eapply N.le_lt_trans; eassumption).
  rewrite (proj2 (total_balance_ok VArith cs (unslashed (records av P')) _) (conj eq_refl W1')). cbn [bind].
  rewrite bm_values_snd. rewrite (proj2 (total_balance_ok VArith cs av _) (conj eq_refl W2)). cbn [bind].
  set (b := balance_of cs (unslashed (records av P'))). set (t := balance_of cs av).
  destruct (t * justification_threshold_factor cfg <=? b * justification_threshold_quotient cfg) eqn:Q; cbn [bind].
  - assert (B : 3 * b < 2 ^ 64). { eapply N.le_lt_trans; [|exact W4]. unfold b, balance_of in *. lia. }
    unfold safe_mul. destruct (N.ltb_spec (b * 3) two64) as [_|C]; [|exfalso; unfold two64 in C; lia]. cbn [bind].
    destruct (N.ltb_spec (t * 2) two64) as [_|C]; [|exfalso; unfold two64 in C; unfold t in C; lia]. cbn [bind].
    destruct (t * 2 <=? b * 3) eqn:Q2; cbn [assert_]; [now left|]. right. right. split; [reflexivity|].
    unfold weak_config. destruct (N.eq_dec (justification_threshold_quotient cfg) 0) as [|Hq]; [now left|right].
    apply N.leb_le in Q. apply N.leb_gt in Q2.
    assert (T : t * (3 * justification_threshold_factor cfg) < t * (2 * justification_threshold_quotient cfg)); [|nia].
    assert (b * 3 * justification_threshold_quotient cfg < t * 2 * justification_threshold_quotient cfg) by nia. nia.
  - destruct (justification_threshold_quotient cfg =? 0) eqn:Z; cbn [bind]; right.
    + right. split; [reflexivity|]. left. lia.
    + left. eauto.
Qed.
Lemma threshold_more cfg cs av P P' : bm_sorted av -> bs_sorted P -> bs_sorted P' -> (forall i, In i P' -> In i (map fst av)) -> incl P P' ->
  3 * balance_of cs av < 2 ^ 64 ->
  check_threshold cfg cs av P = Ok tt -> check_threshold cfg cs av P' = Ok tt.
Proof.
  intros Hs HP HP' Ha Hi Hb H. apply check_threshold_ok in H as ([E1 E2] & W1 & W2 & W3 & W4); auto.
  pose proof (records_weight av P' P Hs Hi) as Hw. pose proof (records_all av P' Hs) as Hw'.
  assert (B : balance_of cs (unslashed (records av P)) <= balance_of cs (unslashed (records av P')) <= balance_of cs av) by (unfold balance_of; lia).
  apply check_threshold_ok; auto. split; [split; [|lia]|].
  - etransitivity; [exact E1|]. apply N.mul_le_mono_r. lia.
  - repeat split; try lia.
Qed.

(** ** One link *)
Lemma process_link_iff X cfg R trusted st l g st' : process_link X cfg R trusted st (l, g) = Ok st' <->
  exists avl c P, rd_active_validators R (epoch (target l)) = Ok avl /\ compute_committees X R (bm_of_list avl) (epoch (target l)) = Ok c /\
    process_group X R (bm_of_list avl) c g = Ok P /\ check_threshold cfg (rd_chain_spec R) (bm_of_list avl) P = Ok tt /\
    finalized st = trusted /\ within_bounds cfg (rd_chain_spec R) trusted l /\ state_transition st l = Ok st' /\ is_valid st' = true.
Proof.
  unfold process_link. split.
  - intros H. apply bind_ok in H as (u1 & H1 & H). apply bind_ok in H as (u2 & H2 & H). apply bind_ok in H as (avl & H3 & H).
    cbv zeta in H. apply bind_ok in H as (c & H4 & H). apply bind_ok in H as (P & H5 & H). apply bind_ok in H as ([] & H6 & H).
    apply bind_ok in H as (s & H7 & H). apply bind_ok in H as (u & H8 & H). injection H as <-.
    apply ensure_ok, checkpoint_eqb_eq in H1. apply validate_link_ok in H2. apply map_err_ok in H3. apply map_err_ok in H7. apply assert_ok in H8.
    exists avl, c, P. auto 10.
  - intros (avl & c & P & H3 & H4 & H5 & H6 & H1 & H2 & H7 & H8).
    rewrite (proj2 (checkpoint_eqb_eq _ _) H1). cbn [ensure bind]. rewrite (proj2 (validate_link_ok _ _ _ _ tt) H2). cbn [bind].
    rewrite H3. cbn [map_err bind]. cbv zeta. rewrite H4. cbn [bind]. rewrite H5. cbn [bind]. rewrite H6. cbn [bind]. rewrite H7. cbn [map_err bind].
    rewrite H8. reflexivity.
Qed.
(** What an attestation of an accepted group goes through. *)
Definition processable X R (a : Attestation) : Prop :=
  exists avl c idxs, rd_active_validators R (epoch (target (link_of a))) = Ok avl /\
    compute_committees X R (bm_of_list avl) (epoch (target (link_of a))) = Ok c /\ process_attestation X R (bm_of_list avl) c a = Ok idxs.
Lemma link_processable X cfg R trusted st l g st' : group_ok (l, g) -> process_link X cfg R trusted st (l, g) = Ok st' ->
  forall a, In a g -> processable X R a.
Proof.
  intros [_ Hk] H a Ha. apply process_link_iff in H as (avl & c & P & H1 & H2 & H3 & _). apply group_ok_iff in H3 as (_ & H3 & _).
  destruct (H3 a Ha) as (idxs & E). cbn [fst snd] in Hk. specialize (Hk a Ha). subst l. exists avl, c, idxs. auto.
Qed.
Lemma link_more X cfg R trusted st l g g' st' :
  (forall avl av, rd_active_validators R (epoch (target l)) = Ok avl -> active_set avl av -> 3 * balance_of (rd_chain_spec R) av < 2 ^ 64) ->
  incl g g' -> (forall a, In a g' -> link_of a = l /\ processable X R a) ->
  process_link X cfg R trusted st (l, g) = Ok st' -> process_link X cfg R trusted st (l, g') = Ok st'.
Proof.
  intros Hb Hi Hg H. apply process_link_iff in H as (avl & c & P & H1 & H2 & H3 & H4 & H5). apply process_link_iff.
  assert (Hp : forall a, In a g' -> exists idxs, process_attestation X R (bm_of_list avl) c a = Ok idxs).
  { intros a Ha. destruct (Hg a Ha) as [E (avl' & c' & idxs & A1 & A2 & A3)]. rewrite E in *. rewrite H1 in A1. injection A1 as <-.
    rewrite H2 in A2. injection A2 as <-. eauto. }
  destruct (group_exists X R (bm_of_list avl) c g' Hp) as (P' & H3').
  exists avl, c, P'. split; [exact H1|]. split; [exact H2|]. split; [exact H3'|]. split; [|exact H5].
  pose proof (bm_of_list_sorted avl) as Hs.
  eapply (threshold_more cfg (rd_chain_spec R) (bm_of_list avl) P P'); auto.
  - now apply group_ok_iff in H3.
  - now apply group_ok_iff in H3'.
  - apply group_ok_iff in H3' as (_ & _ & H'). intros i Hx. apply H' in Hx as (a & idxs & A1 & A2 & A3). eapply processed_active; eauto.
  - eapply group_mono; eauto.
  - apply (Hb avl); auto. apply active_set_of_list.
Qed.
Lemma link_same X cfg R trusted st l g g' st' : (forall a, In a g <-> In a g') ->
  process_link X cfg R trusted st (l, g) = Ok st' -> process_link X cfg R trusted st (l, g') = Ok st'.
Proof.
  intros He H. apply process_link_iff in H as (avl & c & P & H1 & H2 & H3 & H4). apply process_link_iff.
  exists avl, c, P. split; [exact H1|]. split; [exact H2|]. split; [|exact H4].
  apply group_ok_iff in H3 as (A1 & A2 & A3). apply group_ok_iff. split; [exact A1|]. split; [intros a Ha; apply A2; now apply He|].
  intros i. rewrite A3. split; intros (a & idxs & B1 & B2); exists a, idxs; (split; [now apply He|exact B2]).
Qed.
Lemma link_fewer X cfg R trusted st l g g' st' : incl g' g -> process_link X cfg R trusted st (l, g) = Ok st' ->
  process_link X cfg R trusted st (l, g') = Ok st' \/ (exists m n, process_link X cfg R trusted st (l, g') = Err (ThresholdNotMet m n)) \/
  (process_link X cfg R trusted st (l, g') = Panic /\ weak_config cfg).
Proof.
  intros Hi H. apply process_link_iff in H as (avl & c & P & H1 & H2 & H3 & H4 & H5 & H6 & H7 & H8).
  pose proof (proj1 (group_ok_iff X R (bm_of_list avl) c g P) H3) as (A1 & A2 & A3).
  destruct (group_exists X R (bm_of_list avl) c g' ltac:(auto)) as (P' & H3').
  assert (Hs : bm_sorted (bm_of_list avl)) by apply bm_of_list_sorted.
  assert (D : process_link X cfg R trusted st (l, g') = bind (check_threshold cfg (rd_chain_spec R) (bm_of_list avl) P') (fun _ => Ok st')).
  { unfold process_link. rewrite (proj2 (checkpoint_eqb_eq _ _) H5). cbn [ensure bind]. rewrite (proj2 (validate_link_ok _ _ _ _ tt) H6). cbn [bind].
    rewrite H1. cbn [map_err bind]. cbv zeta. rewrite H2. cbn [bind]. rewrite H3'. cbn [bind]. rewrite H7. cbn [map_err bind]. rewrite H8. reflexivity. }
  assert (T : check_threshold cfg (rd_chain_spec R) (bm_of_list avl) P' = Ok tt \/
    (exists m n, check_threshold cfg (rd_chain_spec R) (bm_of_list avl) P' = Err (ThresholdNotMet m n)) \/
    (check_threshold cfg (rd_chain_spec R) (bm_of_list avl) P' = Panic /\ weak_config cfg)).
  { eapply (threshold_fewer cfg (rd_chain_spec R) (bm_of_list avl) P P'); auto.
    - now apply group_ok_iff in H3'.
    - intros i Hx. apply A3 in Hx as (a & idxs & B1 & B2 & B3). eapply processed_active; eauto.
    - eapply group_mono; eauto. }
  rewrite D. destruct T as [E|[(m & n & E)|[E W]]]; rewrite E; cbn [bind]; [now left|right; left; eauto|right; right; auto].
Qed.

(** ** Groups with the same links *)
Lemma groups_member atts gs l g : groups atts gs -> NoDup (map fst gs) -> In (l, g) gs ->
  forall a, In a g <-> In a atts /\ link_of a = l.
Proof.
  intros (H1 & H2 & _) Hn Hg a. rewrite Forall_forall in H2. split.
  - intros Ha. split; [|exact (proj2 (H2 _ Hg) a Ha)]. rewrite <- H1. apply in_concat. exists g. split; [|exact Ha]. apply in_map_iff. now exists (l, g).
  - intros [Ha El]. rewrite <- H1 in Ha. apply in_concat in Ha as (g' & Hg' & Ha). apply in_map_iff in Hg' as ([l' g2] & E & Hg').
    cbn [snd] in E. subst g2. pose proof (proj2 (H2 _ Hg') a Ha) as El'. cbn [fst] in El'. rewrite El in El'. subst l'.
    assert (E : g' = g); [|now subst]. clear -Hn Hg Hg'. induction gs as [|[k h] gs IH]; [easy|]. cbn [map fst] in Hn. inversion Hn; subst.
    destruct Hg as [E|Hg], Hg' as [E'|Hg'].
    + congruence.
    + injection E as -> ->. exfalso. apply H1. now apply (in_map fst) in Hg'.
    + injection E' as -> ->. exfalso. apply H1. now apply (in_map fst) in Hg.
    + auto.
Qed.
Lemma forall2_fst {A B} (Q : A * B -> A * B -> Prop) : forall gs gs', map fst gs = map fst gs' ->
  (forall l g g', In (l, g) gs -> In (l, g') gs' -> Q (l, g) (l, g')) -> Forall2 Q gs gs'.
Proof.
  induction gs as [|[l g] gs IH]; intros [|[l' g'] gs'] E H; try discriminate; constructor.
  - cbn [map fst] in E. injection E as <- E. apply H; now left.
  - apply IH; [now injection E|]. intros. apply H; now right.
Qed.
Lemma fold_transfer {E A S} (f : S -> A -> outcome E S) : forall gs gs', Forall2 (fun g g' => forall s s', f s g = Ok s' -> f s g' = Ok s') gs gs' ->
  forall s s', fold_outcome f gs s = Ok s' -> fold_outcome f gs' s = Ok s'.
Proof.
  induction 1 as [|g g' gs gs' H F IH]; intros s s' Hf; cbn [fold_outcome] in *; [exact Hf|]. apply bind_ok in Hf as (s1 & H1 & H2).
  rewrite (H _ _ H1). cbn [bind]. auto.
Qed.
(** ** Chains of links *)
Lemma chain_nodup j ls : chain j ls -> NoDup ls.
Proof.
  induction 1 as [|j b ls Hlt Hc IH]; constructor; auto. intros Hin. pose proof (chain_target_gt _ _ _ Hc Hin) as H. cbn [target] in H. lia.
Qed.
Lemma chain_same : forall la lb j, chain j la -> chain j lb -> (forall l, In l la <-> In l lb) -> la = lb.
Proof.
  induction la as [|l la IH]; intros lb j Ha Hb He.
  - destruct lb as [|m lb]; auto. destruct (proj2 (He m) (or_introl eq_refl)).
  - destruct lb as [|m lb]; [destruct (proj1 (He l) (or_introl eq_refl))|].
    inversion Ha as [|j1 b1 l1 H1 C1]; subst. inversion Hb as [|j2 b2 l2 H2 C2]; subst.
    assert (E : b1 = b2).
    { destruct (proj1 (He (mkLink j b1)) (or_introl eq_refl)) as [E|Hin]; [congruence|].
      destruct (chain_source _ _ _ C2 Hin) as [_ Hs]. cbn [source] in Hs. lia. }
    subst b2. f_equal. apply (IH lb b1); auto. intros x. specialize (He x). pose proof (chain_target_gt _ _ x C1) as T1. pose proof (chain_target_gt _ _ x C2) as T2.
    split; intros Hx; [destruct (proj1 He (or_intror Hx)) as [E|]|destruct (proj2 He (or_intror Hx)) as [E|]]; auto; subst x; cbn [target] in *; exfalso;
      [specialize (T1 Hx)|specialize (T2 Hx)]; lia.
Qed.
Lemma fold_links X cfg R trusted : forall gs gs', map fst gs = map fst gs' -> forall st p q,
  fold_outcome (process_link X cfg R trusted) gs st = Ok p -> fold_outcome (process_link X cfg R trusted) gs' st = Ok q -> p = q.
Proof.
  induction gs as [|[l g] gs IH]; intros [|[l' g'] gs'] E st p q Hp Hq; try discriminate; cbn [fold_outcome] in *; [congruence|].
  cbn [map fst] in E. injection E as <- E. apply bind_ok in Hp as (s1 & A1 & A2). apply bind_ok in Hq as (s2 & B1 & B2).
  apply process_link_iff in A1 as (? & ? & ? & _ & _ & _ & _ & _ & _ & A1 & _). apply process_link_iff in B1 as (? & ? & ? & _ & _ & _ & _ & _ & _ & B1 & _).
  rewrite A1 in B1. injection B1 as <-. eauto.
Qed.
Lemma verify_chain X cfg R atts gs r : groups atts gs -> verify X cfg (with_attestations R atts) = Ok r ->
  exists st0, rd_consensus_state R = Ok st0 /\ chain (current_justified st0) (map fst gs) /\
    fold_outcome (process_link X cfg R (finalized st0)) gs st0 = Ok (fst r) /\
    finalized (fst r) <> finalized st0 /\ rd_slot_for_block R (root (finalized (fst r))) = Ok (snd r).
Proof.
  intros Hg H. destruct r as [post slot]. pose proof H as Hs. apply verify_sound in Hs as (st1 & atts1 & gs1 & A1 & A2 & A3 & A4 & _).
  cbn [with_attestations rd_attestations rd_consensus_state] in *. injection A2 as <-.
  pose proof (groups_chunk _ _ Hg) as G. pose proof (groups_chunk _ _ A3) as G1. rewrite G in G1. subst gs1.
  apply accepted_is_chain in A4 as [A4 _]. apply verify_votes in H as (st0 & H1 & H2 & H3). rewrite A1 in H1. injection H1 as <-.
  rewrite G in H2. exists st1. cbn [fst snd]. auto.
Qed.
Lemma verify_from X cfg R atts gs st0 r : groups atts gs -> rd_consensus_state R = Ok st0 ->
  fold_outcome (process_link X cfg R (finalized st0)) gs st0 = Ok (fst r) -> finalized (fst r) <> finalized st0 ->
  rd_slot_for_block R (root (finalized (fst r))) = Ok (snd r) -> verify X cfg (with_attestations R atts) = Ok r.
Proof.
  intros Hg H1 H2 H3 H4. destruct r as [post slot]. cbn [fst snd] in *. apply verify_votes. exists st0. rewrite (groups_chunk _ _ Hg). auto.
Qed.
Lemma groups_links atts gs l : groups atts gs -> In l (map fst gs) <-> exists a, In a atts /\ link_of a = l.
Proof.
  intros (H1 & H2 & _). rewrite Forall_forall in H2. split.
  - intros Hl. apply in_map_iff in Hl as ([k g] & E & Hg). cbn [fst] in E. subst k. destruct (H2 _ Hg) as [Hn Hk]. cbn [fst snd] in *.
    destruct g as [|a g]; [easy|]. exists a. split; [|apply Hk; now left]. rewrite <- H1. apply in_concat. exists (a :: g). split; [|now left].
    apply in_map_iff. now exists (l, a :: g).
  - intros (a & Ha & El). rewrite <- H1 in Ha. apply in_concat in Ha as (g & Hg & Ha). apply in_map_iff in Hg as ([k g'] & E & Hg). cbn [snd] in E. subst g'.
    apply in_map_iff. exists (k, g). split; [|exact Hg]. cbn [fst]. rewrite <- El. symmetry. now apply (proj2 (H2 _ Hg)).
Qed.

(** ** The theorems *)
Theorem same_links_same_result X cfg R a b r r' :
  (forall l, (exists x, In x a /\ link_of x = l) <-> (exists x, In x b /\ link_of x = l)) ->
  verify X cfg (with_attestations R a) = Ok r -> verify X cfg (with_attestations R b) = Ok r' ->
  r = r' /\ forall ls, links_in_order a ls <-> links_in_order b ls.
Proof.
  intros He Ha Hb. pose proof (chunk_groups a) as Ga. pose proof (chunk_groups b) as Gb.
  destruct (verify_chain _ _ _ _ _ _ Ga Ha) as (sa & A1 & A2 & A3 & A4 & A5). destruct (verify_chain _ _ _ _ _ _ Gb Hb) as (sb & B1 & B2 & B3 & B4 & B5).
  rewrite A1 in B1. injection B1 as <-.
  assert (E : map fst (chunk_by_link a) = map fst (chunk_by_link b)).
  { eapply chain_same; eauto. intros l. rewrite (groups_links _ _ _ Ga), (groups_links _ _ _ Gb). apply He. }
  split.
  - pose proof (fold_links _ _ _ _ _ _ E _ _ _ A3 B3) as F. destruct r, r'. cbn [fst snd] in *. subst. congruence.
  - intros ls. split; intros (gs & G & <-); apply groups_chunk in G; subst gs; [exists (chunk_by_link b)|exists (chunk_by_link a)]; auto.
Qed.
Theorem split_refused X cfg R a ls r : links_in_order a ls -> ~ NoDup ls -> verify X cfg (with_attestations R a) <> Ok r.
Proof.
  intros (gs & G & <-) Hn H. destruct (verify_chain _ _ _ _ _ _ G H) as (s & _ & Hc & _). now apply chain_nodup in Hc.
Qed.
Theorem same_votes X cfg R a b ls r : links_in_order a ls -> links_in_order b ls -> (forall x, In x a <-> In x b) ->
  verify X cfg (with_attestations R a) = Ok r <-> verify X cfg (with_attestations R b) = Ok r.
Proof.
  revert a b. assert (D : forall a b, links_in_order a ls -> links_in_order b ls -> (forall x, In x a <-> In x b) ->
    verify X cfg (with_attestations R a) = Ok r -> verify X cfg (with_attestations R b) = Ok r).
  { intros a b (ga & Ga & <-) (gb & Gb & E) He H. destruct (verify_chain _ _ _ _ _ _ Ga H) as (s & H1 & H2 & H3 & H4 & H5).
    apply chain_nodup in H2. eapply verify_from; eauto. eapply fold_transfer; [|exact H3]. apply forall2_fst; [auto|]. intros l g g' Hg Hg' s1 s2.
    apply link_same. intros x. rewrite (groups_member _ _ _ _ Ga H2 Hg). rewrite <- E in H2. rewrite (groups_member _ _ _ _ Gb H2 Hg'). now rewrite He. }
  intros a b La Lb He. split; apply D; auto. intros x. now rewrite He.
Qed.
Lemma fold_processable X cfg R trusted : forall gs st post, Forall group_ok gs -> fold_outcome (process_link X cfg R trusted) gs st = Ok post ->
  forall l g a, In (l, g) gs -> In a g -> processable X R a.
Proof.
  induction gs as [|[k h] gs IH]; intros st post Hf H l g a Hg Ha; [easy|]. cbn [fold_outcome] in H. apply bind_ok in H as (s1 & H1 & H2).
  inversion Hf; subst. destruct Hg as [E|Hg]; [injection E as -> ->; eapply link_processable; eauto|]. eapply IH; eauto.
Qed.
Lemma accepted_processable X cfg R a r x : verify X cfg (with_attestations R a) = Ok r -> In x a -> processable X R x.
Proof.
  intros H Hx. pose proof (chunk_groups a) as G. destruct (verify_chain _ _ _ _ _ _ G H) as (s & _ & _ & H3 & _). destruct G as (G1 & G2 & _).
  rewrite <- G1 in Hx. apply in_concat in Hx as (g & Hg & Hx). apply in_map_iff in Hg as ([l g'] & E & Hg). cbn [snd] in E. subst g'.
  eapply fold_processable; eauto.
Qed.
Theorem more_votes X cfg R a b ls r :
  (forall e avl av, rd_active_validators R e = Ok avl -> active_set avl av -> 3 * balance_of (rd_chain_spec R) av < 2 ^ 64) ->
  links_in_order a ls -> links_in_order b ls -> incl a b ->
  (forall x, In x b -> exists c r', In x c /\ verify X cfg (with_attestations R c) = Ok r') ->
  verify X cfg (with_attestations R a) = Ok r -> verify X cfg (with_attestations R b) = Ok r.
Proof.
  intros Hb (ga & Ga & <-) (gb & Gb & E) Hi Ho H. destruct (verify_chain _ _ _ _ _ _ Ga H) as (s & H1 & H2 & H3 & H4 & H5).
  apply chain_nodup in H2. eapply verify_from; eauto. eapply fold_transfer; [|exact H3]. apply forall2_fst; [auto|]. intros l g g' Hg Hg' s1 s2.
  assert (H2' : NoDup (map fst gb)) by now rewrite E.
  apply link_more; [intros; eapply Hb; eauto| |].
  - intros x Hx. apply (groups_member _ _ _ _ Ga H2 Hg) in Hx as [Hx El]. apply (groups_member _ _ _ _ Gb H2' Hg'). auto.
  - intros x Hx. apply (groups_member _ _ _ _ Gb H2' Hg') in Hx as [Hx El]. split; [exact El|]. destruct (Ho x Hx) as (c & r' & Hc & Hv).
    eapply accepted_processable; eauto.
Qed.
Lemma fold_fewer X cfg R trusted : forall gs gs', Forall2 (fun g g' => fst g = fst g' /\ incl (snd g') (snd g)) gs gs' -> forall st post,
  fold_outcome (process_link X cfg R trusted) gs st = Ok post ->
  fold_outcome (process_link X cfg R trusted) gs' st = Ok post \/
  (exists m n, fold_outcome (process_link X cfg R trusted) gs' st = Err (ThresholdNotMet m n)) \/
  (fold_outcome (process_link X cfg R trusted) gs' st = Panic /\ weak_config cfg).
Proof.
  induction 1 as [|[l g] [l' g'] gs gs' [E Hi] F IH]; intros st post H; cbn [fold_outcome] in *; [now left|]. cbn [fst snd] in *. subst l'.
  apply bind_ok in H as (s1 & H1 & H2). destruct (link_fewer _ _ _ _ _ _ _ _ _ Hi H1) as [Q|[(m & n & Q)|[Q W]]]; rewrite Q; cbn [bind].
  - now apply IH.
  - right. left. eauto.
  - right. right. auto.
Qed.
Theorem fewer_votes X cfg R a b ls r : links_in_order a ls -> links_in_order b ls -> incl b a ->
  verify X cfg (with_attestations R a) = Ok r ->
  verify X cfg (with_attestations R b) = Ok r \/
  (exists m n, verify X cfg (with_attestations R b) = Err (ThresholdNotMet m n)) \/
  (verify X cfg (with_attestations R b) = Panic /\ weak_config cfg).
Proof.
  intros (ga & Ga & <-) (gb & Gb & E) Hi H. destruct (verify_chain _ _ _ _ _ _ Ga H) as (s & H1 & H2 & H3 & H4 & H5). apply chain_nodup in H2.
  assert (H2' : NoDup (map fst gb)) by now rewrite E.
  assert (F : Forall2 (fun g g' => fst g = fst g' /\ incl (snd g') (snd g)) ga gb).
  { apply forall2_fst; [auto|]. intros l g g' Hg Hg'. cbn [fst snd]. split; [reflexivity|]. intros x Hx.
    apply (groups_member _ _ _ _ Gb H2' Hg') in Hx as [Hx El]. apply (groups_member _ _ _ _ Ga H2 Hg). auto. }
  destruct (fold_fewer X cfg R (finalized s) _ _ F _ _ H3) as [Q|Q].
  - left. eapply verify_from; eauto.
  - right. unfold verify. cbn [with_attestations rd_consensus_state rd_attestations]. rewrite H1. cbn [unwrap bind]. rewrite (groups_chunk _ _ Gb).
    change (process_link X cfg (with_attestations R b)) with (process_link X cfg R).
    destruct Q as [(m & n & Q)|[Q W]]; [left; exists m, n|right; split; [|exact W]]; rewrite Q; reflexivity.
Qed.
