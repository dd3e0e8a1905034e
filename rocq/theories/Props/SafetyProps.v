(** Properties C14 (accountable safety) and C15 (balance drift). *)
From Coq Require Import List ZArith NArith Bool Lia Sorted Permutation.
From Coq Require Import ZifyBool ZifyNat ZifyN.
From Verif.Model Require Import Base Types ConsensusState Verify.
From Verif.Spec Require Import FFG Committees VerifySpec Safety.
From Verif.Proof Require Import BaseLemmas ConsensusStateP VerifyP VerifyMoreP SafetyP.
From Verif.Props Require Import VerifyProps.
Import ListNotations.
Open Scope N_scope.

Lemma links_of_groups atts gs : groups atts gs -> forall l, In l (map fst gs) <-> In l (map link_of atts).
Proof.
  intros (Hc & Hgo & _) l. rewrite Forall_forall in Hgo. split.
  - intros Hl. apply in_map_iff in Hl as ((l' & g) & <- & Hin). destruct (Hgo _ Hin) as [Hne Hk].
    destruct g as [|a r]; [easy|]. simpl in Hk |- *. rewrite <- (Hk a) by auto. apply in_map. rewrite <- Hc.
    apply in_concat. exists (a :: r). split; [|simpl; auto]. apply in_map_iff. eexists. split; [|exact Hin]. reflexivity.
  - intros Hl. apply in_map_iff in Hl as (a & <- & Ha). rewrite <- Hc in Ha. apply in_concat in Ha as (g & Hg1 & Hg2).
    apply in_map_iff in Hg1 as ((l & g') & Eg & Hin). simpl in Eg. subst g'. destruct (Hgo _ Hin) as [_ Hk].
    rewrite (Hk a Hg2). apply in_map_iff. eexists. split; [|exact Hin]. reflexivity.
Qed.
Lemma conflicting_ext j la lb la' lb' fa fb : (forall l, In l la <-> In l la') -> (forall l, In l lb <-> In l lb') ->
  conflicting j la lb fa fb -> conflicting j la' lb' fa fb.
Proof.
  intros H1 H2 [H|[[H N]|[H N]]]; [left; auto|right; left|right; right]; split; auto; intros J; apply N;
    (destruct J as [|(l & Hl & E)]; [left; auto|right; exists l; split; auto; first [apply H1; exact Hl|apply H2; exact Hl]]).
Qed.

(** C14: two accepted proofs from the same state that finalize conflicting checkpoints contain two
    supermajority links that violate a slashing condition. Their voters overlap in every registry
    [all] that contains both active sets: the validators that voted (unslashed) for both weigh at
    least factor/quotient * (weight av1 + weight av2) - weight all. *)
Theorem C14_accountable_safety X cfg R1 R2 st0 atts1 atts2 post1 post2 slot1 slot2 :
  rd_chain_spec R1 = rd_chain_spec R2 ->
  rd_consensus_state R1 = Ok st0 -> rd_consensus_state R2 = Ok st0 ->
  rd_attestations R1 = Ok atts1 -> rd_attestations R2 = Ok atts2 ->
  verify X cfg R1 = Ok (post1, slot1) -> verify X cfg R2 = Ok (post2, slot2) ->
  conflicting (current_justified st0) (map link_of atts1) (map link_of atts2) (finalized post1) (finalized post2) ->
  exists l1 l2 g1 g2 av1 av2 P1 P2,
    slashable l1 l2 /\ incl g1 atts1 /\ incl g2 atts2 /\
    supermajority_link X cfg R1 l1 g1 av1 P1 /\ supermajority_link X cfg R2 l2 g2 av2 P2 /\
    (let inc := effective_balance_increment (rd_chain_spec R1) in
     0 < inc -> 2 * inc <= weight av1 -> 2 * inc <= weight av2 ->
     forall all both, NoDup (map fst all) -> incl av1 all -> incl av2 all ->
       in_both (unslashed P1) (unslashed P2) both ->
       justification_threshold_factor cfg * (weight av1 + weight av2)
         <= justification_threshold_quotient cfg * (weight both + weight all)).
Proof.
  intros Hcs Hs1 Hs2 Ha1 Ha2 E1 E2 Hconf.
  apply verify_sound in E1 as (st1 & at1 & gs1 & A1 & A2 & A3 & A4 & A5 & _).
  apply verify_sound in E2 as (st2 & at2 & gs2 & B1 & B2 & B3 & B4 & B5 & _).
  rewrite Hs1 in A1. injection A1 as <-. rewrite Hs2 in B1. injection B1 as <-.
  rewrite Ha1 in A2. injection A2 as <-. rewrite Ha2 in B2. injection B2 as <-.
  pose proof (links_of_groups _ _ A3) as L1. pose proof (links_of_groups _ _ B3) as L2.
  apply (conflicting_ext _ _ _ (map fst gs1) (map fst gs2)) in Hconf; [|intros; symmetry; auto|intros; symmetry; auto].
  destruct (conflict_slashable _ _ _ _ _ A4 B4 Hconf) as (l1 & l2 & I1 & I2 & Hsl).
  apply in_map_iff in I1 as ((l1' & g1) & <- & I1). apply in_map_iff in I2 as ((l2' & g2) & <- & I2).
  rewrite Forall_forall in A5, B5. destruct (A5 _ I1) as [_ (av1 & P1 & S1)]. destruct (B5 _ I2) as [_ (av2 & P2 & S2)].
  simpl in *. exists l1', l2', g1, g2, av1, av2, P1, P2. split; auto.
  split. { intros a Ha. destruct A3 as (<- & _). apply in_concat. exists g1. split; auto. apply in_map_iff. eexists. split; [|exact I1]. reflexivity. }
  split. { intros a Ha. destruct B3 as (<- & _). apply in_concat. exists g2. split; auto. apply in_map_iff. eexists. split; [|exact I2]. reflexivity. }
  split; auto. split; auto. intros Hinc T1 T2 all both Na Ia Ib Hb.
  apply (quorum_overlap X cfg R1 R2 l1' l2' g1 g2 av1 av2 P1 P2 all both (rd_chain_spec R1)); auto.
Qed.

Lemma in_both_exists (P Q av : list (N * ValidatorInfo)) : NoDup (map fst av) -> incl P av -> incl Q av -> NoDup (map fst P) ->
  exists both, in_both P Q both.
Proof.
  intros Na IP IQ NP. exists (filter (fun x => existsb (fun y => fst y =? fst x) Q) P). split.
  - clear -NP. induction P as [|x P IH]; simpl; auto. simpl in NP. inversion NP; subst.
    destruct (existsb _ Q); simpl; auto. constructor; auto. intros H. apply in_map_iff in H as (y & Ey & Hy).
    apply filter_In in Hy as [Hy _]. apply H1. rewrite <- Ey. now apply in_map.
  - intros x. rewrite filter_In, existsb_exists. split.
    + intros (Hx & y & Hy & Ey). apply N.eqb_eq in Ey. split; auto.
      replace x with y; auto. apply (key_in_map av); auto.
    + intros (Hx & Hy). split; auto. exists x. split; auto. apply N.eqb_refl.
Qed.
(** C14 over one registry: the validators that voted for both links are at least
    2 * threshold - 1 of the total weight. *)
Theorem C14_one_registry X cfg R1 R2 st0 atts1 atts2 post1 post2 slot1 slot2 avl av :
  rd_chain_spec R1 = rd_chain_spec R2 ->
  rd_consensus_state R1 = Ok st0 -> rd_consensus_state R2 = Ok st0 ->
  rd_attestations R1 = Ok atts1 -> rd_attestations R2 = Ok atts2 ->
  (forall e, rd_active_validators R1 e = Ok avl) -> (forall e, rd_active_validators R2 e = Ok avl) ->
  active_set avl av ->
  0 < effective_balance_increment (rd_chain_spec R1) ->
  2 * effective_balance_increment (rd_chain_spec R1) <= weight av ->
  verify X cfg R1 = Ok (post1, slot1) -> verify X cfg R2 = Ok (post2, slot2) ->
  conflicting (current_justified st0) (map link_of atts1) (map link_of atts2) (finalized post1) (finalized post2) ->
  exists l1 l2 g1 g2 P1 P2 both,
    slashable l1 l2 /\ incl g1 atts1 /\ incl g2 atts2 /\
    supermajority_link X cfg R1 l1 g1 av P1 /\ supermajority_link X cfg R2 l2 g2 av P2 /\
    in_both (unslashed P1) (unslashed P2) both /\
    2 * justification_threshold_factor cfg * weight av
      <= justification_threshold_quotient cfg * (weight both + weight av).
Proof.
  intros Hcs Hs1 Hs2 Ha1 Ha2 V1 V2 Hact Hi HT E1 E2 Hconf.
  destruct (C14_accountable_safety X cfg R1 R2 st0 atts1 atts2 post1 post2 slot1 slot2) as (l1 & l2 & g1 & g2 & av1 & av2 & P1 & P2 & H1 & H2 & H3 & H4 & H5 & H6); auto.
  pose proof (supermajority_participants _ _ _ _ _ _ _ H4) as (Na & NP1 & IP1).
  pose proof (supermajority_participants _ _ _ _ _ _ _ H5) as (Nb & NP2 & IP2).
  assert (av1 = av) as ->.
  { destruct H4 as (? & ? & avl' & ? & _ & _ & Hav & Hact' & _). rewrite V1 in Hav. injection Hav as <-.
    now rewrite (active_set_unique _ _ Hact), (active_set_unique _ _ Hact'). }
  assert (av2 = av) as ->.
  { destruct H5 as (? & ? & avl' & ? & _ & _ & Hav & Hact' & _). rewrite V2 in Hav. injection Hav as <-.
    now rewrite (active_set_unique _ _ Hact), (active_set_unique _ _ Hact'). }
  destruct (in_both_exists (unslashed P1) (unslashed P2) av) as [both Hb]; auto.
  - intros x Hx. apply IP1. now apply unslashed_incl.
  - intros x Hx. apply IP2. now apply unslashed_incl.
  - now apply unslashed_NoDup.
  - exists l1, l2, g1, g2, P1, P2, both. repeat (split; [assumption|]).
    specialize (H6 Hi HT HT av both Na (incl_refl _) (incl_refl _) Hb). lia.
Qed.
(** With the default configuration: 70% of the total weight. *)
Corollary C14_default X R1 R2 st0 atts1 atts2 post1 post2 slot1 slot2 avl av :
  rd_chain_spec R1 = rd_chain_spec R2 ->
  rd_consensus_state R1 = Ok st0 -> rd_consensus_state R2 = Ok st0 ->
  rd_attestations R1 = Ok atts1 -> rd_attestations R2 = Ok atts2 ->
  (forall e, rd_active_validators R1 e = Ok avl) -> (forall e, rd_active_validators R2 e = Ok avl) ->
  active_set avl av ->
  0 < effective_balance_increment (rd_chain_spec R1) ->
  2 * effective_balance_increment (rd_chain_spec R1) <= weight av ->
  verify X DEFAULT_CONFIG R1 = Ok (post1, slot1) -> verify X DEFAULT_CONFIG R2 = Ok (post2, slot2) ->
  conflicting (current_justified st0) (map link_of atts1) (map link_of atts2) (finalized post1) (finalized post2) ->
  exists l1 l2 g1 g2 P1 P2 both,
    slashable l1 l2 /\ incl g1 atts1 /\ incl g2 atts2 /\
    supermajority_link X DEFAULT_CONFIG R1 l1 g1 av P1 /\ supermajority_link X DEFAULT_CONFIG R2 l2 g2 av P2 /\
    in_both (unslashed P1) (unslashed P2) both /\ 70 * weight av <= 100 * weight both.
Proof.
  intros. destruct (C14_one_registry X DEFAULT_CONFIG R1 R2 st0 atts1 atts2 post1 post2 slot1 slot2 avl av)
    as (l1 & l2 & g1 & g2 & P1 & P2 & both & ? & ? & ? & ? & ? & ? & Q); auto.
  exists l1, l2, g1, g2, P1, P2, both. repeat (split; [assumption|]). cbn [justification_threshold_factor justification_threshold_quotient DEFAULT_CONFIG] in Q. lia.
Qed.

(** C15: if the balances seen from the trusted state reach the threshold and drift within A, E and
    S, the real unslashed attesting balance is still two thirds of the real total. *)
Theorem C15_drift vs cfg A E S :
  total w0 vs * justification_threshold_factor cfg
    <= total (fun v => when (attesting v) (w0 v)) vs * justification_threshold_quotient cfg ->
  total (fun v => when (negb (attesting v)) (wn v - w0 v)) vs <= A ->
  total (fun v => when (attesting v) (w0 v - wn v)) vs <= E ->
  total (fun v => when (attesting v && slashed_since v) (wn v)) vs <= S ->
  0 < justification_threshold_quotient cfg ->
  2 * justification_threshold_quotient cfg * total w0 vs
    + justification_threshold_quotient cfg * (2 * A + E + 3 * S)
    <= 3 * justification_threshold_factor cfg * total w0 vs ->
  2 * total wn vs <= 3 * total (fun v => when (attesting v && negb (slashed_since v)) (wn v)) vs.
Proof. apply drift_margin. Qed.
(** The margin is tight: one unit more can break two thirds. *)
Theorem C15_drift_tight : exists vs A E S,
  total w0 vs * 85 <= total (fun v => when (attesting v) (w0 v)) vs * 100 /\
  total (fun v => when (negb (attesting v)) (wn v - w0 v)) vs <= A /\
  total (fun v => when (attesting v) (w0 v - wn v)) vs <= E /\
  total (fun v => when (attesting v && slashed_since v) (wn v)) vs <= S /\
  100 * (2 * A + E + 3 * S) = 55 * total w0 vs + 100 /\
  3 * total (fun v => when (attesting v && negb (slashed_since v)) (wn v)) vs < 2 * total wn vs.
Proof.
  exists [mkDrift 75 75 true false; mkDrift 10 10 true true; mkDrift 15 28 false false].
  exists 13, 0, 10. vm_compute. repeat split; congruence.
Qed.
(** C15 with the documented figures: 35475927 ETH and 1087747 validators, default threshold, any
    number of epochs up to 10 (the default lookahead limit is 4): 4.9 million slashed ETH fit. *)
Theorem C15_mainnet n na nn vs A E S :
  n <= 10 -> na + nn <= 1087747 + 8 * n ->
  total w0 vs = 35475927 ->
  A = doc_A 35475927 n nn ->
  E = doc_E 35475927 (35475927 + 256 * n + 48 * n + 1087747 + 128960 * n) n na ->
  S = 4900000 ->
  total w0 vs * justification_threshold_factor DEFAULT_CONFIG
    <= total (fun v => when (attesting v) (w0 v)) vs * justification_threshold_quotient DEFAULT_CONFIG ->
  total (fun v => when (negb (attesting v)) (wn v - w0 v)) vs <= A ->
  total (fun v => when (attesting v) (w0 v - wn v)) vs <= E ->
  total (fun v => when (attesting v && slashed_since v) (wn v)) vs <= S ->
  2 * total wn vs <= 3 * total (fun v => when (attesting v && negb (slashed_since v)) (wn v)) vs.
Proof.
  intros Hn Hv H0 HA HE HS Hth H1 H2 H3. apply (drift_margin vs A E S 85 100); auto; [lia|].
  rewrite H0. subst A E S. unfold doc_A, doc_E, ceil_div.
  assert (N.max 128 ((35475927 + 65536 - 1) / 65536) = 542) as -> by reflexivity.
  assert (exists k, n = N.of_nat k /\ (k <= 10)%nat) as (k & -> & Hk) by (exists (N.to_nat n); lia).
  clear -Hk Hv. do 11 (destruct k as [|k]; [cbn [N.of_nat Pos.of_succ_nat Pos.succ] in *; lia|]). lia.
Qed.

(** ** Non-vacuity *)
(** Two proofs from one state that finalize different checkpoints of epoch 12. *)
Definition fork_l1 := mkLink (mkCheckpoint 10 (toy_root 10)) (mkCheckpoint 12 (toy_root 112)).
Definition fork_l2 := mkLink (mkCheckpoint 12 (toy_root 112)) (mkCheckpoint 13 (toy_root 113)).
Definition fork_atts : list Attestation :=
  [toy_att 24 fork_l1 [true; true; true; true] [4; 5; 6; 7]; toy_att 25 fork_l1 [true; true; true; true] [0; 1; 2; 3];
   toy_att 26 fork_l2 [false; true; true; true] [4; 5; 6]; toy_att 27 fork_l2 [true; true; true; true] [0; 1; 2; 3]].
Definition fork_R : Reader :=
  mkReader toy_cs (Ok toy_gvr) (fun _ => Ok toy_fork) (fun _ => Ok toy_av)
    (fun e i => Ok (Some (toy_root i))) (Ok fork_atts) (Ok toy_state) (fun r => Ok 24).
Example fork_accepted : verify toy_X DEFAULT_CONFIG fork_R
  = Ok (mkCS (mkCheckpoint 13 (toy_root 113)) (mkCheckpoint 12 (toy_root 112)), 24).
Proof. vm_compute. reflexivity. Qed.
Example fork_conflict : conflicting (current_justified toy_state) (map link_of toy_atts) (map link_of fork_atts)
    (mkCheckpoint 12 (toy_root 12)) (mkCheckpoint 12 (toy_root 112)) /\
  2 * effective_balance_increment toy_cs <= weight (bm_of_list toy_av).
Proof. split; [left; split; [reflexivity|vm_compute; congruence]|vm_compute; congruence]. Qed.
(** A surround conflict: the second chain jumps over the first chain's finalized checkpoint. *)
Example surround_conflict : conflicting (mkCheckpoint 10 (toy_root 10)) [toy_l1; toy_l2]
    [mkLink (mkCheckpoint 10 (toy_root 10)) (mkCheckpoint 15 (toy_root 15));
     mkLink (mkCheckpoint 15 (toy_root 15)) (mkCheckpoint 16 (toy_root 16))]
    (mkCheckpoint 12 (toy_root 12)) (mkCheckpoint 15 (toy_root 15)) /\
  slashable (mkLink (mkCheckpoint 10 (toy_root 10)) (mkCheckpoint 15 (toy_root 15))) toy_l2.
Proof.
  split.
  - right; left. split; [reflexivity|]. intros [E|(l & [<-|[<-|[]]] & E)]; discriminate.
  - right; left. split; reflexivity.
Qed.
Example drift_example :
  let vs := [mkDrift 90 88 true false; mkDrift 4 4 true true; mkDrift 6 9 false false] in
  total w0 vs * 85 <= total (fun v => when (attesting v) (w0 v)) vs * 100 /\
  2 * 100 * total w0 vs + 100 * (2 * 3 + 2 + 3 * 4) <= 3 * 85 * total w0 vs.
Proof. vm_compute. split; congruence. Qed.
Example mainnet_example : exists vs, total w0 vs = 35475927 /\
  total w0 vs * 85 <= total (fun v => when (attesting v) (w0 v)) vs * 100 /\
  total (fun v => when (negb (attesting v)) (wn v - w0 v)) vs <= doc_A 35475927 4 500000 /\
  total (fun v => when (attesting v && slashed_since v) (wn v)) vs <= 4900000.
Proof.
  exists [mkDrift 26175927 26175927 true false; mkDrift 4800000 4800000 true true; mkDrift 4500000 5000000 false false].
  vm_compute. repeat split; congruence.
Qed.

Print Assumptions C14_accountable_safety.
Print Assumptions C14_one_registry.
Print Assumptions C14_default.
Print Assumptions C15_drift.
Print Assumptions C15_drift_tight.
Print Assumptions C15_mainnet.
