(** C62: the reader that compares two data sources. *)
From Coq Require Import List ZArith NArith Bool Lia.
From Verif.Model Require Import Base Types ConsensusState Verify AssertReader.
From Verif.Spec Require Import VerifySpec HostInputSpec.
From Verif.Proof Require Import BaseLemmas ConsensusStateP VerifyP VerifyMoreP ReplayP AssertReaderP.
From Verif.Props Require Import VerifyProps ReplayProps.
Import ListNotations.
Open Scope N_scope.

(** Two lists of validators that agree on everything but effective balances and exit epochs. *)
Definition same_but_balance_and_exit : list (ValidatorIndex * ValidatorInfo) -> list (ValidatorIndex * ValidatorInfo) -> Prop :=
  Forall2 (fun a b => fst a = fst b /\ pubkey (snd a) = pubkey (snd b) /\ slashed (snd a) = slashed (snd b) /\
                      activation_eligibility_epoch (snd a) = activation_eligibility_epoch (snd b) /\
                      activation_epoch (snd a) = activation_epoch (snd b)).
(** Two answers are both given and equal. *)
Definition same_answer {A} (a b : outcome ReaderError A) : Prop := exists x, a = Ok x /\ b = Ok x.
(** Two sources agree on all that a run over the attestations [atts] to a finalized block [r] reads. *)
Record agreeing (A B : Reader) (atts : list Attestation) (r : Root) : Prop := {
  agr_state : same_answer (rd_consensus_state A) (rd_consensus_state B);
  agr_attestations : rd_attestations A = Ok atts /\ rd_attestations B = Ok atts;
  agr_slot : same_answer (rd_slot_for_block A r) (rd_slot_for_block B r);
  agr_epochs : forall e, In e (target_epochs atts) ->
    same_answer (rd_genesis_validators_root A) (rd_genesis_validators_root B) /\
    same_answer (rd_fork A e) (rd_fork B e) /\
    same_answer (rd_randao_mix A e (seed_epoch_index (rd_chain_spec A) e)) (rd_randao_mix B e (seed_epoch_index (rd_chain_spec A) e)) /\
    exists la lb, rd_active_validators A e = Ok la /\ rd_active_validators B e = Ok lb /\ same_but_balance_and_exit la lb }.
Lemma same_validators_iff la lb : list_eqb same_validator la lb = true <-> same_but_balance_and_exit la lb.
Proof.
  rewrite list_eqb_Forall2. unfold same_but_balance_and_exit.
  split; induction 1; constructor; auto; now apply same_validator_iff.
Qed.
Lemma both_eq {A} eqb (a b : outcome ReaderError A) x : (forall x y, eqb x y = true <-> x = y) -> both eqb a b = Ok x -> a = Ok x /\ b = Ok x.
Proof. intros He H. apply both_ok in H as (H1 & y & H2 & H3). apply He in H3. subst y. auto. Qed.
Lemma both_same_answer {A} eqb (a b : outcome ReaderError A) : (forall x y, eqb x y = true <-> x = y) -> same_answer a b -> both eqb a b = a.
Proof. intros He (x & H1 & H2). eapply both_same; eauto. now apply He. Qed.

(** An accepted run over the compared sources is an accepted run over the first source, with the same
    result. *)
Theorem C62_first_accepts : forall X cfg A B post slot,
  verify X cfg (assert_reader A B) = Ok (post, slot) -> verify X cfg A = Ok (post, slot).
Proof. intros X cfg A B post slot. apply (le_ok true). apply verify_le, assert_le_a. Qed.

(** It shows that the second source gives the same answers to all the questions of the run, up to
    effective balances and exit epochs. *)
Theorem C62_accepted_agree : forall X cfg A B post slot,
  sane_spec X (rd_chain_spec A) ->
  verify X cfg (assert_reader A B) = Ok (post, slot) ->
  exists atts, agreeing A B atts (root (finalized post)).
Proof.
  intros X cfg A B post slot Sane V.
  apply verify_reads in V as (st & atts & H1 & H2 & H3 & H4); [|exact Sane]. cbn [assert_reader rd_consensus_state rd_attestations rd_slot_for_block rd_fork rd_genesis_validators_root rd_active_validators rd_randao_mix rd_chain_spec] in *.
  exists atts. constructor.
  - exists st. now apply (both_eq cs_eqb); [apply cs_eqb_eq|].
  - apply (both_eq (list_eqb attestation_eqb)); [apply list_eqb_eq, attestation_eqb_eq|exact H2].
  - exists slot. now apply (both_eq N.eqb); [apply N.eqb_eq|].
  - intros e He. destruct (H4 e He) as (f & gvr & avl & mix & E1 & E2 & E3 & E4).
    split; [exists gvr; now apply (both_eq bytes_eqb); [apply bytes_eqb_eq|]|].
    split; [exists f; now apply (both_eq fork_eqb); [apply fork_eqb_eq|]|].
    split; [exists (Some mix); apply (both_eq (option_eqb bytes_eqb)); [apply option_eqb_eq, bytes_eqb_eq|exact E4]|].
    apply both_ok in E3 as (E3 & lb & E5 & E6). exists avl, lb. repeat split; auto. now apply same_validators_iff.
Qed.

(** If the second source also reports the same effective balances for the target epochs, it alone
    leads to the same result. *)
Theorem C62_second_accepts : forall X cfg A B post slot,
  sane_spec X (rd_chain_spec A) -> rd_chain_spec A = rd_chain_spec B ->
  (forall atts e la lb, rd_attestations A = Ok atts -> In e (target_epochs atts) ->
     rd_active_validators A e = Ok la -> rd_active_validators B e = Ok lb ->
     map (fun v => effective_balance (snd v)) la = map (fun v => effective_balance (snd v)) lb) ->
  verify X cfg (assert_reader A B) = Ok (post, slot) -> verify X cfg B = Ok (post, slot).
Proof.
  intros X cfg A B post slot Sane Hcs Hbal V.
  destruct (C62_accepted_agree _ _ _ _ _ _ Sane V) as (atts & [_ (Ha & Hb) _ _]).
  assert (Hab : rd_attestations (assert_reader A B) = Ok atts).
  { cbn [assert_reader rd_attestations]. erewrite both_same_answer; [exact Ha|apply list_eqb_eq, attestation_eqb_eq|exists atts; auto]. }
  rewrite <- verify_voters, <- (verify_only X cfg (voters (assert_reader A B)) atts) in V; [|exact Sane|exact Hab].
  rewrite <- verify_voters, <- (verify_only X cfg (voters B) atts); [|cbn; now rewrite <- Hcs|exact Hb].
  revert V. apply (le_ok false), verify_le. assert (L : forall T (a b : outcome ReaderError T), (forall x, a = Ok x -> b = Ok x) -> le false a b) by (intros T [x|?|] b L; cbn [le]; auto). constructor; cbn [only voters assert_reader rd_chain_spec rd_consensus_state rd_attestations rd_slot_for_block rd_fork rd_genesis_validators_root rd_active_validators rd_randao_mix].
  - exact Hcs.
  - apply L. intros x H. now apply (both_eq bytes_eqb) in H; [|apply bytes_eqb_eq].
  - intros e. apply L. intros x H. now apply (both_eq fork_eqb) in H; [|apply fork_eqb_eq].
  - intros e. apply L. intros x. destruct (existsb (N.eqb e) (target_epochs atts)) eqn:Ee; [|discriminate].
    apply existsb_exists in Ee as (e' & He & Ee). apply N.eqb_eq in Ee. subst e'.
    destruct (both _ _ _) as [la| |] eqn:Eb; cbn [map_ok]; try discriminate. intros H. injection H as <-.
    apply both_ok in Eb as (E1 & lb & E2 & E3). rewrite E2. cbn [map_ok]. f_equal.
    pose proof (Hbal atts e la lb Ha He E1 E2) as Hb'. apply same_validators_iff in E3. clear -E3 Hb'.
    induction E3 as [|[i a] [j b] la lb (P1 & P2 & P3 & _) _ IH]; [reflexivity|]. cbn [map] in *. injection Hb' as Q1 Q2.
    rewrite (IH Q2). f_equal. unfold on_snd, voter. cbn [fst snd] in *. congruence.
  - intros e i. apply L. intros x H. now apply (both_eq (option_eqb bytes_eqb)) in H; [|apply option_eqb_eq, bytes_eqb_eq].
  - apply L. intros x H. now apply (both_eq (list_eqb attestation_eqb)) in H; [|apply list_eqb_eq, attestation_eqb_eq].
  - apply L. intros x H. now apply (both_eq cs_eqb) in H; [|apply cs_eqb_eq].
  - intros r. apply L. intros x H. now apply (both_eq N.eqb) in H; [|apply N.eqb_eq].
Qed.

(** The comparison is transparent for sources that agree. *)
Theorem C62_transparent : forall X cfg A B atts post slot,
  sane_spec X (rd_chain_spec A) ->
  agreeing A B atts (root (finalized post)) ->
  verify X cfg A = Ok (post, slot) -> verify X cfg (assert_reader A B) = Ok (post, slot).
Proof.
  intros X cfg A B atts post slot Sane [Hst (Ha & Hb) Hs He] V.
  destruct (verify_reads _ _ _ _ _ Sane V) as (st & atts' & _ & Ha' & _). rewrite Ha in Ha'. injection Ha' as <-.
  assert (N0 : atts <> []).
  { intros ->. unfold verify in V. rewrite Ha in V. destruct (rd_consensus_state A) as [s| |]; try discriminate. cbn in V.
    rewrite checkpoint_eqb_refl in V. discriminate. }
  destruct atts as [|a0 atts0] eqn:Eatts; [easy|]. rewrite <- Eatts in *. clear N0.
  assert (Hg : same_answer (rd_genesis_validators_root A) (rd_genesis_validators_root B)).
  { destruct (He (epoch (ad_target (att_data a0)))) as [H _]; [|exact H]. rewrite Eatts. unfold target_epochs. cbn [map In]. auto. }
  clear a0 atts0 Eatts.
  (* the run with a slot for this one block only *)
  set (one := fun R => mkReader (rd_chain_spec R) (rd_genesis_validators_root R) (rd_fork R) (rd_active_validators R) (rd_randao_mix R)
                (rd_attestations R) (rd_consensus_state R)
                (fun r => if bytes_eqb r (root (finalized post)) then rd_slot_for_block R r else Err RE_Config)).
  assert (O : forall R, verify X cfg R = Ok (post, slot) <-> verify X cfg (one R) = Ok (post, slot)).
  { intros R. unfold verify. cbn [one rd_consensus_state rd_attestations rd_slot_for_block rd_chain_spec].
    destruct (rd_consensus_state R) as [s0| |]; cbn [unwrap bind]; [|tauto|tauto].
    destruct (rd_attestations R) as [l0| |]; cbn [unwrap bind]; [|tauto|tauto].
    change (process_link X cfg (mkReader _ _ _ _ _ _ _ _)) with (process_link X cfg R).
    destruct (fold_outcome _ _ _) as [s1| |]; cbn [bind]; [|tauto|tauto].
    destruct (ensure _ _); cbn [bind]; [|tauto|tauto].
    destruct (bytes_eqb (root (finalized s1)) (root (finalized post))) eqn:Er; [tauto|]. apply bytes_eqb_neq in Er.
    split; intros H; exfalso; apply bind_ok in H as (? & _ & H); injection H as -> _; now apply Er. }
  apply O. apply O in V. rewrite <- V. symmetry.
  apply verify_replay; cbn [one assert_reader rd_chain_spec rd_consensus_state rd_attestations rd_slot_for_block rd_fork rd_genesis_validators_root rd_active_validators rd_randao_mix]; auto.
  - symmetry. now apply both_same_answer; [apply bytes_eqb_eq|].
  - symmetry. now apply both_same_answer; [apply cs_eqb_eq|].
  - symmetry. apply both_same_answer; [apply list_eqb_eq, attestation_eqb_eq|exists atts; auto].
  - intros l a E Hi. rewrite Ha in E. injection E as <-. destruct (He (epoch (ad_target (att_data a)))) as (H1 & H2 & H3 & la & lb & H4 & H5 & H6).
    { unfold target_epochs. now apply (in_map (fun a => epoch (ad_target (att_data a)))). }
    constructor; cbn [rd_fork rd_active_validators rd_randao_mix rd_chain_spec]; symmetry.
    + now apply both_same_answer; [apply fork_eqb_eq|].
    + eapply both_same; eauto. now apply same_validators_iff.
    + apply both_same_answer; [apply option_eqb_eq, bytes_eqb_eq|exact H3].
  - intros s0 l gs p _ _ _ _. destruct (bytes_eqb (root (finalized p)) (root (finalized post))) eqn:Er; [|reflexivity].
    apply bytes_eqb_eq in Er. rewrite Er. symmetry. now apply both_same_answer; [apply N.eqb_eq|].
Qed.

(** Hence the comparison accepts exactly when the first source's run does and the sources agree. *)
Theorem C62_exact : forall X cfg A B post slot,
  sane_spec X (rd_chain_spec A) ->
  verify X cfg (assert_reader A B) = Ok (post, slot) <->
  verify X cfg A = Ok (post, slot) /\ exists atts, agreeing A B atts (root (finalized post)).
Proof.
  intros. split.
  - intros V. split; [now apply C62_first_accepts in V|]. eapply C62_accepted_agree; eauto.
  - intros (V & atts & Hg). eapply C62_transparent; eauto.
Qed.

(** An error is an error of the first source's run: every failure that the comparison itself causes
    is a panic. *)
Theorem C62_error_is_first : forall X cfg A B e,
  verify X cfg (assert_reader A B) = Err e -> verify X cfg A = Err e.
Proof.
  intros X cfg A B e V. pose proof (verify_le true X cfg _ _ (assert_le_a A B)) as L. rewrite V in L. exact L.
Qed.

(** Without the balances the second source may reject what the comparison has accepted. *)
Definition a_second : Reader :=
  mkReader toy_cs (Ok toy_gvr) (fun _ => Ok toy_fork)
    (fun _ => Ok (map (fun v => (fst v, mkValidatorInfo (pubkey (snd v)) (if fst v =? 21 then 4096 else effective_balance (snd v)) (slashed (snd v))
                                          (activation_eligibility_epoch (snd v)) (activation_epoch (snd v)) 77)) toy_av))
    (rd_randao_mix (toy_R toy_atts)) (Ok toy_atts) (Ok toy_state) (rd_slot_for_block (toy_R toy_atts)).
Definition a_post : ConsensusState := mkCS (mkCheckpoint 13 (toy_root 13)) (mkCheckpoint 12 (toy_root 12)).
Definition both_accept_prop : Prop := forall X cfg A B post slot,
  sane_spec X (rd_chain_spec A) -> rd_chain_spec A = rd_chain_spec B ->
  verify X cfg (assert_reader A B) = Ok (post, slot) -> verify X cfg B = Ok (post, slot).
Example a_accepted : verify toy_X DEFAULT_CONFIG (assert_reader (toy_R toy_atts) a_second) = Ok (a_post, 24).
Proof. vm_compute. reflexivity. Qed.
Theorem C62_both_accept_refuted : ~ both_accept_prop.
Proof.
  intros H. specialize (H toy_X DEFAULT_CONFIG (toy_R toy_atts) a_second a_post 24 toy_sane eq_refl a_accepted).
  vm_compute in H. discriminate.
Qed.

(** Cases. The compared sources agree on balances too and differ in exit epochs, or in what is not
    read. *)
Definition a_exits : Reader :=
  mkReader toy_cs (Ok toy_gvr) (fun e => if e <? 14 then Ok toy_fork else Panic)
    (fun _ => Ok (map (fun v => (fst v, mkValidatorInfo (pubkey (snd v)) (effective_balance (snd v)) (slashed (snd v))
                                          (activation_eligibility_epoch (snd v)) (activation_epoch (snd v)) 77)) toy_av))
    (rd_randao_mix (toy_R toy_atts)) (Ok toy_atts) (Ok toy_state) (rd_slot_for_block (toy_R toy_atts)).
Example C62_nonvacuous : verify toy_X DEFAULT_CONFIG (assert_reader (toy_R toy_atts) a_exits) = Ok (a_post, 24).
Proof.
  apply (C62_transparent _ _ _ _ toy_atts); [exact toy_sane| |exact toy_accepted]. constructor.
  - exists toy_state. auto.
  - auto.
  - exists 24. vm_compute. auto.
  - intros e He. split; [exists toy_gvr; auto|]. split; [exists toy_fork; split; auto; vm_compute in He; repeat destruct He as [<-|He]; try easy; reflexivity|].
    split; [vm_compute in He; repeat destruct He as [<-|He]; try easy; eexists; vm_compute; auto|].
    do 2 eexists. split; [reflexivity|]. split; [reflexivity|]. repeat constructor.
Qed.
Example C62_second_nonvacuous : verify toy_X DEFAULT_CONFIG a_exits = Ok (a_post, 24).
Proof.
  apply (C62_second_accepts toy_X DEFAULT_CONFIG (toy_R toy_atts)); [exact toy_sane|reflexivity| |exact C62_nonvacuous].
  intros atts e la lb _ _ H1 H2. injection H1 as <-. injection H2 as <-. vm_compute. reflexivity.
Qed.
(** A disagreement on what is read is not accepted, and the first source's error passes through. *)
Example C62_disagreement : verify toy_X DEFAULT_CONFIG (assert_reader (toy_R toy_atts)
    (mkReader toy_cs (Ok toy_gvr) (fun _ => Ok toy_fork) (fun _ => Ok (rev toy_av)) (rd_randao_mix (toy_R toy_atts)) (Ok toy_atts) (Ok toy_state)
       (rd_slot_for_block (toy_R toy_atts)))) = Panic.
Proof. vm_compute. reflexivity. Qed.
Example C62_error_nonvacuous : exists e, verify toy_X DEFAULT_CONFIG (assert_reader
    (mkReader toy_cs (Ok toy_gvr) (fun _ => Ok toy_fork) (fun _ => Err (RE_Other 7)) (rd_randao_mix (toy_R toy_atts)) (Ok toy_atts) (Ok toy_state)
       (rd_slot_for_block (toy_R toy_atts))) (toy_R toy_atts)) = Err e.
Proof. eexists. vm_compute. reflexivity. Qed.

Print Assumptions C62_first_accepts.
Print Assumptions C62_accepted_agree.
Print Assumptions C62_second_accepts.
Print Assumptions C62_transparent.
Print Assumptions C62_exact.
Print Assumptions C62_error_is_first.
Print Assumptions C62_both_accept_refuted.
