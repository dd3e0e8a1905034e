From Coq Require Import List ZArith NArith Bool Lia.
From Verif.Model Require Import Base Types ConsensusState TreeHash Committee Verify AssertReader.
From Verif.Spec Require Import Committees VerifySpec HostInputSpec.
From Verif.Proof Require Import BaseLemmas ConsensusStateP VerifyP VerifyMoreP ReplayP.
Import ListNotations.
Open Scope N_scope.

(** ** Comparisons *)
Lemma list_eqb_Forall2 {A} (eqb : A -> A -> bool) a : forall b,
  list_eqb eqb a b = true <-> Forall2 (fun x y => eqb x y = true) a b.
Proof.
  induction a as [|x a IH]; intros [|y b]; cbn [list_eqb]; split; intros H; try discriminate; try (now inversion H); try constructor.
  - now apply andb_true_iff in H.
  - apply IH. now apply andb_true_iff in H.
  - inversion H; subst. apply andb_true_iff. split; auto. now apply IH.
Qed.
Lemma list_eqb_eq {A} (eqb : A -> A -> bool) : (forall x y, eqb x y = true <-> x = y) ->
  forall a b, list_eqb eqb a b = true <-> a = b.
Proof.
  intros He a b. rewrite list_eqb_Forall2. split.
  - induction 1 as [|x y a b H _ IH]; auto. apply He in H. congruence.
  - intros <-. induction a as [|x a IH]; constructor; auto. now apply He.
Qed.
Lemma option_eqb_eq {A} (eqb : A -> A -> bool) : (forall x y, eqb x y = true <-> x = y) ->
  forall a b, option_eqb eqb a b = true <-> a = b.
Proof.
  intros He [a|] [b|]; cbn [option_eqb]; split; intros H; try discriminate; auto.
  - apply He in H. congruence.
  - apply He. congruence.
Qed.
Lemma data_eqb_eq a b : data_eqb a b = true <-> a = b.
Proof.
  unfold data_eqb. rewrite !andb_true_iff, !N.eqb_eq, bytes_eqb_eq, !checkpoint_eqb_eq.
  destruct a, b; cbn. split; [intros ((((-> & ->) & ->) & ->) & ->); reflexivity|intros H; injection H; tauto].
Qed.
Lemma attestation_eqb_eq a b : attestation_eqb a b = true <-> a = b.
Proof.
  unfold attestation_eqb. rewrite !andb_true_iff, eqb_true_iff, !(list_eqb_eq eqb eqb_true_iff), data_eqb_eq, bytes_eqb_eq.
  destruct a, b; cbn. split; [intros ((((-> & ->) & ->) & ->) & ->); reflexivity|intros H; injection H; tauto].
Qed.
Lemma info_eqb_eq a b : info_eqb a b = true <-> a = b.
Proof.
  unfold info_eqb. rewrite !andb_true_iff, !N.eqb_eq, bytes_eqb_eq, eqb_true_iff.
  destruct a, b; cbn. split; [intros (((((-> & ->) & ->) & ->) & ->) & ->); reflexivity|intros H; injection H; tauto].
Qed.
Lemma same_validator_iff a b : same_validator a b = true <->
  fst a = fst b /\ pubkey (snd a) = pubkey (snd b) /\ slashed (snd a) = slashed (snd b) /\
  activation_eligibility_epoch (snd a) = activation_eligibility_epoch (snd b) /\
  activation_epoch (snd a) = activation_epoch (snd b).
Proof.
  unfold same_validator. rewrite andb_true_iff, N.eqb_eq, info_eqb_eq. destruct a as [i a], b as [j b], a, b; cbn.
  split.
  - intros [-> H]. injection H. tauto.
  - intros (-> & -> & -> & -> & ->). auto.
Qed.

(** ** Both readers *)
Lemma both_ok {A} eqb (a b : outcome ReaderError A) x : both eqb a b = Ok x ->
  a = Ok x /\ exists y, b = Ok y /\ eqb x y = true.
Proof.
  unfold both. intros H. inv_ok. match goal with H : unwrap _ = Ok _ |- _ => apply (proj1 (unwrap_ok _ _)) in H end. eauto.
Qed.
Lemma both_same {A} eqb (a b : outcome ReaderError A) x y : a = Ok x -> b = Ok y -> eqb x y = true -> both eqb a b = a.
Proof. intros -> -> H. unfold both. cbn [bind unwrap]. rewrite H. reflexivity. Qed.

(** ** A reader that answers less *)
(** [b] gives the result of [a] if that is a success, and with [k] also if it is an error. *)
Definition le (k : bool) {E A} (a b : outcome E A) : Prop :=
  match a with Ok x => b = Ok x | Err e => if k then b = Err e else True | Panic => True end.
Lemma le_refl k {E A} (a : outcome E A) : le k a a.
Proof. destruct a, k; simpl; auto. Qed.
Lemma le_bind k {E A B} (a b : outcome E A) (f g : A -> outcome E B) : le k a b -> (forall x, le k (f x) (g x)) ->
  le k (bind a f) (bind b g).
Proof. intros H K. destruct a as [x|e|]; cbn [le bind] in *; auto; [subst b; apply K|]. destruct k; auto. now subst b. Qed.
Lemma le_map_err k {E F A} (f : E -> F) (a b : outcome E A) : le k a b -> le k (map_err f a) (map_err f b).
Proof. intros H. destruct a as [x|e|]; cbn [le map_err] in *; auto; [now subst b|]. destruct k; auto. now subst b. Qed.
Lemma le_unwrap k {E F A} (a b : outcome E A) : le k a b -> @le k F A (unwrap a) (unwrap b).
Proof. intros H. destruct a as [x|e|]; cbn [le unwrap] in *; auto. now subst b. Qed.
Lemma le_fold k {E A S} (f g : S -> A -> outcome E S) l : (forall s a, le k (f s a) (g s a)) ->
  forall s, le k (fold_outcome f l s) (fold_outcome g l s).
Proof. intros H. induction l as [|a l IH]; intros s; cbn [fold_outcome]; [apply le_refl|]. apply le_bind; auto. Qed.
Record le_reader (k : bool) (R S : Reader) : Prop := {
  le_cs : rd_chain_spec R = rd_chain_spec S;
  le_gvr : le k (rd_genesis_validators_root R) (rd_genesis_validators_root S);
  le_fork : forall e, le k (rd_fork R e) (rd_fork S e);
  le_act : forall e, le k (rd_active_validators R e) (rd_active_validators S e);
  le_mix : forall e i, le k (rd_randao_mix R e i) (rd_randao_mix S e i);
  le_att : le k (rd_attestations R) (rd_attestations S);
  le_st : le k (rd_consensus_state R) (rd_consensus_state S);
  le_slot : forall r, le k (rd_slot_for_block R r) (rd_slot_for_block S r) }.
Theorem verify_le k X cfg R S : le_reader k R S -> le k (verify X cfg R) (verify X cfg S).
Proof.
  intros [Hc Hg Hf Ha Hm Ht Hs Hb]. unfold verify.
  apply le_bind; [now apply le_unwrap|intros st0]. apply le_bind; [now apply le_unwrap|intros atts].
  apply le_bind.
  2:{ intros st. apply le_bind; [apply le_refl|intros _]. apply le_bind; [now apply le_map_err|intros; apply le_refl]. }
  apply le_fold. intros st [l g]. unfold process_link. rewrite <- Hc.
  apply le_bind; [apply le_refl|intros _]. apply le_bind; [apply le_refl|intros _].
  apply le_bind; [now apply le_map_err|intros avl].
  apply le_bind.
  { unfold compute_committees. rewrite <- Hc. apply le_bind.
    - apply le_map_err. unfold get_seed. rewrite <- Hc. do 3 (apply le_bind; [apply le_refl|intros ?]).
      apply le_bind; [|intros; apply le_refl]. unfold get_randao_mix. rewrite <- Hc.
      apply le_bind; [apply le_refl|intros ?]. apply le_bind; [auto|intros; apply le_refl].
    - intros seed. apply le_refl. }
  intros c. apply le_bind; [|intros; apply le_refl].
  unfold process_group. apply le_fold. intros acc a. apply le_bind; [|intros; apply le_refl].
  unfold process_attestation. rewrite <- Hc. do 5 (apply le_bind; [apply le_refl|intros ?]).
  apply le_bind; [|intros; apply le_refl]. unfold is_valid_indexed_attestation.
  match goal with |- context [match ?vs with [] => _ | _ :: _ => _ end] => destruct vs as [|v vs] end; [apply le_refl|].
  apply le_bind; [now apply le_map_err|intros f]. apply le_bind; [now apply le_map_err|intros gvr]. rewrite <- Hc. apply le_refl.
Qed.
Lemma le_ok k {E A} (a b : outcome E A) x : le k a b -> a = Ok x -> b = Ok x.
Proof. intros H ->. exact H. Qed.
Lemma both_le {A} eqb (a b : outcome ReaderError A) : le true (both eqb a b) a.
Proof. unfold both. destruct a as [x|e|]; cbn [bind le]; auto. destruct b; cbn [unwrap bind le]; auto. destruct (eqb x a); cbn; auto. Qed.
Lemma assert_le_a A B : le_reader true (assert_reader A B) A.
Proof. constructor; cbn [assert_reader rd_chain_spec]; auto; intros; apply both_le. Qed.

(** What an accepting run has read. *)
Lemma verify_reads X cfg R post slot : sane_spec X (rd_chain_spec R) -> verify X cfg R = Ok (post, slot) ->
  exists st atts, rd_consensus_state R = Ok st /\ rd_attestations R = Ok atts /\
  rd_slot_for_block R (root (finalized post)) = Ok slot /\
  forall e, In e (target_epochs atts) -> exists f gvr avl mix, rd_fork R e = Ok f /\ rd_genesis_validators_root R = Ok gvr /\
    rd_active_validators R e = Ok avl /\ rd_randao_mix R e (seed_epoch_index (rd_chain_spec R) e) = Ok (Some mix).
Proof.
  intros Sane V. pose proof V as V'. apply verify_sound in V' as (st0 & atts & gs & H1 & H2 & H3 & _ & H5 & H6).
  exists st0, atts. do 3 (split; [assumption|]). intros e He. unfold target_epochs in He.
  apply in_map_iff in He as (a & <- & Ha). destruct H3 as (Hc & Hgo & Hadj). rewrite <- Hc in Ha.
  apply in_concat in Ha as (g & Hg & Hag). apply in_map_iff in Hg as ([l g'] & <- & Hg). cbn [snd] in Hag.
  rewrite Forall_forall in H5, Hgo. destruct (H5 _ Hg) as (_ & av & P & f & gvr & avl & sets & E1 & E2 & E3 & _).
  destruct (Hgo _ Hg) as [_ Hk]. cbn [fst snd] in *. specialize (Hk a Hag).
  assert (El : epoch (ad_target (att_data a)) = epoch (target l)) by now rewrite <- Hk. rewrite El.
  assert (exists mix, rd_randao_mix R (epoch (target l)) (seed_epoch_index (rd_chain_spec R) (epoch (target l))) = Ok (Some mix)) as (mix & Hm).
  { unfold verify in V. rewrite H1, H2 in V. cbn [unwrap bind] in V. rewrite (groups_chunk _ _ (conj Hc (conj (proj2 (Forall_forall _ _) Hgo) Hadj))) in V.
    apply bind_ok in V as (st & V & _).
    apply in_split in Hg as (g1 & g2 & ->). rewrite fold_outcome_app in V. apply bind_ok in V as (s1 & _ & V).
    cbn [fold_outcome] in V. apply bind_ok in V as (s2 & V & _). unfold process_link in V. inv_ok.
    match goal with H : compute_committees _ _ _ _ = Ok _ |- _ => unfold compute_committees in H end. inv_ok.
    match goal with H : get_seed _ _ _ _ = Ok _ |- _ => apply get_seed_inv in H as (_ & mix & Hm & _); [|exact Sane] end. eauto. }
  exists f, gvr, avl, mix. auto.
Qed.
