(** C62, with the attestations compared one by one while the run consumes them. *)
From Coq Require Import List Arith ZArith NArith Bool Lia.
From Verif.Model Require Import Base Types ConsensusState Committee Verify AssertReader AssertStream.
From Verif.Spec Require Import VerifySpec HostInputSpec.
From Verif.Proof Require Import BaseLemmas ConsensusStateP VerifyP VerifyMoreP ReplayP AssertReaderP AssertStreamP.
From Verif.Props Require Import VerifyProps ReplayProps AssertReaderProps.
Import ListNotations.
Open Scope N_scope.

(** A run that pulls its attestations one at a time from an iterator that never panics ends as the run
    over their groups does, whatever it ends with. *)
Theorem C62_streaming_is_grouping : forall X cfg R atts, rd_attestations R = Ok atts ->
  verify_stream X cfg R (Ok (map Some atts)) = verify X cfg R.
Proof. exact verify_stream_plain. Qed.

(** When the two sources have the same attestations the streamed comparison is the whole-list one. *)
Theorem C62_streamed_same_attestations : forall X cfg A B atts,
  rd_attestations A = Ok atts -> rd_attestations B = Ok atts ->
  verify_compared X cfg A B = verify X cfg (assert_reader A B).
Proof.
  intros X cfg A B atts HA HB. unfold verify_compared, compared_attestations. rewrite HA, HB. cbn [bind unwrap].
  rewrite compared_same. apply verify_stream_plain. cbn [assert_reader rd_attestations]. rewrite HA, HB. cbn [both bind unwrap].
  now rewrite att_eqb_refl_list.
Qed.

Lemma streamed_cases X cfg A B la lb : rd_attestations A = Ok la -> rd_attestations B = Ok lb ->
  match verify_compared X cfg A B with
  | Ok r => la = lb
  | Err e => verify X cfg (assert_reader A (with_attestations B (Ok la))) = Err e
  | Panic => True
  end.
Proof.
  intros HA HB.
  assert (P : verify X cfg (assert_reader A (with_attestations B (Ok la))) = verify_stream X cfg (assert_reader A B) (Ok (map Some la))).
  { rewrite <- (verify_stream_atts X cfg A B (Ok la)). symmetry. apply verify_stream_plain.
    cbn [assert_reader with_attestations rd_attestations]. rewrite HA. cbn [both bind unwrap]. now rewrite att_eqb_refl_list. }
  rewrite P. unfold verify_compared, compared_attestations. rewrite HA, HB. cbn [bind unwrap]. unfold verify_stream. cbn [bind unwrap].
  destruct (unwrap (rd_consensus_state (assert_reader A B))) as [st0|?|]; cbn [bind]; auto.
  set (f := S (length (compared la lb) + length (map (@Some Attestation) la))).
  rewrite (stream_fuel X cfg (assert_reader A B) (finalized st0) (S (length (compared la lb))) f) by (unfold f; lia).
  rewrite (stream_fuel X cfg (assert_reader A B) (finalized st0) (S (length (map Some la))) f) by (unfold f; lia).
  pose proof (stream_links_cut X cfg (assert_reader A B) (finalized st0) f (compared la lb) la st0 (compared_cut la lb)
                ltac:(unfold f; lia) ltac:(unfold f; rewrite map_length; lia)) as C.
  destruct (stream_links X cfg (assert_reader A B) (finalized st0) f (compared la lb) st0) as [st|e|]; cbn [bind]; auto.
  - destruct C as [C1 C2]. rewrite C1. cbn [bind]. apply compared_all in C2. destruct (ensure _ _) as [?|?|]; cbn [bind]; auto.
    destruct (map_err _ _) as [?|?|]; cbn [bind]; auto.
  - rewrite C. reflexivity.
Qed.
Lemma streamed_answers X cfg A B : verify_compared X cfg A B <> Panic ->
  exists la lb, rd_attestations A = Ok la /\ rd_attestations B = Ok lb.
Proof.
  unfold verify_compared, verify_stream, compared_attestations. intros H.
  destruct (unwrap (rd_consensus_state (assert_reader A B))) as [st0|e|] eqn:Es; cbn [bind] in H; try contradiction.
  2:{ destruct (rd_consensus_state (assert_reader A B)); discriminate. }
  destruct (rd_attestations A) as [la|?|]; cbn [bind unwrap] in H; try contradiction.
  destruct (rd_attestations B) as [lb|?|]; cbn [bind unwrap] in H; try contradiction. eauto.
Qed.

(** It accepts exactly what comparing the whole lists first accepts. *)
Theorem C62_streamed_accepts : forall X cfg A B r,
  verify_compared X cfg A B = Ok r <-> verify X cfg (assert_reader A B) = Ok r.
Proof.
  intros X cfg A B r. split; intros H.
  - destruct (streamed_answers X cfg A B) as (la & lb & HA & HB); [congruence|].
    pose proof (streamed_cases X cfg A B la lb HA HB) as C. rewrite H in C. subst lb.
    now rewrite <- (C62_streamed_same_attestations X cfg A B la).
  - assert (exists la, rd_attestations A = Ok la /\ rd_attestations B = Ok la) as (la & HA & HB).
    { unfold verify in H. apply bind_ok in H as (st0 & _ & H). apply bind_ok in H as (la & H & _).
      cbn [assert_reader rd_attestations] in H. destruct (rd_attestations A) as [x|?|]; try discriminate.
      destruct (rd_attestations B) as [y|?|]; try discriminate. cbn [both bind unwrap] in H.
      destruct (list_eqb attestation_eqb x y) eqn:E; [|discriminate]. apply (list_eqb_eq _ attestation_eqb_eq) in E. subst y. eauto. }
    now rewrite (C62_streamed_same_attestations X cfg A B la).
Qed.
(** Hence exactly when the first source's run accepts and the sources agree on all that it reads. *)
Theorem C62_streamed_exact : forall X cfg A B post slot,
  sane_spec X (rd_chain_spec A) ->
  verify_compared X cfg A B = Ok (post, slot) <->
  verify X cfg A = Ok (post, slot) /\ exists atts, agreeing A B atts (root (finalized post)).
Proof. intros. rewrite C62_streamed_accepts. now apply C62_exact. Qed.
(** Every error is an error of the first source's own run, even when the comparison would have failed at a
    later attestation. *)
Theorem C62_streamed_error_is_first : forall X cfg A B e, verify_compared X cfg A B = Err e -> verify X cfg A = Err e.
Proof.
  intros X cfg A B e H. destruct (streamed_answers X cfg A B) as (la & lb & HA & HB); [congruence|].
  pose proof (streamed_cases X cfg A B la lb HA HB) as C. rewrite H in C. eapply C62_error_is_first; eauto.
Qed.
(** An error of the whole-list comparison is the streamed one's too: comparing while consuming can only
    turn a panic into an error of the first source's run. *)
Theorem C62_streamed_keeps_errors : forall X cfg A B e,
  verify X cfg (assert_reader A B) = Err e -> verify_compared X cfg A B = Err e.
Proof.
  intros X cfg A B e H.
  assert (exists la, rd_attestations A = Ok la /\ rd_attestations B = Ok la) as (la & HA & HB).
  { unfold verify in H. destruct (rd_consensus_state (assert_reader A B)) as [st0|?|]; cbn [unwrap bind] in H; try discriminate.
    cbn [assert_reader rd_attestations] in H. destruct (rd_attestations A) as [x|?|]; cbn [both unwrap bind] in H; try discriminate.
    destruct (rd_attestations B) as [y|?|]; cbn [both unwrap bind] in H; try discriminate.
    destruct (list_eqb attestation_eqb x y) eqn:E; [|discriminate]. apply (list_eqb_eq _ attestation_eqb_eq) in E. subst y. eauto. }
  now rewrite (C62_streamed_same_attestations X cfg A B la).
Qed.

(** Cases. The same sources as before. *)
Example C62_streamed_nonvacuous : verify_compared toy_X DEFAULT_CONFIG (toy_R toy_atts) a_exits = Ok (a_post, 24).
Proof. apply C62_streamed_accepts. exact C62_nonvacuous. Qed.
(** A second source that has one attestation more: the run processes every attestation of the first, and
    panics at the end of its iterator. *)
Example C62_streamed_longer : verify_compared toy_X DEFAULT_CONFIG (toy_R toy_atts)
    (with_attestations a_exits (Ok (toy_atts ++ toy_atts))) = Panic.
Proof. vm_compute. reflexivity. Qed.
(** With no validators for the first link, and no second attestations that match: the error of the first
    source's run comes out before the difference is seen. *)
Definition early : Reader :=
  mkReader toy_cs (Ok toy_gvr) (fun _ => Ok toy_fork) (fun _ => Err (RE_Other 7)) (rd_randao_mix (toy_R toy_atts)) (Ok toy_atts) (Ok toy_state)
       (rd_slot_for_block (toy_R toy_atts)).
Definition streamed_is_whole_prop : Prop := forall X cfg A B, rd_chain_spec A = rd_chain_spec B ->
  verify_compared X cfg A B = verify X cfg (assert_reader A B).
Theorem C62_streamed_is_whole_refuted : ~ streamed_is_whole_prop.
Proof.
  intros H. specialize (H toy_X DEFAULT_CONFIG early (with_attestations (toy_R toy_atts) (Ok (firstn 1 toy_atts))) eq_refl).
  vm_compute in H. discriminate.
Qed.
Example C62_streamed_error_nonvacuous : exists e, verify_compared toy_X DEFAULT_CONFIG early
    (with_attestations (toy_R toy_atts) (Ok (firstn 1 toy_atts))) = Err e /\
  verify toy_X DEFAULT_CONFIG (assert_reader early (toy_R toy_atts)) = Err e /\
  verify toy_X DEFAULT_CONFIG (assert_reader early (with_attestations (toy_R toy_atts) (Ok (firstn 1 toy_atts)))) = Panic.
Proof. eexists. vm_compute. repeat split; reflexivity. Qed.

Print Assumptions C62_streaming_is_grouping.
Print Assumptions C62_streamed_same_attestations.
Print Assumptions C62_streamed_accepts.
Print Assumptions C62_streamed_exact.
Print Assumptions C62_streamed_error_is_first.
Print Assumptions C62_streamed_keeps_errors.
Print Assumptions C62_streamed_is_whole_refuted.
