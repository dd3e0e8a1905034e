(** C81: order, repetition and choice of the votes. *)
From Coq Require Import List Arith ZArith NArith Bool Lia.
From Verif.Model Require Import Base Types ConsensusState Verify.
From Verif.Spec Require Import VerifySpec VotesSpec.
From Verif.Proof Require Import VerifyP VotesP.
From Verif.Props Require Import VerifyProps.
Import ListNotations.
Open Scope N_scope.

(** Two accepted lists that vote for the same links give the same new state and slot, whatever the
    votes are; and they name the links in the same order. *)
Theorem C81_result_depends_on_links_only X cfg R a b r r' :
  (forall l, (exists x, In x a /\ link_of x = l) <-> (exists x, In x b /\ link_of x = l)) ->
  verify X cfg (with_attestations R a) = Ok r -> verify X cfg (with_attestations R b) = Ok r' ->
  r = r' /\ forall ls, links_in_order a ls <-> links_in_order b ls.
Proof. exact (same_links_same_result X cfg R a b r r'). Qed.

(** The order of the votes for a link, and how often a vote is repeated, do not matter. *)
Theorem C81_order_and_repetition_irrelevant X cfg R a b ls r :
  links_in_order a ls -> links_in_order b ls -> (forall x, In x a <-> In x b) ->
  verify X cfg (with_attestations R a) = Ok r <-> verify X cfg (with_attestations R b) = Ok r.
Proof. exact (same_votes X cfg R a b ls r). Qed.

(** A list in which the votes for some link are interrupted by votes for another is never accepted. *)
Theorem C81_split_votes_refused X cfg R a ls r :
  links_in_order a ls -> ~ NoDup ls -> verify X cfg (with_attestations R a) <> Ok r.
Proof. exact (split_refused X cfg R a ls r). Qed.

(** Adding votes for the same links, each of which is part of some accepted list, does not change an
    accepted result, as long as three times the active balance is below 2^64. *)
Theorem C81_more_votes X cfg R a b ls r :
  (forall e avl av, rd_active_validators R e = Ok avl -> active_set avl av -> 3 * balance_of (rd_chain_spec R) av < 2 ^ 64) ->
  links_in_order a ls -> links_in_order b ls -> incl a b ->
  (forall x, In x b -> exists c r', In x c /\ verify X cfg (with_attestations R c) = Ok r') ->
  verify X cfg (with_attestations R a) = Ok r -> verify X cfg (with_attestations R b) = Ok r.
Proof. exact (more_votes X cfg R a b ls r). Qed.

(** Leaving out votes, but not all for a link, either changes nothing or is refused for lack of
    balance. The check aborts instead only with a configured threshold below two thirds. *)
Theorem C81_fewer_votes X cfg R a b ls r :
  links_in_order a ls -> links_in_order b ls -> incl b a ->
  verify X cfg (with_attestations R a) = Ok r ->
  verify X cfg (with_attestations R b) = Ok r \/
  (exists voted required, verify X cfg (with_attestations R b) = Err (ThresholdNotMet voted required)) \/
  (verify X cfg (with_attestations R b) = Panic /\
   (justification_threshold_quotient cfg = 0 \/
    3 * justification_threshold_factor cfg < 2 * justification_threshold_quotient cfg)).
Proof. exact (fewer_votes X cfg R a b ls r). Qed.

(** ** Non-vacuity *)
Definition v1 := toy_att 24 toy_l1 [true; true; true; true] [4; 5; 6; 7].
Definition v2 := toy_att 25 toy_l1 [true; true; true; true] [0; 1; 2; 3].
Definition v3 := toy_att 25 toy_l1 [false; true; true; false] [1; 2].
Definition v4 := toy_att 26 toy_l2 [false; true; true; true] [4; 5; 6].
Definition v5 := toy_att 27 toy_l2 [true; true; true; true] [0; 1; 2; 3].
Definition v_R := toy_R [].
Definition v_result : ConsensusState * N := (mkCS (mkCheckpoint 13 (toy_root 13)) (mkCheckpoint 12 (toy_root 12)), 24).
Lemma by_chunks atts ls : map fst (chunk_by_link atts) = ls -> links_in_order atts ls.
Proof. intros <-. exists (chunk_by_link atts). split; [apply chunk_groups|reflexivity]. Qed.

Lemma reordered {A} (a b c d e x : A) : In x [a; b; c; d; e] <-> In x [c; b; c; a; b; e; d; e].
Proof. cbn [In]. tauto. Qed.
Lemma one_more {A} (a b c d e : A) : incl [a; b; d; e] [c; a; b; d; e].
Proof. intros x. cbn [In]. tauto. Qed.
Lemma one_in_middle {A} (a b c d e : A) : incl [a; b; d; e] [a; b; c; d; e].
Proof. intros x. cbn [In]. tauto. Qed.
Lemma each_in_one {A} (a b c d e x : A) : In x [c; a; b; d; e] -> In x [a; b; c; d; e].
Proof. cbn [In]. tauto. Qed.
Lemma each_in_two {A} (a b c d e f x : A) : In x [a; b; c; d; e] -> In x [a; b; d; e] \/ In x [c; f; d; e].
Proof. cbn [In]. tauto. Qed.
Lemma not_nodup {A} (a b : A) : ~ NoDup [a; b; a; b].
Proof. intros N. inversion N as [|x l H _]; subst. apply H. right. now left. Qed.

Example C81_example_reordered :
  links_in_order [v1; v2; v3; v4; v5] [toy_l1; toy_l2] /\ links_in_order [v3; v2; v3; v1; v2; v5; v4; v5] [toy_l1; toy_l2] /\
  verify toy_X DEFAULT_CONFIG (with_attestations v_R [v1; v2; v3; v4; v5]) = Ok v_result /\
  verify toy_X DEFAULT_CONFIG (with_attestations v_R [v3; v2; v3; v1; v2; v5; v4; v5]) = Ok v_result.
Proof.
  assert (L1 : links_in_order [v1; v2; v3; v4; v5] [toy_l1; toy_l2]) by (apply by_chunks; vm_compute; reflexivity).
  assert (L2 : links_in_order [v3; v2; v3; v1; v2; v5; v4; v5] [toy_l1; toy_l2]) by (apply by_chunks; vm_compute; reflexivity).
  assert (V : verify toy_X DEFAULT_CONFIG (with_attestations v_R [v1; v2; v3; v4; v5]) = Ok v_result) by (vm_compute; reflexivity).
  split; [exact L1|]. split; [exact L2|]. split; [exact V|].
  exact (proj1 (C81_order_and_repetition_irrelevant toy_X DEFAULT_CONFIG v_R _ _ _ v_result L1 L2 (reordered v1 v2 v3 v4 v5)) V).
Qed.
Example C81_example_split : links_in_order [v1; v4; v2; v5] [toy_l1; toy_l2; toy_l1; toy_l2] /\
  (forall r, verify toy_X DEFAULT_CONFIG (with_attestations v_R [v1; v4; v2; v5]) <> Ok r).
Proof.
  assert (L : links_in_order [v1; v4; v2; v5] [toy_l1; toy_l2; toy_l1; toy_l2]) by (apply by_chunks; vm_compute; reflexivity).
  split; [exact L|]. intros r. exact (C81_split_votes_refused toy_X DEFAULT_CONFIG v_R _ _ r L (not_nodup toy_l1 toy_l2)).
Qed.
Lemma v_bound e avl av : rd_active_validators v_R e = Ok avl -> active_set avl av -> 3 * balance_of (rd_chain_spec v_R) av < 2 ^ 64.
Proof.
  intros E H. injection E as <-. assert (Q : av = toy_av); [|subst; vm_compute; reflexivity].
  rewrite (active_set_unique _ _ H). vm_compute. reflexivity.
Qed.
Example C81_example_more : verify toy_X DEFAULT_CONFIG (with_attestations v_R [v1; v2; v4; v5]) = Ok v_result /\
  verify toy_X DEFAULT_CONFIG (with_attestations v_R [v3; v1; v2; v4; v5]) = Ok v_result.
Proof.
  assert (V : verify toy_X DEFAULT_CONFIG (with_attestations v_R [v1; v2; v4; v5]) = Ok v_result) by (vm_compute; reflexivity).
  split; [exact V|].
  assert (L1 : links_in_order [v1; v2; v4; v5] [toy_l1; toy_l2]) by (apply by_chunks; vm_compute; reflexivity).
  assert (L2 : links_in_order [v3; v1; v2; v4; v5] [toy_l1; toy_l2]) by (apply by_chunks; vm_compute; reflexivity).
  refine (C81_more_votes toy_X DEFAULT_CONFIG v_R _ _ _ v_result v_bound L1 L2 (one_more v1 v2 v3 v4 v5) _ V).
  intros x Hx. exists [v1; v2; v3; v4; v5], v_result. split; [exact (each_in_one v1 v2 v3 v4 v5 x Hx)|].
  exact (proj1 (proj2 (proj2 C81_example_reordered))).
Qed.
(** Leaving out [v5] is refused: 96 of the required 217 remain. *)
Example C81_example_fewer : links_in_order [v1; v2; v4] [toy_l1; toy_l2] /\
  verify toy_X DEFAULT_CONFIG (with_attestations v_R [v1; v2; v4]) = Err (ThresholdNotMet 96 217) /\
  verify toy_X DEFAULT_CONFIG (with_attestations v_R [v1; v2; v4; v5]) = Ok v_result.
Proof. split; [apply by_chunks; vm_compute; reflexivity|]. split; vm_compute; reflexivity. Qed.
(** With a threshold of one half, leaving out [v4] and [v5] makes the check abort: one half remains. *)
Definition v7 := toy_att 26 toy_l2 [false; true; true; false] [5; 6].
Definition v8 := toy_att 27 toy_l2 [false; true; true; false] [1; 2].
Example C81_example_abort :
  let cfg := mkConfig (min_version DEFAULT_CONFIG) (max_version DEFAULT_CONFIG) (epoch_lookahead_limit DEFAULT_CONFIG) 1 2 in
  verify toy_X cfg (with_attestations v_R [v1; v2; v4; v5; v7; v8]) = Ok v_result /\
  verify toy_X cfg (with_attestations v_R [v1; v2; v7; v8]) = Panic.
Proof. split; vm_compute; reflexivity. Qed.

(** The bound on the balance is needed: here the last vote makes three times the voting balance exceed
    64 bits, and the list is refused. *)
Definition big_val (i : N) : N * ValidatorInfo :=
  (3 * i, mkValidatorInfo [byte_of_N (100 + i)] 800000000000000000 false 0 0 (2 ^ 64 - 1)).
Definition big_R : Reader :=
  mkReader toy_cs (Ok toy_gvr) (fun _ => Ok toy_fork) (fun _ => Ok (map big_val [0; 1; 2; 3; 4; 5; 6; 7]))
    (rd_randao_mix v_R) (Ok []) (Ok toy_state) (rd_slot_for_block v_R).
Definition v0 := toy_att 24 toy_l1 [false; true; true; true] [4; 5; 6].
Definition v6 := toy_att 25 toy_l1 [true; true; true; false] [1; 2; 3].
Example C81_more_votes_unbounded_refuted :
  ~ (forall X cfg R a b ls r, links_in_order a ls -> links_in_order b ls -> incl a b ->
     (forall x, In x b -> exists c r', In x c /\ verify X cfg (with_attestations R c) = Ok r') ->
     verify X cfg (with_attestations R a) = Ok r -> verify X cfg (with_attestations R b) = Ok r).
Proof.
  intros H.
  assert (A : verify toy_X DEFAULT_CONFIG (with_attestations big_R [v0; v2; v4; v5]) = Ok v_result) by (vm_compute; reflexivity).
  assert (B : verify toy_X DEFAULT_CONFIG (with_attestations big_R [v1; v6; v4; v5]) = Ok v_result) by (vm_compute; reflexivity).
  assert (C : verify toy_X DEFAULT_CONFIG (with_attestations big_R [v0; v2; v1; v4; v5]) = Err (VArith Overflow)) by (vm_compute; reflexivity).
  assert (L1 : links_in_order [v0; v2; v4; v5] [toy_l1; toy_l2]) by (apply by_chunks; vm_compute; reflexivity).
  assert (L2 : links_in_order [v0; v2; v1; v4; v5] [toy_l1; toy_l2]) by (apply by_chunks; vm_compute; reflexivity).
  assert (I : incl [v0; v2; v4; v5] [v0; v2; v1; v4; v5]) by exact (one_in_middle v0 v2 v1 v4 v5).
  assert (O : forall x, In x [v0; v2; v1; v4; v5] -> exists c r', In x c /\ verify toy_X DEFAULT_CONFIG (with_attestations big_R c) = Ok r').
  { intros x Hx. destruct (each_in_two v0 v2 v1 v4 v5 v6 x Hx) as [K|K].
    - exists [v0; v2; v4; v5], v_result. exact (conj K A).
    - exists [v1; v6; v4; v5], v_result. exact (conj K B). }
  specialize (H toy_X DEFAULT_CONFIG big_R _ _ _ v_result L1 L2 I O A). rewrite C in H. discriminate H.
Qed.

Print Assumptions C81_result_depends_on_links_only.
Print Assumptions C81_order_and_repetition_irrelevant.
Print Assumptions C81_split_votes_refused.
Print Assumptions C81_more_votes.
Print Assumptions C81_fewer_votes.
Print Assumptions C81_more_votes_unbounded_refuted.
