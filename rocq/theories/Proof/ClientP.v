From Coq Require Import List ZArith NArith Bool Lia.
From Coq Require Import ZifyBool ZifyNat ZifyN.
From Verif.Model Require Import Base Types ConsensusState Verify GuestReader Guest Cli InputCodec.
From Verif.Spec Require Import FFG VerifySpec Safety InputCodecSpec ClientSpec.
From Verif.Proof Require Import BaseLemmas VerifyP GuestP SafetyP.
From Verif.Props Require Import InputCodecProps.
Import ListNotations.
Open Scope N_scope.
Notation length := List.length.

Lemma one_chain_chain c ls d : one_chain c ls d -> chain c ls.
Proof. induction 1; constructor; auto. Qed.
Lemma one_chain_app c ls d ls' e : one_chain c ls d -> one_chain d ls' e -> one_chain c (ls ++ ls') e.
Proof. induction 1; cbn [app]; auto. constructor; auto. Qed.
Lemma one_chain_mono c ls d : one_chain c ls d -> epoch c + N.of_nat (length ls) <= epoch d.
Proof. induction 1; cbn [length]; lia. Qed.
Lemma af_one_chain c ls f t : atomic_finalization c ls f t -> one_chain c ls t.
Proof. induction 1; [repeat constructor; lia|constructor; [lia|auto]]. Qed.
Lemma accepted_one_chain s ls t : accepted_chain s ls t -> one_chain (current_justified s) ls (current_justified t).
Proof.
  destruct 1 as [s ls f t Hv Hg H|b ls f t Hb H]; apply af_one_chain in H; cbn [current_justified]; auto.
  constructor; auto.
Qed.

(** The guest run behind a journal the client accepts. *)
Lemma proven_explained X C w cs cfg j s t : sane_codec C -> 32 <= w <= 64 ->
  proven X C w cs cfg j -> abi_decode (firstn 128 j) = Ok s -> abi_decode (skipn 128 j) = Ok t ->
  exists frame gi r gs slot, j = journal_encode s t slot /\
    decode_input C w frame = Some gi /\ gi_consensus_state gi = s /\ into_reader X cs gi = Ok r /\
    groups (gi_attestations gi) gs /\ accepted_chain s (map fst gs) t /\
    Forall (fun g => within_bounds cfg cs (finalized s) (fst g) /\
                     exists av P, supermajority_link X cfg (guest_reader r) (fst g) (snd g) av P) gs /\
    rd_slot_for_block (guest_reader r) (root (finalized t)) = Ok slot.
Proof.
  intros S Hw [stdin H] D1 D2.
  destruct (guest_run C w X cs cfg stdin j S Hw H) as (frame & gi & r & gs & post & slot & R1 & R2 & R3 & R4 & R5 & R6 & R7 & R8 & R9 & R10 & _).
  rewrite D1 in R9. injection R9 as E1. rewrite D2 in R10. injection R10 as E2. subst post. rewrite <- E1 in *.
  exists frame, gi, r, gs, slot. repeat (split; [assumption|]). split; [now symmetry|]. repeat (split; [assumption|]).
  apply verify_sound in R4 as (st0 & atts & gs' & _ & _ & _ & _ & _ & V6). exact V6.
Qed.

Lemma accepted_finalizes s ls t : accepted_chain s ls t ->
  In (mkLink (finalized t) (current_justified t)) ls /\ epoch (current_justified t) = epoch (finalized t) + 1.
Proof. intros H. apply accepted_is_chain in H. tauto. Qed.
(** The finalized checkpoint does not move back. *)
Lemma accepted_progress s ls t : accepted_chain s ls t -> epoch (finalized s) < epoch (finalized t).
Proof.
  intros H. destruct (accepted_finalizes _ _ _ H) as [Hin He]. pose proof H as Hc. apply accepted_is_chain in Hc as [Hc _].
  destruct (chain_source _ _ _ Hc Hin) as [_ Hs]. cbn [source] in Hs.
  destruct H as [s ls f t [Hv| ->] Hg Ha|b ls f t Hb Ha]; cbn [finalized current_justified] in *; [lia|easy|].
  apply af_chain in Ha as (A1 & A2 & A3). apply (chain_source _ _ _ A1) in A2 as [_ A2]. cbn [source] in A2.
  change (epoch (finalized genesis_state)) with 0. lia.
Qed.
Lemma follows_app ok s p q u : follows ok s (p ++ q) u <-> exists t, follows ok s p t /\ follows ok t q u.
Proof.
  revert s. induction p as [|j p IH]; intros s; cbn [app]; split.
  - intros H. exists s. split; [constructor|exact H].
  - intros (t & H1 & H2). inversion H1; subst. exact H2.
  - intros H. inversion H as [|? ? t ? ? H1 H2 H3 H4]; subst. apply IH in H4 as (m & H4 & H5). exists m. split; [|exact H5]. econstructor; eauto.
  - intros (m & H1 & H2). inversion H1 as [|? ? t ? ? G1 G2 G3 G4]; subst. econstructor; eauto. apply IH. eauto.
Qed.
