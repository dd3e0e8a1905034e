(** C85: what the host takes from the answers of the node, request by request. *)
From Coq Require Import String List Arith NArith Bool Lia.
From Coq.Init Require Import Byte.
From Verif.Model Require Import Base Types Committee ConsensusState Verify GuestReader Guest HostChain HostStore HostInput CliRun BeaconClient Networks StateFile.
From Verif.Spec Require Import Beacon.
From Verif.Model Require Import StateJson StateView BlockJson.
From Verif.Proof Require Import BaseLemmas.
From Verif.Props Require Import BlockJsonProps JsonNodeToy InputCodecProps NetworkRunProps HonestProps.
Import ListNotations.
Open Scope list_scope.
Open Scope N_scope.

(** The node answers request [q] with the JSON value [j]. *)
Definition answers (endpoint : Url) (server : Url -> Reply json) (q : Request) (j : json) : Prop :=
  exists u status, join endpoint (BeaconClient.path q) = Some u /\ server u = Replied status j /\ is_error_status status = false.
(** The node does not have what is asked for. *)
Definition denies (endpoint : Url) (server : Url -> Reply json) (q : Request) : Prop :=
  exists u j, join endpoint (BeaconClient.path q) = Some u /\ server u = Replied 404 j.

Lemma ask_iff {A} endpoint server q (dec : json -> option A) a :
  ask endpoint server q dec = Ok a <-> exists j, answers endpoint server q j /\ dec j = Some a.
Proof.
  unfold ask, answers. destruct (join endpoint (BeaconClient.path q)) as [u|]; [|split; [discriminate|intros (? & (? & ? & ? & _) & _); discriminate]].
  split.
  - destruct (server u) as [|st j] eqn:Er; [discriminate|]. cbn [read_reply]. destruct (is_error_status st) eqn:Es; [discriminate|].
    destruct (dec j) as [b|] eqn:Eb; [|discriminate]. cbn [ok_or]. intros E. injection E as <-. exists j. split; [exists u, st; auto|exact Eb].
  - intros (j & (u' & st & E & Er & Es) & Ed). injection E as <-. rewrite Er. cbn [read_reply]. now rewrite Es, Ed.
Qed.
Lemma absent_iff {A} endpoint server q (dec : json -> option A) o :
  or_absent (ask endpoint server q dec) = Ok o <->
  (o = None /\ denies endpoint server q) \/ (exists a j, o = Some a /\ answers endpoint server q j /\ dec j = Some a).
Proof.
  split.
  - destruct (ask endpoint server q dec) as [a|er|] eqn:E; cbn [or_absent]; [|destruct er as [|[st|]| |]; try discriminate|discriminate].
    + intros Q. injection Q as <-. apply ask_iff in E as (j & Ha & Hd). right. exists a, j. auto.
    + destruct (st =? 404) eqn:E4; [|discriminate]. intros Q. injection Q as <-. apply N.eqb_eq in E4 as ->. left. split; [reflexivity|].
      unfold ask in E. unfold denies. destruct (join endpoint (BeaconClient.path q)) as [u|]; [|discriminate]. destruct (server u) as [|st j] eqn:Er; [discriminate|].
      cbn [read_reply] in E. destruct (is_error_status st); [injection E as ->; exists u, j; auto|destruct (dec j); discriminate].
  - intros [(-> & u & j & Hu & Hr)|(a & j & -> & Ha & Hd)].
    + unfold ask. rewrite Hu, Hr. reflexivity.
    + now rewrite (proj2 (ask_iff endpoint server q dec a) (ex_intro _ j (conj Ha Hd))).
Qed.
Lemma code_iff {A} (o : outcome ClientError A) a : code o = Ok a <-> o = Ok a.
Proof. destruct o; cbn; split; congruence. Qed.

Section Node.
  Variables (H : bytes -> bytes) (C : InputCodec.Codec) (endpoint : Url) (server : Url -> Reply json) (fuel : nat).
  Notation nd := (json_node H C endpoint server fuel).
  Notation ch := (json_chain C endpoint server).
  (** The finalized epoch is that of the finality of the head. *)
  Theorem C85_host_finalized : forall e, nd_finalized nd = Ok e <->
    exists j f, answers endpoint server (GetFinality Head) j /\ finality_of_json j = Some f /\ e = epoch (f_finalized f).
  Proof.
    intros e. cbn [json_node nd_finalized]. split.
    - intros E. apply bind_ok in E as (f & E & Q). apply code_iff, ask_iff in E as (j & Ha & Hd). injection Q as <-. exists j, f. auto.
    - intros (j & f & Ha & Hd & ->). unfold ask_finality. rewrite (proj2 (ask_iff _ _ _ _ f) (ex_intro _ j (conj Ha Hd))). reflexivity.
  Qed.
  (** The checkpoints at a slot are those that the node answers for the state at that slot: the justified one is the
      current one, not the previous one, and it must be newer than the finalized one. *)
  Theorem C85_host_checkpoints : forall s st, ch_state ch s = Ok st <->
    exists j f, answers endpoint server (GetFinality (AtSlot s)) j /\ finality_of_json j = Some f /\
      st = mkCS (f_current_justified f) (f_finalized f) /\ cs_new (E := ClientError) (f_current_justified f) (f_finalized f) = Ok st.
  Proof.
    intros s st. cbn [json_chain ch_state]. rewrite code_iff. split.
    - intros E. apply bind_ok in E as (f & E & Q). apply ask_iff in E as (j & Ha & Hd). exists j, f. split; [exact Ha|]. split; [exact Hd|]. split; [|exact Q].
      unfold cs_new in Q. destruct (is_valid _); cbn in Q; congruence.
    - intros (j & f & Ha & Hd & _ & Q). unfold ask_finality. rewrite (proj2 (ask_iff _ _ _ _ f) (ex_intro _ j (conj Ha Hd))). exact Q.
  Qed.
  (** The header of a block is the one that the node answers for its root, and there is none exactly if the node says 404. *)
  Theorem C85_host_header : forall r oh, nd_headers nd r = Ok oh <->
    (oh = None /\ denies endpoint server (GetHeader (AtRoot r))) \/
    (exists h j, oh = Some h /\ answers endpoint server (GetHeader (AtRoot r)) j /\ header_of_json j = Some h).
  Proof. intros r oh. cbn [json_node nd_headers]. rewrite code_iff. apply absent_iff. Qed.
  (** So is its slot. *)
  Theorem C85_host_slot : forall r os, ch_header_slot ch r = Ok os <->
    (os = None /\ denies endpoint server (GetHeader (AtRoot r))) \/
    (exists h j, os = Some (hd_slot h) /\ answers endpoint server (GetHeader (AtRoot r)) j /\ header_of_json j = Some h).
  Proof.
    intros r os. cbn [json_chain ch_header_slot]. split.
    - intros E. destruct (code (ask_header endpoint server (AtRoot r))) as [[h|]| |] eqn:Q; cbn in E; try discriminate; injection E as <-;
        apply code_iff, absent_iff in Q as [[? ?]|(h' & j & Eh & ? & ?)]; try discriminate; [right; injection Eh as <-; exists h, j; auto|left; auto].
    - intros [(-> & Hd)|(h & j & -> & Ha & Hj)].
      + assert (E : ask_header endpoint server (AtRoot r) = Ok None) by (apply absent_iff; left; auto). now rewrite E.
      + assert (E : ask_header endpoint server (AtRoot r) = Ok (Some h)) by (apply absent_iff; right; exists h, j; auto). now rewrite E.
  Qed.
  (** A state is the one that the node answers for that slot. *)
  Theorem C85_host_state : forall s st, nd_states nd s = Ok st <->
    exists u t, join endpoint (BeaconClient.path (GetState (AtSlot s))) = Some u /\ read_state (server u) = Ok t /\ st = StateView.view H t.
  Proof.
    intros s st. cbn [json_node nd_states]. unfold ask_state. destruct (join endpoint (BeaconClient.path (GetState (AtSlot s)))) as [u|]; [|split; [discriminate|intros (? & ? & ? & _); discriminate]].
    destruct (read_state (server u)) as [t| |] eqn:E; cbn; (split; [intros Q|intros (u' & t' & Eu & Et & ->)]); try discriminate.
    - injection Q as <-. exists u, t. auto.
    - injection Eu as <-. rewrite E in Et. injection Et as <-. reflexivity.
    - injection Eu as <-. rewrite E in Et. discriminate.
    - injection Eu as <-. rewrite E in Et. discriminate.
  Qed.
  (** The header that the host proves a state root against is that of the block that the node answers for that slot. *)
  Theorem C85_host_block_header : forall s oh, nd_blocks nd s = Ok oh <->
    (oh = None /\ denies endpoint server (GetBlock (AtSlot s))) \/
    (exists b j, oh = Some (block_header H b) /\ answers endpoint server (GetBlock (AtSlot s)) j /\ block_of_json j = Some b).
  Proof.
    intros s oh. cbn [json_node nd_blocks]. split.
    - intros E. destruct (code (ask_block endpoint server (AtSlot s))) as [[h|]| |] eqn:Q; cbn in E; try discriminate; injection E as <-;
        apply code_iff, absent_iff in Q as [[? ?]|(h' & j & Eh & ? & ?)]; try discriminate; [right; injection Eh as <-; exists h, j; auto|left; auto].
    - intros [(-> & Hd)|(h & j & -> & Ha & Hj)].
      + assert (E : ask_block endpoint server (AtSlot s) = Ok None) by (apply absent_iff; left; auto). now rewrite E.
      + assert (E : ask_block endpoint server (AtSlot s) = Ok (Some h)) by (apply absent_iff; right; exists h, j; auto). now rewrite E.
  Qed.
End Node.

(** Cases that meet the hypotheses: the node of JsonNodeToy.v. *)
Example ex_finalized : nd_finalized (j_node (u_T + 1)) = Ok (u_T + 1).
Proof. cbn [j_node json_node nd_finalized]. rewrite j_head by (vm_compute; reflexivity). reflexivity. Qed.
Example ex_header : nd_headers (j_node (u_T + 1)) (root (j_cp (u_T + 2))) = Ok (Some (j_header (u_T + 2))).
Proof. apply j_headers_at. now right. Qed.
Example ex_no_header : nd_headers (j_node (u_T + 1)) (repeat x07 32) = Ok None.
Proof. cbn [j_node json_node nd_headers]. unfold ask_header. rewrite j_asked. vm_compute. reflexivity. Qed.
Example ex_checkpoints : ch_state (json_chain n_codec j_end (j_server (u_T + 1))) (32 * (u_T + 2)) = Ok (j_at (u_T + 2)).
Proof.
  pose proof (j_chain_at (u_T + 1) (u_T + 2)) as E. unfold HostSpec.state_at in E. change (slots_per_epoch (network_spec Mainnet)) with 32 in E.
  rewrite N.mul_comm. apply E. lia.
Qed.

Print Assumptions C85_host_finalized.
Print Assumptions C85_host_checkpoints.
Print Assumptions C85_host_header.
Print Assumptions C85_host_slot.
Print Assumptions C85_host_state.
Print Assumptions C85_host_block_header.
