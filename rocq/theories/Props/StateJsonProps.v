(** C82: how the answers of the beacon node are read. *)
From Coq Require Import String List Arith NArith Bool Lia ZifyBool ZifyNat ZifyN.
From Coq.Init Require Import Byte.
From Verif.Model Require Import Base Types HostStore HostInput BeaconClient StateFile StateJson.
From Verif.Spec Require Import Merkle Beacon StateJsonSpec.
From Verif.Proof Require Import BaseLemmas HostStoreP StateFileP StateJsonP.
Import ListNotations.
Open Scope list_scope.
Open Scope N_scope.

(** ** Reading a state *)
(** A state of any version, written as the beacon API prescribes, with members in any order and with further
    members at any depth, is read as that version with exactly those values, as long as not everything that the
    next version adds is there too. *)
Theorem C82_state_is_read v vs j :
  shows (Container (state_fields v)) (VSeq vs) j -> not_newer v j -> state_of_json j = Some (mkTState v vs).
Proof. apply state_shown. Qed.
(** In particular what an ordinary node writes. *)
Theorem C82_written_state_is_read v vs :
  wf (Container (state_fields v)) (VSeq vs) ->
  state_of_json (write (Container (state_fields v)) (VSeq vs)) = Some (mkTState v vs).
Proof.
  intros H. apply state_shown; [|now apply written_not_newer]. apply write_shows; auto. apply state_distinct.
Qed.
(** Nothing is made up: every field of the version that was read was there, and its value comes from the member
    of that name. *)
Lemma by_name_forall m fs : forall vs, by_name m fs = Some vs ->
  Forall2 (fun f x => exists j, member m (fst f) = Some j /\ from_json (snd f) j = Some x) fs vs.
Proof.
  induction fs as [|[n t] fs IH]; intros vs H; cbn [by_name] in H; [injection H as <-; constructor|].
  destruct (member m n) as [j|] eqn:E; [|discriminate]. destruct (from_json t j) as [x|] eqn:E1; [|discriminate].
  destruct (by_name m fs) as [s|] eqn:E2; [|discriminate]. injection H as <-. constructor; [cbn; eauto|auto].
Qed.
Lemma names_of v : map fst (typed_fields v) = map fst (state_fields v).
Proof. destruct v; reflexivity. Qed.
Theorem C82_nothing_is_made_up m st : state_of_json (JObj m) = Some st ->
  Forall2 (fun f x => exists j, In (fst f, j) m /\ from_json (snd f) j = Some x) (typed_fields (ts_version st)) (ts_fields st) /\
  forall name, In name (map fst (state_fields (ts_version st))) -> In name (map fst m).
Proof.
  intros H. apply try_some in H as [_ H]. unfold read_version in H. rewrite from_json_obj in H.
  destruct (by_name m (typed_fields (ts_version st))) as [vs|] eqn:E; [|discriminate]. cbn [option_map] in H. injection H as <-. cbn [ts_version ts_fields] in *.
  assert (Forall2 (fun f x => exists j, In (fst f, j) m /\ from_json (snd f) j = Some x) (typed_fields (ts_version (mkTState (ts_version st) vs))) vs) as F.
  { apply by_name_forall in E. clear -E. cbn [ts_version]. induction E as [|f x fs xs (j & H1 & H2) _ IH]; constructor; auto. exists j. split; auto. now apply member_some. }
  split; [exact F|]. cbn [ts_version] in F. intros name Hn. rewrite <- names_of in Hn. clear -F Hn. induction F as [|f x fs xs (j & H1 & H2) _ IH]; [destruct Hn|].
  destruct Hn as [<-|Hn]; auto. apply in_map_iff. exists (fst f, j). auto.
Qed.

(** ** Answers *)
(** An answer with the right version is accepted. *)
Theorem C82_answer_is_accepted status v vs j more :
  is_error_status status = false -> no_clash more ->
  shows (Container (state_fields v)) (VSeq vs) j -> not_newer v j ->
  read_state (Replied status (state_answer v j more)) = Ok (mkTState v vs).
Proof.
  intros Hs Hc Hj Hn. unfold read_state, read_reply. rewrite Hs, (versioned_answer _ _ _ Hc), (state_shown _ _ _ Hj Hn). cbn [ok_or bind ts_version].
  unfold version_eqb. assert (bytes_eqb (version_name v) (version_name v) = true) as -> by now apply bytes_eqb_eq. reflexivity.
Qed.
(** A state comes only from an answer that announces the version of that state and holds all of its fields. *)
Theorem C82_version_is_the_announced r st : read_state r = Ok st ->
  exists status m d, r = Replied status (JObj m) /\ is_error_status status = false /\
    In ("version"%string, JStr (version_name (ts_version st))) m /\ In ("data"%string, d) m /\ state_of_json d = Some st.
Proof.
  unfold read_state, read_reply. destruct r as [|status b]; [discriminate|]. destruct (is_error_status status) eqn:Es; [discriminate|].
  destruct (versioned_state b) as [[v st']|] eqn:E; [|discriminate]. cbn [ok_or bind]. unfold ensure.
  destruct (version_eqb v (ts_version st')) eqn:Ev; [|discriminate]. cbn [bind]. intros H. injection H as <-.
  unfold versioned_state in E. destruct b as [| | | | |m]; try discriminate.
  destruct (only_member m "version") as [jv|] eqn:E1; [|discriminate]. destruct (only_member m "data") as [jd|] eqn:E2; [|discriminate].
  destruct (version_of_json jv) as [v'|] eqn:E3; [|discriminate]. destruct (state_of_json jd) as [st''|] eqn:E4; [|discriminate].
  injection E as -> ->. exists status, m, jd. apply only_member_in in E1, E2.
  assert (jv = JStr (version_name (ts_version st'))) as ->.
  { unfold version_eqb in Ev. apply bytes_eqb_eq in Ev. rewrite <- Ev. unfold version_of_json in E3. destruct jv; try discriminate.
    apply find_some in E3 as [_ E3]. apply bytes_eqb_eq in E3. now rewrite E3. }
  repeat split; auto.
Qed.
(** An answer that lacks a field of the version it announces is refused, never filled in. *)
Theorem C82_incomplete_answer_is_refused status v d more name st :
  no_clash more -> In name (map fst (state_fields v)) -> lacks [name] d ->
  read_state (Replied status (state_answer v d more)) <> Ok st.
Proof.
  intros Hc Hn Hl H. unfold read_state, read_reply in H. destruct (is_error_status status); [discriminate|].
  rewrite (versioned_answer _ _ _ Hc) in H. destruct (state_of_json d) as [st'|] eqn:E; [|discriminate]. cbn [ok_or bind] in H. unfold ensure in H.
  destruct (version_eqb v (ts_version st')) eqn:Ev; [|discriminate]. apply bytes_eqb_eq, version_name_inj in Ev. subst v.
  destruct Hl as (m & -> & [Hl|(_ & j' & _ & [])]). apply C82_nothing_is_made_up in E as [_ E]. auto.
Qed.
(** A wrong version is refused, too. *)
Theorem C82_wrong_version_is_refused status v w vs j more :
  is_error_status status = false -> no_clash more ->
  shows (Container (state_fields v)) (VSeq vs) j -> not_newer v j -> w <> v ->
  read_state (Replied status (state_answer w j more)) = Err CVersionMismatch.
Proof.
  intros Hs Hc Hj Hn Hw. unfold read_state, read_reply. rewrite Hs, (versioned_answer _ _ _ Hc), (state_shown _ _ _ Hj Hn). cbn [ok_or bind ts_version].
  unfold version_eqb. destruct (bytes_eqb (version_name w) (version_name v)) eqn:E; [|reflexivity].
  apply bytes_eqb_eq, version_name_inj in E. congruence.
Qed.

(** ** The state file *)
(** A state that was read from an answer and saved is read back from its file (the encoding is below 4 GiB),
    whatever the order in which the versions are tried there; and no other state that could have been read has
    the same file. *)
Theorem C82_saved_state_is_the_answered r st order :
  read_state r = Ok st -> blen (encode_state (bstate_of st)) < 2 ^ 32 -> In (ts_version st) order ->
  decode_state order (encode_state (bstate_of st)) = Some (bstate_of st).
Proof.
  intros H Hl Ho. apply C82_version_is_the_announced in H as (status & m & d & _ & _ & _ & _ & H). apply read_typed in H.
  apply decode_state_complete; auto. now apply bstate_ok.
Qed.
Theorem C82_file_determines_the_state r r' st st' :
  read_state r = Ok st -> read_state r' = Ok st' -> blen (encode_state (bstate_of st)) < 2 ^ 32 ->
  encode_state (bstate_of st) = encode_state (bstate_of st') -> st = st'.
Proof.
  intros H H' Hl He. apply C82_version_is_the_announced in H as (? & ? & d & _ & _ & _ & _ & H). apply read_typed in H.
  apply C82_version_is_the_announced in H' as (? & ? & d' & _ & _ & _ & _ & H'). apply read_typed in H'.
  assert (blen (encode_state (bstate_of st')) < 2 ^ 32) as Hl' by now rewrite <- He.
  apply bstate_inj; auto. symmetry. apply encode_state_inj; auto using bstate_ok.
Qed.
(** The accessors give what the node wrote: each field is the encoding of the value shown, and the slot is the
    slot shown (which becomes part of the file's name). *)
Lemma lookup_parts fs : forall vs name i t x, NoDup (map fst fs) -> typed_all fs vs = true ->
  nth_error fs i = Some (name, t) -> nth_error vs i = Some x ->
  lookup (map (fun f => (fst f, fty_of (snd f))) fs) (ssz_parts fs vs) name = Some (to_ssz t x).
Proof.
  induction fs as [|[n t] fs IH]; intros [|y vs] name i t' x D Ht Hi Hx; try (destruct i; discriminate).
  cbn [typed_all] in Ht. apply andb_true_iff in Ht as [_ Ht]. cbn [map fst snd ssz_parts lookup]. inversion D; subst. destruct i as [|i].
  - cbn in Hi, Hx. injection Hi as -> ->. injection Hx as ->. rewrite String.eqb_refl. f_equal. unfold part_of. now destruct (ty_size t').
  - cbn in Hi, Hx. destruct (String.eqb_spec n name) as [->|_]; [|eapply IH; eauto].
    exfalso. apply nth_error_In in Hi. apply H1. apply in_map_iff. exists (name, t'). auto.
Qed.
Theorem C82_fields_are_the_answered r st i name t x :
  read_state r = Ok st -> nth_error (typed_fields (ts_version st)) i = Some (name, t) -> nth_error (ts_fields st) i = Some x ->
  field (bstate_of st) name = Some (to_ssz t x).
Proof.
  intros H Hi Hx. apply C82_version_is_the_announced in H as (? & ? & d & _ & _ & _ & _ & H). apply read_typed in H.
  unfold field, bstate_of. cbn [bs_version bs_fields]. rewrite fields_typed. eapply lookup_parts; eauto.
  rewrite names_of. pose proof (state_distinct (ts_version st)) as D. rewrite distinct_container in D. apply andb_true_iff in D as [D _]. now apply nodup_b_sound.
Qed.
Theorem C82_slot_is_the_answered r st s :
  read_state r = Ok st -> nth_error (ts_fields st) 2 = Some (VNum s) -> bs_slot (bstate_of st) = s.
Proof.
  intros H Hx. unfold bs_slot. rewrite (C82_fields_are_the_answered r st 2 "slot"%string u64_str (VNum s) H); auto.
  2: { destruct (ts_version st); reflexivity. }
  cbn [to_ssz u64_str]. apply le_val_le_bytes_small.
  apply C82_version_is_the_announced in H as (? & ? & d & _ & _ & _ & _ & H). apply read_typed in H. unfold ts_typed in H.
  destruct st as [v vs]. cbn [ts_version ts_fields] in *. destruct vs as [|a [|b [|c vs]]]; try discriminate Hx. cbn in Hx. injection Hx as ->.
  assert (typed u64_str (VNum s) = true) as E.
  { destruct v; cbn [typed_fields j_phase0 j_altair j_base app typed_all] in H; repeat (apply andb_true_iff in H as [?H H]); assumption. }
  cbn [typed u64_str] in E. change (256 ^ N.of_nat 8) with (2 ^ (8 * N.of_nat 8)). lia.
Qed.

(** ** The order of the versions *)
(** Why the newest version is tried first: in the opposite order a Fulu state would be read as an Altair state
    (and then be refused for its version). *)
Lemma each_firstn m fs : forall gs vs, each m (fs ++ gs) vs -> each m fs (firstn (length fs) vs).
Proof.
  induction fs as [|[n k] fs IH]; intros gs [|x vs] H; cbn [app length firstn each] in *; try tauto. destruct H as [H1 H2]. split; auto. eapply IH; eauto.
Qed.
Theorem C82_oldest_first_refuted vs j :
  shows (Container (state_fields VFulu)) (VSeq vs) j -> lacks ["previous_epoch_attestations"%string] j ->
  exists xs, try_versions (rev read_order) j = Some (mkTState VAltair xs).
Proof.
  intros H Hl. exists (firstn (length (state_fields VAltair)) vs). cbn [rev read_order app try_versions].
  rewrite (read_version_none VPhase0 j). 2: { eapply lacks_refused; [|exact Hl]. apply requires_b_sound. reflexivity. }
  rewrite (read_version_shown VAltair (firstn (length (state_fields VAltair)) vs)); [reflexivity|].
  apply shows_container in H as (ys & m & E & -> & D & H). injection E as <-. apply shows_container.
  exists (firstn (length (state_fields VAltair)) vs), m. repeat split; auto.
  change (state_fields VFulu) with (state_fields VAltair ++ skipn (length (state_fields VAltair)) (state_fields VFulu)) in H. eapply each_firstn; eauto.
Qed.
(** The limit of [C82_state_is_read]: an Electra state with a member of the name and the type that Fulu adds is read as a
    Fulu state (and then refused if it is announced as Electra). *)
Theorem C82_extra_member_refuted vs j x :
  shows (Container (state_fields VElectra ++ [("proposer_lookahead"%string, Vector uint64 64)])) (VSeq (vs ++ [x])) j ->
  state_of_json j = Some (mkTState VFulu (vs ++ [x])).
Proof.
  intros H. apply state_shown; [|exact I].
  change (state_fields VFulu) with (state_fields VElectra ++ [("proposer_lookahead"%string, Vector uint64 64)]). exact H.
Qed.

(** ** Checkpoints and headers *)
Lemma checkpoint_swap e r j : shows Checkpoint_ (VSeq [VNum e; VBytes r]) j -> from_json checkpoint_response_t j = Some (VSeq [VBytes r; VNum e]).
Proof.
  intros H. apply (read_shown checkpoint_response_t (Container [("root", Bytes32); ("epoch", uint64)]%string)); [reflexivity|].
  apply shows_container in H as (vs & m & E & -> & D & H). injection E as <-. apply shows_container.
  exists [VBytes r; VNum e], m. cbn [each] in *. tauto.
Qed.
Theorem C82_checkpoints_are_read pe pr ce cr fe fr j more :
  ~ In "data"%string (map fst more) ->
  shows FinalityAnswer (VSeq [VSeq [VNum pe; VBytes pr]; VSeq [VNum ce; VBytes cr]; VSeq [VNum fe; VBytes fr]]) j ->
  finality_of_json (answer j more) = Some (mkFinality (mkCheckpoint pe pr) (mkCheckpoint ce cr) (mkCheckpoint fe fr)).
Proof.
  intros Hm H. unfold finality_of_json. rewrite response_answer by assumption.
  apply shows_container in H as (vs & m & E & -> & D & H). injection E as <-. cbn [each] in H.
  destruct H as ((j1 & I1 & H1) & (j2 & I2 & H2) & (j3 & I3 & H3) & _). unfold finality_t. rewrite from_json_obj. cbn [by_name].
  rewrite (member_in _ _ _ D I1), (member_in _ _ _ D I2), (member_in _ _ _ D I3),
    (checkpoint_swap _ _ _ H1), (checkpoint_swap _ _ _ H2), (checkpoint_swap _ _ _ H3). reflexivity.
Qed.
Theorem C82_header_is_read root canonical s p pr sr br sig j more :
  ~ In "data"%string (map fst more) ->
  shows HeaderAnswer (VSeq [VBytes root; VBool canonical; VSeq [VSeq [VNum s; VNum p; VBytes pr; VBytes sr; VBytes br]; VBytes sig]]) j ->
  header_of_json (answer j more) = Some (mkHeader s p pr sr (MLeaf br)).
Proof.
  intros Hm H. unfold header_of_json. rewrite response_answer by assumption.
  assert (api header_response_t = Some HeaderAnswer) as E by reflexivity.
  now rewrite (read_shown _ _ _ _ E H).
Qed.

(** ** Examples *)
(** The state whose numbers and bytes are all zero, for every version. *)
Fixpoint zero (k : kind) : val :=
  match k with
  | Uint _ => VNum 0
  | Boolean => VBool false
  | ByteVector n => VBytes (repeat x00 (N.to_nat n))
  | ByteList _ => VBytes []
  | Vector k' n => VSeq (repeat (zero k') (N.to_nat n))
  | List_ _ _ => VSeq []
  | Container fs => VSeq ((fix go (fs : list (string * kind)) : list val := match fs with [] => [] | (_, k') :: r => zero k' :: go r end) fs)
  | Bitvector n => VBits (repeat false (N.to_nat n))
  | Bitlist _ => VBits []
  end.
Lemma zero_wf k : wf k (zero k).
Proof.
  induction k as [n| |n|n|k n IH|k n IH|fs IH|n|n] using kind_ind'; cbn [wf zero].
  - exists 0. split; auto. apply N.neq_0_lt_0. apply N.pow_nonzero. discriminate.
  - eauto.
  - eexists. split; [reflexivity|]. rewrite repeat_length. apply Nnat.N2Nat.id.
  - exists []. split; auto. cbn. lia.
  - eexists. split; [reflexivity|]. rewrite repeat_length. split; [apply Nnat.N2Nat.id|]. apply Forall_forall. intros x Hx. apply repeat_spec in Hx as ->. exact IH.
  - exists []. repeat split; auto. cbn. lia.
  - eexists. split; [reflexivity|]. induction IH as [|[n k] fs Hk _ IH]; [exact I|]. split; auto.
  - eexists. split; [reflexivity|]. rewrite repeat_length. apply Nnat.N2Nat.id.
  - exists []. split; auto. cbn. lia.
Qed.
Definition zeros (v : version) : list val := map (fun f => zero (snd f)) (state_fields v).
Lemma zero_state v : zero (Container (state_fields v)) = VSeq (zeros v).
Proof.
  cbn [zero]. f_equal. unfold zeros. generalize (state_fields v). induction l as [|[n k] l IH]; cbn [map snd]; [reflexivity|]. now f_equal.
Qed.
Example C82_state_nonvacuous v : shows (Container (state_fields v)) (VSeq (zeros v)) (write (Container (state_fields v)) (VSeq (zeros v))) /\
  not_newer v (write (Container (state_fields v)) (VSeq (zeros v))).
Proof.
  rewrite <- zero_state. pose proof (zero_wf (Container (state_fields v))) as W. split.
  - apply write_shows; [apply state_distinct|exact W].
  - rewrite zero_state in *. now apply written_not_newer.
Qed.
Example C82_example_answer v :
  read_state (Replied 200 (state_answer v (write (Container (state_fields v)) (VSeq (zeros v))) [("finalized"%string, JBool true)])) = Ok (mkTState v (zeros v)).
Proof.
  destruct (C82_state_nonvacuous v) as [H1 H2]. apply C82_answer_is_accepted; auto. split; cbn; intros [H|[]]; discriminate.
Qed.
Example C82_extra_nonvacuous : exists vs x j,
  shows (Container (state_fields VElectra ++ [("proposer_lookahead"%string, Vector uint64 64)])) (VSeq (vs ++ [x])) j.
Proof.
  exists (zeros VElectra), (zero (Vector uint64 64)), (write (Container (state_fields VFulu)) (VSeq (zeros VFulu))).
  exact (proj1 (C82_state_nonvacuous VFulu)).
Qed.
Example C82_oldest_nonvacuous : lacks ["previous_epoch_attestations"%string] (write (Container (state_fields VFulu)) (VSeq (zeros VFulu))).
Proof.
  rewrite write_container. eexists. split; [reflexivity|]. left. pose proof (zero_wf (Container (state_fields VFulu))) as W.
  rewrite zero_state in W. apply wf_container in W as (vs & E & W). injection E as <-. rewrite write_names by exact W. vm_compute. intuition discriminate.
Qed.
(** A container with other values, members in another order, a leading zero, upper-case digits, and a member
    that nobody asked for. *)
Example C82_example_fork :
  from_json fork_t (JObj [("epoch", JStr [x30; x37]); ("comment", JNull); ("current_version", JStr [x30; x78; x30; x35; x30; x30; x30; x30; x41; x66]);
                          ("previous_version", JStr [x30; x78; x30; x34; x30; x30; x30; x30; x30; x30])]%string)
  = Some (VSeq [VBytes [x04; x00; x00; x00]; VBytes [x05; x00; x00; xaf]; VNum 7]).
Proof. reflexivity. Qed.
Example C82_example_checkpoints :
  let cp e b := JObj [("epoch", JStr (decimal e)); ("root", JStr (x30 :: x78 :: hex (repeat b 32)))]%string in
  finality_of_json (JObj [("finalized", JBool false);
                          ("data", JObj [("previous_justified", cp 1020 x01); ("current_justified", cp 1021 x02); ("finalized", cp 1020 x01)])]%string)
  = Some (mkFinality (mkCheckpoint 1020 (repeat x01 32)) (mkCheckpoint 1021 (repeat x02 32)) (mkCheckpoint 1020 (repeat x01 32))).
Proof. vm_compute. reflexivity. Qed.
(** Numbers have to be strings. *)
Example C82_example_number : from_json fork_t (JObj [("epoch", JNum 7); ("current_version", JStr [x30; x78; x30; x35; x30; x30; x30; x30; x30; x30]);
                          ("previous_version", JStr [x30; x78; x30; x34; x30; x30; x30; x30; x30; x30])]%string) = None.
Proof. reflexivity. Qed.

Print Assumptions C82_state_is_read.
Print Assumptions C82_written_state_is_read.
Print Assumptions C82_nothing_is_made_up.
Print Assumptions C82_answer_is_accepted.
Print Assumptions C82_version_is_the_announced.
Print Assumptions C82_incomplete_answer_is_refused.
Print Assumptions C82_wrong_version_is_refused.
Print Assumptions C82_saved_state_is_the_answered.
Print Assumptions C82_file_determines_the_state.
Print Assumptions C82_fields_are_the_answered.
Print Assumptions C82_slot_is_the_answered.
Print Assumptions C82_oldest_first_refuted.
Print Assumptions C82_extra_member_refuted.
Print Assumptions C82_checkpoints_are_read.
Print Assumptions C82_header_is_read.
