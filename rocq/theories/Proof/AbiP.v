From Coq Require Import List ZArith NArith Bool Lia.
From Coq Require Import ZifyBool ZifyNat ZifyN.
From Coq.Init Require Import Byte.
From Verif.Model Require Import Base Types ConsensusState.
From Verif.Spec Require Import FFG.
From Verif.Proof Require Import BaseLemmas ConsensusStateP.
Import ListNotations.
Open Scope N_scope.

Lemma abi_uint64_length x : length (abi_uint64 x) = 32%nat.
Proof. unfold abi_uint64. rewrite app_length, zero_bytes_length, be_bytes_length. reflexivity. Qed.
Lemma abi_checkpoint_length c : wf_checkpoint c -> length (abi_checkpoint c) = 64%nat.
Proof. intros [_ H]. unfold abi_checkpoint. rewrite app_length, abi_uint64_length, H. reflexivity. Qed.
Lemma abi_state_length s : wf_state s -> length (abi_state s) = 128%nat.
Proof. intros [H1 H2]. unfold abi_state. rewrite app_length, !abi_checkpoint_length; auto. Qed.
Lemma journal_length pre post slot : wf_state pre -> wf_state post ->
  length (journal_encode pre post slot) = 288%nat.
Proof.
  intros. unfold journal_encode. rewrite !app_length, !abi_state_length, abi_uint64_length; auto.
Qed.

Lemma u64_256 x : u64 x -> x < 256 ^ N.of_nat 8.
Proof. rewrite two64_256. auto. Qed.

Lemma abi_word_uint64_enc x : u64 x -> abi_word_uint64 (abi_uint64 x) = x.
Proof.
  intros. unfold abi_word_uint64, abi_uint64.
  rewrite skipn_app, skipn_all2 by (rewrite zero_bytes_length; lia).
  rewrite zero_bytes_length. simpl. apply be_val_be_bytes_small. now apply u64_256.
Qed.
Lemma abi_uint64_inj x y : u64 x -> u64 y -> abi_uint64 x = abi_uint64 y -> x = y.
Proof. intros Hx Hy H. apply (f_equal abi_word_uint64) in H. now rewrite !abi_word_uint64_enc in H. Qed.
Lemma abi_checkpoint_inj a b : wf_checkpoint a -> wf_checkpoint b ->
  abi_checkpoint a = abi_checkpoint b -> a = b.
Proof.
  intros [Ha La] [Hb Lb] H. unfold abi_checkpoint in H.
  apply app_inj_length in H as [H1 H2]; [|now rewrite !abi_uint64_length].
  apply abi_uint64_inj in H1; auto. destruct a, b; simpl in *; congruence.
Qed.
Lemma abi_state_inj a b : wf_state a -> wf_state b -> abi_state a = abi_state b -> a = b.
Proof.
  intros [Ha1 Ha2] [Hb1 Hb2] H. unfold abi_state in H.
  apply app_inj_length in H as [H1 H2]; [|now rewrite !abi_checkpoint_length].
  apply abi_checkpoint_inj in H1; auto. apply abi_checkpoint_inj in H2; auto.
  destruct a, b; simpl in *; congruence.
Qed.
Lemma journal_inj pre post slot pre' post' slot' :
  wf_state pre -> wf_state post -> u64 slot -> wf_state pre' -> wf_state post' -> u64 slot' ->
  journal_encode pre post slot = journal_encode pre' post' slot' ->
  pre = pre' /\ post = post' /\ slot = slot'.
Proof.
  intros. unfold journal_encode in *.
  apply app_inj_length in H5 as [H5 H6]; [|now rewrite !abi_state_length].
  apply app_inj_length in H6 as [H6 H7]; [|now rewrite !abi_state_length].
  apply abi_state_inj in H5; auto. apply abi_state_inj in H6; auto. apply abi_uint64_inj in H7; auto.
Qed.

Lemma abi_word_app (ws : list bytes) (w : bytes) rest i :
  Forall (fun x => length x = 32%nat) ws -> length ws = i -> length w = 32%nat ->
  abi_word (concat ws ++ w ++ rest) i = Ok w.
Proof.
  intros Hws Hi Hw. unfold abi_word.
  assert (length (concat ws) = 32 * i)%nat as Hl.
  { subst i. clear -Hws. induction Hws; cbn [concat length]; auto. rewrite app_length, IHHws, H. lia. }
  rewrite <- Hl. replace 32%nat with (length w). rewrite slice_app. reflexivity.
Qed.
Lemma abi_decode_checkpoint_enc ws c rest i :
  Forall (fun x => length x = 32%nat) ws -> length ws = i -> wf_checkpoint c ->
  abi_decode_checkpoint (concat ws ++ abi_checkpoint c ++ rest) i = Ok c.
Proof.
  intros Hws Hi [Hu Hr]. unfold abi_decode_checkpoint, abi_checkpoint.
  rewrite <- !app_assoc.
  rewrite abi_word_app; auto using abi_uint64_length. cbn [bind].
  replace (concat ws ++ abi_uint64 (epoch c) ++ root c ++ rest)
    with (concat (ws ++ [abi_uint64 (epoch c)]) ++ root c ++ rest).
  2:{ rewrite concat_app. cbn [concat]. rewrite app_nil_r, <- app_assoc. auto. }
  rewrite abi_word_app; auto.
  - cbn [bind]. rewrite abi_word_uint64_enc; auto. destruct c; auto.
  - apply Forall_app; split; auto using abi_uint64_length.
  - rewrite app_length; simpl; lia.
Qed.
Lemma abi_decode_enc s rest : wf_state s ->
  abi_decode (abi_state s ++ rest) = if is_valid s then Ok s else Panic.
Proof.
  intros [H1 H2]. unfold abi_decode, abi_state. rewrite <- app_assoc.
  pose proof (abi_decode_checkpoint_enc [] (current_justified s) (abi_checkpoint (finalized s) ++ rest) 0) as D0.
  cbn [concat app] in D0. rewrite D0; auto. cbn [bind].
  pose proof (abi_decode_checkpoint_enc
    [abi_uint64 (epoch (current_justified s)); root (current_justified s)] (finalized s) rest 2) as D2.
  cbn [concat app] in D2. rewrite app_nil_r in D2.
  change (abi_uint64 (epoch (current_justified s)) ++ root (current_justified s))
    with (abi_checkpoint (current_justified s)) in D2.
  rewrite D2; auto; [|repeat constructor; auto using abi_uint64_length; apply H1]. cbn [bind].
  unfold cs_new. replace (mkCS (current_justified s) (finalized s)) with s by (destruct s; auto).
  destruct (is_valid s) eqn:E; simpl; auto. rewrite E. reflexivity.
Qed.

Lemma abi_word_ok data i w : abi_word data i = Ok w ->
  length w = 32%nat /\ (32 * i + 32 <= length data)%nat.
Proof.
  unfold abi_word. intros H. inv_ok. split; [eapply slice_length; eauto|].
  apply slice_some in H. lia.
Qed.
Lemma abi_word_uint64_u64 w : length w = 32%nat -> u64 (abi_word_uint64 w).
Proof.
  intros. unfold abi_word_uint64, be_val, u64. pose proof (le_val_bound (rev (skipn 24 w))).
  rewrite rev_length, skipn_length, H in H0. exact H0.
Qed.
Lemma abi_decode_checkpoint_wf data i c : abi_decode_checkpoint data i = Ok c ->
  wf_checkpoint c /\ (32 * i + 64 <= length data)%nat.
Proof.
  unfold abi_decode_checkpoint. intros H. inv_ok.
  apply abi_word_ok in H0 as [? ?]. apply abi_word_ok in H1 as [? ?].
  split; [split; simpl; auto; now apply abi_word_uint64_u64|lia].
Qed.
Lemma abi_decode_sound data s : abi_decode data = Ok s ->
  valid_state s /\ wf_state s /\ (128 <= length data)%nat.
Proof.
  unfold abi_decode, cs_new. intros H. inv_ok.
  apply abi_decode_checkpoint_wf in H0 as [? ?]. apply abi_decode_checkpoint_wf in H1 as [? ?].
  split; [now apply is_valid_iff|]. split; [split; auto|lia].
Qed.

(** Any 32-byte word whose first 24 bytes are zero is the encoding of its value. *)
Lemma abi_word_canonical w : length w = 32%nat -> firstn 24 w = zero_bytes 24 ->
  abi_uint64 (abi_word_uint64 w) = w.
Proof.
  intros Hl Hz. unfold abi_uint64, abi_word_uint64.
  assert (be_bytes 8 (be_val (skipn 24 w)) = skipn 24 w) as ->.
  { pose proof (be_bytes_be_val (skipn 24 w)) as H. rewrite skipn_length, Hl in H. exact H. }
  rewrite <- Hz. apply firstn_skipn.
Qed.

Lemma abi_decode_short data : (length data < 128)%nat -> abi_decode data = Err AbiOverrun.
Proof.
  intros Hl. unfold abi_decode.
  assert (forall i, abi_word data i = Err AbiOverrun \/ exists w, abi_word data i = Ok w) as Hw.
  { intros i. unfold abi_word. destruct (slice data (32*i) 32); simpl; eauto. }
  assert (abi_word data 3 = Err AbiOverrun) as H3.
  { unfold abi_word, slice. destruct (Nat.leb_spec (32*3+32) (length data)); simpl; auto. lia. }
  unfold abi_decode_checkpoint. simpl Nat.add.
  destruct (Hw 0%nat) as [->|[w0 ->]]; simpl; auto.
  destruct (Hw 1%nat) as [->|[w1 ->]]; simpl; auto.
  destruct (Hw 2%nat) as [->|[w2 ->]]; simpl; auto.
  rewrite H3. reflexivity.
Qed.
