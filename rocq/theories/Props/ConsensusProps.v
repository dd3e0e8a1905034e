(** C01-C06: consensus state and ABI. *)
From Coq Require Import List ZArith NArith Bool Lia.
From Coq.Init Require Import Byte.
From Verif.Model Require Import Base Types ConsensusState.
From Verif.Spec Require Import FFG.
From Verif.Proof Require Import BaseLemmas ConsensusStateP AbiP.
Import ListNotations.
Open Scope N_scope.

Definition r (b : byte) : Root := repeat b 32.
Definition cp (e : N) (b : byte) : Checkpoint := mkCheckpoint e (r b).

(** *** C01 *)
Theorem C01_state_transition_is_ffg_step : forall s l s',
  valid_state s -> u64 (epoch (target l)) ->
  (state_transition s l = Ok s' <-> ffg_step s l s').
Proof.
  intros s l s' Hv Hu. rewrite (state_transition_ok_iff s l s' Hu). tauto.
Qed.
Theorem C01_state_transition_accepts_iff : forall s l,
  valid_state s -> u64 (epoch (target l)) ->
  ((exists s', state_transition s l = Ok s') <->
   source l = current_justified s /\ epoch (current_justified s) < epoch (target l)).
Proof.
  intros s l Hv Hu. split.
  - intros [s' H]. apply C01_state_transition_is_ffg_step in H; auto. inversion H; subst; simpl; split; auto; lia.
  - intros [Hs He]. destruct s as [j f], l as [src t]; simpl in *. subst src.
    destruct (N.eq_dec (epoch t) (epoch j + 1)).
    + exists (mkCS t j). apply C01_state_transition_is_ffg_step; auto. constructor; auto.
    + exists (mkCS t f). apply C01_state_transition_is_ffg_step; auto. apply ffg_justify; lia.
Qed.
(** Every other input: which failure, exactly. *)
Theorem C01_state_transition_failures : forall s l,
  (state_transition s l = Panic <-> ~ valid_state s) /\
  (state_transition s l = Err (CArith Overflow) <->
     valid_state s /\ current_justified s = source l /\ 2 ^ 64 <= epoch (source l) + 1) /\
  (state_transition s l = Err InvalidTransition <->
     valid_state s /\ (current_justified s <> source l \/
       (epoch (target l) <= epoch (source l) /\ epoch (source l) + 1 < 2 ^ 64))).
Proof.
  intros. split; [apply state_transition_panic_iff|].
  split; [apply state_transition_overflow_iff|apply state_transition_invalid_iff].
Qed.
Example C01_nonvacuous :
  valid_state (mkCS (cp 7 x07) (cp 4 x04)) /\ u64 (epoch (cp 8 x08)) /\
  state_transition (mkCS (cp 7 x07) (cp 4 x04)) (mkLink (cp 7 x07) (cp 8 x08))
    = Ok (mkCS (cp 8 x08) (cp 7 x07)) /\
  state_transition (mkCS (cp 7 x07) (cp 4 x04)) (mkLink (cp 7 x07) (cp 9 x09))
    = Ok (mkCS (cp 9 x09) (cp 4 x04)) /\
  state_transition (mkCS (cp (2^64-1) x07) (cp 4 x04)) (mkLink (cp (2^64-1) x07) (cp 9 x09))
    = Err (CArith Overflow).
Proof. split; [left; reflexivity|]. repeat split; vm_compute; reflexivity. Qed.

(** *** C02 *)
Theorem C02_histories_stay_valid_and_advance : forall s ls s',
  valid_state s -> Forall (fun l => u64 (epoch (target l))) ls ->
  fold_outcome state_transition ls s = Ok s' ->
  valid_state s' /\
  epoch (current_justified s) + N.of_nat (length ls) <= epoch (current_justified s') /\
  epoch (finalized s) <= epoch (finalized s').
Proof.
  intros s ls s' Hv Hu H. apply (apply_links_ok_iff s ls s' Hv Hu) in H.
  split; [eapply ffg_run_valid; eauto|]. now apply ffg_run_mono with (ls := ls).
Qed.
(** The final state is a function of the history given by the FFG rule. *)
Theorem C02_histories_are_ffg_runs : forall s ls s',
  valid_state s -> Forall (fun l => u64 (epoch (target l))) ls ->
  (fold_outcome state_transition ls s = Ok s' <-> ffg_run s ls s').
Proof. exact apply_links_ok_iff. Qed.
Example C02_nonvacuous :
  fold_outcome state_transition
    [mkLink (cp 7 x07) (cp 9 x09); mkLink (cp 9 x09) (cp 12 x0c); mkLink (cp 12 x0c) (cp 13 x0d)]
    (mkCS (cp 7 x07) (cp 4 x04)) = Ok (mkCS (cp 13 x0d) (cp 12 x0c)).
Proof. vm_compute. reflexivity. Qed.

(** *** C03 *)
Theorem C03_link_of_transition : forall s l s',
  valid_state s -> u64 (epoch (target l)) -> ~ (s = genesis_state /\ epoch (target l) = 1) ->
  state_transition s l = Ok s' -> transition_link s s' = Ok (Some l).
Proof.
  intros s l s' Hv Hu Hg H. apply C01_state_transition_is_ffg_step in H; auto.
  apply transition_link_some_iff; auto.
Qed.
Theorem C03_transition_of_link : forall s s' l,
  u64 (epoch (current_justified s')) ->
  transition_link s s' = Ok (Some l) -> state_transition s l = Ok s'.
Proof.
  intros s s' l Hu H. apply transition_link_some_iff in H as (Hv & Hst & _).
  apply state_transition_ok_iff; auto. inversion Hst; subst; auto.
Qed.
Theorem C03_no_link_iff_same : forall s s', valid_state s ->
  (transition_link s s' = Ok None <-> s = s').
Proof. intros s s' Hv. rewrite transition_link_none_iff. tauto. Qed.
(** The exclusion in [C03_link_of_transition] is needed: from the genesis state the link 0 -> 1 is
    applied but cannot be reconstructed. *)
Theorem C03_genesis_link_refuted : exists s l s',
  valid_state s /\ wf_state s /\ wf_link l /\ state_transition s l = Ok s' /\
  transition_link s s' = Err InvalidTransition.
Proof.
  exists genesis_state, (mkLink genesis_cp (cp 1 x01)), (mkCS (cp 1 x01) genesis_cp).
  split; [right; auto|]. repeat split; vm_compute; auto.
Qed.
Example C03_nonvacuous :
  transition_link (mkCS (cp 7 x07) (cp 4 x04)) (mkCS (cp 8 x08) (cp 7 x07))
    = Ok (Some (mkLink (cp 7 x07) (cp 8 x08))) /\
  transition_link (mkCS (cp 7 x07) (cp 4 x04)) (mkCS (cp 9 x08) (cp 4 x04))
    = Ok (Some (mkLink (cp 7 x07) (cp 9 x08))).
Proof. split; vm_compute; reflexivity. Qed.

(** *** C04 *)
Theorem C04_link_exists_iff : forall s s' l, valid_state s ->
  (transition_link s s' = Ok (Some l) <->
   ffg_step s l s' /\ ~ (s = genesis_state /\ epoch (target l) = 1)).
Proof. intros. rewrite transition_link_some_iff. tauto. Qed.
Theorem C04_two_finality_iff : forall s s',
  transition_link s s' = Err TwoFinality <->
  valid_state s /\ valid_state s' /\
  cp_advances (finalized s) (finalized s') /\ cp_advances (current_justified s) (current_justified s') /\
  current_justified s <> current_justified s' /\ finalized s <> finalized s' /\
  epoch (current_justified s') = epoch (finalized s') + 2.
Proof. exact transition_link_two_finality_iff. Qed.
Theorem C04_panics_only_on_invalid_self : forall s s', transition_link s s' = Panic <-> ~ valid_state s.
Proof. exact transition_link_panic_iff. Qed.
Example C04_nonvacuous :
  transition_link (mkCS (cp 7 x07) (cp 4 x04)) (mkCS (cp 9 x08) (cp 7 x07)) = Err TwoFinality /\
  transition_link (mkCS (cp 7 x07) (cp 4 x04)) (mkCS (cp 9 x08) (cp 5 x07)) = Err InvalidTransition.
Proof. split; vm_compute; reflexivity. Qed.

(** *** C05 *)
Theorem C05_abi_round_trip : forall s rest,
  valid_state s -> wf_state s ->
  exists bs, @abi_encode AbiError s = Ok bs /\ length bs = 128%nat /\ abi_decode (bs ++ rest) = Ok s.
Proof.
  intros s rest Hv Hw. exists (abi_state s). unfold abi_encode.
  rewrite (proj2 (is_valid_iff s) Hv). split; auto. split; [now apply abi_state_length|].
  rewrite abi_decode_enc by auto. now rewrite (proj2 (is_valid_iff s) Hv).
Qed.
Theorem C05_abi_injective : forall s s' bs,
  wf_state s -> wf_state s' ->
  @abi_encode AbiError s = Ok bs -> @abi_encode AbiError s' = Ok bs -> s = s'.
Proof.
  unfold abi_encode, assert_. intros s s' bs ? ? H1 H2.
  destruct (is_valid s), (is_valid s'); try discriminate. cbn [bind] in *.
  apply abi_state_inj; auto; congruence.
Qed.
Theorem C05_abi_decode_only_valid : forall data s,
  abi_decode data = Ok s -> valid_state s /\ wf_state s /\ (128 <= length data)%nat.
Proof. exact abi_decode_sound. Qed.
Theorem C05_abi_decode_rejects : forall s rest data,
  (wf_state s -> ~ valid_state s -> abi_decode (abi_state s ++ rest) = Panic) /\
  ((length data < 128)%nat -> abi_decode data = Err AbiOverrun).
Proof.
  intros. split; intros; [|now apply abi_decode_short].
  rewrite abi_decode_enc by auto. apply is_valid_false in H0. now rewrite H0.
Qed.
Example C05_nonvacuous : exists bs,
  @abi_encode AbiError (mkCS (cp 300 x07) (cp 4 x04)) = Ok bs /\
  nth 30 bs x00 = x01 /\ nth 31 bs x00 = x2c /\ nth 32 bs x00 = x07 /\
  abi_decode bs = Ok (mkCS (cp 300 x07) (cp 4 x04)) /\
  abi_decode (abi_state (mkCS (cp 3 x07) (cp 3 x04))) = Panic.
Proof. eexists. split; [vm_compute; reflexivity|]. repeat split; vm_compute; reflexivity. Qed.

(** *** C06 *)
Theorem C06_journal_layout : forall pre post slot,
  wf_state pre -> wf_state post -> u64 slot ->
  let j := journal_encode pre post slot in
  length j = 288%nat /\
  firstn 128 j = abi_state pre /\ firstn 128 (skipn 128 j) = abi_state post /\
  firstn 24 (skipn 256 j) = repeat x00 24 /\ be_val (skipn 280 j) = slot.
Proof.
  intros pre post slot Hp Hq Hs j. unfold j, journal_encode.
  split; [apply journal_length; auto|].
  pose proof (abi_state_length _ Hp) as Lp. pose proof (abi_state_length _ Hq) as Lq.
  split; [rewrite firstn_app, Lp, firstn_all2, Nat.sub_diag, app_nil_r by lia; auto|].
  split; [rewrite skipn_app, skipn_all2, Lp, Nat.sub_diag by lia; cbn [skipn app];
          rewrite firstn_app, Lq, firstn_all2, Nat.sub_diag, app_nil_r by lia; auto|].
  rewrite !app_assoc. assert (length (abi_state pre ++ abi_state post) = 256%nat) as L by (rewrite app_length; lia).
  split.
  - rewrite skipn_app, skipn_all2, L, Nat.sub_diag by lia. reflexivity.
  - rewrite skipn_app, skipn_all2, L by lia. change (280 - 256)%nat with 24%nat. cbn [app].
    now apply abi_word_uint64_enc.
Qed.
(** What the host recovers (run_verify, zkasper_cli.rs: split at 128, decode both parts). *)
Theorem C06_host_decodes_journal : forall pre post slot,
  wf_state pre -> wf_state post -> valid_state pre -> valid_state post ->
  abi_decode (firstn 128 (journal_encode pre post slot)) = Ok pre /\
  abi_decode (skipn 128 (journal_encode pre post slot)) = Ok post.
Proof.
  intros pre post slot Hp Hq Vp Vq. pose proof (abi_state_length _ Hp) as Lp. unfold journal_encode. split.
  - rewrite firstn_app, Lp, firstn_all2, Nat.sub_diag by lia. cbn [firstn].
    rewrite abi_decode_enc by auto. now rewrite (proj2 (is_valid_iff _) Vp).
  - rewrite skipn_app, skipn_all2, Lp, Nat.sub_diag by lia. cbn [skipn app].
    rewrite abi_decode_enc by auto. now rewrite (proj2 (is_valid_iff _) Vq).
Qed.
Theorem C06_journal_injective : forall pre post slot pre' post' slot',
  wf_state pre -> wf_state post -> u64 slot -> wf_state pre' -> wf_state post' -> u64 slot' ->
  journal_encode pre post slot = journal_encode pre' post' slot' ->
  pre = pre' /\ post = post' /\ slot = slot'.
Proof. exact journal_inj. Qed.
Example C06_nonvacuous :
  length (journal_encode (mkCS (cp 7 x07) (cp 4 x04)) (mkCS (cp 8 x08) (cp 7 x07)) 224) = 288%nat /\
  nth 287 (journal_encode (mkCS (cp 7 x07) (cp 4 x04)) (mkCS (cp 8 x08) (cp 7 x07)) 224) x00 = xe0.
Proof. split; vm_compute; reflexivity. Qed.

Print Assumptions C01_state_transition_is_ffg_step.
Print Assumptions C01_state_transition_accepts_iff.
Print Assumptions C01_state_transition_failures.
Print Assumptions C02_histories_stay_valid_and_advance.
Print Assumptions C02_histories_are_ffg_runs.
Print Assumptions C03_link_of_transition.
Print Assumptions C03_transition_of_link.
Print Assumptions C03_no_link_iff_same.
Print Assumptions C03_genesis_link_refuted.
Print Assumptions C04_link_exists_iff.
Print Assumptions C04_two_finality_iff.
Print Assumptions C04_panics_only_on_invalid_self.
Print Assumptions C05_abi_round_trip.
Print Assumptions C05_abi_injective.
Print Assumptions C05_abi_decode_only_valid.
Print Assumptions C05_abi_decode_rejects.
Print Assumptions C06_journal_layout.
Print Assumptions C06_host_decodes_journal.
Print Assumptions C06_journal_injective.
