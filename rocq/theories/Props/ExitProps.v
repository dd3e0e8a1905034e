(** C54: exits that the protocol's exit queue assigns, seen through state patches. *)
From Coq Require Import List Arith ZArith NArith Bool Lia Sorted Permutation.
From Coq.Init Require Import Byte.
From Verif.Model Require Import Base Types ConsensusState Multiproof Verify GuestReader.
From Verif.Spec Require Import Beacon GuestSpec Registry ExitQueue VerifySpec.
From Verif.Proof Require Import BaseLemmas VerifyP PatchP ExitQueueP.
From Verif.Props Require Import VerifyProps RegistryProps.
Import ListNotations.
Open Scope N_scope.
Notation length := List.length.

(** Which exits a patch may hold, exactly (when no product overflows): each concerns a known
    validator and is unchanged, or replaces "never" by an epoch not before the earliest; and up to
    every horizon the new exits fit into the churn accumulated since the earliest epoch. *)
Theorem C54_patch_exact : forall cs patches reg churn trusted earliest pe p,
  (forall i ex, In (i, ex) (validator_exits p) -> churn * (1 + (ex - earliest)) < 2 ^ 64) ->
  (exists earliest', validate_patch cs patches reg churn trusted earliest (pe, p) = Ok earliest') <->
  trusted <= pe /\
  (forall i ex, In (i, ex) (validator_exits p) -> exists v, bm_get reg i = Some v /\
     (previous_exit patches v i pe = ex \/
      (previous_exit patches v i pe = far_future_epoch cs /\ earliest <= ex))) /\
  (forall horizon, new_exit_balance patches reg horizon pe p <= churn * (1 + (horizon - earliest))).
Proof.
  intros cs patches reg churn trusted er pe p O. rewrite patch_exact by (intros [i ex] Hx; apply (O i ex Hx)).
  unfold exit_fine. split; intros (H1 & H2 & H3); (split; [exact H1|]); split; auto.
  - intros i ex Hx. apply (H2 (i, ex) Hx).
  - intros [i ex] Hx. apply (H2 i ex Hx).
Qed.

(** Patches of consecutive epochs that show what one exit queue of the protocol has assigned are
    accepted, for every queue, every sequence of events and every number of patches. *)
Theorem C54_honest_exits_accepted : forall cs balances trusted patches reg si q,
  wf_patches patches -> 1 <= trusted -> exit_numbers_fit cs reg trusted ->
  let churn := exit_churn cs reg trusted in
  N.min (si_earliest_exit_epoch si) (si_earliest_consolidation_epoch si) <= q_epoch q -> q_balance q <= churn ->
  (forall e p, In (e, p) patches -> trusted <= e) ->
  honest_exits consecutive cs balances trusted churn q [] patches ->
  (forall e p i ex, In (e, p) patches -> In (i, ex) (validator_exits p) ->
     churn * (1 + (ex - activation_exit_epoch cs trusted)) < 2 ^ 64 /\
     exists v, bm_get reg i = Some v /\ exit_epoch v = far_future_epoch cs /\ effective_balance v = balances i) ->
  validate_state_patches cs patches trusted si reg = Ok tt.
Proof. exact honest_accepted. Qed.
(** In particular without exits. *)
Theorem C54_no_exits_accepted : forall cs patches trusted reg si,
  exit_numbers_fit cs reg trusted ->
  (forall e p, In (e, p) patches -> trusted <= e /\ validator_exits p = []) ->
  validate_state_patches cs patches trusted si reg = Ok tt.
Proof.
  intros cs patches trusted reg si Hf Hp. eapply validate_patches_total; [exact Hf|]. apply no_exits_accepted.
  apply Forall_forall. intros [e p] Hi. apply (Hp e p Hi).
Qed.

Definition q0 : queue := mkQueue 12 100.
Definition bal32 : ValidatorIndex -> N := fun _ => 32.
Definition evs11 : list event := [Exit 9 10 32; Withdraw 7 10 32; Exit 3 10 32].
Definition evs12 : list event := [Exit 0 11 32].
Definition p11 := mkStatePatch [] [(3, 17); (9, 15)].
Definition p12 := mkStatePatch [] [(0, 18); (3, 17); (9, 15)].
Lemma run11 t : t <= 10 -> queue_run toy_cs bal32 t 256 q0 evs11 [(9, 15); (3, 17)] (mkQueue 17 25).
Proof.
  intros Ht.
  apply qr_exit; [exact Ht|split; [reflexivity|discriminate]|].
  apply qr_withdraw; [exact Ht|split; [reflexivity|discriminate]|].
  apply qr_exit; [exact Ht|split; [reflexivity|discriminate]|]. apply qr_nil.
Qed.
Ltac exits_list := intros i ex; split;
  [intros H; apply bm_get_in in H; cbn in H |- *; intuition congruence
  |intros H; cbn in H; repeat destruct H as [H|H]; try contradiction; injection H as <- <-; reflexivity].
Example C54_nonvacuous :
  let patches := [(11, p11); (12, p12)] in
  wf_patches patches /\ exit_numbers_fit toy_cs r_big 9 /\ exit_churn toy_cs r_big 9 = 256 /\
  honest_exits consecutive toy_cs bal32 9 256 q0 [] patches /\
  validate_state_patches toy_cs patches 9 r_si r_big = Ok tt.
Proof.
  cbv zeta. split. { split; repeat constructor. }
  split. { repeat split; vm_compute; congruence. }
  split; [reflexivity|]. split; [|vm_compute; reflexivity].
  eapply he_cons with (out := [(9, 15); (3, 17)]); [apply run11; lia| |reflexivity|].
  { exits_list. }
  eapply he_cons with (evs := evs12) (out := [(0, 18)]); [| |exact I|apply he_nil].
  { apply qr_exit; [vm_compute; discriminate|split; [reflexivity|discriminate]|apply qr_nil]. }
  exits_list.
Qed.

(** A skipped epoch: the exits of the earlier patch count as new in the later one, so an honest
    input makes the guest panic. Same statement as above but for the spacing of the patches. *)
Theorem C54_skipped_epoch_refuted : exists cs balances trusted patches reg si q,
  wf_patches patches /\ 1 <= trusted /\ exit_numbers_fit cs reg trusted /\
  let churn := exit_churn cs reg trusted in
  N.min (si_earliest_exit_epoch si) (si_earliest_consolidation_epoch si) <= q_epoch q /\ q_balance q <= churn /\
  (forall e p, In (e, p) patches -> trusted <= e) /\
  honest_exits N.lt cs balances trusted churn q [] patches /\
  (forall e p i ex, In (e, p) patches -> In (i, ex) (validator_exits p) ->
     churn * (1 + (ex - activation_exit_epoch cs trusted)) < 2 ^ 64 /\
     exists v, bm_get reg i = Some v /\ exit_epoch v = far_future_epoch cs /\ effective_balance v = balances i) /\
  validate_state_patches cs patches trusted si reg = Panic.
Proof.
  exists toy_cs, bal32, 9, [(11, p11); (13, p11)], r_big, r_si, q0.
  split. { split; repeat constructor. } split; [vm_compute; discriminate|].
  split. { repeat split; vm_compute; congruence. }
  cbv zeta. change (exit_churn toy_cs r_big 9) with 256.
  split; [vm_compute; discriminate|]. split; [vm_compute; discriminate|].
  split. { intros e p [[= <- <-]|[[= <- <-]|[]]]; vm_compute; discriminate. }
  split.
  { eapply he_cons with (out := [(9, 15); (3, 17)]); [apply run11; lia| |reflexivity|].
    { exits_list. }
    eapply he_cons with (out := []); [apply qr_nil| |exact I|apply he_nil]. exits_list. }
  split; [|vm_compute; reflexivity].
  intros e p i ex [[= <- <-]|[[= <- <-]|[]]] [[= <- <-]|[[= <- <-]|[]]];
    (split; [vm_compute; reflexivity|eexists; split; [reflexivity|split; reflexivity]]).
Qed.
(** Two queues (exits and consolidations): an exit may be earlier than a consolidation that an
    earlier patch showed, and an honest input makes the guest panic. *)
Theorem C54_two_queues_refuted : exists cs balances trusted reg si exit_q cons_q evs cevs out cout exit_q' cons_q' p p',
  let patches := [(trusted + 2, p); (trusted + 3, p')] in
  let churn := exit_churn cs reg trusted in
  wf_patches patches /\ 1 <= trusted /\ exit_numbers_fit cs reg trusted /\
  q_epoch exit_q = si_earliest_exit_epoch si /\ q_epoch cons_q = si_earliest_consolidation_epoch si /\
  q_balance exit_q <= churn /\ q_balance cons_q <= churn /\
  queue_run cs balances trusted (churn / 2) cons_q cevs cout cons_q' /\
  queue_run cs balances trusted (churn / 2) exit_q evs out exit_q' /\
  (forall i ex, bm_get (validator_exits p) i = Some ex <-> In (i, ex) cout) /\
  (forall i ex, bm_get (validator_exits p') i = Some ex <-> In (i, ex) (cout ++ out)) /\
  (forall i ex, In (i, ex) (cout ++ out) -> exists v, bm_get reg i = Some v /\ exit_epoch v = far_future_epoch cs /\ effective_balance v = balances i) /\
  validate_state_patches cs patches trusted si reg = Panic.
Proof.
  exists toy_cs, bal32, 9, r_big, r_si, (mkQueue 12 100), (mkQueue 13 64), [Exit 9 11 32], [Exit 3 10 8], [(9, 16)], [(3, 18)],
    (mkQueue 16 0), (mkQueue 18 0), (mkStatePatch [] [(3, 18)]), (mkStatePatch [] [(3, 18); (9, 16)]).
  cbv zeta. change (exit_churn toy_cs r_big 9) with 256.
  split. { split; repeat constructor. } split; [vm_compute; discriminate|].
  split. { repeat split; vm_compute; congruence. }
  split; [reflexivity|]. split; [reflexivity|]. split; [vm_compute; discriminate|]. split; [vm_compute; discriminate|].
  split. { apply qr_exit; [vm_compute; discriminate|split; [reflexivity|vm_compute; discriminate]|apply qr_nil]. }
  split. { apply qr_exit; [vm_compute; discriminate|split; [reflexivity|vm_compute; discriminate]|apply qr_nil]. }
  split; [exits_list|]. split; [exits_list|].
  split; [|vm_compute; reflexivity].
  intros i ex [[= <- <-]|[[= <- <-]|[]]]; (eexists; split; [reflexivity|split; reflexivity]).
Qed.
(** A boundary state from the epoch before (its first slot being empty): an ejection in the epoch
    transition that follows may get an exit epoch one earlier than the guest allows. *)
Theorem C54_boundary_ejection_refuted : exists cs balances trusted reg si q evs out q' p,
  let patches := [(trusted + 1, p)] in
  let churn := exit_churn cs reg trusted in
  wf_patches patches /\ 1 <= trusted /\ exit_numbers_fit cs reg trusted /\
  epoch_of_slot cs (si_slot si) = trusted - 1 /\
  N.min (si_earliest_exit_epoch si) (si_earliest_consolidation_epoch si) <= q_epoch q /\ q_balance q <= churn /\
  queue_run cs balances (trusted - 1) churn q evs out q' /\
  (forall i ex, bm_get (validator_exits p) i = Some ex <-> In (i, ex) out) /\
  (forall i ex, In (i, ex) out -> exists v, bm_get reg i = Some v /\ exit_epoch v = far_future_epoch cs /\ effective_balance v = balances i) /\
  validate_state_patches cs patches trusted si reg = Panic.
Proof.
  exists toy_cs, bal32, 9, r_big, (mkStateInfo (toy_root 1) 17 toy_fork (toy_root 2) 7 12 13), q0, [Exit 9 8 32], [(9, 13)],
    (mkQueue 13 0), (mkStatePatch [] [(9, 13)]).
  cbv zeta. change (exit_churn toy_cs r_big 9) with 256.
  split. { split; repeat constructor. } split; [vm_compute; discriminate|].
  split. { repeat split; vm_compute; congruence. }
  split; [reflexivity|]. split; [vm_compute; discriminate|]. split; [vm_compute; discriminate|].
  split. { apply qr_exit; [vm_compute; discriminate|split; [reflexivity|vm_compute; discriminate]|apply qr_nil]. }
  split; [exits_list|]. split; [|vm_compute; reflexivity].
  intros i ex [[= <- <-]|[]]. eexists; split; [reflexivity|split; reflexivity].
Qed.

Print Assumptions C54_patch_exact.
Print Assumptions C54_honest_exits_accepted.
Print Assumptions C54_no_exits_accepted.
Print Assumptions C54_nonvacuous.
Print Assumptions C54_skipped_epoch_refuted.
Print Assumptions C54_two_queues_refuted.
Print Assumptions C54_boundary_ejection_refuted.
