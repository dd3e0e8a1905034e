(** C32-C34: registry updates and state patches. *)
From Coq Require Import List Arith ZArith NArith Bool Lia Sorted Permutation.
From Coq.Init Require Import Byte.
From Verif.Model Require Import Base Types ConsensusState Multiproof Verify GuestReader.
From Verif.Spec Require Import Beacon GuestSpec Registry VerifySpec.
From Verif.Proof Require Import BaseLemmas VerifyP PatchP.
From Verif.Props Require Import VerifyProps.
Import ListNotations.
Open Scope N_scope.
Notation length := List.length.

(** *** C32 *)
(** One epoch: whatever the specification's process_registry_updates does to the registry, the
    guest does the same up to ejections (exit epochs). *)
Theorem C32_equals_spec_but_exits : forall cs ejection fin cur reg out spec_out,
  fin <= cur -> cur < far_future_epoch cs ->
  @process_registry_updates GuestError cs reg fin cur = Ok out ->
  registry_rel (spec_update cs ejection fin cur) reg spec_out ->
  registry_rel same_but_exit out spec_out.
Proof.
  intros cs ej fin cur reg out so Hf Hc E S. apply process_registry_ok in E as [-> Hb].
  eapply registry_rel_upd; eauto; [lia|]. clear. induction reg as [|[k v] r IH]; constructor; auto.
  split; auto. exists (exit_epoch v). now destruct v.
Qed.
(** Nothing but eligibility and activation epochs change. *)
Theorem C32_only_activation_fields : forall cs fin cur reg out,
  @process_registry_updates GuestError cs reg fin cur = Ok out ->
  registry_rel (fun v w => exists a b, w = with_activation (with_eligibility v a) b) reg out.
Proof.
  intros cs fin cur reg out E. apply process_registry_ok in E as [-> _].
  induction reg as [|[k v] r IH]; constructor; auto. split; auto. cbn [upd snd].
  set (w := registry_update_validator _ _ _ _ _).
  exists (activation_eligibility_epoch w), (activation_epoch w).
  destruct (update_fields cs fin cur (activation_exit_epoch cs cur) v) as (E1 & E2 & E3 & E4). fold w in E1, E2, E3, E4.
  unfold with_activation, with_eligibility. cbn. rewrite <- E1, <- E2, <- E3, <- E4. now destruct w.
Qed.
(** It fails only when the activation epoch overflows. *)
Theorem C32_total : forall cs fin cur reg,
  (exists out, @process_registry_updates GuestError cs reg fin cur = Ok out) <-> activation_exit_epoch cs cur < 2 ^ 64.
Proof.
  intros. split.
  - intros [out E]. apply process_registry_ok in E as [_ Hb]. exact Hb.
  - intros H. eexists. apply process_registry_total. exact H.
Qed.
(** All epochs from the state's to the justified one: the guest's loop against any run of the
    specification's updates in which the finalized epoch is the state's until the justified epoch,
    and the trusted one there. Activity agrees, with the specification and with the original
    registry, before [state epoch + 1 + max_seed_lookahead]. *)
Theorem C32_loop_equals_spec_but_exits : forall cs ejection state_fin trusted cj state_epoch reg out spec_out,
  far_future_epoch cs = 2 ^ 64 - 1 -> state_fin <= state_epoch -> trusted <= cj ->
  @registry_loop GuestError cs state_fin trusted cj state_epoch reg = Ok out ->
  spec_updates cs ejection state_epoch
    (map (fun e => if e <? cj then state_fin else trusted) (epoch_range state_epoch cj)) reg spec_out ->
  registry_rel same_but_exit out spec_out.
Proof.
  intros cs ej sf tr cj se reg out so Hff Hsf Htr E S. apply registry_loop_ok in E as [-> Hb].
  eapply spec_updates_agree; eauto. clear. induction reg as [|[k v] r IH]; constructor; auto.
  split; auto. exists (exit_epoch v). now destruct v.
Qed.
Lemma spec_update_active cs ej fin cur v w e : e < activation_exit_epoch cs cur -> e < far_future_epoch cs ->
  spec_update cs ej fin cur v w -> (active_in v e <-> active_in w e).
Proof.
  intros He Hff S. unfold active_in. inversion S; subst; cbn [with_eligibility with_exit with_activation activation_epoch exit_epoch]; try tauto.
  - destruct (N.eqb_spec (exit_epoch v) (far_future_epoch cs)); [|subst; tauto]. lia.
  - lia.
Qed.
Theorem C32_activity_unchanged_within_lookahead : forall cs ejection state_epoch fins reg spec_out e,
  spec_updates cs ejection state_epoch fins reg spec_out ->
  e < activation_exit_epoch cs state_epoch -> e < far_future_epoch cs ->
  registry_rel (fun v w => active_in v e <-> active_in w e) reg spec_out.
Proof.
  intros cs ej se fins reg so e S. induction S as [se m|se fin fins m m1 m2 R S IH]; intros He Hff.
  - induction m; constructor; auto. split; [auto|tauto].
  - specialize (IH ltac:(unfold activation_exit_epoch in *; lia) Hff). clear S.
    revert m2 IH. induction R as [|x y m m1 [K U] R IHR]; intros m2 I; inversion I; subst; constructor; [|apply IHR; auto].
    destruct H1 as [K' U']. split; [congruence|]. rewrite (spec_update_active _ _ _ _ _ _ _ He Hff U). exact U'.
Qed.
Theorem C32_guest_activity_within_lookahead : forall cs state_fin trusted cj state_epoch reg out e,
  @registry_loop GuestError cs state_fin trusted cj state_epoch reg = Ok out ->
  e < activation_exit_epoch cs state_epoch -> e < far_future_epoch cs ->
  registry_rel (fun v w => active_in v e <-> active_in w e) reg out.
Proof.
  intros cs sf tr cj se reg out e E He Hff. apply registry_loop_ok in E as [-> _].
  rewrite upds_map. set (l := map _ (epoch_range se cj)).
  assert (Hl : forall fe, In fe l -> se <= snd fe).
  { intros fe Hf. apply in_map_iff in Hf as (x & <- & Hx). apply epoch_range_In in Hx. cbn [snd]. lia. }
  induction reg as [|[k v] r IH]; constructor; auto. split; auto. cbn [snd].
  destruct (upd1_active cs se l v e Hl Hff He) as [U _]. unfold active_in.
  unfold is_active_at in U. lia.
Qed.

(** A registry with a validator to queue, one to activate, one to eject and an ordinary one. *)
Definition r_far : N := 2 ^ 64 - 1.
Definition r_v (i eb elig act ex : N) : ValidatorInfo := mkValidatorInfo [byte_of_N i] eb false elig act ex.
Definition r_reg : bmap ValidatorInfo :=
  [(0, r_v 0 32 r_far r_far r_far); (3, r_v 3 32 7 r_far r_far); (4, r_v 4 16 0 0 r_far); (9, r_v 9 32 0 0 r_far)].
Definition r_spec_out : bmap ValidatorInfo :=
  [(0, r_v 0 32 10 r_far r_far); (3, r_v 3 32 7 14 r_far); (4, r_v 4 16 0 0 20); (9, r_v 9 32 0 0 r_far)].
Definition r_out : bmap ValidatorInfo :=
  [(0, r_v 0 32 10 r_far r_far); (3, r_v 3 32 7 14 r_far); (4, r_v 4 16 0 0 r_far); (9, r_v 9 32 0 0 r_far)].
Example C32_nonvacuous :
  @process_registry_updates GuestError toy_cs r_reg 8 9 = Ok r_out /\
  registry_rel (spec_update toy_cs 16 8 9) r_reg r_spec_out /\
  @registry_loop GuestError toy_cs 8 8 9 9 r_reg = Ok r_out /\
  spec_updates toy_cs 16 9 [8] r_reg r_spec_out.
Proof.
  assert (R : registry_rel (spec_update toy_cs 16 8 9) r_reg r_spec_out).
  { apply Forall2_cons; [split; [reflexivity|apply su_queue; vm_compute; congruence]|].
    apply Forall2_cons; [split; [reflexivity|apply su_activate]|].
    { intros [E _]. vm_compute in E. discriminate. }
    { intros [[A _] _]. vm_compute in A. congruence. }
    { vm_compute. congruence. } { reflexivity. }
    apply Forall2_cons; [split; [reflexivity|apply (su_eject toy_cs 16 8 9 (r_v 4 16 0 0 r_far) 20)]|].
    { intros [E _]. vm_compute in E. discriminate. }
    { split; vm_compute; congruence. } { vm_compute; congruence. } { vm_compute; congruence. }
    apply Forall2_cons; [split; [reflexivity|apply su_nothing]|apply Forall2_nil].
    - intros [E _]. vm_compute in E. discriminate.
    - intros [_ E]. apply E. reflexivity.
    - intros [_ E]. vm_compute in E. discriminate. }
  split; [vm_compute; reflexivity|]. split; [exact R|]. split; [vm_compute; reflexivity|].
  econstructor; [exact R|constructor].
Qed.
(** Without [fin <= cur] the guest would activate in the same epoch as it queues, the specification
    does not. *)
Example C32_needs_finality_behind : exists out,
  @process_registry_updates GuestError toy_cs [(0, r_v 0 32 r_far r_far r_far)] 10 9 = Ok out /\
  registry_rel (spec_update toy_cs 16 10 9) [(0, r_v 0 32 r_far r_far r_far)] [(0, r_v 0 32 10 r_far r_far)] /\
  ~ registry_rel same_but_exit out [(0, r_v 0 32 10 r_far r_far)].
Proof.
  eexists. split; [vm_compute; reflexivity|]. split.
  - apply Forall2_cons; [split; [reflexivity|apply su_queue; vm_compute; congruence]|apply Forall2_nil].
  - intros R. inversion R as [|a b c d [_ [x E]] F]; subst. vm_compute in E. congruence.
Qed.

(** *** C33 *)
(** The active sets the guest reports up to the lookahead are those of its registry, unpatched. *)
Theorem C33_patches_do_not_matter_within_lookahead : forall cs patches trusted si reg r e,
  wf_patches patches -> sorted_map reg -> 1 <= trusted ->
  validate_state_patches cs patches trusted si reg = Ok tt ->
  gr_patches r = patches -> gr_validators r = reg ->
  e <= trusted + max_seed_lookahead cs ->
  exists l, rd_active_validators (guest_reader r) e = Ok l /\
    forall i v, In (i, v) l <-> In (i, v) reg /\ active_in v e.
Proof.
  intros cs patches trusted si reg r e [Wp _] Wr Ht V Ep Er He.
  apply validate_patches_ok in V as (churn & er & er' & P1 & P2). apply patch_params_ok in P1 as (_ & Her & Hb).
  apply bm_sorted_keys in Wp. apply bm_sorted_keys in Wr. unfold activation_exit_epoch in Her.
  eexists. split; [reflexivity|]. intros i v. rewrite filter_In, Ep, Er. cbn [fst snd].
  split; intros [Hi A]; (split; [exact Hi|]); apply bm_in_get in Hi; auto.
  - rewrite (patched_activity cs patches reg churn trusted er er' Ht Wp P2 e i v) in A by (auto; lia).
    unfold is_active_at in A. unfold active_in. lia.
  - rewrite (patched_activity cs patches reg churn trusted er er' Ht Wp P2 e i v) by (auto; lia).
    unfold active_in in A. unfold is_active_at. lia.
Qed.
Definition r_patches : bmap StatePatch :=
  [(9, mkStatePatch [(7, toy_root 1)] []); (10, mkStatePatch [] [(3, 15); (9, 14)]); (11, mkStatePatch [] [(3, 15); (9, 14)])].
Definition r_si : StateInfo := mkStateInfo (toy_root 1) 18 toy_fork (toy_root 2) 7 12 13.
Definition r_big : bmap ValidatorInfo := map (fun i => (i, r_v i 32 0 0 r_far)) [0; 3; 4; 9].
Definition r_reader : GuestInputReader := mkGuestReader toy_cs toy_gvr r_big r_patches toy_state [] [].
Example C33_nonvacuous : wf_patches r_patches /\ sorted_map r_big /\
  validate_state_patches toy_cs r_patches 9 r_si r_big = Ok tt /\
  option_map (map fst) (match rd_active_validators (guest_reader r_reader) 13 with Ok l => Some l | _ => None end) = Some [0; 3; 4; 9] /\
  option_map (map fst) (match rd_active_validators (guest_reader r_reader) 10 with Ok l => Some l | _ => None end) = Some [0; 3; 4; 9] /\
  (* an exit inside the lookahead is refused *)
  validate_state_patches toy_cs [(10, mkStatePatch [] [(9, 13)])] 9 r_si r_big = Panic.
Proof.
  split. { split; repeat constructor. }
  split; [repeat constructor|]. vm_compute. auto.
Qed.
(** At trusted epoch 0 the previous patch of patch 0 is patch 0 itself, so nothing is checked: the
    prover can make any validator inactive. *)
Definition r_bad_patches : bmap StatePatch := [(0, mkStatePatch [] [(3, 0)]); (1, mkStatePatch [] [(3, 0)])].
Definition r_bad_reader : GuestInputReader := mkGuestReader toy_cs toy_gvr r_big r_bad_patches toy_state [] [].
Theorem C33_trusted_epoch_zero_refuted : exists cs patches si reg r l,
  wf_patches patches /\ sorted_map reg /\ validate_state_patches cs patches 0 si reg = Ok tt /\
  gr_patches r = patches /\ gr_validators r = reg /\
  rd_active_validators (guest_reader r) 1 = Ok l /\ 1 <= 0 + max_seed_lookahead cs /\
  exists i v, In (i, v) reg /\ active_in v 1 /\ ~ In (i, v) l.
Proof.
  exists toy_cs, r_bad_patches, r_si, r_big, r_bad_reader. eexists.
  split. { split; repeat constructor. } split; [repeat constructor|].
  split; [vm_compute; reflexivity|]. split; [reflexivity|]. split; [reflexivity|]. split; [reflexivity|].
  split; [vm_compute; congruence|]. exists 3, (r_v 3 32 0 0 r_far). split; [vm_compute; auto|].
  split; [split; vm_compute; congruence|]. intros Hin. apply filter_In in Hin as [_ A]. vm_compute in A. discriminate.
Qed.

(** *** C34 *)
(** Every patched exit concerns a known validator and is either what it was before, or replaces
    "never" by an epoch not before the earliest one; no patch is from before the trusted epoch. *)
Theorem C34_new_exits_are_late : forall cs patches trusted si reg pe p i ex,
  validate_state_patches cs patches trusted si reg = Ok tt ->
  In (pe, p) patches -> In (i, ex) (validator_exits p) ->
  trusted <= pe /\
  exists v, bm_get reg i = Some v /\
    (previous_exit patches v i pe = ex \/
     (previous_exit patches v i pe = far_future_epoch cs /\ earliest_exit cs si trusted <= ex)).
Proof.
  intros cs patches trusted si reg pe p i ex V Hp Hi.
  apply validate_patches_ok in V as (churn & er & er' & P1 & P2). apply patch_params_ok in P1 as (_ & Her & _).
  apply patches_fold in P2 as [_ P2]. destruct (P2 pe p Hp) as (s & s' & S1 & S2 & S3).
  apply (patch_fold _ _ _ _ _ 0) in S3 as (T & _ & _ & _ & S3). split; auto.
  destruct (S3 i ex Hi) as (v & Hv & [D|[D1 D2]]); exists v; split; auto. right. split; auto. fold (earliest_exit cs si trusted) in Her. lia.
Qed.
(** Consecutive patches never change an exit that was set. *)
Theorem C34_exit_set_once : forall cs patches trusted si reg pe p q i x y,
  validate_state_patches cs patches trusted si reg = Ok tt ->
  bm_get patches (pe - 1) = Some q -> In (pe, p) patches -> bm_get (validator_exits q) i = Some x ->
  In (i, y) (validator_exits p) -> x <> far_future_epoch cs -> x = y.
Proof.
  intros cs patches trusted si reg pe p q i x y V Hq Hp Hx Hy Hn.
  destruct (C34_new_exits_are_late _ _ _ _ _ _ _ _ _ V Hp Hy) as (_ & v & _ & D).
  unfold previous_exit in D. rewrite Hq, Hx in D. destruct D as [|[D _]]; congruence.
Qed.
(** The effective balance of newly exiting validators is limited at every horizon, in each patch
    and over all patches. *)
Theorem C34_churn_respected : forall cs patches trusted si reg horizon,
  validate_state_patches cs patches trusted si reg = Ok tt ->
  let earliest := earliest_exit cs si trusted in
  let churn := exit_churn cs reg trusted in
  (forall pe p, In (pe, p) patches ->
     new_exit_balance patches reg horizon pe p <= churn * (1 + (horizon - earliest)) /\
     (horizon < earliest -> new_exit_balance patches reg horizon pe p = 0)) /\
  sum (map (fun ep => new_exit_balance patches reg horizon (fst ep) (snd ep)) patches)
    <= churn * (N.of_nat (length (filter (fun ep => match new_exits patches reg horizon (fst ep) (snd ep) with [] => false | _ => true end) patches))
                + (horizon - earliest)).
Proof.
  intros cs patches trusted si reg h V earliest churn.
  apply validate_patches_ok in V as (churn' & er & er' & P1 & P2). apply patch_params_ok in P1 as (Hc & Her & _).
  change (er = earliest) in Her. change (churn' = churn) in Hc. clearbody earliest churn. subst er churn'. split.
  - intros pe p Hp. destruct (patches_fold _ _ _ _ _ _ _ _ P2) as [_ F]. destruct (F pe p Hp) as (s & s' & S1 & S2 & S3).
    apply (patch_fold _ _ _ _ _ h) in S3 as (_ & Q1 & Q2 & Q3 & _). split.
    + etransitivity; [exact Q3|]. rewrite N.mul_add_distr_l, N.mul_1_r. apply N.add_le_mono_l, N.mul_le_mono_l. lia.
    + intros L. unfold new_exit_balance. rewrite Q2 by lia. reflexivity.
  - apply (patches_total _ _ _ _ _ h) in P2 as [_ P2]. exact P2.
Qed.
(** The order in which the library's unstable sort returns equal exit epochs is irrelevant. *)
Theorem C34_order_of_equal_epochs_irrelevant : forall cs patches reg churn pe exits sorted st,
  Permutation exits sorted -> StronglySorted (fun x y => snd x <= snd y) sorted ->
  fold_outcome (validate_exit cs patches reg churn pe) sorted st =
  fold_outcome (validate_exit cs patches reg churn pe) (sort_exits exits) st.
Proof.
  intros cs patches reg churn pe exits sorted st P S. apply fold_sorted_perm.
  - intros. apply validate_exit_swap. auto.
  - exact S.
  - apply sort_exits_sorted.
  - rewrite <- P. apply sort_exits_perm.
Qed.
Example C34_nonvacuous :
  validate_state_patches toy_cs r_patches 9 r_si r_big = Ok tt /\
  earliest_exit toy_cs r_si 9 = 14 /\ exit_churn toy_cs r_big 9 = 256 /\
  new_exit_balance r_patches r_big 20 10 (mkStatePatch [] [(3, 15); (9, 14)]) = 64 /\
  new_exit_balance r_patches r_big 14 10 (mkStatePatch [] [(3, 15); (9, 14)]) = 32 /\
  new_exit_balance r_patches r_big 20 11 (mkStatePatch [] [(3, 15); (9, 14)]) = 0 /\
  (* a changed exit is refused *)
  validate_state_patches toy_cs (r_patches ++ [(12, mkStatePatch [] [(9, 15)])]) 9 r_si r_big = Panic /\
  (* too much balance leaving at once is refused *)
  validate_state_patches toy_cs [(10, mkStatePatch [] (map (fun i => (i, 14)) [0; 1; 2; 3; 4; 5; 6; 7; 8]))] 9 r_si
    (map (fun i => (i, r_v i 32 0 0 r_far)) [0; 1; 2; 3; 4; 5; 6; 7; 8; 9]) = Panic /\
  validate_state_patches toy_cs [(10, mkStatePatch [] (map (fun i => (i, 14)) [0; 1; 2; 3; 4; 5; 6; 7]))] 9 r_si
    (map (fun i => (i, r_v i 32 0 0 r_far)) [0; 1; 2; 3; 4; 5; 6; 7; 8; 9]) = Ok tt.
Proof. vm_compute. auto 10. Qed.
(** Across a gap (or after an omission) an exit may change, unlike the code comment "exit_epoch must
    only change once" suggests. *)
Theorem C34_exit_set_once_across_gap_refuted : exists cs patches trusted si reg p q i,
  wf_patches patches /\ validate_state_patches cs patches trusted si reg = Ok tt /\
  bm_get patches 10 = Some p /\ bm_get patches 12 = Some q /\ bm_get (validator_exits p) i = Some 14 /\
  bm_get (validator_exits q) i = Some 20 /\ 14 <> far_future_epoch cs.
Proof.
  exists toy_cs, [(10, mkStatePatch [] [(9, 14)]); (12, mkStatePatch [] [(9, 20)])], 9, r_si, r_big. do 2 eexists. exists 9.
  split. { split; repeat constructor. }
  split; [vm_compute; reflexivity|]. split; [reflexivity|]. split; [reflexivity|]. split; [reflexivity|]. split; [reflexivity|].
  vm_compute. congruence.
Qed.

Print Assumptions C32_equals_spec_but_exits.
Print Assumptions C32_only_activation_fields.
Print Assumptions C32_total.
Print Assumptions C32_loop_equals_spec_but_exits.
Print Assumptions C32_activity_unchanged_within_lookahead.
Print Assumptions C32_guest_activity_within_lookahead.
Print Assumptions C33_patches_do_not_matter_within_lookahead.
Print Assumptions C33_trusted_epoch_zero_refuted.
Print Assumptions C34_new_exits_are_late.
Print Assumptions C34_exit_set_once.
Print Assumptions C34_churn_respected.
Print Assumptions C34_order_of_equal_epochs_irrelevant.
Print Assumptions C34_exit_set_once_across_gap_refuted.
