(** Properties C39-C41: the host's chain queries. *)
From Coq Require Import List ZArith NArith Bool Lia Sorted.
From Coq Require Import ZifyBool ZifyNat ZifyN.
From Coq.Init Require Import Byte.
From Verif.Model Require Import Base Types ConsensusState Verify HostChain.
From Verif.Spec Require Import FFG VerifySpec HostSpec.
From Verif.Proof Require Import BaseLemmas ConsensusStateP VerifyP HostChainP.
From Verif.Props Require Import VerifyProps.
Import ListNotations.
Open Scope N_scope.

(** *** C41 [fuel] bounds how many epochs are looked at; it is arbitrary below slot 2^64. *)
Theorem C41_first_confirming_epoch cs ch c fuel e : 0 < slots_per_epoch cs ->
  (epoch c + 1 + N.of_nat fuel) * slots_per_epoch cs < 2 ^ 64 ->
  (find_finalization_epoch cs ch c fuel = Some (Ok e) <->
   first_confirming cs ch c e /\ e <= epoch c + N.of_nat fuel).
Proof.
  intros Hs Hb. split.
  - intros H. destruct (find_spec cs ch c Hs fuel Hb) as [[En _]|(e' & He & Hn & Hv)]; [congruence|].
    rewrite H in Hv. inversion Hv; subst. split; [|lia]. split; [lia|]. split; [eauto|].
    intros e' He'. apply Hn. lia.
  - intros [(H1 & (st & H2 & H3) & H4) H5]. apply (find_iff cs ch c Hs fuel e); auto; try lia.
    + intros e' He'. apply H4. lia.
    + econstructor; eauto.
Qed.
Theorem C41_invalid_checkpoint cs ch c fuel : 0 < slots_per_epoch cs ->
  (epoch c + 1 + N.of_nat fuel) * slots_per_epoch cs < 2 ^ 64 ->
  (find_finalization_epoch cs ch c fuel = Some (Err InvalidTrustedCheckpoint) <->
   exists e, passed_over cs ch c e /\ e <= epoch c + N.of_nat fuel).
Proof.
  intros Hs Hb. split.
  - intros H. destruct (find_spec cs ch c Hs fuel Hb) as [[En _]|(e' & He & Hn & Hv)]; [congruence|].
    rewrite H in Hv. inversion Hv; subst. exists e'. split; [|lia]. split; [lia|]. split; [eauto|].
    intros e0 He0. apply Hn. lia.
  - intros (e & (H1 & (st & H2 & H3 & H4) & H5) & H6). apply (find_iff cs ch c Hs fuel e); auto; try lia.
    + intros e' He'. apply H5. lia.
    + econstructor; eauto.
Qed.
(** It only goes on while finality is before the checkpoint, and fails otherwise only when the chain
    cannot be read. *)
Theorem C41_pending_iff cs ch c fuel : 0 < slots_per_epoch cs ->
  (epoch c + 1 + N.of_nat fuel) * slots_per_epoch cs < 2 ^ 64 ->
  (find_finalization_epoch cs ch c fuel = None <->
   forall e, epoch c < e <= epoch c + N.of_nat fuel ->
     exists st, state_at cs ch e st /\ epoch (finalized st) < epoch c).
Proof.
  intros Hs Hb. destruct (find_spec cs ch c Hs fuel Hb) as [[En Hn]|(e' & He & Hn & Hv)].
  - split; auto. intros _ e He. apply Hn. lia.
  - split; [intros H; rewrite H in Hv; inversion Hv|]. intros H. exfalso.
    destruct (H e') as (st & Hst & Hl); [lia|]. unfold state_at in Hst.
    inversion Hv; subst; unfold state_at in *; try congruence;
      (assert (st = st0) by congruence); subst; try lia.
Qed.

(** *** C39 *)
Theorem C39_links_replay cs ch start fuel s t ls : 0 < slots_per_epoch cs ->
  (start + 1 + N.of_nat fuel) * slots_per_epoch cs < 2 ^ 64 ->
  get_justifications_until_new_finality cs ch start fuel = Some (Ok (s, t, ls)) ->
  (* [t] is the first state after [s] with different finality *)
  state_at cs ch start s /\
  (exists n, 0 < n <= N.of_nat fuel /\ state_at cs ch (start + n) t /\ finalized t <> finalized s /\
     forall k, 0 < k < n -> exists u, state_at cs ch (start + k) u /\ finalized u = finalized s) /\
  (* applying the links to [s] in order gives [t]; finality changes exactly at the last one *)
  ffg_run s ls t /\
  exists ls0 l u, ls = ls0 ++ [l] /\ ffg_run s ls0 u /\ finalized u = finalized s /\ ffg_step u l t /\
    forall k, exists w, ffg_run s (firstn k ls0) w /\ finalized w = finalized s.
Proof.
  intros Hs Hb H. apply get_justifications_iff in H as (s' & t' & ls' & E & Hst & us & Hl & Hus & Hh & Hf & Hn); auto.
  injection E as <- <- <-. split; auto.
  assert (Hv : valid_state s).
  { destruct us; cbn in Hh; inversion Hh; subst; auto. }
  split; [|split].
  - exists (N.of_nat (length us) + 1). split; [lia|]. apply states_from_app in Hus as [Hu1 Hu2].
    cbn in Hu2. destruct Hu2 as [Hu2 _].
    replace (start + (N.of_nat (length us) + 1)) with (start + 1 + N.of_nat (length us)) by lia.
    split; auto. split; auto. clear - Hu1 Hf. intros k Hk.
    assert (G : forall us e, states_from cs ch e us -> Forall (fun u => finalized u = finalized s) us ->
      forall j, j < N.of_nat (length us) -> exists u, state_at cs ch (e + j) u /\ finalized u = finalized s).
    { clear. induction us as [|u us IH]; intros e Hst Hf j Hj; [simpl in Hj; lia|].
      cbn in Hst. destruct Hst as [H1 H2]. inversion Hf; subst.
      destruct (N.eq_dec j 0) as [->|Hne]; [exists u; rewrite N.add_0_r; auto|].
      destruct (IH (e + 1) H2 H4 (j - 1)) as (w & Hw & Ew); [simpl in Hj; lia|].
      exists w. replace (e + j) with (e + 1 + (j - 1)) by lia. auto. }
    destruct (G us (start + 1) Hu1 Hf (k - 1)) as (u & Hu & Eu); [lia|].
    exists u. replace (start + k) with (start + 1 + (k - 1)) by lia. auto.
  - apply history_run in Hh. rewrite last_last in Hh. exact Hh.
  - now apply (history_finality s us t ls).
Qed.
(** Replaying with the core's transition function gives exactly [t]. *)
Theorem C39_links_apply cs ch start fuel s t ls : 0 < slots_per_epoch cs ->
  (start + 1 + N.of_nat fuel) * slots_per_epoch cs < 2 ^ 64 ->
  get_justifications_until_new_finality cs ch start fuel = Some (Ok (s, t, ls)) ->
  epoch (current_justified t) < 2 ^ 64 -> fold_outcome state_transition ls s = Ok t.
Proof.
  intros Hs Hb H Hu. pose proof H as H0.
  apply get_justifications_iff in H as (s' & t' & ls' & E & Hst & us & Hl & Hus & Hh & Hf & Hn); auto.
  injection E as <- <- <-.
  assert (Hv : valid_state s).
  { destruct us; cbn in Hh; inversion Hh; subst; auto. }
  pose proof (history_run _ _ _ Hh) as Hr. rewrite last_last in Hr.
  apply apply_links_ok_iff; auto. clear - Hr Hu.
  induction Hr as [s|s l s1 ls s2 Hst Hr IH]; constructor; auto.
  apply N.le_lt_trans with (epoch (current_justified s2)); auto.
  assert (epoch (target l) = epoch (current_justified s1)) as -> by (inversion Hst; subst; reflexivity).
  clear - Hr. induction Hr as [s|s l s1 ls s2 Hst Hr IH]; [lia|]. inversion Hst; subst; simpl in *; lia.
Qed.
(** Completeness: the answer is given exactly when the epoch states form a history of single links
    up to the first change of finality. *)
Theorem C39_answers_iff cs ch start fuel s t ls : 0 < slots_per_epoch cs ->
  (start + 1 + N.of_nat fuel) * slots_per_epoch cs < 2 ^ 64 ->
  (get_justifications_until_new_finality cs ch start fuel = Some (Ok (s, t, ls)) <->
   state_at cs ch start s /\
   exists us, (length us < fuel)%nat /\ states_from cs ch (start + 1) (us ++ [t]) /\
     Forall (fun u => finalized u = finalized s) us /\ finalized t <> finalized s /\
     history s (us ++ [t]) ls).
Proof.
  intros Hs Hb. rewrite get_justifications_iff by auto. split.
  - intros (s' & t' & ls' & E & Hst & us & H1 & H2 & H3 & H4 & H5). injection E as <- <- <-. split; auto.
    exists us. auto 6.
  - intros (Hst & us & H1 & H2 & H3 & H4 & H5). exists s, t, ls. split; auto. split; auto. exists us. auto 6.
Qed.
(** The links are pairwise different: their target epochs increase. *)
Theorem C39_links_ascend cs ch start fuel s t ls : 0 < slots_per_epoch cs ->
  (start + 1 + N.of_nat fuel) * slots_per_epoch cs < 2 ^ 64 ->
  get_justifications_until_new_finality cs ch start fuel = Some (Ok (s, t, ls)) ->
  StronglySorted N.lt (map (fun l => epoch (target l)) ls) /\ NoDup ls.
Proof.
  intros Hs Hb H. apply get_justifications_iff in H as (s' & t' & ls' & E & Hst & us & Hl & Hus & Hh & Hf & Hn); auto.
  injection E as <- <- <-.
  assert (Hv : valid_state s).
  { destruct us; cbn in Hh; inversion Hh; subst; auto. }
  destruct (history_targets _ _ _ Hh Hv) as [Hs' _]. split; auto.
  apply bs_sorted_NoDup in Hs'. apply NoDup_map_inv in Hs'. exact Hs'.
Qed.

(** *** C40 *)
Theorem C40_votes_in_window cs ch links lo hi atts : NoDup links -> target_bounds links lo hi ->
  0 < slots_per_epoch cs -> (hi + 1) * slots_per_epoch cs < 2 ^ 64 ->
  (collect_attestations_for_links cs ch links = Ok atts <->
   exists slots bs, slot_range (lo * slots_per_epoch cs) ((hi + 1) * slots_per_epoch cs) slots /\
     blocks_at ch slots bs /\ Forall (fun b => bl_electra b = true) bs /\
     atts = flat_map (fun l => votes_for l (included bs)) links).
Proof. exact (collect_iff cs ch links lo hi atts). Qed.
(** When the chain includes every vote for the links between the first slot of its target epoch and
    the first slot of the next epoch, nothing outside the window is missed. *)
Theorem C40_exactly_the_chains_votes cs ch links lo hi atts a b slots bs :
  NoDup links -> target_bounds links lo hi ->
  0 < slots_per_epoch cs -> (hi + 1) * slots_per_epoch cs < 2 ^ 64 ->
  (forall s blk att, ch_block ch s = Ok (Some blk) -> In att (bl_attestations blk) -> In (link_of att) links ->
     epoch (target (link_of att)) * slots_per_epoch cs <= s <= (epoch (target (link_of att)) + 1) * slots_per_epoch cs) ->
  a <= lo * slots_per_epoch cs -> (hi + 1) * slots_per_epoch cs <= b ->
  slot_range a b slots -> blocks_at ch slots bs ->
  collect_attestations_for_links cs ch links = Ok atts ->
  atts = flat_map (fun l => votes_for l (included bs)) links.
Proof.
  intros Hd Hb Hs Hbd Ht Ha Hbb Hr Hbs H.
  apply (collect_iff cs ch links lo hi atts Hd Hb Hs Hbd) in H as (slots0 & bs0 & Hr0 & Hbs0 & _ & ->).
  rewrite !flat_map_concat_map. f_equal. apply map_ext_in. intros l Hl. symmetry.
  destruct Hb as (Hb & _ & _). pose proof (Hb l Hl) as Hl'.
  assert (Hlohi : lo * slots_per_epoch cs <= (hi + 1) * slots_per_epoch cs) by (apply N.mul_le_mono_r; lia).
  eapply (window_votes ch a (lo * slots_per_epoch cs) ((hi + 1) * slots_per_epoch cs) b); eauto; [lia|].
  intros s blk att Hblk Hatt El. subst l. pose proof (Ht s blk att Hblk Hatt Hl).
  assert (lo * slots_per_epoch cs <= epoch (target (link_of att)) * slots_per_epoch cs) by (apply N.mul_le_mono_r; lia).
  assert ((epoch (target (link_of att)) + 1) * slots_per_epoch cs <= (hi + 1) * slots_per_epoch cs) by (apply N.mul_le_mono_r; lia).
  lia.
Qed.
(** Verification's grouping recovers one group per link that has votes, in link order. *)
Theorem C40_grouping cs ch links lo hi atts : NoDup links -> target_bounds links lo hi ->
  0 < slots_per_epoch cs -> (hi + 1) * slots_per_epoch cs < 2 ^ 64 ->
  collect_attestations_for_links cs ch links = Ok atts ->
  exists slots bs, slot_range (lo * slots_per_epoch cs) ((hi + 1) * slots_per_epoch cs) slots /\
    blocks_at ch slots bs /\ chunk_by_link atts = links_with_votes links (included bs).
Proof.
  intros Hd Hb Hs Hbd H.
  apply (collect_iff cs ch links lo hi atts Hd Hb Hs Hbd) in H as (slots & bs & Hr & Hbs & _ & ->).
  exists slots, bs. split; auto. split; auto. apply groups_chunk. now apply grouping.
Qed.
(** Since EIP-7045 (Deneb) a vote may be included until the end of the epoch after its target
    epoch. Such late votes are not collected, although they belong to the chain. *)
Definition h_block (s : Slot) : option Block :=
  if s =? 25 then Some (mkBlock true (firstn 2 toy_atts))
  else if s =? 26 then Some (mkBlock true [nth 2 toy_atts (toy_att 24 toy_l1 [] [])])
  else if s =? 27 then Some (mkBlock true [nth 3 toy_atts (toy_att 24 toy_l1 [] [])])
  else if s =? 28 then Some (mkBlock true [nth 4 toy_atts (toy_att 24 toy_l1 [] [])])
  else if s =? 29 then Some (mkBlock true [nth 4 toy_atts (toy_att 24 toy_l1 [] [])])
  else None.
Definition h_cp (e : N) : Checkpoint := mkCheckpoint e (toy_root e).
Definition h_chain : Chain := {|
  ch_state := fun s =>
    let e := s / 2 in
    if e <? 8 then Err 404
    else if e <? 11 then Ok (mkCS (h_cp 9) (h_cp 8))
    else if e <? 13 then Ok (mkCS (h_cp 10) (h_cp 9))
    else if e =? 13 then Ok (mkCS (h_cp 12) (h_cp 9))
    else Ok (mkCS (h_cp 13) (h_cp 12));
  ch_block := fun s => Ok (h_block s);
  ch_header_slot := fun _ => Ok None |}.
Theorem C40_late_votes_refuted : exists cs ch l s blk att atts,
  ch_block ch s = Ok (Some blk) /\ In att (bl_attestations blk) /\ link_of att = l /\
  s / slots_per_epoch cs = epoch (target l) + 1 /\
  collect_attestations_for_links cs ch [l] = Ok atts /\ ~ In att atts.
Proof.
  exists toy_cs, (mkChain (ch_state h_chain) (fun s => Ok (if s =? 29 then h_block 29 else None)) (ch_header_slot h_chain)).
  exists toy_l2, 29, (mkBlock true [nth 4 toy_atts (toy_att 24 toy_l1 [] [])]), (nth 4 toy_atts (toy_att 24 toy_l1 [] [])), [].
  repeat match goal with |- _ /\ _ => split end.
  - vm_compute. reflexivity.
  - left. reflexivity.
  - vm_compute. reflexivity.
  - vm_compute. reflexivity.
  - vm_compute. reflexivity.
  - intros [].
Qed.

(** Non-vacuity: a chain on which all three queries answer. *)
Example C41_nonvacuous :
  find_finalization_epoch toy_cs h_chain (h_cp 9) 10 = Some (Ok 11) /\
  find_finalization_epoch toy_cs h_chain (mkCheckpoint 9 (toy_root 5)) 10 = Some (Err InvalidTrustedCheckpoint) /\
  find_finalization_epoch toy_cs h_chain (h_cp 11) 10 = Some (Err InvalidTrustedCheckpoint) /\
  find_finalization_epoch toy_cs h_chain (h_cp 14) 10 = None /\
  (9 + 1 + N.of_nat 10) * slots_per_epoch toy_cs < 2 ^ 64.
Proof. repeat match goal with |- _ /\ _ => split end; vm_compute; reflexivity. Qed.
Example C39_nonvacuous :
  get_justifications_until_new_finality toy_cs h_chain 11 10
    = Some (Ok (toy_state, mkCS (h_cp 13) (h_cp 12), [toy_l1; toy_l2])).
Proof. vm_compute. reflexivity. Qed.
Example C40_nonvacuous :
  collect_attestations_for_links toy_cs h_chain [toy_l1; toy_l2] = Ok toy_atts /\
  NoDup [toy_l1; toy_l2] /\ target_bounds [toy_l1; toy_l2] 12 13 /\
  map fst (chunk_by_link toy_atts) = [toy_l1; toy_l2].
Proof.
  unfold target_bounds. repeat match goal with |- _ /\ _ => split end.
  - vm_compute. reflexivity.
  - repeat constructor; simpl; [|tauto]. intros [H|[]]. assert (E : epoch (target toy_l2) = epoch (target toy_l1)) by now rewrite H.
    vm_compute in E. discriminate.
  - intros l [<-|[<-|[]]]; vm_compute; split; discriminate.
  - exists toy_l1. split; [simpl; auto|reflexivity].
  - exists toy_l2. split; [simpl; auto|reflexivity].
  - vm_compute. reflexivity.
Qed.

(** *** Construction of the host reader *)
(** The internal assertion of the constructor never fails: a panic comes from the chain source or
    from an inconsistent chain state. The state returned finalizes the trusted checkpoint. *)
Theorem C41_constructor cs ch c fuel s atts : 0 < slots_per_epoch cs ->
  (epoch c + 1 + 2 * N.of_nat fuel) * slots_per_epoch cs < 2 ^ 64 ->
  host_new cs ch c fuel = Some (Ok (s, atts)) ->
  exists e t ls, first_confirming cs ch c e /\ state_at cs ch e s /\ finalized s = c /\
    ffg_run s ls t /\ finalized t <> c /\ collect_attestations_for_links cs ch ls = Ok atts /\ NoDup ls.
Proof.
  intros Hs Hb H. unfold host_new in H.
  destruct (find_finalization_epoch cs ch c fuel) as [[e|x|]|] eqn:Ef; try discriminate.
  assert (Hb1 : (epoch c + 1 + N.of_nat fuel) * slots_per_epoch cs < 2 ^ 64).
  { eapply N.le_lt_trans; [|exact Hb]. apply N.mul_le_mono_r. lia. }
  apply C41_first_confirming_epoch in Ef as [Hfc He]; auto.
  destruct (get_justifications_until_new_finality cs ch e fuel) as [[[[s' t] ls]|x|]|] eqn:Eg; try discriminate.
  assert (Hb2 : (e + 1 + N.of_nat fuel) * slots_per_epoch cs < 2 ^ 64).
  { eapply N.le_lt_trans; [|exact Hb]. apply N.mul_le_mono_r. lia. }
  injection H as H. cbn in H. apply bind_ok in H as (u & Ha & H). apply assert_ok in Ha. apply checkpoint_eqb_eq in Ha.
  apply bind_ok in H as (atts' & Hc & H). injection H as <- <-.
  pose proof (C39_links_ascend _ _ _ _ _ _ _ Hs Hb2 Eg) as [_ Hd].
  apply C39_links_replay in Eg as (Hst & (n & _ & _ & Hn & _) & Hr & _); auto.
  exists e, t, ls. rewrite <- Ha. rewrite Ha at 1. auto 10.
Qed.
Theorem C41_constructor_assertion cs ch c fuel e s t ls : 0 < slots_per_epoch cs ->
  (epoch c + 1 + 2 * N.of_nat fuel) * slots_per_epoch cs < 2 ^ 64 ->
  find_finalization_epoch cs ch c fuel = Some (Ok e) ->
  get_justifications_until_new_finality cs ch e fuel = Some (Ok (s, t, ls)) ->
  finalized s = c.
Proof.
  intros Hs Hb Ef Eg.
  assert (Hb1 : (epoch c + 1 + N.of_nat fuel) * slots_per_epoch cs < 2 ^ 64).
  { eapply N.le_lt_trans; [|exact Hb]. apply N.mul_le_mono_r. lia. }
  apply C41_first_confirming_epoch in Ef as [(Hlt & (st & Hst & Hfin) & _) He]; auto.
  assert (Hb2 : (e + 1 + N.of_nat fuel) * slots_per_epoch cs < 2 ^ 64).
  { eapply N.le_lt_trans; [|exact Hb]. apply N.mul_le_mono_r. lia. }
  apply C39_links_replay in Eg as (Hs' & _); auto. unfold state_at in *. congruence.
Qed.
Example C41_constructor_nonvacuous : host_new toy_cs h_chain (h_cp 9) 10 = Some (Ok (toy_state, toy_atts)).
Proof. vm_compute. reflexivity. Qed.

Print Assumptions C41_first_confirming_epoch.
Print Assumptions C41_invalid_checkpoint.
Print Assumptions C41_pending_iff.
Print Assumptions C41_constructor.
Print Assumptions C41_constructor_assertion.
Print Assumptions C39_links_replay.
Print Assumptions C39_links_apply.
Print Assumptions C39_answers_iff.
Print Assumptions C39_links_ascend.
Print Assumptions C40_votes_in_window.
Print Assumptions C40_exactly_the_chains_votes.
Print Assumptions C40_grouping.
Print Assumptions C40_late_votes_refuted.
