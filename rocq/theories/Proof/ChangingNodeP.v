(** Proofs about runs of the host while the beacon node changes its answers. *)
From Coq Require Import List ZArith NArith Bool Lia Arith.
From Coq Require Import ZifyBool ZifyNat ZifyN.
From Verif.Model Require Import Base Types ConsensusState Verify GuestReader HostChain HostStore HostInput ChangingNode.
From Verif.Proof Require Import BaseLemmas HostChainP HostStoreP.
Import ListNotations.
Open Scope N_scope.

Section Over.
  Variables (cs : ChainSpec) (ch : nat -> Chain).

  Lemma find_over_fixed trusted : forall fuel k e0 e k',
    find_over cs ch trusted fuel k e0 = Some (Ok (e, k')) -> e0 + N.of_nat fuel < 2 ^ 64 ->
    e0 <= e < e0 + N.of_nat fuel /\ k' = (k + N.to_nat (e - e0) + 1)%nat /\
    forall c,
      (forall x, e0 <= x < e -> ch_state c (start_slot cs x) = ch_state (ch (k + N.to_nat (x - e0))) (start_slot cs x)) ->
      (exists st, ch_state c (start_slot cs e) = Ok st /\ checkpoint_eqb (finalized st) trusted = true) ->
      find_from cs c trusted fuel e0 = Some (Ok e).
  Proof.
    induction fuel as [|n IH]; intros k e0 e k' H B; [discriminate|]. cbn [find_over] in H.
    destruct (ch_state (ch k) (start_slot cs e0)) as [st|x|] eqn:E; cbn [map_err] in H; try discriminate.
    destruct (checkpoint_eqb (finalized st) trusted) eqn:Q.
    - injection H as <- <-. split; [lia|]. split; [lia|]. intros c _ (st' & S1 & S2). cbn [find_from]. rewrite S1.
      cbn [map_err]. now rewrite S2.
    - destruct (epoch (finalized st) <? epoch trusted) eqn:L; [|discriminate].
      rewrite wrap64_exact in H by lia. apply IH in H; [|lia]. destruct H as (H1 & H2 & H3).
      split; [lia|]. split; [lia|]. intros c F S. cbn [find_from].
      rewrite F by lia. replace (k + N.to_nat (e0 - e0))%nat with k by lia. rewrite E. cbn [map_err]. rewrite Q, L, wrap64_exact by lia.
      apply H3; [|exact S]. intros x Hx. rewrite F by lia. do 2 f_equal. lia.
  Qed.

  Lemma justifications_over_fixed s0 : forall fuel k e0 prev links s links' k',
    justifications_over cs ch s0 prev links fuel k e0 = Some (Ok (s, links', k')) -> e0 + N.of_nat fuel < 2 ^ 64 ->
    s = s0 /\ (k < k' <= k + fuel)%nat /\
    forall c,
      (forall i, (k + i < k')%nat -> ch_state c (start_slot cs (e0 + N.of_nat i)) = ch_state (ch (k + i)) (start_slot cs (e0 + N.of_nat i))) ->
      exists cur, justifications_from cs c s0 prev links fuel e0 = Some (Ok (s0, cur, links')).
  Proof.
    induction fuel as [|n IH]; intros k e0 prev links s links' k' H B; [discriminate|]. cbn [justifications_over] in H.
    destruct (ch_state (ch k) (start_slot cs e0)) as [cur|x|] eqn:E; cbn [map_err bind] in H; try discriminate.
    destruct (transition_link prev cur) as [o|x|] eqn:Q; cbn [map_err bind] in H; try discriminate.
    destruct (checkpoint_eqb (finalized cur) (finalized s0)) eqn:L.
    - rewrite wrap64_exact in H by lia. apply IH in H; [|lia]. destruct H as (-> & H2 & H3).
      split; [reflexivity|]. split; [lia|]. intros c F. cbn [justifications_from].
      pose proof (F 0%nat ltac:(lia)) as F0. rewrite N.add_0_r, Nat.add_0_r in F0. rewrite F0, E. cbn [map_err bind]. rewrite Q. cbn [map_err bind].
      rewrite L, wrap64_exact by lia. apply H3. intros i Hi. pose proof (F (S i) ltac:(lia)) as Fi.
      replace (e0 + N.of_nat (S i)) with (e0 + 1 + N.of_nat i) in Fi by lia. rewrite Fi. do 2 f_equal. lia.
    - injection H as <- <- <-. split; [reflexivity|]. split; [lia|]. intros c F. exists cur. cbn [justifications_from].
      pose proof (F 0%nat ltac:(lia)) as F0. rewrite N.add_0_r, Nat.add_0_r in F0. rewrite F0, E. cbn [map_err bind]. rewrite Q. cbn [map_err bind].
      now rewrite L.
  Qed.

  Lemma numbered_blocks c slots : forall k bs,
    map_outcome (fun x => map_err HOther (ch_block (ch (fst x)) (snd x))) (numbered k slots) = Ok bs ->
    (forall i sl, nth_error slots i = Some sl -> ch_block c sl = ch_block (ch (k + i)) sl) ->
    map_outcome (fun sl => map_err HOther (ch_block c sl)) slots = Ok bs.
  Proof.
    induction slots as [|sl r IH]; intros k bs H F; [exact H|]. cbn [numbered map_outcome fst snd] in *.
    apply bind_ok in H as (b & H1 & H). apply bind_ok in H as (bs' & H2 & H).
    pose proof (F 0%nat sl eq_refl) as F0. rewrite Nat.add_0_r in F0. rewrite F0, H1. cbn [bind].
    rewrite (IH (S k) bs' H2); [exact H|]. intros i s Hi. rewrite (F (S i) s Hi). do 2 f_equal. lia.
  Qed.
  Lemma collect_over_fixed links k atts k' :
    collect_over cs ch links k = Ok (atts, k') ->
    (k <= k')%nat /\ exists first, forall c,
      (forall i, (k + i < k')%nat -> ch_block c (first + N.of_nat i) = ch_block (ch (k + i)) (first + N.of_nat i)) ->
      collect_attestations_for_links cs c links = Ok atts.
  Proof.
    intros H. destruct links as [|l r].
    - injection H as <- <-. split; [lia|]. exists 0. reflexivity.
    - cbn [collect_over] in H. cbv zeta in H. set (start := sat_mul (min_target l r) _) in *. set (stop := sat_mul (sat_add _ _) _) in *.
      apply bind_ok in H as (bs & H1 & H). apply bind_ok in H as (m & H2 & H). injection H as <- <-.
      split; [lia|]. exists start. intros c F. cbn [collect_attestations_for_links]. cbv zeta. fold start stop.
      rewrite (numbered_blocks c _ _ _ H1); [|].
      + cbn [bind]. rewrite H2. reflexivity.
      + intros i sl Hi. pose proof (proj1 (nth_error_Some _ _) ltac:(now rewrite Hi) : (i < length (epoch_range start stop))%nat) as Li.
        unfold epoch_range in Hi, Li. rewrite nth_error_map in Hi. rewrite map_length, seq_length in Li.
        rewrite (nth_error_nth' _ 0%nat) in Hi by (rewrite seq_length; exact Li). cbn [option_map] in Hi. injection Hi as <-.
        rewrite seq_nth by exact Li. cbn [Nat.add]. apply F. unfold epoch_range. rewrite map_length, seq_length. lia.
  Qed.

  (** The moment at which slot [s] is answered, when epochs from [a] on are asked for from request [k]
      and epochs from [e] on once more from request [k1]. *)
  Definition moment_of (a e : Epoch) (k k1 k2 : nat) (s : Slot) : nat :=
    let x := s / slots_per_epoch cs in
    let i := if x <? e then (k + N.to_nat (x - a))%nat else (k1 + N.to_nat (x - e))%nat in
    if (k <=? i)%nat && (i <? k2)%nat then i else k.
  Definition block_moment (first : Slot) (k2 k3 k : nat) (s : Slot) : nat :=
    let i := (k2 + N.to_nat (s - first))%nat in
    if (k2 <=? i)%nat && (i <? k3)%nat then i else k.
  Definition mixed (t u : Slot -> nat) : Chain :=
    mkChain (fun s => ch_state (ch (t s)) s) (fun s => ch_block (ch (u s)) s) (ch_header_slot (ch 0%nat)).

  Lemma host_new_over_fixed trusted fuel k s atts k' :
    0 < slots_per_epoch cs -> (epoch trusted + 2 * N.of_nat fuel + 2) * slots_per_epoch cs < 2 ^ 64 ->
    host_new_over cs ch trusted fuel k = Some (Ok (s, atts, k')) ->
    exists t u, (forall sl, (k <= t sl < k')%nat) /\ (forall sl, (k <= u sl < k')%nat) /\
      host_new cs (mixed t u) trusted fuel = Some (Ok (s, atts)).
  Proof.
    intros Hspe B H. unfold host_new_over in H.
    assert (Bs : epoch trusted + 2 * N.of_nat fuel + 2 < 2 ^ 64).
    { eapply N.le_lt_trans; [|exact B]. rewrite <- (N.mul_1_r (_ + 2)) at 1. apply N.mul_le_mono_l. lia. }
    rewrite wrap64_exact in H by lia. set (a := epoch trusted + 1) in *.
    destruct (find_over cs ch trusted fuel k a) as [[[e k1]|x|]|] eqn:Ef; try discriminate.
    destruct (find_over_fixed _ _ _ _ _ _ Ef ltac:(lia)) as (F1 & F2 & F3).
    destruct (get_justifications_over cs ch e fuel k1) as [r|] eqn:Ej; [|discriminate]. injection H as H.
    apply bind_ok in H as ([[s' links] k2] & H1 & H). subst r. apply bind_ok in H as (v & H2 & H). apply bind_ok in H as ([atts' k3] & H3 & H).
    injection H as -> -> ->.
    unfold get_justifications_over in Ej.
    destruct (ch_state (ch k1) (start_slot cs e)) as [s0|x|] eqn:E0; cbn [map_err] in Ej; try discriminate.
    rewrite wrap64_exact in Ej by lia.
    destruct (justifications_over_fixed _ _ _ _ _ _ _ _ _ Ej ltac:(lia)) as (-> & J2 & J3).
    destruct (collect_over_fixed _ _ _ _ H3) as (C1 & first & C2).
    assert (Ok1 : checkpoint_eqb (finalized s0) trusted = true).
    { unfold assert_ in H2. destruct (checkpoint_eqb (finalized s0) trusted); [reflexivity|discriminate]. }
    exists (moment_of a e k k1 k2), (block_moment first k2 k' k).
    assert (St : forall x, x <= e + N.of_nat fuel -> start_slot cs x / slots_per_epoch cs = x).
    { intros x Hx. rewrite start_slot_exact; [apply N.div_mul; lia|].
      eapply N.le_lt_trans; [|exact B]. apply N.mul_le_mono_r. lia. }
    assert (M1 : forall x, a <= x < e -> moment_of a e k k1 k2 (start_slot cs x) = (k + N.to_nat (x - a))%nat).
    { intros x Hx. unfold moment_of. rewrite St by lia. cbv zeta.
      destruct (x <? e) eqn:Q; [|lia]. destruct ((k <=? k + N.to_nat (x - a))%nat && (k + N.to_nat (x - a) <? k2)%nat) eqn:Q2; lia. }
    assert (M2 : forall i, (k1 + i < k2)%nat -> moment_of a e k k1 k2 (start_slot cs (e + N.of_nat i)) = (k1 + i)%nat).
    { intros i Hi. unfold moment_of. rewrite St by lia. cbv zeta.
      destruct (e + N.of_nat i <? e) eqn:Q; [lia|].
      replace (N.to_nat (e + N.of_nat i - e)) with i by lia.
      destruct ((k <=? k1 + i)%nat && (k1 + i <? k2)%nat) eqn:Q2; lia. }
    split. { intros sl. unfold moment_of. cbv zeta. destruct (_ && _) eqn:Q; lia. }
    split. { intros sl. unfold block_moment. cbv zeta. destruct (_ && _) eqn:Q; lia. }
    set (c := mixed _ _).
    assert (Ce : ch_state c (start_slot cs e) = Ok s0).
    { cbn [c mixed ch_state]. pose proof (M2 0%nat ltac:(lia)) as M. rewrite N.add_0_r, Nat.add_0_r in M. now rewrite M. }
    unfold host_new, find_finalization_epoch. rewrite wrap64_exact by lia. fold a.
    rewrite (F3 c); [|intros x Hx; cbn [c mixed ch_state]; now rewrite M1|now exists s0].
    unfold get_justifications_until_new_finality. rewrite Ce. cbn [map_err]. rewrite wrap64_exact by lia.
    destruct (J3 c) as (cur & ->).
    { intros i Hi. cbn [c mixed ch_state]. replace (e + 1 + N.of_nat i) with (e + N.of_nat (S i)) by lia.
      rewrite M2 by lia. do 2 f_equal. lia. }
    cbn [bind]. rewrite Ok1. cbn [assert_ bind].
    rewrite (C2 c). { reflexivity. }
    intros i Hi. cbn [c mixed ch_block]. unfold block_moment. cbv zeta.
    replace (N.to_nat (first + N.of_nat i - first)) with i by lia.
    destruct ((k2 <=? k2 + i)%nat && (k2 + i <? k')%nat) eqn:Q; [reflexivity|lia].
  Qed.
End Over.

(** ** A node whose changes are not seen *)
Section Agree.
  Variables (cs : ChainSpec) (c : Chain).

  Lemma find_over_agree trusted : forall fuel e0 e,
    find_from cs c trusted fuel e0 = Some (Ok e) -> e0 + N.of_nat fuel < 2 ^ 64 ->
    e0 <= e < e0 + N.of_nat fuel /\
    forall ch, (forall i x, e0 <= x <= e -> ch_state (ch i) (start_slot cs x) = ch_state c (start_slot cs x)) ->
    forall k, exists k', find_over cs ch trusted fuel k e0 = Some (Ok (e, k')).
  Proof.
    induction fuel as [|n IH]; intros e0 e H B; [discriminate|]. cbn [find_from] in H.
    destruct (ch_state c (start_slot cs e0)) as [st|x|] eqn:E; cbn [map_err] in H; try discriminate.
    destruct (checkpoint_eqb (finalized st) trusted) eqn:Q.
    - injection H as <-. split; [lia|]. intros ch F k. exists (S k). cbn [find_over]. rewrite F by lia. rewrite E. cbn [map_err]. now rewrite Q.
    - destruct (epoch (finalized st) <? epoch trusted) eqn:L; [|discriminate].
      rewrite wrap64_exact in H by lia. apply IH in H as [H1 H2]; [|lia]. split; [lia|]. intros ch F k.
      destruct (H2 ch ltac:(intros; apply F; lia) (S k)) as (k' & H3). exists k'. cbn [find_over]. rewrite F by lia. rewrite E. cbn [map_err].
      rewrite Q, L, wrap64_exact by lia. exact H3.
  Qed.
  Lemma justifications_over_agree s0 : forall fuel e0 prev links s t links',
    justifications_from cs c s0 prev links fuel e0 = Some (Ok (s, t, links')) -> e0 + N.of_nat fuel < 2 ^ 64 ->
    s = s0 /\ exists last, e0 <= last < e0 + N.of_nat fuel /\ ch_state c (start_slot cs last) = Ok t /\
    (forall x, e0 <= x < last -> exists u, ch_state c (start_slot cs x) = Ok u /\ finalized u = finalized s0) /\ finalized t <> finalized s0 /\
    forall ch, (forall i x, e0 <= x <= last -> ch_state (ch i) (start_slot cs x) = ch_state c (start_slot cs x)) ->
    forall k, exists k', justifications_over cs ch s0 prev links fuel k e0 = Some (Ok (s, links', k')).
  Proof.
    induction fuel as [|n IH]; intros e0 prev links s t links' H B; [discriminate|]. cbn [justifications_from] in H.
    destruct (ch_state c (start_slot cs e0)) as [cur|x|] eqn:E; cbn [map_err bind] in H; try discriminate.
    destruct (transition_link prev cur) as [o|x|] eqn:Q; cbn [map_err bind] in H; try discriminate.
    destruct (checkpoint_eqb (finalized cur) (finalized s0)) eqn:L.
    - rewrite wrap64_exact in H by lia. apply IH in H as (-> & last & H1 & H2 & H3 & H4 & H5); [|lia].
      split; [reflexivity|]. exists last. split; [lia|]. split; [exact H2|]. split; [|split; [exact H4|]].
      + intros x Hx. destruct (N.eq_dec x e0) as [->|]; [|apply H3; lia]. exists cur. split; [exact E|]. now apply checkpoint_eqb_eq.
      + intros ch F k. destruct (H5 ch ltac:(intros; apply F; lia) (S k)) as (k' & H6). exists k'.
        cbn [justifications_over]. rewrite F by lia. rewrite E. cbn [map_err bind]. rewrite Q. cbn [map_err bind]. rewrite L, wrap64_exact by lia. exact H6.
    - injection H as <- <- <-. split; [reflexivity|]. exists e0. split; [lia|]. split; [exact E|]. split; [intros; lia|]. split.
      { intros Hf. apply checkpoint_eqb_eq in Hf. congruence. }
      intros ch F k. exists (S k). cbn [justifications_over]. rewrite F by lia. rewrite E. cbn [map_err bind]. rewrite Q. cbn [map_err bind]. now rewrite L.
  Qed.
  Lemma numbered_agree ch slots : forall k bs,
    map_outcome (fun sl => map_err HOther (ch_block c sl)) slots = Ok bs ->
    (forall i sl, In sl slots -> ch_block (ch i) sl = ch_block c sl) ->
    map_outcome (fun x => map_err HOther (ch_block (ch (fst x)) (snd x))) (numbered k slots) = Ok bs.
  Proof.
    induction slots as [|sl r IH]; intros k bs H F; [exact H|]. cbn [numbered map_outcome fst snd] in *.
    apply bind_ok in H as (b & H1 & H). apply bind_ok in H as (bs' & H2 & H).
    rewrite F by now left. rewrite H1. cbn [bind]. rewrite (IH (S k) bs' H2); [exact H|]. intros i s Hi. apply F. now right.
  Qed.
  Lemma collect_over_agree links hi atts : collect_attestations_for_links cs c links = Ok atts ->
    (forall l, In l links -> epoch (target l) <= hi) ->
    forall ch, (forall i sl, sl <= (hi + 1) * slots_per_epoch cs -> ch_block (ch i) sl = ch_block c sl) ->
    forall k, exists k', collect_over cs ch links k = Ok (atts, k').
  Proof.
    intros H Hl ch F k. destruct links as [|l r].
    - injection H as <-. now exists k.
    - cbn [collect_attestations_for_links] in H. cbn [collect_over]. cbv zeta in *. set (start := sat_mul (min_target l r) _) in *.
      set (stop := sat_mul (sat_add _ _) _) in *.
      apply bind_ok in H as (bs & H1 & H). apply bind_ok in H as (m & H2 & H). injection H as <-.
      rewrite (numbered_agree ch _ k bs H1).
      + cbn [bind]. rewrite H2. cbn [bind]. eauto.
      + intros i sl Hi. apply F. apply (proj2 (epoch_range_slots start stop)) in Hi. destruct Hi as [_ Hi].
        eapply N.le_trans; [exact Hi|]. unfold stop. unfold sat_mul. eapply N.le_trans; [apply N.le_min_l|]. apply N.mul_le_mono_r.
        assert (max_target l r <= hi).
        { destruct (proj2 (max_target_spec r l)) as (x & Hx & <-). now apply Hl. }
        unfold sat_add. lia.
  Qed.
End Agree.

(** All moments the same: the functions of HostChain.v. *)
Lemma find_over_same cs c trusted : forall fuel k e,
  option_map (fun r => '(e', _) <- r ;; Ok e') (find_over cs (fun _ => c) trusted fuel k e) = find_from cs c trusted fuel e.
Proof.
  induction fuel as [|n IH]; intros k e; [reflexivity|]. cbn [find_over find_from].
  destruct (ch_state c (start_slot cs e)) as [st|x|]; cbn [map_err option_map bind]; try reflexivity.
  destruct (checkpoint_eqb _ _); [reflexivity|]. destruct (_ <? _); [|reflexivity]. apply IH.
Qed.
Lemma justifications_over_same cs c s0 : forall fuel k e prev links,
  option_map (fun r => '(s, l, _) <- r ;; Ok (s, l)) (justifications_over cs (fun _ => c) s0 prev links fuel k e) =
  option_map (fun r => '(s, _, l) <- r ;; Ok (s, l)) (justifications_from cs c s0 prev links fuel e).
Proof.
  induction fuel as [|n IH]; intros k e prev links; [reflexivity|]. cbn [justifications_over justifications_from].
  destruct (ch_state c (start_slot cs e)) as [cur|x|]; cbn [map_err bind]; try reflexivity.
  destruct (transition_link prev cur) as [o|x|]; cbn [map_err bind]; try reflexivity.
  destruct (checkpoint_eqb _ _); [|reflexivity]. apply IH.
Qed.
Lemma numbered_same c slots : forall k,
  map_outcome (fun x => map_err HOther (ch_block c (snd x))) (numbered k slots) =
  map_outcome (fun sl => map_err HOther (ch_block c sl)) slots.
Proof. induction slots as [|s r IH]; intros k; [reflexivity|]. cbn [numbered map_outcome snd]. now rewrite IH. Qed.
Lemma host_new_over_same cs c trusted fuel k :
  option_map (fun r => '(s, a, _) <- r ;; Ok (s, a)) (host_new_over cs (fun _ => c) trusted fuel k) = host_new cs c trusted fuel.
Proof.
  unfold host_new_over, host_new, find_finalization_epoch. rewrite <- (find_over_same cs c trusted fuel k).
  destruct (find_over _ _ _ _ _ _) as [[[e k1]|x|]|]; cbn [option_map bind]; try reflexivity.
  unfold get_justifications_over, get_justifications_until_new_finality.
  destruct (ch_state c (start_slot cs e)) as [s0|x|]; cbn [map_err option_map bind]; try reflexivity.
  pose proof (justifications_over_same cs c s0 fuel (S k1) (wrap64 (e + 1)) s0 []) as J.
  destruct (justifications_over _ _ _ _ _ _ _ _) as [[[[s l] k2]|x|]|];
    destruct (justifications_from _ _ _ _ _ _ _) as [[[[s' t'] l']|x'|]|]; cbn [option_map bind] in J; try discriminate; try injection J as J; subst;
    cbn [option_map bind]; try reflexivity.
  destruct (checkpoint_eqb (finalized s') trusted); cbn [assert_ bind]; [|reflexivity].
  unfold collect_over, collect_attestations_for_links. destruct l' as [|l r]; [reflexivity|]. cbv zeta. rewrite numbered_same.
  destruct (map_outcome _ _) as [bs|x|]; cbn [bind]; try reflexivity.
  destruct (fold_outcome _ _ _) as [m|x|]; reflexivity.
Qed.

(** ** The caching provider in front of anything *)
Section Cached.
  Context {St W : Type}.
  Variable inner : provider St W.
  Lemma cached_keeps cw s r cw' x st : cached_state_at_slot inner cw s = (r, cw') ->
    cache_get (fst cw) x = Some st -> cache_get (fst cw') x = Some st.
  Proof.
    destruct cw as [c w]. cbn [cached_state_at_slot fst]. intros E G.
    destruct (cache_get c s) as [st0|] eqn:Gs; [injection E as <- <-; exact G|].
    destruct (inner w s) as [[y|e|] w']; injection E as <- <-; cbn [fst]; try exact G.
    unfold cache_get in *. cbn [bm_get]. destruct (x =? s) eqn:Q; [|exact G]. apply N.eqb_eq in Q. subst. congruence.
  Qed.
  Lemma cached_stores cw s st cw' : cached_state_at_slot inner cw s = (Ok st, cw') -> cache_get (fst cw') s = Some st.
  Proof.
    destruct cw as [c w]. cbn [cached_state_at_slot]. destruct (cache_get c s) as [st0|] eqn:Gs.
    - intros [= <- <-]. exact Gs.
    - destruct (inner w s) as [[y|e|] w']; intros [= <- <-]. cbn [fst]. unfold cache_get. cbn [bm_get]. now rewrite N.eqb_refl.
  Qed.
  Lemma cached_requests_keep s st : forall slots cw answers cw' j,
    requests (cached_state_at_slot inner) cw slots = (answers, cw') -> cache_get (fst cw) s = Some st ->
    nth_error slots j = Some s -> nth_error answers j = Some (Ok st).
  Proof.
    induction slots as [|x r IH]; intros cw answers cw' j E G Hj; [destruct j; discriminate|]. cbn [requests] in E.
    destruct (cached_state_at_slot inner cw x) as [a w1] eqn:E1. destruct (requests _ w1 r) as [l w2] eqn:E2. injection E as <- <-.
    destruct j as [|j]; cbn [nth_error] in *.
    - injection Hj as ->. destruct cw as [c w]. cbn [cached_state_at_slot fst] in *. rewrite G in E1. injection E1 as <- _. reflexivity.
    - eapply IH; eauto. eapply cached_keeps; eauto.
  Qed.
  Lemma cached_requests_same s st : forall slots cw answers cw' i j,
    requests (cached_state_at_slot inner) cw slots = (answers, cw') -> (i <= j)%nat ->
    nth_error slots i = Some s -> nth_error slots j = Some s ->
    nth_error answers i = Some (Ok st) -> nth_error answers j = Some (Ok st).
  Proof.
    induction slots as [|x r IH]; intros cw answers cw' i j E L Hi Hj A; [destruct i; discriminate|]. cbn [requests] in E.
    destruct (cached_state_at_slot inner cw x) as [a w1] eqn:E1. destruct (requests _ w1 r) as [l w2] eqn:E2. injection E as <- <-.
    destruct i as [|i], j as [|j]; cbn [nth_error] in *; try lia; try congruence.
    - injection Hi as ->. injection A as ->. eapply cached_requests_keep; eauto. now apply cached_stores in E1.
    - eapply (IH w1 l w2 i j); eauto. lia.
  Qed.
End Cached.
