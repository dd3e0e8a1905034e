(** The guest's active sets when the trusted block is older than its checkpoint's epoch. *)
From Coq Require Import List Arith ZArith NArith Bool Lia Sorted Permutation.
From Coq Require Import ZifyBool ZifyNat ZifyN.
From Verif.Model Require Import Base Types ConsensusState Multiproof Verify GuestReader Guest.
From Verif.Spec Require Import FFG Merkle MultiproofSpec Ssz Beacon GuestSpec Registry VerifySpec Skipped.
From Verif.Proof Require Import BaseLemmas BeaconP GuestP VerifyP PatchP EndToEndP.
Import ListNotations.
Open Scope N_scope.
Notation length := List.length.

Lemma epochs_between_In a b e : In e (epochs_between a b) <-> a <= e < b.
Proof.
  unfold epochs_between. rewrite in_map_iff. split.
  - intros (k & <- & Hk). apply in_seq in Hk. lia.
  - intros H. exists (N.to_nat (e - a)). split; [lia|]. apply in_seq. lia.
Qed.

Section Skipped.
  Variables (X : Externals) (cs : ChainSpec).
  Hypothesis Far : far_future_epoch cs = 2 ^ 64 - 1.
  Hypothesis Min : min_activation_balance cs = 32000000000.
  Hypothesis Look : max_seed_lookahead cs = 4.

  Lemma update_same fin cur w v : fin <= cur -> cur + 1 < 2 ^ 64 -> same_validator X w v ->
    same_validator X (update_validator fin cur w) (registry_update_validator cs fin cur (activation_exit_epoch cs cur) v).
  Proof.
    intros Hf Hc (E1 & E2 & E3 & E4 & E5 & E6). unfold registry_update_validator, update_validator, Types.is_eligible_for_activation_queue,
      Types.is_eligible_for_activation, Skipped.is_eligible_for_activation_queue, Skipped.is_eligible_for_activation.
    change FAR_FUTURE_EPOCH with (2 ^ 64 - 1). rewrite Far, Min, E2, E4.
    destruct ((v_activation_eligibility_epoch w =? 2 ^ 64 - 1) && (32000000000 <=? v_effective_balance w)) eqn:Q.
    - cbn [activation_eligibility_epoch activation_epoch]. replace (sat_add cur 1 <=? fin) with false.
      2:{ symmetry. apply N.leb_gt. unfold sat_add, u64_max, two64. lia. }
      cbn [andb]. repeat split; cbn; try assumption; try congruence.
      unfold sat_add, u64_max, two64. lia.
    - rewrite E4, E5.
      destruct ((v_activation_eligibility_epoch w <=? fin) && (v_activation_epoch w =? 2 ^ 64 - 1)).
      + repeat split; cbn; try assumption; try congruence. unfold activation_exit_epoch. rewrite Look. lia.
      + repeat split; assumption.
  Qed.
  Lemma fold_same fin es : forall w v, (forall e, In e es -> fin <= e /\ e + 1 < 2 ^ 64) -> same_validator X w v ->
    same_validator X (fold_left (fun v cur => update_validator fin cur v) es w) (upd1 cs (map (fun e => (fin, e)) es) v).
  Proof.
    induction es as [|e es IH]; intros w v H S; [exact S|]. unfold upd1. cbn [map fold_left fst snd]. apply IH.
    - intros x Hx. apply H. now right.
    - apply update_same; [apply H; now left|apply H; now left|exact S].
  Qed.
  Lemma upd1_app l m v : upd1 cs (l ++ m) v = upd1 cs m (upd1 cs l v).
  Proof. unfold upd1. apply fold_left_app. Qed.
  Lemma epoch_range_split a b c : a <= b -> b <= c + 1 -> epoch_range a c = epochs_between a b ++ epoch_range b c.
  Proof.
    intros H1 H2. unfold epoch_range, epochs_between. replace (N.to_nat (c + 1 - a)) with (N.to_nat (b - a) + N.to_nat (c + 1 - b))%nat by lia.
    rewrite seq_app, map_app. f_equal. rewrite Nat.add_0_l. rewrite <- (Nat.add_0_r (N.to_nat (b - a))). generalize (N.to_nat (c + 1 - b)) as k. intros k.
    replace (map (fun k0 => a + N.of_nat k0) (seq (N.to_nat (b - a) + 0) k)) with (map (fun k0 => a + N.of_nat k0) (map (fun j => (N.to_nat (b - a) + j)%nat) (seq 0 k))).
    - rewrite map_map. apply map_ext. intros j. lia.
    - f_equal. clear. rewrite Nat.add_0_r. induction k as [|k IH]; [reflexivity|]. rewrite !seq_S, map_app, IH. cbn [map]. now rewrite Nat.add_0_l.
  Qed.


  Lemma reader_active_start gi r h s e avl : committed X gi h s -> into_reader X cs gi = Ok r -> slots_per_epoch cs = 32 ->
    let tr := epoch (finalized (gi_consensus_state gi)) in
    1 <= tr -> tr < epoch (current_justified (gi_consensus_state gi)) -> tr <= e <= tr + 4 ->
    st_slot s / 32 <= tr -> epoch (st_finalized s) <= st_slot s / 32 ->
    rd_active_validators (guest_reader r) e = Ok avl ->
    active_validators_of X (registry_at s tr) e avl.
  Proof.
    intros C E E32 tr Ht Hcj He Hse Hf A.
    pose proof (reader_registry X cs gi r h s C E) as (_ & _ & _ & _ & _ & _ & B & _ & _ & B' & _). rewrite E32 in B.
    assert (He' : e <= tr + max_seed_lookahead cs) by lia.
    destruct (reader_active _ _ _ _ _ _ _ _ C E Ht He' A) as (vals & F & Sv & Sa & Hb & G). fold tr in F, G. rewrite E32 in G.
    set (cj := epoch (current_justified (gi_consensus_state gi))) in *. set (se := st_slot s / 32) in *. set (sf := epoch (st_finalized s)) in *.
    set (l := map _ (epoch_range se cj)) in *.
    set (l1 := map (fun x => (sf, x)) (epochs_between se tr)).
    set (l2 := map (fun x => (fin_of sf tr cj x, x)) (epoch_range tr cj)).
    assert (El : l = l1 ++ l2).
    { unfold l, l1, l2. rewrite (epoch_range_split se tr cj) by lia. rewrite map_app. f_equal. apply map_ext_in. intros x Hx.
      apply epochs_between_In in Hx. unfold fin_of. now replace (x <? cj) with true by lia. }
    assert (U : forall v, is_active_at (upd1 cs l v) e = is_active_at (upd1 cs l1 v) e /\
      (is_active_at (upd1 cs l1 v) e = true -> activation_epoch (upd1 cs l v) = activation_epoch (upd1 cs l1 v))).
    { intros v. rewrite El, upd1_app. apply (upd1_active cs tr); [|lia|unfold activation_exit_epoch; lia].
      intros fe Hfe. apply in_map_iff in Hfe as (x & <- & Hx). apply epoch_range_In in Hx. cbn [snd]. lia. }
    assert (Hl1 : forall x, In x (epochs_between se tr) -> sf <= x /\ x + 1 < 2 ^ 64).
    { intros x Hx. apply epochs_between_In in Hx. unfold activation_exit_epoch in B'. lia. }
    assert (Nth : forall i, nth_error (registry_at s tr) i =
      option_map (fun v => fold_left (fun v cur => update_validator sf cur v) (epochs_between se tr) v) (nth_error (st_validators s) i)).
    { intros i. apply nth_error_map. }
    destruct F as [_ F]. split; [now apply bm_sorted_keys|]. split.
    - intros i vi Hi. apply bm_in_get in Hi; auto. rewrite G in Hi. specialize (F i).
      destruct (bm_get vals i) as [v|] eqn:Ev; [|discriminate].
      destruct (nth_error (st_validators s) (N.to_nat i)) as [w|] eqn:Ew; [|contradiction].
      destruct (is_active_at (upd1 cs l v) e) eqn:Ea; [|discriminate]. injection Hi as <-.
      destruct (U v) as [U1 U2]. rewrite U1 in Ea. specialize (U2 Ea).
      pose proof (fold_same sf _ w v Hl1 F) as (F1 & F2 & F3 & F4 & F5 & F6). fold l1 in F1, F2, F3, F4, F5, F6.
      destruct (upd1_fields cs l v) as (V1 & V2 & V3 & V4). destruct (upd1_fields cs l1 v) as (W1 & W2 & W3 & W4).
      eexists. rewrite Nth, Ew. split; [reflexivity|]. unfold is_active_at in Ea. apply andb_true_iff in Ea as [A1 A2].
      apply N.leb_le in A1. apply N.ltb_lt in A2. split; [lia|].
      unfold same_voter. repeat split; congruence.
    - intros i w Hw Ha. rewrite Nth in Hw. specialize (F i). destruct (nth_error (st_validators s) (N.to_nat i)) as [w0|]; [|discriminate].
      cbn [option_map] in Hw. injection Hw as <-.
      destruct (bm_get vals i) as [v|] eqn:Ev.
      + pose proof (fold_same sf _ w0 v Hl1 F) as (F1 & F2 & F3 & F4 & F5 & F6). fold l1 in F1, F2, F3, F4, F5, F6.
        exists (upd1 cs l v). apply bm_get_iff; auto. rewrite G, Ev.
        destruct (U v) as [U1 _]. rewrite U1. unfold is_active_at. rewrite F5, F6.
        rewrite (proj2 (N.leb_le _ _)), (proj2 (N.ltb_lt _ _)) by lia. reflexivity.
      + exfalso. assert (Ex : forall es w, v_exit_epoch (fold_left (fun v cur => update_validator sf cur v) es w) = v_exit_epoch w).
        { clear. induction es as [|x es IH]; intros w; [reflexivity|]. cbn [fold_left]. rewrite IH. unfold update_validator.
          destruct (Skipped.is_eligible_for_activation_queue w); [reflexivity|]. now destruct (Skipped.is_eligible_for_activation sf w). }
        rewrite Ex in Ha. lia.
  Qed.
End Skipped.
