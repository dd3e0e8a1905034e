(** From the committed state to the active sets the guest uses. *)
From Coq Require Import List Arith ZArith NArith Bool Lia Sorted Permutation.
From Verif.Model Require Import Base Types ConsensusState Multiproof Verify GuestReader Guest.
From Verif.Spec Require Import FFG Merkle MultiproofSpec Ssz Beacon GuestSpec Registry VerifySpec.
From Verif.Proof Require Import BaseLemmas BeaconP GuestP VerifyP PatchP.
Import ListNotations.
Open Scope N_scope.
Notation length := List.length.

Lemma reader_registry X cs gi r h s : committed X gi h s -> into_reader X cs gi = Ok r ->
  let H := sha256 X in
  let tr := epoch (finalized (gi_consensus_state gi)) in
  let cj := epoch (current_justified (gi_consensus_state gi)) in
  let se := st_slot s / slots_per_epoch cs in
  exists vals churn er er',
    faithful_registry X (st_validators s) tr vals /\
    gr_validators r = upds cs (map (fun e => (fin_of (epoch (st_finalized s)) tr cj e, e)) (epoch_range se cj)) vals /\
    Forall (fun e => e + 1 + max_seed_lookahead cs < 2 ^ 64) (epoch_range se cj) /\
    churn = 2 * churn_limit cs (balance_of cs (active_at_l (gr_validators r) tr)) /\
    er = N.max (N.min (st_earliest_exit_epoch s) (st_earliest_consolidation_epoch s)) (activation_exit_epoch cs tr) /\
    activation_exit_epoch cs tr < 2 ^ 64 /\
    fold_outcome (validate_patch cs (gi_patches gi) (gr_validators r) churn tr) (gi_patches gi) er = Ok er' /\
    gr_spec r = cs /\ gr_genesis_validators_root r = st_genesis_validators_root s /\
    gr_patches r = gi_patches gi /\ gr_consensus_state r = gi_consensus_state gi /\ gr_attestations r = gi_attestations gi.
Proof.
  intros [Hh Hk Wh Ws R1 R2 C1 C2 C3 Wp] E H tr cj se.
  apply into_reader_ok in E as (sr & si & vals & E1 & E2 & E3 & E4 & E5 & E6 & E7 & E8 & E9 & E10 & E11 & E12 & E13 & E14 & E15).
  fold H in E1, E3, E5, R1, R2, C1, C2, C3. rewrite R1 in E1.
  apply (block_state_root_ok H h) in E2. 2:{ apply values_true_verified; auto. now apply header_tree_wf. }
  subst sr. rewrite R2 in E3.
  apply (state_info_ok H s) in E4; auto.
  2:{ apply values_true_verified; auto. now apply state_tree_wf. }
  subst si. cbn [si_fork si_slot si_validators_root si_genesis_validators_root si_finalized_checkpoint_epoch] in *.
  apply (extract_validators_ok X H (st_validators s)) in E6; auto. 2:{ apply Ws. }
  apply registry_loop_ok in E8 as [E8 E8'].
  apply validate_patches_ok in E9 as (churn & er & er' & P1 & P2).
  apply patch_params_ok in P1 as (Q1 & Q2 & Q3).
  cbn [si_earliest_exit_epoch si_earliest_consolidation_epoch] in Q2.
  exists vals, churn, er, er'. repeat match goal with |- _ /\ _ => split end; assumption.
Qed.

Lemma bm_get_upd cs l m i : bm_get (upds cs l m) i = option_map (upd1 cs l) (bm_get m i).
Proof.
  rewrite upds_map. induction m as [|[k v] r IH]; simpl; auto. destruct (i =? k); auto.
Qed.
Lemma upds_sorted cs l m : bm_sorted m -> bm_sorted (upds cs l m).
Proof. intros Hs. rewrite upds_map. apply bm_sorted_map; auto. Qed.

Lemma reader_active X cs gi r h s e avl : committed X gi h s -> into_reader X cs gi = Ok r ->
  let tr := epoch (finalized (gi_consensus_state gi)) in
  let cj := epoch (current_justified (gi_consensus_state gi)) in
  let se := st_slot s / slots_per_epoch cs in
  let l := map (fun e => (fin_of (epoch (st_finalized s)) tr cj e, e)) (epoch_range se cj) in
  1 <= tr -> e <= tr + max_seed_lookahead cs ->
  rd_active_validators (guest_reader r) e = Ok avl ->
  exists vals, faithful_registry X (st_validators s) tr vals /\ bm_sorted vals /\ bm_sorted avl /\
    e + 1 < 2 ^ 64 /\
    forall i, bm_get avl i = match bm_get vals i with
                             | Some v => if is_active_at (upd1 cs l v) e then Some (upd1 cs l v) else None
                             | None => None
                             end.
Proof.
  intros C E tr cj se l Ht He A.
  pose proof (reader_registry X cs gi r h s C E) as
    (vals & churn & er & er' & F & G & B & Hc & Her & Hb & P & S1 & S2 & S3 & S4 & S5). fold tr cj se in F, G, B, Her, Hb, P. fold l in G.
  exists vals. split; auto. assert (Hs : bm_sorted vals) by (apply bm_sorted_keys, F). split; auto.
  cbn [guest_reader rd_active_validators] in A. injection A as <-.
  assert (Hr : bm_sorted (gr_validators r)) by (rewrite G; now apply upds_sorted).
  split; [now apply bm_sorted_filter|]. unfold activation_exit_epoch in Hb, Her. split; [lia|].
  intros i. rewrite bm_get_filter by auto. rewrite S3.
  destruct (bm_get (gr_validators r) i) as [w|] eqn:Ew.
  - cbn [fst snd].
    rewrite (patched_activity _ _ _ _ _ _ _ Ht (proj2 (bm_sorted_keys _) (proj1 (cm_patches _ _ _ _ C))) P e i w) by (auto; lia).
    rewrite G, bm_get_upd in Ew. destruct (bm_get vals i) as [v|]; [|discriminate]. injection Ew as <-. reflexivity.
  - rewrite G, bm_get_upd in Ew. destruct (bm_get vals i); [discriminate|reflexivity].
Qed.

(** The state's fork is the one scheduled for its epoch. *)
Lemma reader_fork X cs gi r h s : committed X gi h s -> into_reader X cs gi = Ok r ->
  st_fork s = fork_at_epoch cs (st_slot s / slots_per_epoch cs).
Proof.
  intros [Hh Hk Wh Ws R1 R2 C1 C2 C3 Wp] E. set (H := sha256 X) in *.
  apply into_reader_ok in E as (sr & si & vals & E1 & E2 & E3 & E4 & E5 & E6 & E7 & E8 & E9 & E10 & E11 & E12 & E13 & E14 & E15).
  fold H in E1, E3, E5. rewrite R1 in E1.
  apply (block_state_root_ok H h) in E2. 2:{ apply values_true_verified; auto. now apply header_tree_wf. }
  subst sr. rewrite R2 in E3.
  apply (state_info_ok H s) in E4; auto.
  2:{ apply values_true_verified; auto. now apply state_tree_wf. }
  subst si. exact E7.
Qed.

(** Active set within the lookahead of the state itself. *)
Lemma reader_active_of X cs gi r h s e avl : committed X gi h s -> into_reader X cs gi = Ok r ->
  let tr := epoch (finalized (gi_consensus_state gi)) in
  far_future_epoch cs = 2 ^ 64 - 1 ->
  1 <= tr -> tr <= e <= tr + max_seed_lookahead cs -> e <= st_slot s / slots_per_epoch cs + max_seed_lookahead cs ->
  rd_active_validators (guest_reader r) e = Ok avl ->
  active_validators_of X (st_validators s) e avl.
Proof.
  intros C E tr Hff Ht He Hse A.
  destruct (reader_active _ _ _ _ _ _ _ _ C E Ht (proj2 He) A) as (vals & F & Sv & Sa & Hb & G). fold tr in F, G.
  set (cj := epoch (current_justified (gi_consensus_state gi))) in *. set (se := st_slot s / slots_per_epoch cs) in *.
  set (l := map _ (epoch_range se cj)) in *.
  assert (Hl : forall fe, In fe l -> se <= snd fe).
  { intros fe Hf. apply in_map_iff in Hf as (x & <- & Hx). apply epoch_range_In in Hx. cbn [snd]. lia. }
  assert (U : forall v, is_active_at (upd1 cs l v) e = is_active_at v e /\
    (is_active_at v e = true -> activation_epoch (upd1 cs l v) = activation_epoch v)).
  { intros v. apply (upd1_active cs se); auto; [lia|]. unfold activation_exit_epoch. lia. }
  destruct F as [_ F]. split; [now apply bm_sorted_keys|]. split.
  - intros i vi Hi. apply bm_in_get in Hi; auto. rewrite G in Hi. specialize (F i).
    destruct (bm_get vals i) as [v|] eqn:Ev; [|discriminate].
    destruct (nth_error (st_validators s) (N.to_nat i)) as [w|] eqn:Ew; [|contradiction].
    destruct (is_active_at (upd1 cs l v) e) eqn:Ea; [|discriminate]. injection Hi as <-.
    destruct (U v) as [U1 U2]. rewrite U1 in Ea. specialize (U2 Ea).
    destruct F as (F1 & F2 & F3 & F4 & F5 & F6). destruct (upd1_fields cs l v) as (V1 & V2 & V3 & V4).
    exists w. split; auto. unfold is_active_at in Ea. apply andb_true_iff in Ea as [A1 A2].
    apply N.leb_le in A1. apply N.ltb_lt in A2. split; [lia|].
    unfold same_voter. repeat split; congruence.
  - intros i w Hw Ha. specialize (F i). rewrite Hw in F. destruct (bm_get vals i) as [v|] eqn:Ev; [|lia].
    destruct F as (F1 & F2 & F3 & F4 & F5 & F6). exists (upd1 cs l v). apply bm_get_iff; auto. rewrite G, Ev.
    destruct (U v) as [U1 _]. rewrite U1. unfold is_active_at. rewrite F5, F6.
    rewrite (proj2 (N.leb_le _ _)), (proj2 (N.ltb_lt _ _)) by lia. reflexivity.
Qed.

(** The prover's choices do not matter. *)
Lemma sorted_rel {V W} (R : V -> W -> Prop) (a : bmap V) : forall (b : bmap W), bm_sorted a -> bm_sorted b ->
  (forall i, match bm_get a i, bm_get b i with Some x, Some y => R x y | None, None => True | _, _ => False end) ->
  Forall2 (fun x y => fst x = fst y /\ R (snd x) (snd y)) a b.
Proof.
  induction a as [|[k v] a IH]; intros [|[k' v'] b] Ha Hb H.
  - constructor.
  - specialize (H k'). simpl in H. rewrite N.eqb_refl in H. contradiction.
  - specialize (H k). simpl in H. rewrite N.eqb_refl in H. contradiction.
  - pose proof (bm_sorted_inv _ _ Ha) as [Ha1 Ha2]. pose proof (bm_sorted_inv _ _ Hb) as [Hb1 Hb2].
    assert (k = k') as <-.
    { pose proof (H k) as Hk. pose proof (H k') as Hk'. simpl in Hk, Hk'. rewrite N.eqb_refl in Hk, Hk'.
      destruct (N.eqb_spec k k') as [|Hn]; auto. exfalso.
      destruct (N.eqb_spec k' k) as [|Hn']; [congruence|].
      destruct (bm_get b k) as [y|] eqn:Ey; [|contradiction]. destruct (bm_get a k') as [x|] eqn:Ex; [|contradiction].
      apply bm_get_in in Ey, Ex.
      specialize (Ha2 _ Ex). specialize (Hb2 _ Ey). simpl in *. lia. }
    constructor.
    + split; auto. specialize (H k). simpl in H. now rewrite N.eqb_refl in H.
    + apply IH; auto. intros i. specialize (H i). simpl in H.
      destruct (N.eqb_spec i k) as [Ei|Hn]; [|exact H]. rewrite Ei in *. clear Ei i H.
      assert (bm_get a k = None) as ->. { apply bm_get_None. intros Hi. apply in_map_iff in Hi as (x & E & Hi). specialize (Ha2 _ Hi). simpl in *. lia. }
      assert (bm_get b k = None) as ->. { apply bm_get_None. intros Hi. apply in_map_iff in Hi as (x & E & Hi). specialize (Hb2 _ Hi). simpl in *. lia. }
      exact I.
Qed.
Lemma update_same X cs fin cur act a b : same_info X a b ->
  same_info X (registry_update_validator cs fin cur act a) (registry_update_validator cs fin cur act b).
Proof.
  intros (E1 & E2 & E3 & E4 & E5 & E6). unfold registry_update_validator, is_eligible_for_activation_queue.
  rewrite <- E2, <- E4. unfold is_eligible_for_activation, same_info.
  destruct (_ && (min_activation_balance cs <=? _)); cbn [activation_eligibility_epoch activation_epoch];
    rewrite <- ?E4, <- E5; destruct (_ && (activation_epoch a =? _)); simpl; repeat split; congruence.
Qed.
Lemma upd1_same X cs l : forall a b, same_info X a b -> same_info X (upd1 cs l a) (upd1 cs l b).
Proof.
  induction l as [|[fin e] l IH]; intros a b H; [exact H|]. unfold upd1. cbn [fold_left]. apply IH. now apply update_same.
Qed.
Lemma reader_active_unique X cs gi gi' r r' h s e a b : committed X gi h s -> committed X gi' h s ->
  gi_consensus_state gi = gi_consensus_state gi' ->
  into_reader X cs gi = Ok r -> into_reader X cs gi' = Ok r' ->
  let tr := epoch (finalized (gi_consensus_state gi)) in
  1 <= tr -> tr <= e <= tr + max_seed_lookahead cs ->
  rd_active_validators (guest_reader r) e = Ok a -> rd_active_validators (guest_reader r') e = Ok b ->
  Forall2 (fun x y => fst x = fst y /\ same_info X (snd x) (snd y)) a b.
Proof.
  intros C C' Ec E E' tr Ht He A A'.
  destruct (reader_active _ _ _ _ _ _ _ _ C E Ht (proj2 He) A) as (vals & F & Sv & Sa & Hb & G).
  unfold tr in Ht, He. rewrite Ec in Ht, He.
  destruct (reader_active _ _ _ _ _ _ _ _ C' E' Ht (proj2 He) A') as (vals' & F' & Sv' & Sa' & _ & G').
  rewrite <- Ec in *. apply sorted_rel; auto. intros i. rewrite G, G'. set (l := map _ (epoch_range _ _)).
  destruct F as [_ F], F' as [_ F']. specialize (F i). specialize (F' i).
  destruct (nth_error (st_validators s) (N.to_nat i)) as [w|].
  2:{ destruct (bm_get vals i); [contradiction|]. destruct (bm_get vals' i); [contradiction|]. exact I. }
  assert (Out : forall v, same_validator X w v -> v_exit_epoch w <= epoch (finalized (gi_consensus_state gi)) ->
                is_active_at (upd1 cs l v) e = false).
  { intros v (_ & _ & _ & _ & _ & Ex) Hx. destruct (upd1_fields cs l v) as (_ & _ & _ & Ux).
    unfold is_active_at. rewrite Ux, Ex. rewrite (proj2 (N.ltb_ge _ _)) by lia. apply andb_false_r. }
  destruct (bm_get vals i) as [v|], (bm_get vals' i) as [v'|].
  - assert (SI : same_info X (upd1 cs l v) (upd1 cs l v')).
    { apply upd1_same. destruct F as (?&?&?&?&?&?), F' as (?&?&?&?&?&?). repeat split; congruence. }
    assert (is_active_at (upd1 cs l v) e = is_active_at (upd1 cs l v') e) as <-.
    { destruct SI as (?&?&?&?&S5&S6). unfold is_active_at. now rewrite S5, S6. }
    destruct (is_active_at (upd1 cs l v) e); auto.
  - now rewrite (Out v).
  - now rewrite (Out v').
  - exact I.
Qed.

(** Links start at the justified checkpoint, so their targets lie after the finalized epoch. *)
Lemma af_targets c ls f t l : atomic_finalization c ls f t -> In l ls -> epoch c < epoch (target l).
Proof.
  induction 1 as [c t Ht|c b ls f t Hb H IH]; simpl.
  - intros [<-|[]]. simpl. lia.
  - intros [<-|Hi]; simpl; [lia|]. specialize (IH Hi). lia.
Qed.
Lemma accepted_targets s ls s' l : accepted_chain s ls s' -> In l ls -> epoch (finalized s) < epoch (target l).
Proof.
  intros A Hi. inversion A as [s0 ls0 f t V G F|b ls0 f t Hb F]; subst.
  - apply (af_targets _ _ _ _ l) in F; auto. destruct V as [V|V]; [lia|contradiction].
  - simpl. destruct Hi as [<-|Hi]; [simpl; lia|]. apply (af_targets _ _ _ _ l) in F; auto. lia.
Qed.

Lemma entry_ok X decode cs cfg frame j : entry X decode cs cfg frame = Ok j ->
  exists gi r post slot, decode frame = Some gi /\ into_reader X cs gi = Ok r /\
    verify X cfg (guest_reader r) = Ok (post, slot) /\ j = journal_encode (gi_consensus_state gi) post slot.
Proof.
  unfold entry. intros E. apply bind_ok in E as (gi & E1 & E). apply expect_ok in E1.
  apply bind_ok in E as (r & E2 & E). apply (proj1 (unwrap_ok _ _)) in E2.
  apply bind_ok in E as (pre & E3 & E). apply (proj1 (unwrap_ok _ _)) in E3.
  apply bind_ok in E as ([post slot] & E4 & E). apply (proj1 (unwrap_ok _ _)) in E4. injection E as <-.
  exists gi, r, post, slot. repeat split; auto. cbn [guest_reader rd_consensus_state] in E3. injection E3 as <-.
  apply into_reader_ok in E2 as (sr & si & vals & _ & _ & _ & _ & _ & _ & _ & _ & _ & _ & _ & _ & _ & -> & _). reflexivity.
Qed.

Lemma guest_link X cs cfg gi r h s l atts av P : committed X gi h s -> into_reader X cs gi = Ok r ->
  far_future_epoch cs = 2 ^ 64 - 1 -> 1 <= epoch (finalized (gi_consensus_state gi)) ->
  st_slot s / slots_per_epoch cs = epoch (finalized (gi_consensus_state gi)) ->
  epoch (finalized (gi_consensus_state gi)) <= epoch (target l) <= epoch (finalized (gi_consensus_state gi)) + max_seed_lookahead cs ->
  supermajority_link X cfg (guest_reader r) l atts av P -> signed_by_state X cfg cs s l atts.
Proof.
  intros C E Hff Ht Hs Hl (f & gvr & avl & sets & L1 & L2 & L3 & L4 & L5 & L6 & L7).
  pose proof (reader_registry X cs gi r h s C E) as
    (vals & churn & er & er' & _ & _ & _ & _ & _ & _ & _ & S1 & S2 & S3 & S4 & S5).
  cbn [guest_reader rd_fork rd_genesis_validators_root rd_chain_spec] in *. rewrite S1, S2 in *.
  injection L1 as <-. injection L2 as <-.
  assert (active_validators_of X (st_validators s) (epoch (target l)) avl) as A.
  { eapply (reader_active_of X cs gi r h s); eauto; try lia. }
  assert (av = avl) as ->.
  { rewrite (active_set_unique _ _ L4). apply bm_of_list_sorted_id. apply bm_sorted_keys, A. }
  exists avl, sets, P. auto.
Qed.
Lemma guest_links X cs cfg gi r post slot h s : committed X gi h s -> into_reader X cs gi = Ok r ->
  verify X cfg (guest_reader r) = Ok (post, slot) ->
  far_future_epoch cs = 2 ^ 64 - 1 -> 1 <= epoch (finalized (gi_consensus_state gi)) ->
  epoch_lookahead_limit cfg <= max_seed_lookahead cs ->
  st_slot s / slots_per_epoch cs = epoch (finalized (gi_consensus_state gi)) ->
  exists gs, groups (gi_attestations gi) gs /\ accepted_chain (gi_consensus_state gi) (map fst gs) post /\
    Forall (fun g => within_bounds cfg cs (finalized (gi_consensus_state gi)) (fst g) /\
                     signed_by_state X cfg cs s (fst g) (snd g)) gs.
Proof.
  intros C E V Hff Ht Hl Hs. pose proof (reader_registry X cs gi r h s C E) as
    (vals & churn & er & er' & _ & _ & _ & _ & _ & _ & _ & S1 & S2 & S3 & S4 & S5).
  apply verify_sound in V as (st0 & atts & gs & V1 & V2 & V3 & V4 & V5 & V6).
  cbn [guest_reader rd_consensus_state rd_attestations rd_chain_spec] in *. rewrite S1, S4, S5 in *.
  injection V1 as <-. injection V2 as <-. exists gs. split; auto. split; auto.
  rewrite Forall_forall in *. intros g Hg. specialize (V5 g Hg) as (B & av & P & f & gvr & avl & sets & L1 & L2 & L3 & L4 & L5 & L6 & L7).
  split; auto. pose proof (accepted_targets _ _ _ (fst g) V4 (in_map fst _ _ Hg)) as Hlt. destruct B as [B1 B2].
  apply (guest_link X cs cfg gi r h s (fst g) (snd g) av P); auto; [lia|]. exists f, gvr, avl, sets. auto 10.
Qed.
