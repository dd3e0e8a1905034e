(** Property C77: the order of parallel work does not matter. *)
From Coq Require Import List ZArith NArith Bool Lia.
From Coq Require Import ZifyBool ZifyNat ZifyN.
From Coq.Init Require Import Byte.
From Verif.Model Require Import Base Types ConsensusState Multiproof Builder GuestReader Verify HostChain HostInput Parallel.
From Verif.Spec Require Import FFG VerifySpec Merkle Beacon MultiproofSpec HostSpec ParallelSpec.
From Verif.Proof Require Import BaseLemmas ConsensusStateP VerifyP HostChainP ParallelP.
From Verif.Props Require Import VerifyProps HostChainProps MultiproofProps HostToy.
Import ListNotations.
Open Scope N_scope.

(** ** Requests to the node *)
Lemma answers_steady {E A B} (f : B -> outcome E A) l sched : answers_of f l sched -> steady f l sched.
Proof. intros H rd i r I1 I2. destruct (H rd i r I1 I2) as (b & -> & ->). reflexivity. Qed.
Lemma map_err_outcome {E F A B} (g : E -> F) (f : B -> outcome E A) l :
  map_outcome (fun b => map_err g (f b)) l = map_err g (map_outcome f l).
Proof.
  induction l as [|b l IH]; cbn [map_outcome map_err]; auto. rewrite IH.
  destruct (f b); cbn [map_err bind]; auto. destruct (map_outcome f l); reflexivity.
Qed.
Lemma asked_slots cs l r slots : 0 < slots_per_epoch cs -> asked cs (l :: r) slots ->
  slots = epoch_range (sat_mul (min_target l r) (slots_per_epoch cs)) (sat_mul (sat_add (max_target l r) 1) (slots_per_epoch cs)).
Proof.
  intros Hspe (lo & hi & Hb & Hbd & Hr).
  destruct (min_target_spec r l) as [Hm1 Hm2]. destruct (max_target_spec r l) as [Hx1 Hx2].
  destruct (target_bounds_unique (l :: r) lo hi (min_target l r) (max_target l r) Hb) as [<- <-]; [split; auto|].
  pose proof (spe_ge cs Hspe (hi + 1)) as Hge.
  assert (lo <= hi). { destruct Hb as (Hb & _). destruct (Hb l); simpl; auto. lia. }
  pose proof (spe_mono cs lo (hi + 1) ltac:(lia)) as Hmo.
  rewrite sat_mul_exact by lia. replace (sat_add hi 1) with (hi + 1) by (unfold sat_add, u64_max, two64; lia).
  rewrite sat_mul_exact by lia. eapply slot_range_unique; [exact Hr|apply epoch_range_slots].
Qed.

Lemma Forall2_pointwise {A B} (P : A -> B -> Prop) : forall l m, length m = length l ->
  (forall i x, nth_error l i = Some x -> exists y, nth_error m i = Some y /\ P x y) -> Forall2 P l m.
Proof.
  induction l as [|x l IH]; intros [|y m] L H; cbn in L; try discriminate; constructor.
  - destruct (H 0%nat x eq_refl) as (y' & H1 & H2). cbn in H1. congruence.
  - apply IH; [lia|]. intros i z Hi. apply (H (S i) z Hi).
Qed.

(** Whatever the order in which the answers of a chain arrive, the attestations collected are those of
    the chain, and collecting fails exactly when it fails for the chain. With more than 30 requests,
    which is always the case with 32 slots per epoch, the error is the same too. *)
Theorem C77_votes cs ch links slots sched r : 0 < slots_per_epoch cs ->
  asked cs links slots -> answers_of (ch_block ch) slots sched -> (forall s, ch_block ch s <> Panic) ->
  collect_concurrently cs sched links = Some r ->
  same_result r (collect_attestations_for_links cs ch links) /\
  ((30 < length slots)%nat -> r = collect_attestations_for_links cs ch links).
Proof.
  intros Hspe Ha Hans NP H. destruct links as [|l ls].
  { destruct Ha as (lo & hi & (_ & (x & [] & _) & _) & _). }
  cbn [collect_concurrently collect_attestations_for_links] in *.
  pose proof (asked_slots _ _ _ _ Hspe Ha) as E. rewrite <- E in *. rewrite map_err_outcome.
  pose proof (join_steady (ch_block ch) slots sched (answers_steady _ _ _ Hans) (fun b _ => NP b)) as J.
  destruct (try_join_all (length slots) sched) as [[bs|e|]|]; [| |destruct J|discriminate]; injection H as <-.
  - rewrite J. split; [|reflexivity]. cbn [map_err bind]. destruct (fold_outcome index_block bs []) as [m|e|]; cbn; auto.
  - destruct J as ((b & Ib & Fb) & J). cbn [map_err bind]. split.
    + destruct (map_outcome (ch_block ch) slots) as [bs|e'|] eqn:Em; cbn [map_err bind]; cbn; auto.
      * apply (map_outcome_ok (ch_block ch)) in Em. exfalso. clear - Em Ib Fb. induction Em; [destruct Ib|].
        destruct Ib as [->|Ib]; [congruence|auto].
      * exfalso. clear - Em NP. revert Em. generalize slots. induction slots0 as [|s l IH]; cbn [map_outcome]; [discriminate|].
        pose proof (NP s). destruct (ch_block ch s); cbn [bind]; try congruence.
        destruct (map_outcome (ch_block ch) l); cbn [bind]; auto; congruence.
    + intros L. now rewrite (J L).
Qed.
(** It does not wait once every request is answered. *)
Theorem C77_votes_answered cs links slots sched : 0 < slots_per_epoch cs -> asked cs links slots ->
  all_answered (length slots) sched -> collect_concurrently cs sched links <> None.
Proof.
  intros Hspe Ha [Hn Hall]. destruct links as [|l ls].
  { destruct Ha as (lo & hi & (_ & (x & [] & _) & _) & _). }
  cbn [collect_concurrently]. rewrite <- (asked_slots _ _ _ _ Hspe Ha).
  pose proof (join_done (length slots) sched Hn Hall) as J.
  destruct (try_join_all (length slots) sched); [discriminate|congruence].
Qed.
(** The node may change while it answers: then the attestations are those of a chain each of whose
    blocks the node has reported for its slot. *)
Theorem C77_votes_of_answers cs links slots sched atts states header_slots : 0 < slots_per_epoch cs ->
  asked cs links slots -> collect_concurrently cs sched links = Some (Ok atts) ->
  exists ch, ch_state ch = states /\ ch_header_slot ch = header_slots /\
    (forall i s, nth_error slots i = Some s -> exists poll, In poll sched /\ In (i, ch_block ch s) poll) /\
    collect_attestations_for_links cs ch links = Ok atts.
Proof.
  intros Hspe Ha H. destruct links as [|l ls].
  { destruct Ha as (lo & hi & (_ & (x & [] & _) & _) & _). }
  cbn [collect_concurrently collect_attestations_for_links] in *.
  pose proof (asked_slots _ _ _ _ Hspe Ha) as E. rewrite <- E in *.
  pose proof (join_from (length slots) sched) as J. cbn zeta in J.
  destruct (try_join_all (length slots) sched) as [[bs|e|]|]; [| | |discriminate]; injection H as H; cbn [map_err bind] in H; try discriminate.
  destruct J as [L J].
  assert (NoDup slots) as Nd.
  { destruct Ha as (lo & hi & _ & _ & (Ss & _)). clear - Ss. induction Ss as [|s l Ss IH F]; constructor; auto.
    intros I. rewrite Forall_forall in F. specialize (F s I). lia. }
  exists (mkChain states (fun s => match find (fun p => fst p =? s) (combine slots bs) with Some p => Ok (snd p) | None => Err 0 end) header_slots).
  assert (forall i s, nth_error slots i = Some s -> exists b, nth_error bs i = Some b /\
    find (fun p : Slot * option Block => fst p =? s) (combine slots bs) = Some (s, b)) as F.
  { clear - L Nd. revert bs L. induction slots as [|s0 slots IH]; intros [|b bs] L [|i] s Hi; cbn in L; try discriminate.
    - injection Hi as ->. exists b. cbn. now rewrite N.eqb_refl.
    - inversion Nd; subst. cbn in Hi. destruct (IH H2 bs ltac:(lia) i s Hi) as (b' & H3 & H4). exists b'. split; auto. cbn.
      destruct (N.eqb_spec s0 s); [subst; apply nth_error_In in Hi; contradiction|auto]. }
  split; [reflexivity|]. split; [reflexivity|]. split; cbn [ch_block].
  - intros i s Hi. destruct (F i s Hi) as (b & Hb & ->). cbn. destruct (J i b Hb) as (rd & I1 & I2). eauto.
  - rewrite map_err_outcome.
    assert (map_outcome (fun s => match find (fun p => fst p =? s) (combine slots bs) with Some p => Ok (snd p) | None => @Err N (option Block) 0 end) slots = Ok bs) as ->; [|exact H].
    apply map_outcome_ok, Forall2_pointwise; [exact L|]. intros i s Hi. destruct (F i s Hi) as (b & Hb & ->). eauto.
Qed.
(** Hence the whole constructor of the host's data source. *)
Theorem C77_constructor cs ch sched trusted fuel r : 0 < slots_per_epoch cs -> (forall s, ch_block ch s <> Panic) ->
  (forall e s t links, get_justifications_until_new_finality cs ch e fuel = Some (Ok (s, t, links)) ->
     links = [] \/ exists slots, asked cs links slots /\ answers_of (ch_block ch) slots sched) ->
  host_new_concurrently cs ch sched trusted fuel = Some r ->
  exists r', host_new cs ch trusted fuel = Some r' /\ same_result r r'.
Proof.
  intros Hspe NP Hn H. unfold host_new_concurrently, host_new in *.
  destruct (find_finalization_epoch cs ch trusted fuel) as [[e|x|]|]; try discriminate;
    try (injection H as <-; eexists; split; [reflexivity|]; cbn; auto; fail).
  specialize (Hn e). destruct (get_justifications_until_new_finality cs ch e fuel) as [[[[s t] links]|x|]|]; try discriminate;
    try (injection H as <-; eexists; split; [reflexivity|]; cbn; auto; fail).
  eexists. split; [reflexivity|]. cbn [bind]. unfold assert_. destruct (checkpoint_eqb (finalized s) trusted); [|injection H as <-; cbn; auto].
  cbn [bind]. destruct (collect_concurrently cs sched links) as [r0|] eqn:Ec; [|discriminate]. injection H as <-.
  destruct (Hn s t links eq_refl) as [->|(slots & Ha & Hans)].
  - cbn in Ec. injection Ec as <-. cbn. auto.
  - destruct (C77_votes cs ch links slots sched r0 Hspe Ha Hans NP Ec) as [Sr _].
    destruct r0, (collect_attestations_for_links cs ch links); cbn in *; try contradiction; auto. congruence.
Qed.
(** With at most 30 requests the error that is reported depends on the order. *)
Theorem C77_same_error_refuted : exists (f : nat -> outcome N unit) l s1 s2 e1 e2,
  answers_of f l s1 /\ answers_of f l s2 /\
  try_join_all (length l) s1 = Some (Err e1) /\ try_join_all (length l) s2 = Some (Err e2) /\ e1 <> e2.
Proof.
  exists (fun i => Err (N.of_nat i)), [0; 1]%nat, [[(0%nat, Err 0)]], [[(1%nat, Err 1)]], 0, 1.
  repeat split; try reflexivity; try discriminate.
  - intros p i r [<-|[]] [H|[]]. injection H as <- <-. exists 0%nat. auto.
  - intros p i r [<-|[]] [H|[]]. injection H as <- <-. exists 1%nat. auto.
Qed.

(** ** rayon *)
(** However the registry is cut into pieces and however the workers take turns: the active validators
    are the same. *)
Theorem C77_validators pk_deserialize st e pieces sched r :
  concat pieces = enumerate 0 (st_validators (hs_state st)) ->
  par_active_from_state pk_deserialize st e pieces sched = Some r ->
  same_result r (active_from_state pk_deserialize st e).
Proof.
  intros Hp H. unfold par_active_from_state, active_from_state in *.
  set (f := fun iv : N * Validator => vi <- validator_info pk_deserialize (snd iv) ;; Ok (fst iv, vi)) in *.
  set (sel := fun iv : N * Validator => is_active_validator (snd iv) e) in *.
  assert (forall iv, f iv <> Panic) as NP.
  { intros iv. unfold f, validator_info, ok_or. destruct (pk_deserialize (v_pubkey (snd iv))); cbn; discriminate. }
  pose proof (par_collect_result sel f pieces sched (fun a _ => NP a)) as P. rewrite H, Hp in P.
  destruct r as [bs|x|]; [|clear H|destruct P].
  - rewrite P. reflexivity.
  - destruct P as (a & Ia & Sa & Fa).
    assert (In a (filter sel (enumerate 0 (st_validators (hs_state st))))) as If by (apply filter_In; auto).
    revert If. generalize (filter sel (enumerate 0 (st_validators (hs_state st)))). induction l as [|y l IH]; [intros []|].
    cbn [map_outcome]. intros [->|I]; [rewrite Fa; cbn; auto|]. pose proof (NP y). destruct (f y) as [b|x'|]; cbn [bind]; [|cbn; auto|congruence].
    specialize (IH I). destruct (map_outcome f l); cbn in *; auto.
Qed.
(** However the indices are cut, whatever order the hash set has, and however the workers take turns:
    the proof built is the same. *)
Theorem C77_proof E (node_at : N -> outcome E bytes) t order indices pieces sched r :
  (forall i, In i indices -> i < 2 ^ 64) -> NoDup indices -> (forall i, node_at i <> Panic) ->
  hash_order (index_sets t indices) order ->
  concat pieces = map fst (sorted_indices order indices) ->
  par_build node_at order indices pieces sched = Some r ->
  same_result r (build node_at indices).
Proof.
  intros Hi Nd NP Ho Hp H. unfold par_build, build in *. rewrite (any_hash_order t order indices Hi Nd Ho) in *.
  set (im := compute_proof_indices_and_value_mask indices) in *.
  pose proof (par_collect_result (fun _ => true) node_at pieces sched (fun a _ => NP a)) as P.
  destruct (par_collect (fun _ => true) node_at pieces sched) as [[bs|x|]|]; [| |destruct P|discriminate]; injection H as <-; rewrite Hp in P.
  - assert (forall l : list N, filter (fun _ => true) l = l) as F by (induction l; cbn; congruence).
    rewrite F in P. rewrite P. cbn [bind]. destruct (calculate_max_stack_depth _); cbn; auto.
  - destruct P as (a & Ia & _ & Fa). cbn [bind]. revert Ia. generalize (map fst im). intros l Ia.
    assert (exists x', map_outcome node_at l = Err x') as (x' & ->); [|cbn; auto].
    induction l as [|y l IH]; [destruct Ia|]. cbn [map_outcome].
    destruct Ia as [->|I]; [rewrite Fa; cbn; eauto|]. pose proof (NP y). destruct (node_at y) as [b|x'|]; cbn [bind]; eauto; [|congruence].
    destruct (IH I) as (x' & ->). cbn. eauto.
Qed.
(** Workers finish: it suffices that each gets a turn for each of its items. *)
Theorem C77_workers_finish E A B (sel : A -> bool) (f : A -> outcome E B) pieces sched :
  (forall i piece, nth_error pieces i = Some piece -> (length piece <= turns_of i sched)%nat) ->
  exists r, par_collect sel f pieces sched = Some r.
Proof.
  intros H. pose proof (par_collect_done sel f pieces sched H) as D.
  destruct (par_collect sel f pieces sched); [eauto|congruence].
Qed.

(** *** Concrete cases *)
(** Five slots, the answers for the last slots first and in three polls. *)
Definition par_sched : list (arrivals N (option Block)) :=
  let a i := (i, ch_block h_chain (24 + N.of_nat i)) in [[a 4; a 3]; [a 1]; [a 2; a 0]]%nat.
Example C77_votes_nonvacuous :
  asked toy_cs [toy_l1; toy_l2] (map N.of_nat [24; 25; 26; 27; 28]%nat) /\
  answers_of (ch_block h_chain) (map N.of_nat [24; 25; 26; 27; 28]%nat) par_sched /\
  (forall s, ch_block h_chain s <> Panic) /\ all_answered 5 par_sched /\
  collect_concurrently toy_cs par_sched [toy_l1; toy_l2] = Some (Ok toy_atts) /\
  host_new_concurrently toy_cs h_chain par_sched (h_cp 9) 10 = Some (Ok (toy_state, toy_atts)).
Proof.
  split; [|split; [|split; [|split; [|split]]]].
  - exists 12, 13. split; [apply C40_nonvacuous|]. split; [vm_compute; reflexivity|]. split.
    + repeat constructor.
    + intros s. change (12 * slots_per_epoch toy_cs) with 24. change ((13 + 1) * slots_per_epoch toy_cs) with 28. cbn. lia.
  - intros p i r [<-|[<-|[<-|[]]]] H; cbn [In] in H; intuition; 
      match goal with H : (_, _) = (_, _) |- _ => injection H as <- <- end; eexists; split; reflexivity.
  - intros s. discriminate.
  - split; [discriminate|]. intros i L.
    destruct i as [|[|[|[|[|i]]]]]; [| | | | |lia]; unfold par_sched;
      [exists (nth 2 par_sched []) | exists (nth 1 par_sched []) | exists (nth 2 par_sched []) | exists (nth 0 par_sched []) | exists (nth 0 par_sched [])];
      eexists; (split; [cbn; auto|]); cbn [nth par_sched In]; eauto.
  - vm_compute. reflexivity.
  - vm_compute. reflexivity.
Qed.
(** More than 30 requests: answers in reverse order; an error late in the list arrives first. *)
Example C77_many : let f i := if Nat.eqb i 20 then Err 20 else if Nat.eqb i 33 then Err 33 else Ok (2 * i)%nat in
  try_join_all 34 [map (fun i => (i, f i)) (rev (seq 0 34))] = Some (@Err N (list nat) 20) /\
  try_join_all 20 [map (fun i => (i, f i)) (rev (seq 0 20))] = Some (Ok (map (fun i => 2 * i)%nat (seq 0 20))) /\
  try_join_all 34 [map (fun i => (i, f i)) (seq 21 13)] = None.
Proof. repeat split; vm_compute; reflexivity. Qed.
(** Three workers, the last one first; with an undecodable key the flag stops the others. *)
Example C77_validators_nonvacuous :
  let vs := enumerate 0 (st_validators (hs_state (h_hstate 26 h_vs13))) in
  let pieces := [firstn 2 vs; []; skipn 2 vs] in
  let sched := repeat (2%nat, false) 12 ++ repeat (0%nat, false) 2 in
  concat pieces = vs /\
  (exists l, par_active_from_state h_deserialize (h_hstate 26 h_vs13) 13 pieces sched = Some (Ok l) /\ (2 < length l)%nat /\
     active_from_state h_deserialize (h_hstate 26 h_vs13) 13 = Ok l) /\
  par_active_from_state (fun _ => None) (h_hstate 26 h_vs13) 13 pieces sched = Some (Err (RE_Other 1)).
Proof. cbv zeta. split; [|split]; [vm_compute; reflexivity| |vm_compute; reflexivity]. eexists. split; [vm_compute; reflexivity|]. split; [cbn; lia|vm_compute; reflexivity]. Qed.
(** The two helpers in the other order. *)
Example C77_proof_nonvacuous :
  hash_order (index_sets (Cut 1 Whole (Cut 0 Whole Whole)) [4; 7]) [6; 5] /\
  concat [[4]; [5; 6]; [7]] = map fst (sorted_indices [6; 5] [4; 7]) /\
  par_build (tree_oracle RootMismatch toyH toyT) [6; 5] [4; 7] [[4]; [5; 6]; [7]] [(2, false); (1, false); (0, false); (1, false)]%nat = Some (Ok toy_mp) /\
  build (tree_oracle RootMismatch toyH toyT) [4; 7] = Ok toy_mp.
Proof.
  split; [|repeat split; vm_compute; reflexivity]. split.
  - repeat constructor; cbn; intuition discriminate.
  - intros x. change (index_sets (Cut 1 Whole (Cut 0 Whole Whole)) [4; 7]) with ([5; 3; 6; 2], [4; 2; 7; 3]). cbn. lia.
Qed.

Print Assumptions C77_votes.
Print Assumptions C77_votes_answered.
Print Assumptions C77_votes_of_answers.
Print Assumptions C77_constructor.
Print Assumptions C77_same_error_refuted.
Print Assumptions C77_validators.
Print Assumptions C77_proof.
Print Assumptions C77_workers_finish.
