From Coq Require Import List ZArith NArith Bool Lia Arith.
From Coq Require Import ZifyBool ZifyNat ZifyN.
From Verif.Model Require Import Base Types ConsensusState Committee Verify GuestReader HostChain HostStore HostInput CliRun.
From Verif.Spec Require Import FFG Beacon VerifySpec HostInputSpec ReproSpec.
From Verif.Proof Require Import BaseLemmas ConsensusStateP VerifyP HostChainP HostStoreP HostInputP.
Import ListNotations.
Open Scope N_scope.

(** ** The search for links *)
Section Search.
  Variables (cs : ChainSpec) (c c' : Chain) (trusted : Checkpoint) (last : Epoch) (t : ConsensusState).
  Hypothesis Hlast : last + 1 < 2 ^ 64.
  Hypothesis Ht : ch_state c (start_slot cs last) = Ok t.
  Hypothesis Hfin : epoch trusted < epoch (finalized t).
  Hypothesis Hstate : forall x, epoch trusted < x <= last -> ch_state c (start_slot cs x) = ch_state c' (start_slot cs x).
  Hypothesis Hjust : forall x st, epoch trusted < x <= last -> ch_state c (start_slot cs x) = Ok st -> epoch (current_justified st) < x.

  Lemma find_same : forall f f' e0, epoch trusted < e0 <= last -> last - e0 < N.of_nat f -> last - e0 < N.of_nat f' ->
    find_from cs c trusted f e0 = find_from cs c' trusted f' e0 /\
    find_from cs c trusted f e0 <> None /\
    forall e, find_from cs c trusted f e0 = Some (Ok e) ->
      e0 <= e < last /\ exists st, ch_state c (start_slot cs e) = Ok st /\ finalized st = trusted.
  Proof.
    induction f as [|f IH]; intros f' e0 He Hf Hf'; [lia|]. destruct f' as [|f']; [lia|]. cbn [find_from].
    rewrite <- Hstate by lia. destruct (ch_state c (start_slot cs e0)) as [st|x|] eqn:E; cbn [map_err]; try (split; [reflexivity|split; [discriminate|intros; discriminate]]).
    destruct (checkpoint_eqb (finalized st) trusted) eqn:Q.
    - apply checkpoint_eqb_eq in Q. split; [reflexivity|]. split; [discriminate|]. intros e [= <-].
      assert (e0 <> last). { intros ->. rewrite Ht in E. injection E as <-. rewrite Q in Hfin. lia. }
      split; [lia|]. eauto.
    - destruct (epoch (finalized st) <? epoch trusted) eqn:L; [|split; [reflexivity|split; [discriminate|intros; discriminate]]].
      assert (e0 <> last). { intros ->. rewrite Ht in E. injection E as <-. lia. }
      rewrite wrap64_exact by lia. destruct (IH f' (e0 + 1) ltac:(lia) ltac:(lia) ltac:(lia)) as (I1 & I2 & I3).
      split; [exact I1|]. split; [exact I2|]. intros e He'. destruct (I3 e He') as [I4 I5]. split; [lia|exact I5].
  Qed.

  (** A checkpoint that some state of the window calls justified. *)
  Definition seen (p : Checkpoint) : Prop :=
    exists x st, epoch trusted < x <= last /\ ch_state c (start_slot cs x) = Ok st /\ p = current_justified st.
  Definition in_window (l : Link) : Prop := seen (source l) /\ seen (target l) /\ epoch trusted < epoch (target l) < last.
  Lemma justifications_same s0 : finalized s0 = trusted -> forall f f' e0 prev links,
    epoch trusted < e0 <= last -> last - e0 < N.of_nat f -> last - e0 < N.of_nat f' ->
    seen (current_justified prev) -> finalized prev = trusted -> Forall in_window links ->
    justifications_from cs c s0 prev links f e0 = justifications_from cs c' s0 prev links f' e0 /\
    justifications_from cs c s0 prev links f e0 <> None /\
    forall s u ls, justifications_from cs c s0 prev links f e0 = Some (Ok (s, u, ls)) -> s = s0 /\ Forall in_window ls.
  Proof.
    intros Hs0. induction f as [|f IH]; intros f' e0 prev links He Hf Hf' Hp Hpf Hl; [lia|]. destruct f' as [|f']; [lia|].
    cbn [justifications_from]. rewrite <- Hstate by lia.
    destruct (ch_state c (start_slot cs e0)) as [cur|x|] eqn:E; cbn [map_err bind];
      try (split; [reflexivity|split; [discriminate|intros; discriminate]]).
    destruct (transition_link prev cur) as [o|x|] eqn:Q; cbn [map_err bind];
      try (split; [reflexivity|split; [discriminate|intros; discriminate]]).
    assert (Sc : seen (current_justified cur)) by (exists e0, cur; auto).
    assert (Hl' : Forall in_window (match o with Some l => links ++ [l] | None => links end)).
    { destruct o as [l|]; [|exact Hl]. apply Forall_app. split; [exact Hl|]. constructor; [|constructor].
      apply transition_link_cases in Q as (Qv & Qs & _). unfold in_window.
      pose proof (Hjust e0 cur He E) as J.
      assert (source l = current_justified prev /\ target l = current_justified cur /\ epoch (current_justified prev) < epoch (target l)) as (S1 & S2 & S3)
        by (inversion Qs; subst; cbn [source target current_justified]; repeat split; lia).
      rewrite S1, S2. split; [exact Hp|]. split; [exact Sc|]. split; [|lia]. rewrite S2 in S3.
      destruct Qv as [Qv|Qv]; [rewrite Hpf in Qv; lia|]. rewrite Qv in Hpf, S3. cbn in Hpf, S3. rewrite <- Hpf. cbn. lia. }
    destruct (checkpoint_eqb (finalized cur) (finalized s0)) eqn:L.
    - apply checkpoint_eqb_eq in L.
      assert (e0 <> last). { intros ->. rewrite Ht in E. injection E as <-. rewrite L, Hs0 in Hfin. lia. }
      rewrite wrap64_exact by lia. apply IH; auto; try lia. congruence.
    - split; [reflexivity|]. split; [discriminate|]. intros s u ls [= <- <- <-]. auto.
  Qed.

End Search.
Section Collect.
  Variables (cs : ChainSpec) (c c' : Chain) (trusted : Checkpoint) (last : Epoch).
  Hypothesis Hfit : (last + 1) * slots_per_epoch cs < 2 ^ 64.
  Hypothesis Hblock : forall s, (epoch trusted + 1) * slots_per_epoch cs <= s <= last * slots_per_epoch cs -> ch_block c s = ch_block c' s.
  Lemma collect_same links : last + 1 < 2 ^ 64 -> Forall (in_window cs c trusted last) links ->
    collect_attestations_for_links cs c links = collect_attestations_for_links cs c' links.
  Proof.
    intros Hlast Hw. destruct links as [|l r]; [reflexivity|]. cbn [collect_attestations_for_links]. cbv zeta.
    set (start := sat_mul (min_target l r) _). set (stop := sat_mul (sat_add _ _) _).
    assert (map_outcome (fun sl => map_err HOther (ch_block c sl)) (epoch_range start stop)
            = map_outcome (fun sl => map_err HOther (ch_block c' sl)) (epoch_range start stop)) as ->; [|reflexivity].
    assert (W : forall sl, In sl (epoch_range start stop) -> ch_block c sl = ch_block c' sl).
    { intros sl Hi. apply (proj2 (epoch_range_slots start stop)) in Hi. apply Hblock. rewrite Forall_forall in Hw.
      destruct (min_target_spec r l) as [_ (x & Hx & Ex)]. destruct (max_target_spec r l) as [_ (y & Hy & Ey)].
      destruct (Hw x Hx) as (_ & _ & X1). destruct (Hw y Hy) as (_ & _ & Y1). rewrite Ex in X1. rewrite Ey in Y1.
      assert (start <= sl <= stop) as Hs by lia. clear Hi.
      assert (A : forall a, a <= last -> a * slots_per_epoch cs <= last * slots_per_epoch cs) by (intros; now apply N.mul_le_mono_r).
      assert (L : last * slots_per_epoch cs < 2 ^ 64). { eapply N.le_lt_trans; [|exact Hfit]. apply N.mul_le_mono_r. lia. }
      assert (start = min_target l r * slots_per_epoch cs) as Es.
      { unfold start, sat_mul, u64_max, two64. pose proof (A (min_target l r) ltac:(lia)). lia. }
      assert (stop = (max_target l r + 1) * slots_per_epoch cs) as Et.
      { unfold stop, sat_mul, sat_add, u64_max, two64. pose proof (A (max_target l r + 1) ltac:(lia)).
        rewrite (N.min_l (max_target l r + 1)) by lia. lia. }
      pose proof (A (max_target l r + 1) ltac:(lia)).
      assert ((epoch trusted + 1) * slots_per_epoch cs <= min_target l r * slots_per_epoch cs) by (apply N.mul_le_mono_r; lia). lia. }
    clear Hw. clearbody start stop. induction (epoch_range start stop) as [|s ss IH]; [reflexivity|]. cbn [map_outcome].
    rewrite W by now left. destruct (map_err HOther (ch_block c' s)) as [b|?|]; cbn [bind]; auto. rewrite IH; [reflexivity|]. intros x Hx. apply W. now right.
  Qed.
End Collect.

Lemma run_finalized a ls b : ffg_run a ls b -> finalized b = finalized a \/ exists l, In l ls /\ finalized b = source l.
Proof.
  induction 1 as [a|a l a1 ls b Hs Hr [IH|(x & X1 & X2)]]; [now left| |].
  - inversion Hs; subst; cbn [finalized] in *; [|now left]. right. eexists. split; [now left|]. exact IH.
  - right. exists x. split; [now right|exact X2].
Qed.

(** The attestations collected for links are votes for them. *)
Lemma lm_remove_in m l : forall x, In x (fst (lm_remove m l)) -> exists g, In (l, g) m /\ In x g.
Proof.
  induction m as [|[k v] m IH]; intros x H; cbn [lm_remove] in H; [contradiction|]. destruct (link_eqb l k) eqn:E.
  - apply link_eqb_eq in E. subst k. exists v. split; [now left|exact H].
  - destruct (lm_remove m l) as [y m']. cbn [fst] in *. destruct (IH x H) as (g & G1 & G2). exists g. split; [now right|exact G2].
Qed.
Definition keyed (m : link_map) : Prop := forall k g a, In (k, g) m -> In a g -> att_link a = k.
Lemma lm_remove_keyed m l : keyed m -> keyed (snd (lm_remove m l)).
Proof.
  intros Hk k g a H Ha. apply (Hk k g a); [|exact Ha]. clear - H. induction m as [|[k' v] m IH]; cbn [lm_remove] in H; [exact H|].
  destruct (link_eqb l k'); [now right|]. destruct (lm_remove m l) as [y m']. cbn [snd] in *. destruct H as [H|H]; [now left|right; auto].
Qed.
Lemma assemble_links links : forall m a, keyed m -> In a (assemble m links) -> In (att_link a) links.
Proof.
  induction links as [|l r IH]; intros m a Hk H; cbn [assemble] in H; [contradiction|].
  destruct (lm_remove m l) as [x m'] eqn:E. apply in_app_or in H as [H|H].
  - left. replace x with (fst (lm_remove m l)) in H by now rewrite E. apply lm_remove_in in H as (g & G1 & G2). symmetry. eapply Hk; eauto.
  - right. apply (IH m'); [|exact H]. replace m' with (snd (lm_remove m l)) by now rewrite E. now apply lm_remove_keyed.
Qed.
Lemma lm_push_keyed m a : keyed m -> keyed (lm_push m (att_link a) a).
Proof.
  intros Hk k g b H Hb. induction m as [|[k' v] m IH]; cbn [lm_push] in H.
  - destruct H as [[= <- <-]|[]]. destruct Hb as [<-|[]]. reflexivity.
  - destruct (link_eqb (att_link a) k') eqn:E.
    + apply link_eqb_eq in E. destruct H as [[= <- <-]|H]; [|apply (Hk k g b); [now right|exact Hb]].
      apply in_app_or in Hb as [Hb|[<-|[]]]; [apply (Hk k' v b); [now left|exact Hb]|exact E].
    + destruct H as [[= <- <-]|H]; [apply (Hk k' v b); [now left|exact Hb]|]. apply IH; [|exact H].
      intros k1 g1 b1 H1. apply Hk. now right.
Qed.
Lemma index_keyed obs : forall m m', keyed m -> fold_outcome index_block obs m = Ok m' -> keyed m'.
Proof.
  induction obs as [|o obs IH]; intros m m' Hk H; cbn [fold_outcome] in H; [now injection H as <-|].
  apply bind_ok in H as (m1 & H1 & H). apply (IH m1); [|exact H]. clear - Hk H1. destruct o as [b|]; cbn [index_block] in H1; [|now injection H1 as <-].
  destruct (bl_electra b); [|discriminate]. injection H1 as <-. revert m Hk.
  induction (bl_attestations b) as [|a l IH]; intros m Hk; cbn [fold_left]; [exact Hk|]. apply IH. now apply lm_push_keyed.
Qed.
Lemma collected_links cs c links atts a : collect_attestations_for_links cs c links = Ok atts -> In a atts -> In (att_link a) links.
Proof.
  destruct links as [|l r]; [now intros [= <-]|]. cbn [collect_attestations_for_links]. cbv zeta. intros H Ha.
  apply bind_ok in H as (bs & _ & H). apply bind_ok in H as (m & Hm & H). injection H as H. change (assemble m (l :: r) = atts) in H. subst atts.
  revert Ha. apply assemble_links. apply (index_keyed bs []); [|exact Hm]. intros k g b [].
Qed.

Lemma host_new_finalized cs c trusted f s atts : host_new cs c trusted f = Some (Ok (s, atts)) -> finalized s = trusted.
Proof.
  unfold host_new. destruct (find_finalization_epoch cs c trusted f) as [[e|x|]|]; try discriminate.
  destruct (get_justifications_until_new_finality cs c e f) as [r|]; [|discriminate]. intros [= H].
  apply bind_ok in H as ([[s1 s2] ls] & _ & H). apply bind_ok in H as (u & Ha & H). apply bind_ok in H as (a & _ & H). injection H as <- <-.
  apply assert_ok in Ha. now apply checkpoint_eqb_eq.
Qed.
Lemma host_new_same cs c c' trusted last t f f' :
  (last + 1) * slots_per_epoch cs < 2 ^ 64 -> last + 1 < 2 ^ 64 -> epoch trusted < last ->
  ch_state c (start_slot cs last) = Ok t -> epoch trusted < epoch (finalized t) ->
  (forall x, epoch trusted < x <= last -> ch_state c (start_slot cs x) = ch_state c' (start_slot cs x)) ->
  (forall x st, epoch trusted < x <= last -> ch_state c (start_slot cs x) = Ok st -> epoch (current_justified st) < x) ->
  (forall s, (epoch trusted + 1) * slots_per_epoch cs <= s <= last * slots_per_epoch cs -> ch_block c s = ch_block c' s) ->
  last - epoch trusted <= N.of_nat f -> last - epoch trusted <= N.of_nat f' ->
  host_new cs c trusted f = host_new cs c' trusted f' /\ host_new cs c trusted f <> None /\
  forall s atts, host_new cs c trusted f = Some (Ok (s, atts)) ->
    (exists x, epoch trusted < x <= last /\ ch_state c (start_slot cs x) = Ok s) /\
    forall a, In a atts -> in_window cs c trusted last (att_link a).
Proof.
  intros H1 H2 H3 H4 H5 H6 H7 H8 H9 H10. unfold host_new, find_finalization_epoch. rewrite wrap64_exact by lia.
  destruct (find_same cs c c' trusted last t H2 H4 H5 H6 H7 f f' (epoch trusted + 1) ltac:(lia) ltac:(lia) ltac:(lia)) as (F1 & F2 & F3).
  rewrite <- F1. destruct (find_from cs c trusted f (epoch trusted + 1)) as [[e|x|]|] eqn:Ef;
    try (split; [reflexivity|split; [discriminate|intros; discriminate]]); [|contradiction].
  destruct (F3 e eq_refl) as (Fe & s0 & Fs & Ff).
  unfold get_justifications_until_new_finality. rewrite <- H6 by lia. rewrite Fs. cbn [map_err]. rewrite wrap64_exact by lia.
  destruct (justifications_same cs c c' trusted last t H2 H4 H5 H6 H7 s0 Ff f f' (e + 1) s0 []) as (J1 & J2 & J3); auto; try lia.
  { exists e, s0. split; [lia|]. auto. }
  rewrite <- J1. destruct (justifications_from cs c s0 s0 [] f (e + 1)) as [r|]; [|contradiction].
  destruct r as [[[s u] ls]|x|]; cbn [bind]; try (split; [reflexivity|split; [discriminate|intros; discriminate]]).
  destruct (J3 s u ls eq_refl) as [-> Jw]. rewrite (proj2 (checkpoint_eqb_eq _ _) Ff). cbn [assert_ bind].
  rewrite (collect_same cs c c' trusted last H1 H8 ls H2 Jw) at 1. split; [reflexivity|]. split; [discriminate|].
  intros s atts H. injection H as H. apply bind_ok in H as (atts' & Ha & H). injection H as <- <-.
  split; [exists e; split; [lia|exact Fs]|]. intros a Hi. rewrite Forall_forall in Jw. apply Jw. eapply collected_links; eauto.
Qed.

(** ** Building the input *)
Section ToInput.
  Variables (X : Externals) (cs : ChainSpec) (pkd : bytes -> option PublicKey).
  Variables (states states' : Slot -> answer HState) (headers headers' : Root -> outcome N (option Header)).

  Lemma patches_same trusted vs reads : reads_wf reads ->
    (forall e, In e (rs_validator_epochs reads) \/ bm_get (rs_mix_epochs reads) e <> None -> states (start_slot cs e) = states' (start_slot cs e)) ->
    state_patches cs states trusted vs reads = state_patches cs states' trusted vs reads.
  Proof.
    intros [Wm _] H. unfold state_patches.
    assert (E : forall m e, In e (rs_validator_epochs reads) \/ bm_get (rs_mix_epochs reads) e <> None ->
      patch_entry cs states m e = patch_entry cs states' m e).
    { intros m e He. unfold patch_entry, patch_builder. now rewrite H. }
    assert (F1 : forall l m, incl l (rs_mix_epochs reads) ->
      fold_outcome (mix_step cs states) l m = fold_outcome (mix_step cs states') l m).
    { induction l as [|[e ix] l IH]; intros m Hi; [reflexivity|]. cbn [fold_outcome].
      assert (mix_step cs states m (e, ix) = mix_step cs states' m (e, ix)) as ->.
      { unfold mix_step. cbn [fst]. rewrite E; [reflexivity|]. right. rewrite (bm_in_get _ e ix Wm); [discriminate|]. apply Hi. now left. }
      destruct (mix_step cs states' m (e, ix)); cbn [bind]; auto. apply IH. intros x Hx. apply Hi. now right. }
    rewrite F1 by apply incl_refl. destruct (fold_outcome (mix_step cs states') (rs_mix_epochs reads) []) as [m1|?|]; cbn [bind]; auto.
    assert (F2 : forall l m, incl l (rs_validator_epochs reads) ->
      fold_outcome (exit_step cs states trusted vs) l m = fold_outcome (exit_step cs states' trusted vs) l m).
    { induction l as [|e l IH]; intros m Hi; [reflexivity|]. cbn [fold_outcome].
      assert (exit_step cs states trusted vs m e = exit_step cs states' trusted vs m e) as ->.
      { unfold exit_step. destruct (e =? trusted); [reflexivity|]. rewrite E; [reflexivity|]. left. apply Hi. now left. }
      destruct (exit_step cs states' trusted vs m e); cbn [bind]; auto. apply IH. intros x Hx. apply Hi. now right. }
    now rewrite F2 by apply incl_refl.
  Qed.

  Lemma boundary_same e lo :
    states (start_slot cs e) = states' (start_slot cs e) ->
    (forall st, states (start_slot cs e) = Ok st -> lo <= hd_slot (hs_header st) <= start_slot cs e) ->
    (forall s, lo <= s <= start_slot cs e -> states s = states' s) ->
    state_at_epoch_boundary (fun s => st_slot (hs_state s)) (fun s => hd_slot (hs_header s)) states cs e
    = state_at_epoch_boundary (fun s => st_slot (hs_state s)) (fun s => hd_slot (hs_header s)) states' cs e.
  Proof.
    intros H1 H2 H3. unfold state_at_epoch_boundary, state_at_epoch. rewrite <- H1.
    destruct (states (start_slot cs e)) as [st|?|] eqn:E; cbn [bind]; auto.
    destruct (hd_slot (hs_header st) =? st_slot (hs_state st)); [reflexivity|]. apply H3. now apply H2.
  Qed.

  Lemma to_input_same trusted cst atts post :
    state_at_epoch_boundary (fun s => st_slot (hs_state s)) (fun s => hd_slot (hs_header s)) states cs (epoch trusted)
    = state_at_epoch_boundary (fun s => st_slot (hs_state s)) (fun s => hd_slot (hs_header s)) states' cs (epoch trusted) ->
    states (start_slot cs (epoch trusted)) = states' (start_slot cs (epoch trusted)) ->
    (forall e, In e (target_epochs atts) -> states (start_slot cs e) = states' (start_slot cs e)) ->
    headers (root (finalized post)) = headers' (root (finalized post)) ->
    to_input X cs pkd states headers trusted (host_reader cs pkd states headers cst atts) (recorded_reads X cs atts post)
    = to_input X cs pkd states' headers' trusted (host_reader cs pkd states' headers' cst atts) (recorded_reads X cs atts post).
  Proof.
    intros H1 H2 H3 H4. unfold to_input, state_at_checkpoint. rewrite H1.
    destruct (state_at_epoch_boundary _ _ states' cs (epoch trusted)) as [st|?|]; cbn [bind map_err]; auto.
    destruct (ensure _ _) as [?|?|]; cbn [bind map_err]; auto.
    destruct (block_multiproof _ _) as [bp|?|]; cbn [bind]; auto. destruct (map_err HI_Proof _) as [?|?|]; cbn [bind]; auto.
    destruct (ensure _ _) as [?|?|]; cbn [bind]; auto. destruct (build_state_multiproof _ _) as [sp|?|]; cbn [bind]; auto.
    destruct (map_err HI_Proof _) as [?|?|]; cbn [bind]; auto.
    cbn [host_reader rd_active_validators rd_consensus_state rd_attestations]. unfold reader_state. rewrite H2.
    destruct (map_err HI_Reader _) as [active|?|]; cbn [bind]; auto.
    destruct (validators_multiproof _ _ _ _ _) as [[vp keys]|?|]; cbn [bind]; auto. destruct (map_err HI_Proof _) as [?|?|]; cbn [bind]; auto.
    destruct (recorded_reads_ok X cs atts post) as (R1 & R2 & R3 & R4).
    rewrite (patches_same (epoch trusted) _ _ R1).
    2:{ intros e He. apply H3. destruct He as [He|He]; [now apply R3|]. rewrite R4 in He.
        destruct (existsb (N.eqb e) (target_epochs atts)) eqn:Q; [|contradiction]. apply existsb_exists in Q as (x & Q1 & Q2). apply N.eqb_eq in Q2. now subst. }
    destruct (state_patches _ _ _ _ _) as [patches|?|]; cbn [bind]; auto.
    rewrite R2. cbn [map_outcome]. unfold block_slot_proof. now rewrite H4.
  Qed.
End ToInput.
