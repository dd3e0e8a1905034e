(** C58-C60: the [build-input] and [sync] commands. *)
From Coq Require Import List Arith ZArith NArith Bool Lia Sorted.
From Coq Require Import ZifyBool ZifyNat ZifyN.
From Coq.Init Require Import Byte.
From Verif.Model Require Import Base Types ConsensusState Multiproof Verify GuestReader Guest HostChain HostStore HostInput Cli CliRun.
From Verif.Spec Require FFG.
From Verif.Spec Require Import Merkle Ssz Beacon GuestSpec Committees VerifySpec HostSpec Pipeline HostInputSpec CliSpec.
From Verif.Proof Require Import BaseLemmas VerifyP VerifyMoreP GuestP EndToEndP HostChainP HostInputP HostGuestP ReplayP PreflightP PipelineP.
From Verif.Props Require Import ConsensusProps VerifyProps HostChainProps CliProps GuestToy HostToy HostInputProps ReplayProps PipelineProps.
Import ListNotations.
Open Scope N_scope.
Notation length := List.length.

(** ** C58: the sequence of inputs *)
Lemma prepare_advances X cs pkd cfg n e gi pre post slot :
  vw_prepare (view X cs pkd cfg n) e = Ok (gi, pre, post, slot) ->
  epoch (finalized pre) = e /\ e < epoch (finalized post) /\ gi_consensus_state gi = pre.
Proof.
  intros H. cbn [view vw_prepare] in H.
  destruct (prepare_input_inv _ _ _ _ _ _ _ _ _ _ _ _ _ (collect_from_ok cs (nd_chain n) (nd_fuel n)) H) as (P1 & P2 & P3 & _).
  split; [exact P2|]. split; [|exact P1].
  destruct (C10_result_bounds _ _ _ _ _ pre P3 eq_refl) as (B & _). now rewrite P2 in B.
Qed.
(** Every input is for the epoch finalized by the transition before (the first for the requested
    epoch), the epochs ascend strictly, and an input is only built when the chain has finalized a later
    epoch, from what the node shows at that moment. *)
Theorem C58_inputs_in_order X cs pk_deserialize cfg continuous : forall nodes e bs st,
  build_loop continuous (map (view X cs pk_deserialize cfg) nodes) e = (bs, st) ->
  (forall b r, bs = b :: r -> b_epoch b = e) /\
  (forall p a b r, bs = p ++ a :: b :: r -> b_epoch b = epoch (finalized (b_post a)) /\ b_epoch a < b_epoch b) /\
  (forall b, In b bs -> exists n, In n nodes /\
     prepare_input X cs pk_deserialize (nd_states n) (nd_headers n) (nd_blocks n) (collect_from cs (nd_chain n) (nd_fuel n)) cfg (b_epoch b)
       = Ok (b_input b, b_pre b, b_post b, b_slot b) /\
     epoch (finalized (b_pre b)) = b_epoch b /\ b_epoch b < epoch (finalized (b_post b)) /\
     exists fin, nd_finalized n = Ok fin /\ (b_epoch b < 2 ^ 64 - 1 -> b_epoch b < fin)) /\
  (continuous = false -> (length bs <= 1)%nat).
Proof.
  induction nodes as [|n nodes IH]; intros e bs st H; cbn [map build_loop] in H.
  - injection H as <- <-. repeat split; try discriminate; cbn; try tauto; [destruct p; discriminate H|destruct p; discriminate H|lia].
  - cbn [view vw_finalized] in H. destruct (nd_finalized n) as [fin| |] eqn:Ef.
    2,3: injection H as <- <-; repeat split; try discriminate; cbn; try tauto; [destruct p; discriminate H|destruct p; discriminate H|lia].
    destruct (N.ltb_spec fin (wrap64 (e + 1))) as [Hw|Hw].
    { destruct (IH _ _ _ H) as (A & B & C & D). repeat split; auto; try (now apply B with p a b r).
      - now destruct (B _ _ _ _ H0).
      - now destruct (B _ _ _ _ H0).
      - intros b Hb. destruct (C b Hb) as (m & Hm & Hr). exists m. split; [now right|exact Hr]. }
    change (prepare_input _ _ _ _ _ _ _ _ e) with (vw_prepare (view X cs pk_deserialize cfg n) e) in H.
    destruct (vw_prepare (view X cs pk_deserialize cfg n) e) as [[[[gi pre] post] slot]| |] eqn:Ep.
    2,3: injection H as <- <-; repeat split; try discriminate; cbn; try tauto; [destruct p; discriminate H|destruct p; discriminate H|lia].
    destruct (prepare_advances _ _ _ _ _ _ _ _ _ _ Ep) as (P1 & P2 & P3).
    assert (Here : exists n0, In n0 (n :: nodes) /\
       prepare_input X cs pk_deserialize (nd_states n0) (nd_headers n0) (nd_blocks n0) (collect_from cs (nd_chain n0) (nd_fuel n0)) cfg e
         = Ok (gi, pre, post, slot) /\ epoch (finalized pre) = e /\ e < epoch (finalized post) /\
       exists fin, nd_finalized n0 = Ok fin /\ (e < 2 ^ 64 - 1 -> e < fin)).
    { exists n. split; [now left|]. split; [exact Ep|]. split; [exact P1|]. split; [exact P2|]. exists fin. split; [exact Ef|].
      intros He. unfold wrap64, two64 in Hw. rewrite N.mod_small in Hw by lia. lia. }
    destruct continuous.
    + destruct (build_loop true _ (epoch (finalized post))) as [bs' st'] eqn:Eb. injection H as <- <-.
      destruct (IH _ _ _ Eb) as (A & B & C & D). repeat split.
      * intros b r Hb. injection Hb as <- _. reflexivity.
      * destruct p as [|x p]; cbn [app] in H; injection H as <- ->; [exact (A _ _ eq_refl)|now apply (B p a b r)].
      * destruct p as [|x p]; cbn [app] in H; injection H as <- ->; [cbn [b_epoch]; now rewrite (A _ _ eq_refl)|now apply (B p a b r)].
      * intros b [<-|Hb]; [exact Here|]. destruct (C b Hb) as (m & Hm & Hr). exists m. split; [now right|exact Hr].
      * discriminate.
    + injection H as <- <-. repeat split.
      * intros b r Hb. injection Hb as <- _. reflexivity.
      * destruct p as [|x [|y p]]; discriminate H.
      * destruct p as [|x [|y p]]; discriminate H.
      * intros b [<-|[]]. exact Here.
      * cbn. lia.
Qed.
Lemma last_cons_default (bs : list Built) : forall x e,
  last (x :: map (fun b => epoch (finalized (b_post b))) bs) e = last (map (fun b => epoch (finalized (b_post b))) bs) x.
Proof.
  intros x e. destruct bs as [|b r]; [reflexivity|]. cbn [map]. generalize (epoch (finalized (b_post b))). clear b. induction r as [|c r IH]; intros y; [reflexivity|].
  cbn [map]. exact (IH _).
Qed.
(** How a run ends: it stops by itself only in one-shot mode, after its one input; it goes on while
    the node answers, from the epoch reached; it fails only when the node does not name its finalized
    epoch, or preparing the input for the epoch reached fails although a later one is finalized. As
    long as it waits the node has finalized nothing later. *)
Theorem C58_ending X cs pk_deserialize cfg continuous : forall nodes e bs st,
  build_loop continuous (map (view X cs pk_deserialize cfg) nodes) e = (bs, st) ->
  let reached := last (map (fun b => epoch (finalized (b_post b))) bs) e in
  match st with
  | Done => continuous = false /\ length bs = 1%nat
  | Running e' => e' = reached /\ (continuous = false -> bs = []) /\
      (bs = [] -> e < 2 ^ 64 - 1 -> forall n, In n nodes -> exists fin, nd_finalized n = Ok fin /\ fin <= e)
  | Failed => (continuous = false -> bs = []) /\ exists n, In n nodes /\
      ((forall fin, nd_finalized n <> Ok fin) \/
       (exists fin, nd_finalized n = Ok fin /\ (reached < 2 ^ 64 - 1 -> reached < fin) /\
        forall r, prepare_input X cs pk_deserialize (nd_states n) (nd_headers n) (nd_blocks n) (collect_from cs (nd_chain n) (nd_fuel n)) cfg reached <> Ok r))
  end.
Proof.
  induction nodes as [|n nodes IH]; intros e bs st H; cbn [map build_loop] in H.
  - injection H as <- <-. cbn. repeat split; tauto.
  - cbn [view vw_finalized] in H. destruct (nd_finalized n) as [fin| |] eqn:Ef.
    2,3: injection H as <- <-; split; [reflexivity|]; exists n; split; [now left|]; left; intros f Hf; congruence.
    destruct (N.ltb_spec fin (wrap64 (e + 1))) as [Hw|Hw].
    { specialize (IH _ _ _ H). destruct st as [e'| |].
      - destruct IH as (A & B & C). split; [exact A|]. split; [exact B|]. intros Hb He m [<-|Hm]; [|now apply C].
        exists fin. split; [exact Ef|]. unfold wrap64, two64 in Hw. rewrite N.mod_small in Hw by lia. lia.
      - exact IH.
      - destruct IH as (A & m & Hm & B). split; [exact A|]. exists m. split; [now right|exact B]. }
    change (prepare_input _ _ _ _ _ _ _ _ e) with (vw_prepare (view X cs pk_deserialize cfg n) e) in H.
    assert (Hfin : e < 2 ^ 64 - 1 -> e < fin) by (intros He; unfold wrap64, two64 in Hw; rewrite N.mod_small in Hw by lia; lia).
    destruct (vw_prepare (view X cs pk_deserialize cfg n) e) as [[[[gi pre] post] slot]| |] eqn:Ep.
    2,3: injection H as <- <-; split; [reflexivity|]; exists n; split; [now left|]; right; exists fin; split; [exact Ef|]; split; [exact Hfin|];
      intros r Hr; cbn [last map] in Hr; change (vw_prepare (view X cs pk_deserialize cfg n) e = Ok r) in Hr; congruence.
    destruct continuous; [|injection H as <- <-; split; reflexivity].
    destruct (build_loop true _ (epoch (finalized post))) as [bs' st'] eqn:Eb. injection H as <- <-.
    specialize (IH _ _ _ Eb). cbn [map b_post]. rewrite (last_cons_default bs').
    destruct st' as [e'| |].
    + destruct IH as (A & _ & _). split; [exact A|]. split; [discriminate|]. discriminate.
    + destruct IH as [A _]. discriminate.
    + destruct IH as (_ & m & Hm & B). split; [discriminate|]. exists m. split; [now right|exact B].
Qed.
(** One-shot mode builds exactly the first input of continuous mode. *)
Theorem C58_one_shot : forall views e b r st,
  build_loop true views e = (b :: r, st) -> build_loop false views e = ([b], Done).
Proof.
  induction views as [|v views IH]; intros e b r st H; cbn [build_loop] in *; [discriminate|].
  destruct (vw_finalized v) as [fin| |]; try discriminate. destruct (fin <? wrap64 (e + 1)); [now apply IH in H|].
  destruct (vw_prepare v e) as [[[[gi pre] post] slot]| |]; try discriminate.
  destruct (build_loop true views (epoch (finalized post))). injection H as <- _ _. reflexivity.
Qed.

(** *** Files *)
Lemma file_eqb_eq a b : file_eqb a b = true <-> a = b.
Proof. destruct a, b; cbn; try rewrite N.eqb_eq; split; congruence. Qed.
Lemma put_same d f b : put d f b f = Some b.
Proof. unfold put. now rewrite (proj2 (file_eqb_eq f f) eq_refl). Qed.
Lemma put_other d f g b : g <> f -> put d f b g = d g.
Proof. unfold put. intros H. destruct (file_eqb g f) eqn:E; [|reflexivity]. apply file_eqb_eq in E. easy. Qed.
Definition files_of (e : Epoch) (f : file) : Prop := f = InputFile e \/ f = JournalFile e.
Lemma build_ops_here encode d b :
  apply_ops d (build_ops encode b) (InputFile (b_epoch b)) = Some (encode_input_stdin (encode (b_input b))) /\
  apply_ops d (build_ops encode b) (JournalFile (b_epoch b)) = Some (journal_encode (b_pre b) (b_post b) (b_slot b)).
Proof.
  unfold apply_ops, build_ops. cbn [fold_left apply_op].
  repeat (rewrite put_same || rewrite put_other by discriminate). split; reflexivity.
Qed.
Lemma build_ops_other encode d b f : ~ files_of (b_epoch b) f -> apply_ops d (build_ops encode b) f = d f.
Proof.
  intros H. assert (f <> InputFile (b_epoch b) /\ f <> JournalFile (b_epoch b)) as [H1 H2] by (unfold files_of in H; tauto).
  unfold apply_ops, build_ops. cbn [fold_left apply_op]. now rewrite !put_other by assumption.
Qed.
Lemma build_disk_cons encode d b bs : build_disk encode d (b :: bs) = build_disk encode (apply_ops d (build_ops encode b)) bs.
Proof. unfold build_disk, apply_ops. cbn [flat_map]. now rewrite fold_left_app. Qed.
Lemma build_disk_other encode : forall bs d f, (forall b, In b bs -> ~ files_of (b_epoch b) f) -> build_disk encode d bs f = d f.
Proof.
  induction bs as [|b bs IH]; intros d f H; [reflexivity|]. rewrite build_disk_cons, IH by (intros; apply H; now right).
  apply build_ops_other. apply H. now left.
Qed.
Lemma build_disk_in encode : forall bs d b, NoDup (map b_epoch bs) -> In b bs ->
  build_disk encode d bs (InputFile (b_epoch b)) = Some (encode_input_stdin (encode (b_input b))) /\
  build_disk encode d bs (JournalFile (b_epoch b)) = Some (journal_encode (b_pre b) (b_post b) (b_slot b)).
Proof.
  induction bs as [|a bs IH]; intros d b Hd Hb; [easy|]. inversion Hd as [|? ? Ha Hd']; subst. rewrite build_disk_cons.
  destruct Hb as [->|Hb]; [|now apply IH].
  rewrite !build_disk_other.
  - apply build_ops_here.
  - intros c Hc [H|H]; [discriminate|]. injection H as H. apply Ha. rewrite H. now apply (in_map b_epoch).
  - intros c Hc [H|H]; [|discriminate]. injection H as H. apply Ha. rewrite H. now apply (in_map b_epoch).
Qed.
Lemma in_order_nodup X cs pkd cfg continuous nodes e bs st :
  build_loop continuous (map (view X cs pkd cfg) nodes) e = (bs, st) -> NoDup (map b_epoch bs).
Proof.
  intros H. destruct (C58_inputs_in_order _ _ _ _ _ _ _ _ _ H) as (_ & B & _). clear H. apply bs_sorted_NoDup.
  revert B. induction bs as [|a bs IH]; intros B; cbn [map]; [constructor|].
  assert (IH' : StronglySorted N.lt (map b_epoch bs)).
  { apply IH. intros p x y r E. apply (B (a :: p) x y r). now rewrite E. }
  constructor; [exact IH'|]. destruct bs as [|b bs]; [constructor|].
  destruct (B [] a b bs eq_refl) as [_ B1]. cbn [map] in *. inversion IH' as [|? ? S F]; subst. constructor; [exact B1|].
  eapply Forall_impl; [|exact F]. cbn. intros x. lia.
Qed.
(** After a run of any length the two files of every built epoch hold the framed input and the
    predicted journal, whatever the directory held before; no other file has changed. *)
Theorem C58_files X cs pk_deserialize cfg continuous nodes e bs st encode d :
  build_loop continuous (map (view X cs pk_deserialize cfg) nodes) e = (bs, st) ->
  (forall b, In b bs ->
     build_disk encode d bs (InputFile (b_epoch b)) = Some (encode_input_stdin (encode (b_input b))) /\
     build_disk encode d bs (JournalFile (b_epoch b)) = Some (journal_encode (b_pre b) (b_post b) (b_slot b))) /\
  (forall f, (forall b, In b bs -> f <> InputFile (b_epoch b) /\ f <> JournalFile (b_epoch b)) -> build_disk encode d bs f = d f).
Proof.
  intros H. split.
  - intros b Hb. apply build_disk_in; [|exact Hb]. eapply in_order_nodup; eauto.
  - intros f Hf. apply build_disk_other. intros b Hb [E|E]; now destruct (Hf b Hb).
Qed.

(** *** On an honest chain *)
Lemma honest_verifies X bits cs pkd cfg n trusted s t slot : far_future_epoch cs = 2 ^ 64 - 1 ->
  sane_spec X cs -> sane_spec (on_platform X bits) cs -> shuffle_permutes X ->
  honest_node X bits cs pkd cfg n trusted s t slot ->
  exists gi, vw_prepare (view X cs pkd cfg n) (epoch trusted) = Ok (gi, s, t, slot) /\ gi_consensus_state gi = s /\ FFG.valid_state s /\
    exists r, into_reader (on_platform X bits) cs gi = Ok r /\ verify (on_platform X bits) cfg (guest_reader r) = Ok (t, slot).
Proof.
  intros Hff S1 S2 Hsh (e & us & ls & bs & st & active & h & [N W (F1 & F2 & F3) V (H1 & H2 & <-) (T1 & T2 & T3) D A Sd Ex (E1 & E2 & E3) (R1 & R2 & R3)]).
  destruct (pipeline_core X bits cs pkd (nd_states n) (nd_headers n) (nd_blocks n) (nd_chain n) (nd_fuel n) cfg trusted e s us t ls bs st active h) as (gi & P & Q); auto.
  exists gi. split; [exact P|]. split; [|split; [|exact Q]].
  - now destruct (prepare_advances X cs pkd cfg n (epoch trusted) gi s t (hd_slot h) P).
  - eapply nf_valid; eauto.
Qed.
Lemma honest_prepares X bits cs pkd cfg n trusted s t slot : far_future_epoch cs = 2 ^ 64 - 1 ->
  sane_spec X cs -> sane_spec (on_platform X bits) cs -> shuffle_permutes X ->
  honest_node X bits cs pkd cfg n trusted s t slot ->
  exists gi, vw_prepare (view X cs pkd cfg n) (epoch trusted) = Ok (gi, s, t, slot) /\
    forall decode frame, decode frame = Some gi -> entry (on_platform X bits) decode cs cfg frame = Ok (journal_encode s t slot).
Proof.
  intros Hff S1 S2 Hsh H. destruct (honest_verifies _ _ _ _ _ _ _ _ _ _ Hff S1 S2 Hsh H) as (gi & P & C & _ & r & R1 & R2).
  exists gi. split; [exact P|]. intros decode frame Hd. rewrite <- C. eapply entry_of_verify; eauto.
Qed.
(** In continuous mode, on a chain on which finality keeps moving with good votes, the program builds
    an input for every step, waits otherwise, and for every built epoch the guest, run on the bytes of
    the input file, commits the bytes of the journal file. *)
Theorem C58_continuous X bits cs pk_deserialize cfg encode decode d nodes trusted steps :
  far_future_epoch cs = 2 ^ 64 - 1 -> sane_spec X cs -> sane_spec (on_platform X bits) cs -> shuffle_permutes X ->
  watches X bits cs pk_deserialize cfg nodes trusted steps ->
  exists bs e, build_loop true (map (view X cs pk_deserialize cfg) nodes) (epoch trusted) = (bs, Running e) /\
    map (fun b => (b_pre b, b_post b, b_slot b)) bs = steps /\
    forall b, In b bs -> N.of_nat (length (encode (b_input b))) < 2 ^ 32 -> decode (encode (b_input b)) = Some (b_input b) ->
      exists input journal,
        build_disk encode d bs (InputFile (b_epoch b)) = Some input /\
        build_disk encode d bs (JournalFile (b_epoch b)) = Some journal /\
        guest_main (on_platform X bits) decode cs cfg input = Ok journal.
Proof.
  intros Hff S1 S2 Hsh W.
  assert (G : exists bs e, build_loop true (map (view X cs pk_deserialize cfg) nodes) (epoch trusted) = (bs, Running e) /\
    map (fun b => (b_pre b, b_post b, b_slot b)) bs = steps /\
    forall b, In b bs -> decode (encode (b_input b)) = Some (b_input b) -> entry (on_platform X bits) decode cs cfg (encode (b_input b)) = Ok (journal_encode (b_pre b) (b_post b) (b_slot b))).
  { induction W as [trusted|n ns trusted fin steps Hf Hle Hmax W IH|n ns trusted fin s t slot steps Hf Hlt Hn W IH].
    - exists [], (epoch trusted). cbn. repeat split; tauto.
    - destruct IH as (bs & e & IH). exists bs, e. cbn [map build_loop view vw_finalized]. rewrite Hf.
      assert (Hw : fin <? wrap64 (epoch trusted + 1) = true). { apply N.ltb_lt. unfold wrap64, two64. rewrite N.mod_small by lia. lia. }
      rewrite Hw. exact IH.
    - destruct IH as (bs & e & I1 & I2 & I3). destruct (honest_prepares _ _ _ _ _ _ _ _ _ _ Hff S1 S2 Hsh Hn) as (gi & P & En).
      exists (mkBuilt (epoch trusted) gi s t slot :: bs), e. cbn [map build_loop]. rewrite P. cbn [view vw_finalized]. rewrite Hf.
      assert (Hw : fin <? wrap64 (epoch trusted + 1) = false).
      { apply N.ltb_ge. unfold wrap64, two64. pose proof (N.mod_le (epoch trusted + 1) (2 ^ 64)). lia. }
      rewrite Hw, I1. split; [reflexivity|]. split; [cbn [b_pre b_post b_slot]; now rewrite I2|].
      intros b [<-|Hb]; [|now apply I3]. cbn [b_input b_pre b_post b_slot]. apply En. }
  destruct G as (bs & e & G1 & G2 & G3). exists bs, e. split; [exact G1|]. split; [exact G2|]. intros b Hb Hl Hd.
  destruct (proj1 (C58_files X cs pk_deserialize cfg true nodes (epoch trusted) bs (Running e) encode d G1) b Hb) as [D1 D2].
  eexists _, _. split; [exact D1|]. split; [exact D2|]. rewrite C44_guest_input by exact Hl. now apply G3.
Qed.

(** The transitions link up: on one chain, the pre-state of each journal is the post-state of the one
    before. *)
Lemma states_from_in cs ch : forall us e k u, states_from cs ch e us -> nth_error us k = Some u -> state_at cs ch (e + N.of_nat k) u.
Proof.
  induction us as [|x us IH]; intros e k u H Hk; [destruct k; discriminate|]. destruct H as [H1 H2]. destruct k as [|k]; cbn [nth_error] in Hk.
  - injection Hk as ->. now rewrite N.add_0_r.
  - apply (IH (e + 1)) in Hk; [|exact H2]. now replace (e + N.of_nat (S k)) with (e + 1 + N.of_nat k) by lia.
Qed.
Lemma confirming_state cs ch trusted e s us t ls e' s' :
  next_finality cs ch trusted e s us t ls -> finalizes_past cs ch ->
  first_confirming cs ch (finalized t) e' -> state_at cs ch e' s' -> s' = t.
Proof.
  intros N Past (F1 & (x & X1 & X2) & F3) S'. assert (x = s') as -> by (unfold state_at in *; congruence).
  pose proof (nf_trusted _ _ _ _ _ _ _ _ N) as T. destruct N as [(N1 & (y & Y1 & Y2) & N3) Ns Nst Nsame Nnew Nh].
  assert (Hadv : epoch trusted < epoch (finalized t)).
  { assert (C : accepted_chain s ls t) by (eapply nf_accepted; econstructor; eauto; repeat split; eauto).
    destruct C as [s0 ls0 f t0 Hv Hg Haf|b ls0 f t0 Hb Haf]; cbn [finalized] in *; rewrite <- T.
    - destruct Hv as [Hlt|]; [|easy]. apply (af_guarded _ _ _ _ (finalized s0)) in Haf; auto. apply Haf.
    - apply (af_guarded _ _ _ _ FFG.genesis_cp) in Haf; auto. apply Haf. }
  set (e1 := e + 1 + N.of_nat (length us)).
  assert (Ht : state_at cs ch e1 t).
  { apply (states_from_in _ _ (us ++ [t])); [exact Nst|]. rewrite nth_error_app2, Nat.sub_diag by lia. reflexivity. }
  destruct (N.lt_trichotomy e' e1) as [L|[->|L]].
  - exfalso. destruct (N.le_gt_cases e' e) as [L1|L1].
    + destruct (N.eq_dec e' e) as [->|Hne].
      * assert (s' = s) as -> by (unfold state_at in *; congruence). congruence.
      * destruct (N3 e' ltac:(lia)) as (z & Z1 & Z2). assert (z = s') as -> by (unfold state_at in *; congruence). rewrite X2 in Z2. lia.
    + destruct (nth_error us (N.to_nat (e' - e - 1))) as [u|] eqn:Eu.
      * assert (Hu : state_at cs ch (e + 1 + N.of_nat (N.to_nat (e' - e - 1))) u).
        { apply (states_from_in _ _ (us ++ [t])); [exact Nst|]. rewrite nth_error_app1; [exact Eu|]. apply nth_error_Some. congruence. }
        replace (e + 1 + N.of_nat (N.to_nat (e' - e - 1))) with e' in Hu by lia.
        assert (u = s') as -> by (unfold state_at in *; congruence). apply nth_error_In in Eu.
        rewrite Forall_forall in Nsame. rewrite (Nsame _ Eu) in X2. congruence.
      * apply nth_error_None in Eu. unfold e1 in L. lia.
  - unfold state_at in *. congruence.
  - exfalso. destruct (F3 e1) as (z & Z1 & Z2).
    + split; [|exact L]. now apply Past.
    + assert (z = t) as -> by (unfold state_at in *; congruence). lia.
Qed.
Lemma watches_first X bits cs pkd cfg nodes c s t slot r : watches X bits cs pkd cfg nodes c ((s, t, slot) :: r) ->
  exists n e us ls, In n nodes /\ next_finality cs (nd_chain n) c e s us t ls.
Proof.
  intros W. remember ((s, t, slot) :: r) as steps eqn:E. induction W as [trusted|n ns trusted fin steps Hf Hle Hmax W IH|n ns trusted fin s0 t0 slot0 steps Hf Hlt Hn W IH].
  - discriminate.
  - destruct (IH E) as (m & e & us & ls & Hm & H). exists m, e, us, ls. split; [now right|exact H].
  - injection E as -> -> -> ->. destruct Hn as (e & us & ls & bs & st & active & h & H). exists n, e, us, ls. split; [now left|apply H].
Qed.
Theorem C58_journals_link X bits cs pk_deserialize cfg ch nodes trusted steps :
  (forall n, In n nodes -> nd_chain n = ch) -> finalizes_past cs ch ->
  watches X bits cs pk_deserialize cfg nodes trusted steps -> linked steps.
Proof.
  intros Hc Past W. induction W as [trusted|n ns trusted fin steps Hf Hle Hmax W IH|n ns trusted fin s t slot steps Hf Hlt Hn W IH].
  - exact I.
  - apply IH. intros m Hm. apply Hc. now right.
  - destruct steps as [|[[s' t'] slot'] r]; [exact I|]. split; [|apply IH; intros m Hm; apply Hc; now right].
    apply watches_first in W as (m & e' & us' & ls' & Hm & N'). destruct Hn as (e & us & ls & bs & st & active & h & H).
    pose proof (hn_next _ _ _ _ _ _ _ _ _ _ _ _ _ _ _ _ _ H) as N1. rewrite Hc in N1 by now left. rewrite Hc in N' by now right.
    eapply confirming_state; [exact N1|exact Past|apply N'|apply N'].
Qed.
(** Whatever the votes, the host's reader for the newly finalized checkpoint starts from the chain's
    state in which it was first finalized. *)
Theorem C58_next_pre_state cs ch trusted e s us t ls fuel s' atts : 0 < slots_per_epoch cs ->
  next_finality cs ch trusted e s us t ls -> finalizes_past cs ch ->
  (epoch (finalized t) + 2 + 2 * N.of_nat fuel) * slots_per_epoch cs < 2 ^ 64 ->
  host_new cs ch (finalized t) fuel = Some (Ok (s', atts)) -> s' = t.
Proof.
  intros Hs N Past Hb H. unfold host_new in H.
  assert (Hb1 : (epoch (finalized t) + 1 + N.of_nat fuel) * slots_per_epoch cs < 2 ^ 64).
  { eapply N.le_lt_trans; [|exact Hb]. apply N.mul_le_mono_r. lia. }
  destruct (find_finalization_epoch cs ch (finalized t) fuel) as [[e'| |]|] eqn:Ef; try discriminate.
  apply C41_first_confirming_epoch in Ef as [F Fl]; [|exact Hs|exact Hb1].
  destruct (get_justifications_until_new_finality cs ch e' fuel) as [r|] eqn:Eg; [|discriminate]. injection H as H.
  apply bind_ok in H as ([[s1 t1] ls1] & -> & H). apply bind_ok in H as (u & _ & H). apply bind_ok in H as (a & _ & H). injection H as -> ->.
  apply C39_answers_iff in Eg as [Es _]; [|exact Hs|].
  - eapply confirming_state; eauto.
  - eapply N.le_lt_trans; [|exact Hb]. apply N.mul_le_mono_r. lia.
Qed.

(** ** C59: crashes while the files are written *)
Lemma crash_cases encode b d d' : crashed d (build_ops encode b) d' ->
  let I := InputFile (b_epoch b) in let J := JournalFile (b_epoch b) in
  let d2 := put (put d I []) J [] in
  let input := encode_input_stdin (encode (b_input b)) in
  let journal := journal_encode (b_pre b) (b_post b) (b_slot b) in
  d' = d \/ d' = put d I [] \/ d' = d2 \/ (exists k, d' = put d2 I (firstn k input)) \/
  exists k, d' = put (put d2 I input) J (firstn k journal).
Proof.
  intros H I J d2 input journal. unfold build_ops in H. fold I J input journal in H. clearbody input journal.
  assert (E1 : d2 I = Some []) by (unfold d2; rewrite put_other by discriminate; apply put_same).
  assert (E2 : put d2 I input J = Some []) by (rewrite put_other by discriminate; apply put_same).
  inversion H as [? ? D O|? ? ? ? ? D O|? op0 ops0 ? H1 D O]; subst; [now left|]. clear H. rename H1 into H. cbn [apply_op] in H.
  inversion H as [? ? D O|? ? ? ? ? D O|? op0 ops0 ? H1 D O]; subst; [now right; left|]. clear H. rename H1 into H. cbn [apply_op] in H. fold d2 in H.
  inversion H as [? ? D O|? ? ? k ? D O|? op0 ops0 ? H1 D O]; subst; [now right; right; left|do 3 right; left; exists k; cbn [apply_op]; now rewrite E1|].
  clear H. rename H1 into H. cbn [apply_op] in H. rewrite E1 in H. cbn [app] in H.
  inversion H as [? ? D O|? ? ? k ? D O|? op0 ops0 ? H1 D O]; subst.
  - do 3 right. left. exists (length input). now rewrite firstn_all.
  - do 4 right. exists k. cbn [apply_op]. now rewrite E2.
  - clear H. rename H1 into H. cbn [apply_op] in H. rewrite E2 in H. cbn [app] in H. inversion H; subst.
    do 4 right. exists (length journal). now rewrite firstn_all.
Qed.
(** A crash at any point of an iteration changes no other file. Of the two files of the epoch, either
    the journal is as before and the input as before or empty; or the journal is empty and the input a
    prefix of the right contents; or the input is complete and the journal a prefix. Running the
    iteration again repairs both. *)
Theorem C59_crash encode b d d' : crashed d (build_ops encode b) d' ->
  let I := InputFile (b_epoch b) in let J := JournalFile (b_epoch b) in
  let input := encode_input_stdin (encode (b_input b)) in
  let journal := journal_encode (b_pre b) (b_post b) (b_slot b) in
  (forall f, f <> I -> f <> J -> d' f = d f) /\
  ((d' J = d J /\ (d' I = d I \/ d' I = Some [])) \/
   (d' J = Some [] /\ exists k, d' I = Some (firstn k input)) \/
   (d' I = Some input /\ exists k, d' J = Some (firstn k journal))) /\
  (let again := apply_ops d' (build_ops encode b) in again I = Some input /\ again J = Some journal).
Proof.
  intros H I J input journal.
  assert (IJ : I <> J) by discriminate. assert (JI : J <> I) by discriminate.
  split; [|split; [|apply build_ops_here]].
  - intros f Hi Hj. destruct (crash_cases _ _ _ _ H) as [->|[->|[->|[(k & ->)|(k & ->)]]]]; fold I J; now rewrite ?put_other by assumption.
  - destruct (crash_cases _ _ _ _ H) as [->|[->|[->|[(k & ->)|(k & ->)]]]]; fold I J input journal; clearbody I J input journal.
    + left. auto.
    + left. rewrite put_same, put_other by assumption. auto.
    + right. left. rewrite put_same, put_other, put_same by assumption. split; [reflexivity|]. now exists 0%nat.
    + right. left. rewrite put_same, put_other, put_same by assumption. eauto.
    + right. right. rewrite put_same, put_other, put_same by assumption. eauto.
Qed.
(** So if there was no journal before, a non-empty journal shows that the input is complete. *)
Theorem C59_journal_means_input encode b d d' j : crashed d (build_ops encode b) d' ->
  d (JournalFile (b_epoch b)) = None -> d' (JournalFile (b_epoch b)) = Some j -> j <> [] ->
  d' (InputFile (b_epoch b)) = Some (encode_input_stdin (encode (b_input b))).
Proof.
  intros H Hn Hj Hne. destruct (C59_crash _ _ _ _ H) as (_ & [[A _]|[[A _]|[A _]]] & _); [congruence| |exact A].
  rewrite A in Hj. injection Hj as <-. easy.
Qed.
(** But when an input is built again, a crash can leave the old journal beside an empty input. *)
Theorem C59_stale_journal_refuted : forall encode b old, old <> [] ->
  exists d d', d (JournalFile (b_epoch b)) = Some old /\ crashed d (build_ops encode b) d' /\
    d' (JournalFile (b_epoch b)) = Some old /\ d' (InputFile (b_epoch b)) = Some [].
Proof.
  intros encode b old Hne. exists (put (fun _ => None) (JournalFile (b_epoch b)) old).
  exists (put (put (fun _ => None) (JournalFile (b_epoch b)) old) (InputFile (b_epoch b)) []).
  split; [apply put_same|]. split.
  - unfold build_ops. apply crash_later. apply crash_here.
  - split; [rewrite put_other by discriminate; apply put_same|apply put_same].
Qed.
(** The guest never takes an incomplete input file for an input: it aborts. *)
Theorem C59_torn_input_rejected X decode cs cfg data k : N.of_nat (length data) < 2 ^ 32 ->
  (k < length (encode_input_stdin data))%nat ->
  guest_main X decode cs cfg (firstn k (encode_input_stdin data)) = Panic.
Proof.
  intros Hl Hk. unfold encode_input_stdin in *. rewrite N.mod_small in * by exact Hl.
  pose proof (le_bytes_length 4 (N.of_nat (length data))) as L. rewrite app_length in Hk.
  set (h := le_bytes 4 (N.of_nat (length data))) in *.
  assert (Hv : le_val h = N.of_nat (length data)) by (apply le_val_le_bytes_small; exact Hl).
  clearbody h. rewrite firstn_app, L. unfold guest_main, read_frame, slice. rewrite app_length, !firstn_length, L.
  destruct (Nat.leb_spec (0 + 4) (Nat.min k 4 + Nat.min (k - 4) (length data))) as [Hc|Hc]; [|reflexivity].
  assert (4 <= k)%nat by lia. rewrite (firstn_all2 h) by lia.
  cbn [skipn expect bind]. rewrite firstn_app, L, Nat.sub_diag, (firstn_all2 h) by lia. cbn [firstn]. rewrite app_nil_r, Hv, Nnat.Nat2N.id.
  destruct (Nat.leb_spec (4 + length data) (Nat.min k 4 + Nat.min (k - 4) (length data))) as [Hc2|Hc2]; [lia|reflexivity].
Qed.

(** ** C60: sync *)
(** The log of a sync run of any length is one path from the starting state: each line starts where the
    line before ended, and the finalized epoch ascends. A line says "Ok" exactly if verification of the
    prepared input returned the predicted state. *)
Theorem C60_log X cs pk_deserialize cfg encode run : forall nodes st lines status,
  sync_loop encode run (map (view X cs pk_deserialize cfg) nodes) st = (lines, status) ->
  (forall l r, lines = l :: r -> sl_from l = st) /\
  (forall p a b r, lines = p ++ a :: b :: r -> sl_from b = sl_to a) /\
  (forall l, In l lines -> epoch (finalized (sl_from l)) < epoch (finalized (sl_to l)) /\
     exists n gi pre slot, In n nodes /\
       prepare_input X cs pk_deserialize (nd_states n) (nd_headers n) (nd_blocks n) (collect_from cs (nd_chain n) (nd_fuel n)) cfg
         (epoch (finalized (sl_from l))) = Ok (gi, pre, sl_to l, slot) /\
       (sl_msg l = SyncOk <-> run pre (encode gi) = Ok (sl_to l))).
Proof.
  induction nodes as [|n nodes IH]; intros st lines status H; cbn [map sync_loop] in H.
  - injection H as <- <-. split; [discriminate|]. split; [|easy]. intros p a b r E. destruct p; discriminate E.
  - destruct (vw_prepare (view X cs pk_deserialize cfg n) (epoch (finalized st))) as [[[[gi pre] post] slot]| |] eqn:Ep.
    2,3: injection H as <- <-; (split; [discriminate|]); (split; [|easy]); intros p a b r E; destruct p; discriminate E.
    destruct (prepare_advances _ _ _ _ _ _ _ _ _ _ Ep) as (P1 & P2 & P3).
    destruct (run pre (encode gi)) as [got|err|] eqn:Er.
    3: injection H as <- <-; (split; [discriminate|]); (split; [|easy]); intros p a b r E; destruct p; discriminate E.
    all: destruct (sync_loop encode run _ post) as [ls s] eqn:Es; injection H as <- <-; destruct (IH _ _ _ Es) as (A & B & C).
    all: (split; [intros l r E; injection E as <- _; reflexivity|split]).
    all: try (intros p a b r E; destruct p as [|x p]; cbn [app] in E; injection E as <- E; [now rewrite (A _ _ E)|now apply (B p a b r)]).
    all: intros l [<-|Hl]; [|destruct (C l Hl) as (C1 & m & gi' & pre' & slot' & Hm & C2); split; [exact C1|]; exists m, gi', pre', slot'; split; [now right|exact C2]].
    all: cbn [sl_from sl_to sl_msg]; (split; [exact P2|]); exists n, gi, pre, slot; (split; [now left|]); (split; [exact Ep|]); rewrite Er.
    + destruct (state_eqb got post) eqn:Eq.
      * apply state_eqb_eq in Eq as ->. tauto.
      * split; [discriminate|]. intros E. injection E as ->. assert (state_eqb post post = true) by now apply state_eqb_eq. congruence.
    + split; discriminate.
Qed.
(** On a chain on which finality keeps moving with good votes, every line of the log says "Ok", with
    and without running the guest program. *)
Theorem C60_honest_sync X bits cs pk_deserialize cfg encode decode r0vm nodes st ts :
  far_future_epoch cs = 2 ^ 64 - 1 -> sane_spec X cs -> sane_spec (on_platform X bits) cs -> shuffle_permutes X ->
  (forall n s gi pre post slot, In n nodes -> In s (st :: ts) ->
     vw_prepare (view X cs pk_deserialize cfg n) (epoch (finalized s)) = Ok (gi, pre, post, slot) -> decode (encode gi) = Some gi) ->
  follows X bits cs pk_deserialize cfg nodes st ts ->
  let executor b := match entry (on_platform X bits) decode cs cfg b with Ok j => Some j | _ => None end in
  exists e, sync_loop encode (run_verify X decode executor cs cfg r0vm) (map (view X cs pk_deserialize cfg) nodes) st
    = (ok_log st ts, Running e).
Proof.
  intros Hff S1 S2 Hsh Hd F executor. revert Hd. induction F as [st|n ns st s t slot ts H1 H2 W1 W2 F IH]; intros Hd.
  - eexists. reflexivity.
  - destruct IH as (e & IH). { intros m u gi pre post sl Hm Hu. apply Hd; now right. } exists e. cbn [map sync_loop ok_log].
    assert (Eq : on_platform X (usize_bits X) = X) by (destruct X; reflexivity).
    destruct (honest_verifies X (usize_bits X) cs pk_deserialize cfg n (finalized st) s t slot Hff S1 ltac:(now rewrite Eq) Hsh H1) as (gi & P & C & Vs & r & R1 & R2).
    rewrite Eq in R1, R2.
    destruct (honest_prepares X bits cs pk_deserialize cfg n (finalized st) s t slot Hff S1 S2 Hsh H2) as (gi' & P' & En).
    rewrite P in P'. injection P' as <-. rewrite P.
    assert (Hg : decode (encode gi) = Some gi) by (eapply (Hd n st); eauto; now left).
    assert (Vt : FFG.valid_state t).
    { destruct (C10_result_bounds X cfg (guest_reader r) t slot _ R2 eq_refl) as (_ & B & _). left. lia. }
    assert (Rv : run_verify X decode executor cs cfg r0vm s (encode gi) = Ok t).
    { unfold run_verify. rewrite Hg. cbn [ok_or bind]. rewrite R1. cbn [map_err bind]. rewrite R2. cbn [map_err bind].
      destruct r0vm; [|reflexivity]. unfold executor. rewrite (En _ _ Hg). cbn [ok_or bind].
      pose proof (C06_host_decodes_journal s t slot W1 W2 Vs Vt) as [D1 D2].
      change abi_encoded_size with 128%nat.
      assert (L : Nat.leb 128 (length (journal_encode s t slot)) = true).
      { apply Nat.leb_le. unfold journal_encode. rewrite app_length, (AbiP.abi_state_length _ W1). lia. }
      rewrite L, D1, D2. cbn [assert_ map_err bind].
      rewrite (proj2 (state_eqb_eq t t) eq_refl), (proj2 (state_eqb_eq s s) eq_refl). reflexivity. }
    rewrite Rv, (proj2 (state_eqb_eq t t) eq_refl), IH. reflexivity.
Qed.
Definition q_post2 : ConsensusState := mkCS (mkCheckpoint 14 (toy_root 14)) (mkCheckpoint 13 (root (target g_l2))).
(** A failed verification does not stop the sync: it goes on from the predicted state. *)
Theorem C60_stops_on_failure_refuted : exists encode run views st a b err,
  sync_loop encode run views st = ([a; b], Running (epoch (finalized (sl_to b)))) /\
  sl_msg a = SyncFailed err /\ sl_from b = sl_to a.
Proof.
  exists (fun _ => []), (fun _ _ => Err HostVerifyFailed).
  exists [mkView (Ok 9) (fun _ => Ok (g_input, g_trusted, h_post, 24)); mkView (Ok 9) (fun _ => Ok (g_input, h_post, q_post2, 26))].
  exists g_trusted, (mkSyncLine g_trusted h_post (SyncFailed HostVerifyFailed)), (mkSyncLine h_post q_post2 (SyncFailed HostVerifyFailed)), HostVerifyFailed.
  split; [reflexivity|]. split; reflexivity.
Qed.

(** ** The toy chain: two looks at the node, the first too early. *)
Definition q_early : Node := mkNode (Ok 9) h_quiet h_headers r_blocks p_chain 5.
Definition q_node : Node := mkNode (Ok 12) h_quiet h_headers r_blocks p_chain 5.
Lemma q_sane64 : sane_spec (on_platform g_X 64) toy_cs.
Proof. repeat split; try (vm_compute; congruence). exists (2 ^ 48). reflexivity. Qed.
Lemma q_honest bits : bits = 32 \/ bits = 64 -> honest_node g_X bits toy_cs h_deserialize DEFAULT_CONFIG q_node (finalized g_trusted) g_trusted h_post 24.
Proof.
  intros Hb. exists 11, p_us, [g_l1; g_l2], p_blocks, (h_hstate 18 g_vs), h_active, g_header12.
  constructor; cbn [q_node nd_chain nd_states nd_headers nd_blocks nd_fuel]; try rewrite p_votes.
  - exact p_next.
  - exact p_window.
  - split; [vm_compute; discriminate|]. split; [vm_compute; lia|vm_compute; reflexivity].
  - exact p_evidence.
  - split; [reflexivity|]. split; [vm_compute; reflexivity|reflexivity].
  - split; [apply h_checkpoint|]. split; [reflexivity|].
    assert (E : tree_root g_X (state_tree (sha256 g_X) (hs_state (h_hstate 18 g_vs))) = g_state_root) by (vm_compute; reflexivity).
    unfold boundary_block. rewrite E. reflexivity.
  - exact h_sound.
  - exact h_active_ok.
  - apply r_steady. now right.
  - rewrite r_targets. intros e st' He E'. cbn [In] in He.
    repeat destruct He as [He|He]; try contradiction; subst e; injection E' as <-; apply exit_same.
  - split; [vm_compute; reflexivity|]. split; [vm_compute; discriminate|vm_compute; reflexivity].
  - split; [apply (r_fits 32); now left|]. split; [destruct Hb as [->| ->]; [apply (r_fits 32); now left|apply (r_fits 64); now right]|].
    split; [discriminate|split; [discriminate|vm_compute; reflexivity]].
Qed.
Lemma q_watches : watches g_X 64 toy_cs h_deserialize DEFAULT_CONFIG [q_early; q_node] (finalized g_trusted) [(g_trusted, h_post, 24)].
Proof.
  eapply watch_wait; [reflexivity|vm_compute; discriminate|vm_compute; reflexivity|].
  eapply watch_step; [reflexivity|vm_compute; reflexivity|apply q_honest; now right|apply watch_end].
Qed.
Example C58_nonvacuous encode decode d :
  exists bs e, build_loop true (map (view g_X toy_cs h_deserialize DEFAULT_CONFIG) [q_early; q_node]) 9 = (bs, Running e) /\
    map (fun b => (b_pre b, b_post b, b_slot b)) bs = [(g_trusted, h_post, 24)] /\
    forall b, In b bs -> N.of_nat (length (encode (b_input b))) < 2 ^ 32 -> decode (encode (b_input b)) = Some (b_input b) ->
      exists input journal,
        build_disk encode d bs (InputFile (b_epoch b)) = Some input /\
        build_disk encode d bs (JournalFile (b_epoch b)) = Some journal /\
        guest_main (on_platform g_X 64) decode toy_cs DEFAULT_CONFIG input = Ok journal.
Proof.
  apply (C58_continuous g_X 64 toy_cs h_deserialize DEFAULT_CONFIG encode decode d [q_early; q_node] (finalized g_trusted)).
  - reflexivity.
  - exact toy_sane.
  - exact q_sane64.
  - exact toy_permutes.
  - exact q_watches.
Qed.
Example C58_one_shot_nonvacuous :
  exists b, build_loop false (map (view g_X toy_cs h_deserialize DEFAULT_CONFIG) [q_early; q_node]) 9 = ([b], Done) /\ b_post b = h_post.
Proof.
  destruct (C58_nonvacuous (fun _ => []) (fun _ => None) (fun _ => None)) as ([|b r] & e & H & M & _); [discriminate|].
  exists b. split; [exact (C58_one_shot _ _ _ _ _ H)|]. injection M. auto.
Qed.
(** The chain goes on: the next pre-state is the state [h_post]. *)
Definition q_chain : Chain :=
  mkChain (fun slot => if slot =? 30 then Ok q_post2 else ch_state p_chain slot) (ch_block p_chain) (ch_header_slot p_chain).
Lemma q_past : finalizes_past toy_cs q_chain.
Proof.
  intros e st H. unfold state_at, q_chain, p_chain in H. cbn [ch_state slots_per_epoch toy_cs] in H.
  destruct (N.eqb_spec (e * 2) 30); [injection H as <-; cbn; lia|]. destruct (N.eqb_spec (e * 2) 20); [injection H as <-; cbn; lia|].
  destruct (N.eqb_spec (e * 2) 22); [injection H as <-; cbn; lia|]. destruct (N.eqb_spec (e * 2) 24); [injection H as <-; cbn; lia|].
  destruct (N.eqb_spec (e * 2) 26); [injection H as <-; cbn; lia|]. destruct (N.eqb_spec (e * 2) 28); [injection H as <-; cbn; lia|discriminate].
Qed.
Lemma q_next : next_finality toy_cs q_chain (finalized g_trusted) 11 g_trusted p_us h_post [g_l1; g_l2].
Proof.
  destruct p_next as [(A1 & (st & A2 & A3) & A4) B (C1 & C2 & C3 & _) D E F]. constructor; auto.
  - split; [exact A1|]. split.
    + exists st. split; [exact A2|exact A3].
    + intros e' He'. cbn [finalized g_trusted epoch] in He'. assert (e' = 10) as -> by lia.
      eexists. split; [reflexivity|]. vm_compute. reflexivity.
  - cbn [p_us app states_from]. unfold state_at. repeat split.
Qed.
Example C58_next_nonvacuous : next_finality toy_cs q_chain (finalized g_trusted) 11 g_trusted p_us h_post [g_l1; g_l2] /\
  finalizes_past toy_cs q_chain /\ (epoch (finalized h_post) + 2 + 2 * N.of_nat 3) * slots_per_epoch toy_cs < 2 ^ 64 /\
  host_new toy_cs q_chain (finalized h_post) 3 = Some (Ok (h_post, [])).
Proof. split; [exact q_next|]. split; [exact q_past|]. split; vm_compute; reflexivity. Qed.
Example C60_nonvacuous encode decode r0vm :
  (forall s gi pre post slot, In s [g_trusted; h_post] ->
     vw_prepare (view g_X toy_cs h_deserialize DEFAULT_CONFIG q_node) (epoch (finalized s)) = Ok (gi, pre, post, slot) -> decode (encode gi) = Some gi) ->
  let executor b := match entry (on_platform g_X 64) decode toy_cs DEFAULT_CONFIG b with Ok j => Some j | _ => None end in
  exists e, sync_loop encode (run_verify g_X decode executor toy_cs DEFAULT_CONFIG r0vm)
      (map (view g_X toy_cs h_deserialize DEFAULT_CONFIG) [q_node]) g_trusted
    = ([mkSyncLine g_trusted h_post SyncOk], Running e).
Proof.
  intros Hd. apply (C60_honest_sync g_X 64 toy_cs h_deserialize DEFAULT_CONFIG encode decode r0vm [q_node] g_trusted [h_post]).
  - reflexivity.
  - exact toy_sane.
  - exact q_sane64.
  - exact toy_permutes.
  - intros n s gi pre post slot [<-|[]] Hs. now apply Hd.
  - eapply follow_step.
    + apply (q_honest 32). now left.
    + apply (q_honest 64). now right.
    + repeat split; vm_compute; reflexivity.
    + repeat split; vm_compute; reflexivity.
    + apply follow_end.
Qed.
Example C59_nonvacuous : let b := mkBuilt 9 g_input g_trusted h_post 24 in
  crashed (fun _ => None) (build_ops (fun _ => [x01; x02; x03]) b)
    (put (put (put (fun _ => None) (InputFile 9) []) (JournalFile 9) []) (InputFile 9) [x03; x00; x00; x00; x01]).
Proof.
  cbn zeta. unfold build_ops. do 2 apply crash_later. cbn [b_epoch b_input b_pre b_post b_slot apply_op].
  exact (crash_torn (put (put (fun _ => None) (InputFile 9) []) (JournalFile 9) []) (InputFile 9) (encode_input_stdin [x01; x02; x03]) 5
           [Append (JournalFile 9) (journal_encode g_trusted h_post 24)]).
Qed.

Print Assumptions C58_inputs_in_order.
Print Assumptions C58_ending.
Print Assumptions C58_one_shot.
Print Assumptions C58_files.
Print Assumptions C58_continuous.
Print Assumptions C58_journals_link.
Print Assumptions C58_next_pre_state.
Print Assumptions C59_crash.
Print Assumptions C59_journal_means_input.
Print Assumptions C59_stale_journal_refuted.
Print Assumptions C59_torn_input_rejected.
Print Assumptions C60_log.
Print Assumptions C60_honest_sync.
Print Assumptions C60_stops_on_failure_refuted.
Print Assumptions C58_nonvacuous.
Print Assumptions C60_nonvacuous.
