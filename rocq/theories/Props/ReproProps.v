(** C80: the same chain always gives the same inputs. *)
From Coq Require Import List Arith ZArith NArith Bool Lia.
From Coq Require Import ZifyBool ZifyNat ZifyN.
From Verif.Model Require Import Base Types ConsensusState Committee Verify GuestReader HostChain HostStore HostInput Cli CliRun.
From Verif.Spec Require FFG.
From Verif.Spec Require Import Merkle Beacon VerifySpec HostInputSpec ReproSpec.
From Verif.Proof Require Import BaseLemmas ConsensusStateP VerifyP HostChainP HostStoreP HostInputP ClientP ReproP.
From Verif.Props Require Import VerifyProps GuestToy HostToy HostStoreProps HostInputProps ReplayProps PipelineProps CliRunProps.
Import ListNotations.
Open Scope N_scope.
Notation length := List.length.

Lemma prepare_same : forall X cs pk_deserialize cfg n n' e lo last,
  sane_spec X cs -> 0 < slots_per_epoch cs ->
  window cs n e lo last -> agree_between n n' lo (last * slots_per_epoch cs) ->
  last - e <= N.of_nat (nd_fuel n') ->
  vw_prepare (view X cs pk_deserialize cfg n) e = vw_prepare (view X cs pk_deserialize cfg n') e /\
  (forall gi pre post slot, vw_prepare (view X cs pk_deserialize cfg n) e = Ok (gi, pre, post, slot) -> epoch (finalized post) < last).
Proof.
  intros X cs pkd cfg n n' e lo last Sane Hs [W1 W2 W3 W4 (t & W5 & W6) W7 W8] [A2 A3 A4 A5 A6] Hf'.
  cbn [view vw_prepare]. unfold prepare_input.
  assert (Ll : last + 1 < 2 ^ 64). { eapply N.le_lt_trans; [|exact W1]. rewrite <- (N.mul_1_r (last + 1)) at 1. apply N.mul_le_mono_l. lia. }
  assert (Ss : forall x, x <= last -> start_slot cs x = x * slots_per_epoch cs).
  { intros x Hx. apply start_slot_exact. eapply N.le_lt_trans; [|exact W1]. apply N.mul_le_mono_r. lia. }
  assert (Sl : forall x, x <= last -> x * slots_per_epoch cs <= last * slots_per_epoch cs) by (intros; now apply N.mul_le_mono_r).
  assert (Se : forall x, e <= x -> e * slots_per_epoch cs <= x * slots_per_epoch cs) by (intros; now apply N.mul_le_mono_r).
  assert (SE : start_slot cs e = e * slots_per_epoch cs) by (apply Ss; lia).
  assert (HE : nd_states n (start_slot cs e) = nd_states n' (start_slot cs e)).
  { rewrite SE. apply A2. pose proof (Sl e ltac:(lia)). lia. }
  assert (HB : state_at_epoch_boundary (fun s => st_slot (hs_state s)) (fun s => hd_slot (hs_header s)) (nd_states n) cs e
    = state_at_epoch_boundary (fun s => st_slot (hs_state s)) (fun s => hd_slot (hs_header s)) (nd_states n') cs e).
  { apply (boundary_same cs _ _ e lo HE); rewrite SE.
    - intros st Hst. apply (W3 (e * slots_per_epoch cs) st); [lia|exact Hst].
    - intros s Hr. apply A2. pose proof (Sl e ltac:(lia)). lia. }
  rewrite <- HB.
  destruct (state_at_epoch_boundary _ _ (nd_states n) cs e) as [st|x|] eqn:Eb; cbn [map_err bind]; try (split; [reflexivity|discriminate]).
  assert (Hh : lo <= hd_slot (hs_header st) <= e * slots_per_epoch cs).
  { unfold state_at_epoch_boundary, state_at_epoch in Eb. rewrite SE in Eb. apply bind_ok in Eb as (st0 & E0 & Eb).
    pose proof (W3 (e * slots_per_epoch cs) st0 ltac:(lia) E0) as H0.
    destruct (hd_slot (hs_header st0) =? st_slot (hs_state st0)); [injection Eb as <-; exact H0|].
    pose proof (W3 _ st H0 Eb). lia. }
  rewrite <- A3 by (pose proof (Sl e ltac:(lia)); lia).
  destruct (map_err HI_Chain (nd_blocks n (hd_slot (hs_header st)))) as [o|x|]; cbn [bind]; try (split; [reflexivity|discriminate]).
  destruct (ok_or o HI_NoBlock) as [blk|x|]; cbn [bind]; try (split; [reflexivity|discriminate]). destruct (assert_ _) as [u|x|]; cbn [bind]; try (split; [reflexivity|discriminate]).
  cbv zeta. set (trusted := mkCheckpoint e _).
  destruct (host_new_same cs (nd_chain n) (nd_chain n') trusted last t (nd_fuel n) (nd_fuel n') W1 Ll) as (N1 & N2 & N3); cbn [trusted epoch]; auto.
  { rewrite Ss by lia. exact W5. }
  { intros x Hx. rewrite Ss by lia. apply A4. pose proof (Sl x ltac:(lia)). pose proof (Se x ltac:(lia)). lia. }
  { intros x st' Hx. rewrite Ss by lia. now apply W7. }
  { intros s Hr. apply A5. pose proof (Se (e + 1) ltac:(lia)). lia. }
  unfold collect_from. rewrite <- N1. pose proof (host_new_finalized cs (nd_chain n) trusted (nd_fuel n)) as Ef0.
  destruct (host_new cs (nd_chain n) trusted (nd_fuel n)) as [r|]; [|contradiction].
  destruct r as [[cst atts]|x|]; cbn [map_err bind]; try (split; [reflexivity|discriminate]). destruct (N3 cst atts eq_refl) as ((x0 & Hx0 & Hc0) & Hw).
  pose proof (Ef0 cst atts eq_refl) as Ef. clear Ef0.
  cbn [trusted epoch] in Hx0. rewrite Ss in Hc0 by lia.
  assert (Sx : forall x, e < x <= last -> lo <= x * slots_per_epoch cs <= last * slots_per_epoch cs).
  { intros x Hx. pose proof (Sl x ltac:(lia)). pose proof (Se x ltac:(lia)). lia. }
  assert (Ht : forall x, In x (target_epochs atts) -> nd_states n (start_slot cs x) = nd_states n' (start_slot cs x)).
  { intros x Hx. unfold target_epochs in Hx. apply in_map_iff in Hx as (a & <- & Ha). destruct (Hw a Ha) as (_ & _ & Hb). cbn [trusted epoch] in Hb.
    change (epoch (target (att_link a))) with (epoch (ad_target (att_data a))) in Hb.
    rewrite Ss by lia. apply A2. apply Sx. lia. }
  assert (Hsrc : forall gs l, groups atts gs -> In l (map fst gs) -> nd_headers n (root (source l)) = nd_headers n' (root (source l)) /\ epoch (source l) < last).
  { intros gs l G Hl. apply in_map_iff in Hl as ([l' g] & Hl1 & Hl2). cbn [fst] in Hl1. subst l'.
    destruct G as (G1 & G2 & _). rewrite Forall_forall in G2. destruct (G2 _ Hl2) as [Gn Gk]. cbn [fst snd] in *.
    destruct g as [|a g]; [contradiction|].
    assert (Ha : In a atts). { rewrite <- G1. apply in_concat. exists (a :: g). split; [|now left]. apply in_map_iff. exists (l, a :: g). auto. }
    rewrite <- (Gk a (or_introl eq_refl)). destruct (Hw a Ha) as ((x & sx & S1 & S2 & S3) & _ & _). cbn [trusted epoch] in S1.
    change (link_of a) with (att_link a). rewrite S3. rewrite Ss in S2 by lia. split; [|pose proof (W7 x sx ltac:(lia) S2); lia]. apply (A6 (x * slots_per_epoch cs) sx); [apply Sx; lia|exact S2]. }
  assert (Hhd : forall gs post, groups atts gs -> FFG.ffg_run cst (map fst gs) post ->
    nd_headers n (root (finalized post)) = nd_headers n' (root (finalized post))).
  { intros gs post G R. apply run_finalized in R as [R|(l & Hl & R)]; rewrite R.
    - apply (A6 (x0 * slots_per_epoch cs) cst); [apply Sx; lia|exact Hc0].
    - eapply (proj1 (Hsrc gs l G Hl)). }
  assert (V : verify X cfg (preflight_reader trusted (host_reader cs pkd (nd_states n) (nd_headers n) cst atts))
            = verify X cfg (preflight_reader trusted (host_reader cs pkd (nd_states n') (nd_headers n') cst atts))).
  { apply C12_replay; cbn [preflight_reader host_reader rd_chain_spec rd_genesis_validators_root rd_consensus_state rd_attestations rd_fork rd_active_validators rd_randao_mix rd_slot_for_block]; auto.
    - rewrite Ef. unfold reader_state. cbn [trusted epoch]. now rewrite HE.
    - intros atts' a [= <-] Ha. cbv zeta. unfold reader_state. rewrite Ht; [auto|]. unfold target_epochs. now apply (in_map (fun a => epoch (ad_target (att_data a)))).
    - intros st0 atts' gs post [= <-] [= <-] G R. now rewrite (Hhd gs post G R). }
  rewrite <- V.
  destruct (verify X cfg (preflight_reader trusted (host_reader cs pkd (nd_states n) (nd_headers n) cst atts))) as [[post slot]|x|] eqn:Ev; cbn [map_err bind]; try (split; [reflexivity|discriminate]).
  assert (Hp : nd_headers n (root (finalized post)) = nd_headers n' (root (finalized post)) /\ epoch (finalized post) < last).
  { apply verify_sound in Ev as (st0 & atts0 & gs & V1 & V2 & V3 & V4 & _).
    cbn [preflight_reader host_reader rd_consensus_state rd_attestations] in V1, V2. injection V1 as <-. injection V2 as <-.
    apply accepted_finalizes in V4 as [V4 _]. exact (Hsrc gs _ V3 V4). }
  rewrite (to_input_same X cs pkd (nd_states n) (nd_states n') (nd_headers n) (nd_headers n') trusted cst atts post (eq_trans Eb HB) HE Ht (proj1 Hp)).
  split; [reflexivity|]. intros gi pre post0 slot0 H. apply bind_ok in H as (g & _ & H). injection H as _ _ <- _. exact (proj2 Hp).
Qed.

(** The genesis validators root that the host uses is that of whichever state its cache yields first;
    when the states of the chain agree on it, that is the root used in the model, and the cache is never
    so empty that the genesis state would be asked for. *)
Theorem C80_genesis_root_of_any_state : forall cs pk_deserialize n st cst atts g pick rs answers cache' w,
  (forall c, pick c = None <-> c = []) -> (forall c st, pick c = Some st -> exists s, In (s, st) c) ->
  (forall s st, nd_states n s = Ok st -> st_genesis_validators_root (hs_state st) = g) ->
  nd_states n (start_slot cs (epoch (finalized cst))) = Ok st -> In (start_slot cs (epoch (finalized cst))) rs ->
  requests (cached_state_at_slot (fun (_ : unit) s => (nd_states n s, tt))) ([], tt) rs = (answers, (cache', w)) ->
  fst (cached_genesis_root (fun st => st_genesis_validators_root (hs_state st)) pick (fun (_ : unit) s => (nd_states n s, tt)) (cache', w)) = Ok g /\
  rd_genesis_validators_root (host_reader cs pk_deserialize (nd_states n) (nd_headers n) cst atts) = Ok g.
Proof.
  intros cs pkd n st cst atts g pick rs answers cache' w P1 P2 Hg Hst Hin Hr. split.
  - pose proof (C42_genesis_root HState unit (fun (_ : unit) s => (nd_states n s, tt)) (fun st => st_genesis_validators_root (hs_state st)) pick g tt rs answers cache' w
      P1 P2 ltac:(intros ? s x ? [= E <-]; exact (Hg s x E)) Hr) as H.
    assert (Ne : cache' <> []).
    { assert (G : forall rs c w answers c' w', requests (cached_state_at_slot (fun (_ : unit) s => (nd_states n s, tt))) (c, w) rs = (answers, (c', w')) ->
        (c <> [] \/ In (start_slot cs (epoch (finalized cst))) rs) -> c' <> []).
      { clear -Hst. induction rs as [|x rs IH]; intros c w answers c' w' H Hc; cbn [requests] in H.
        - injection H as <- <- <-. destruct Hc as [Hc|[]]. exact Hc.
        - destruct (cached_state_at_slot _ (c, w) x) as [a [c1 w1]] eqn:E1. destruct (requests _ (c1, w1) rs) as [l [c3 w3]] eqn:E2.
          injection H as <- <- <-. eapply IH; [exact E2|]. unfold cached_state_at_slot in E1.
          destruct (cache_get c x) eqn:Ec.
          + injection E1 as <- <- <-. left. intros ->. discriminate Ec.
          + destruct (nd_states n x) as [sx|e|] eqn:Ex; injection E1 as <- <- <-.
            * left. discriminate.
            * destruct Hc as [Hc|[->|Hc]]; [now left|congruence|now right].
            * destruct Hc as [Hc|[->|Hc]]; [now left|congruence|now right]. }
      eapply G; [exact Hr|now right]. }
    destruct (cached_genesis_root _ _ _ _) as [[r|e|] w2]; cbn [fst]; [now rewrite H|destruct H; contradiction..].
  - cbn [host_reader rd_genesis_validators_root]. unfold reader_state. rewrite Hst. cbn [map_err bind]. now rewrite (Hg _ _ Hst).
Qed.

(** What is built for a finalized epoch, or the error in its place, depends only on what the node says
    about the slots from the epoch's block to the first slot at which a later epoch is shown as
    finalized: not on when it is asked, not on what the chain does afterwards, not on the head, and not on how far the search is prepared to go. *)
Theorem C80_only_the_window_matters : forall X cs pk_deserialize cfg n n' e lo last,
  sane_spec X cs -> 0 < slots_per_epoch cs ->
  window cs n e lo last -> agree_between n n' lo (last * slots_per_epoch cs) ->
  last - e <= N.of_nat (nd_fuel n') ->
  vw_prepare (view X cs pk_deserialize cfg n) e = vw_prepare (view X cs pk_deserialize cfg n') e.
Proof. intros. eapply prepare_same; eauto. Qed.

(** Runs. The epochs for which inputs are built: the first one, and each one reached from there. *)
Inductive reached (build : Epoch -> outcome HIError (GuestInput * ConsensusState * ConsensusState * N)) : Epoch -> Epoch -> Prop :=
| reached_first e : reached build e e
| reached_next e e' gi pre post slot : build e = Ok (gi, pre, post, slot) -> reached build (epoch (finalized post)) e' -> reached build e e'.
(** A node shows the chain of [c] from [first] on when, for those of these epochs that are before the
    one it calls finalized, it agrees with [c] on such a window. *)
Definition shows X cs pk_deserialize cfg (c : Node) (first : Epoch) (n : Node) : Prop :=
  forall fin e, nd_finalized n = Ok fin -> reached (vw_prepare (view X cs pk_deserialize cfg c)) first e -> e < fin ->
    exists lo last, window cs c e lo last /\ agree_between c n lo (last * slots_per_epoch cs) /\ last - e <= N.of_nat (nd_fuel n).
Lemma window_small cs n e lo last : 0 < slots_per_epoch cs -> window cs n e lo last -> last + 1 < 2 ^ 64.
Proof.
  intros Hs W. eapply N.le_lt_trans; [|exact (wi_fits _ _ _ _ _ W)]. rewrite <- (N.mul_1_r (last + 1)) at 1. apply N.mul_le_mono_l. lia.
Qed.
(** Every run over nodes that show the chain of [c] - whichever nodes, asked whenever and however often -
    builds inputs of the one sequence that belongs to [c]. *)
Theorem C80_runs_build_the_chains_inputs : forall X cs pk_deserialize cfg c continuous nodes e bs st,
  sane_spec X cs -> 0 < slots_per_epoch cs -> e + 1 < 2 ^ 64 -> Forall (shows X cs pk_deserialize cfg c e) nodes ->
  build_loop continuous (map (view X cs pk_deserialize cfg) nodes) e = (bs, st) ->
  inputs_from (vw_prepare (view X cs pk_deserialize cfg c)) e bs.
Proof.
  intros X cs pkd cfg c continuous nodes e bs st Sane Hs. revert e bs st.
  induction nodes as [|n nodes IH]; intros e bs st He Hn H; cbn [map build_loop] in H; [injection H as <- <-; constructor|].
  inversion Hn as [|? ? H1 H2]; subst.
  destruct (vw_finalized (view X cs pkd cfg n)) as [fin|x|] eqn:Ef; try (injection H as <- <-; constructor).
  rewrite wrap64_exact in H by lia. destruct (fin <? e + 1) eqn:Q; [eauto|].
  destruct (H1 fin e Ef (reached_first _ _) ltac:(lia)) as (lo & last & W & A & F).
  destruct (prepare_same X cs pkd cfg c n e lo last Sane Hs W A F) as [P1 P2]. rewrite <- P1 in H.
  destruct (vw_prepare (view X cs pkd cfg c) e) as [[[[gi pre] post] slot]|x|] eqn:Ep; try (injection H as <- <-; constructor).
  destruct continuous.
  - destruct (build_loop true _ (epoch (finalized post))) as [bs' st'] eqn:Eb. injection H as <- <-. econstructor; [eassumption|].
    apply (IH _ _ st'); [pose proof (P2 gi pre post slot eq_refl); pose proof (window_small cs c e lo last Hs W); lia| |exact Eb].
    eapply Forall_impl; [|exact H2]. intros m Hm fin' e' F1 F2 F3. apply (Hm fin' e' F1); [|exact F3]. eapply reached_next; eauto.
  - injection H as <- <-. econstructor; [exact Ep|constructor].
Qed.
(** There is only one such sequence: of two runs one has built what the other has, and maybe more. *)
Lemma inputs_prefix build : forall e a b, inputs_from build e a -> inputs_from build e b ->
  (exists r, b = a ++ r) \/ (exists r, a = b ++ r).
Proof.
  intros e a b Ha. revert b. induction Ha as [e|e gi pre post slot r Hb Hr IH]; intros b H; [left; now exists b|].
  inversion H as [|? gi' pre' post' slot' r' Hb' Hr']; subst; [right; now eexists|].
  rewrite Hb in Hb'. injection Hb' as <- <- <- <-. destruct (IH r' Hr') as [(q & ->)|(q & ->)]; [left|right]; now exists q.
Qed.
Theorem C80_runs_agree : forall X cs pk_deserialize cfg c continuous continuous' nodes nodes' e bs st bs' st',
  sane_spec X cs -> 0 < slots_per_epoch cs -> e + 1 < 2 ^ 64 ->
  Forall (shows X cs pk_deserialize cfg c e) nodes -> Forall (shows X cs pk_deserialize cfg c e) nodes' ->
  build_loop continuous (map (view X cs pk_deserialize cfg) nodes) e = (bs, st) ->
  build_loop continuous' (map (view X cs pk_deserialize cfg) nodes') e = (bs', st') ->
  (exists more, bs' = bs ++ more) \/ (exists more, bs = bs' ++ more).
Proof.
  intros X cs pkd cfg c continuous continuous' nodes nodes' e bs st bs' st' Sane Hs He N1 N2 H1 H2.
  eapply inputs_prefix.
  - exact (C80_runs_build_the_chains_inputs X cs pkd cfg c continuous nodes e bs st Sane Hs He N1 H1).
  - exact (C80_runs_build_the_chains_inputs X cs pkd cfg c continuous' nodes' e bs' st' Sane Hs He N2 H2).
Qed.
(** So whenever both have built an input for an epoch, it is the same input with the same journal: the
    files they leave, wherever they left them, have the same bytes. *)
Theorem C80_same_files : forall X cs pk_deserialize cfg c continuous continuous' nodes nodes' e bs st bs' st' encode d d' b b',
  sane_spec X cs -> 0 < slots_per_epoch cs -> e + 1 < 2 ^ 64 ->
  Forall (shows X cs pk_deserialize cfg c e) nodes -> Forall (shows X cs pk_deserialize cfg c e) nodes' ->
  build_loop continuous (map (view X cs pk_deserialize cfg) nodes) e = (bs, st) ->
  build_loop continuous' (map (view X cs pk_deserialize cfg) nodes') e = (bs', st') ->
  In b bs -> In b' bs' -> b_epoch b = b_epoch b' ->
  b = b' /\
  build_disk encode d bs (InputFile (b_epoch b)) = build_disk encode d' bs' (InputFile (b_epoch b)) /\
  build_disk encode d bs (JournalFile (b_epoch b)) = build_disk encode d' bs' (JournalFile (b_epoch b)).
Proof.
  intros X cs pkd cfg c continuous continuous' nodes nodes' e bs st bs' st' encode d d' b b' Sane Hs He N1 N2 H1 H2 Hb Hb' Eb.
  pose proof (in_order_nodup _ _ _ _ _ _ _ _ _ H1) as D1. pose proof (in_order_nodup _ _ _ _ _ _ _ _ _ H2) as D2.
  assert (U : forall l (x y : Built), NoDup (map b_epoch l) -> In x l -> In y l -> b_epoch x = b_epoch y -> x = y).
  { induction l as [|a l IH]; intros x y D Hx Hy E; [easy|]. inversion D as [|? ? Da Dl]; subst.
    destruct Hx as [->|Hx], Hy as [->|Hy]; auto; exfalso; apply Da; [rewrite E|rewrite <- E]; now apply in_map. }
  assert (Eq : b = b').
  { destruct (C80_runs_agree X cs pkd cfg c continuous continuous' nodes nodes' e bs st bs' st' Sane Hs He N1 N2 H1 H2) as [(r & ->)|(r & ->)].
    - apply (U _ b b' D2); auto. apply in_or_app. now left.
    - apply (U _ b b' D1); auto. apply in_or_app. now left. }
  split; [exact Eq|]. subst b'.
  destruct (build_disk_in encode bs d b D1 Hb) as [-> ->], (build_disk_in encode bs' d' b D2 Hb') as [-> ->]. auto.
Qed.

(** ** The toy chain, and a node that knows less of it, has other blocks after it, searches much further
    and calls another epoch finalized *)
Definition u_within (s : Slot) : bool := (18 <=? s) && (s <=? 28).
Definition u_node : Node :=
  mkNode (Ok 11) (fun s => if u_within s then h_quiet s else Err (NotFound 77))
    (fun r => if bytes_eqb r g_root || bytes_eqb r g_root12 || bytes_eqb r (toy_root 7) || bytes_eqb r (root (current_justified g_trusted)) || bytes_eqb r (toy_root 13) then h_headers r else Err 7)
    (fun s => if u_within s then r_blocks s else Ok (Some g_header12))
    (mkChain (fun s => if u_within s then ch_state p_chain s else Ok h_post) (fun s => if u_within s then ch_block p_chain s else Err 8) (fun _ => Err 8))
    70.
Lemma q_window : window toy_cs q_node 9 18 14.
Proof.
  constructor; try (vm_compute; congruence).
  - intros s st [A B] H. change (9 * slots_per_epoch toy_cs) with 18 in B. assert (s = 18) by lia. subst s.
    injection H as <-. vm_compute. split; congruence.
  - exists h_post. split; [reflexivity|vm_compute; reflexivity].
  - intros x st Hx H. assert (Q : x = 10 \/ x = 11 \/ x = 12 \/ x = 13 \/ x = 14) by lia.
    destruct Q as [->|[->|[->|[->| ->]]]]; injection H as <-; vm_compute; reflexivity.
Qed.
Lemma u_agrees : agree_between q_node u_node 18 (14 * slots_per_epoch toy_cs).
Proof.
  change (14 * slots_per_epoch toy_cs) with 28.
  assert (W : forall s, 18 <= s <= 28 -> u_within s = true) by (intros; unfold u_within; lia).
  constructor; cbn [q_node u_node nd_states nd_blocks nd_chain nd_headers ch_state ch_block].
  - intros s Hs. now rewrite (W s Hs).
  - intros s Hs. now rewrite (W s Hs).
  - intros s Hs. now rewrite (W s Hs).
  - intros s Hs. now rewrite (W s Hs).
  - intros s st Hs H. unfold p_chain in H. cbn [ch_state] in H.
    repeat match type of H with (if ?b then _ else _) = _ => destruct b; [injection H as <-; split; vm_compute; reflexivity|] end. discriminate H.
Qed.
Example C80_example_same_input : exists gi,
  vw_prepare (view g_X toy_cs h_deserialize DEFAULT_CONFIG q_node) 9 = Ok (gi, g_trusted, h_post, 24) /\
  vw_prepare (view g_X toy_cs h_deserialize DEFAULT_CONFIG u_node) 9 = Ok (gi, g_trusted, h_post, 24) /\
  nd_states q_node 16 <> nd_states u_node 16 /\ ch_state (nd_chain q_node) 30 <> ch_state (nd_chain u_node) 30 /\ nd_finalized q_node <> nd_finalized u_node.
Proof.
  destruct C57_nonvacuous as (gi & H & _). exists gi. split; [exact H|]. split; [|split; [|split]; intros A; discriminate A].
  rewrite <- (C80_only_the_window_matters g_X toy_cs h_deserialize DEFAULT_CONFIG q_node u_node 9 18 14); [exact H|exact toy_sane|reflexivity|exact q_window|exact u_agrees|].
  vm_compute. discriminate.
Qed.
Lemma prepare_no_block X cs pkd states headers blocks collect cfg e st :
  state_at_epoch_boundary (fun s => st_slot (hs_state s)) (fun s => hd_slot (hs_header s)) states cs e = Ok st ->
  blocks (hd_slot (hs_header st)) = Ok None -> forall r, prepare_input X cs pkd states headers blocks collect cfg e <> Ok r.
Proof. intros H1 H2 r. unfold prepare_input. rewrite H1. cbn [map_err bind]. rewrite H2. cbn [map_err bind ok_or]. discriminate. Qed.
(** The two nodes meet the conditions for runs, in any number and order. *)
Lemma q_no_12 r : vw_prepare (view g_X toy_cs h_deserialize DEFAULT_CONFIG q_node) 12 <> Ok r.
Proof. apply (prepare_no_block _ _ _ _ _ _ _ _ _ (h_hstate 24 g_vs)); vm_compute; reflexivity. Qed.
Lemma reached_two build a post b e gi pre slot : build a = Ok (gi, pre, post, slot) -> epoch (finalized post) = b -> (forall r, build b <> Ok r) ->
  reached build a e -> e = a \/ e = b.
Proof.
  intros P Q N12 H. inversion H as [|? ? gi' pre' post' slot' E R]; subst; [now left|right]. rewrite P in E. injection E as _ _ <- _.
  inversion R as [|? ? gi2 pre2 post2 slot2 E2 R2]; subst; [reflexivity|]. now apply N12 in E2.
Qed.
Lemma q_reached e : reached (vw_prepare (view g_X toy_cs h_deserialize DEFAULT_CONFIG q_node)) 9 e -> e = 9 \/ e = 12.
Proof. destruct C57_nonvacuous as (gi & P & _). exact (reached_two _ 9 h_post 12 e gi g_trusted 24 P eq_refl q_no_12). Qed.
Lemma q_shows n : n = q_early \/ n = q_node \/ n = u_node -> shows g_X toy_cs h_deserialize DEFAULT_CONFIG q_node 9 n.
Proof.
  intros Hn fin e F R L. apply q_reached in R as [->| ->].
  - exists 18, 14. split; [exact q_window|]. destruct Hn as [->|[->| ->]]; [| |split; [exact u_agrees|vm_compute; discriminate]];
      (split; [constructor; auto|vm_compute; discriminate]).
  - destruct Hn as [->|[->| ->]]; injection F as <-; lia.
Qed.
Example C80_nonvacuous : forall nodes nodes' bs st bs' st',
  (forall n, In n nodes \/ In n nodes' -> n = q_early \/ n = q_node \/ n = u_node) ->
  build_loop true (map (view g_X toy_cs h_deserialize DEFAULT_CONFIG) nodes) 9 = (bs, st) ->
  build_loop true (map (view g_X toy_cs h_deserialize DEFAULT_CONFIG) nodes') 9 = (bs', st') ->
  (exists more, bs' = bs ++ more) \/ (exists more, bs = bs' ++ more).
Proof.
  intros nodes nodes' bs st bs' st' H H1 H2.
  eapply (C80_runs_agree g_X toy_cs h_deserialize DEFAULT_CONFIG q_node true true nodes nodes' 9); [exact toy_sane|reflexivity|reflexivity| | |exact H1|exact H2];
    apply Forall_forall; intros n Hn; apply q_shows; auto.
Qed.
Lemma build_waits X cs pkd cfg m nodes e fin : nd_finalized m = Ok fin -> (fin <? wrap64 (e + 1)) = true ->
  build_loop true (map (view X cs pkd cfg) (m :: nodes)) e = build_loop true (map (view X cs pkd cfg) nodes) e.
Proof.
  intros H1 H2. cbn [map build_loop]. change (vw_finalized (view X cs pkd cfg m)) with (nd_finalized m). rewrite H1, H2. reflexivity.
Qed.
Lemma build_goes_on X cs pkd cfg m nodes e fin gi pre post slot : nd_finalized m = Ok fin -> (fin <? wrap64 (e + 1)) = false ->
  vw_prepare (view X cs pkd cfg m) e = Ok (gi, pre, post, slot) ->
  build_loop true (map (view X cs pkd cfg) (m :: nodes)) e =
  let '(bs, st) := build_loop true (map (view X cs pkd cfg) nodes) (epoch (finalized post)) in (mkBuilt e gi pre post slot :: bs, st).
Proof.
  intros H1 H2 H3. cbn [map build_loop]. change (vw_finalized (view X cs pkd cfg m)) with (nd_finalized m). rewrite H1, H2, H3. reflexivity.
Qed.
Example C80_nonvacuous_inputs : exists b,
  build_loop true (map (view g_X toy_cs h_deserialize DEFAULT_CONFIG) [q_early; q_node; q_early]) 9 = ([b], Running 12) /\
  build_loop true (map (view g_X toy_cs h_deserialize DEFAULT_CONFIG) [u_node; q_node; u_node; q_early]) 9 = ([b], Running 12) /\
  b_epoch b = 9 /\ b_post b = h_post.
Proof.
  destruct C80_example_same_input as (gi & P & U & _). exists (mkBuilt 9 gi g_trusted h_post 24).
  split; [|split; [|split; reflexivity]].
  - rewrite (build_waits _ _ _ _ q_early _ 9 9) by reflexivity.
    rewrite (build_goes_on _ _ _ _ q_node _ 9 12 gi g_trusted h_post 24) by first [exact P|reflexivity]. change (epoch (finalized h_post)) with 12.
    rewrite (build_waits _ _ _ _ q_early _ 12 9) by reflexivity. reflexivity.
  - rewrite (build_goes_on _ _ _ _ u_node _ 9 11 gi g_trusted h_post 24) by first [exact U|reflexivity]. change (epoch (finalized h_post)) with 12.
    rewrite (build_waits _ _ _ _ q_node _ 12 12) by reflexivity. rewrite (build_waits _ _ _ _ u_node _ 12 11) by reflexivity.
    rewrite (build_waits _ _ _ _ q_early _ 12 9) by reflexivity. reflexivity.
Qed.
(** The genesis state does not belong to it: the nodes above do not have it. *)
Example C80_example_no_genesis : nd_states q_node 0 = Err (NotFound 0) /\ nd_states u_node 0 = Err (NotFound 77).
Proof. split; reflexivity. Qed.

Definition q_pick (c : cache HState) : option HState := match c with [] => None | (_, st) :: _ => Some st end.
Example C80_genesis_root_nonvacuous : exists st,
  nd_states q_node (start_slot toy_cs (epoch (finalized g_trusted))) = Ok st /\
  (forall c, q_pick c = None <-> c = []) /\ (forall c st, q_pick c = Some st -> exists s, In (s, st) c) /\
  (forall s st, nd_states q_node s = Ok st -> st_genesis_validators_root (hs_state st) = toy_gvr) /\
  rd_genesis_validators_root (host_reader toy_cs h_deserialize (nd_states q_node) (nd_headers q_node) g_trusted []) = Ok toy_gvr.
Proof.
  assert (E18 : nd_states q_node (start_slot toy_cs (epoch (finalized g_trusted))) = Ok (h_hstate 18 g_vs)) by reflexivity.
  exists (h_hstate 18 g_vs). split; [exact E18|]. split.
  { intros [|[s st] c]; split; intros H; try discriminate H; reflexivity. }
  split. { intros [|[s st'] c] st H; [discriminate H|]. injection H as <-. exists s. now left. }
  split. { intros s st E. cbn [q_node nd_states] in E. unfold h_quiet, h_states_of in E. repeat (destruct (s =? _); [injection E as <-; reflexivity|]). discriminate E. }
  cbn [host_reader rd_genesis_validators_root]. unfold reader_state. rewrite E18. reflexivity.
Qed.

Print Assumptions C80_only_the_window_matters.
Print Assumptions C80_runs_build_the_chains_inputs.
Print Assumptions C80_runs_agree.
Print Assumptions C80_same_files.
Print Assumptions C80_genesis_root_of_any_state.
