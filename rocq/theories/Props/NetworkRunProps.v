(** C72: on an honest network, build-input and sync run without end. *)
From Coq Require Import List Arith NArith Bool Lia.
From Coq Require Import ZifyBool ZifyNat ZifyN.
From Coq.Init Require Import Byte.
From Verif.Model Require Import Base Types TreeHash Shuffle ConsensusState Verify GuestReader Guest Cli CliRun HostChain HostStore HostInput StateFile InputCodec Networks.
From Verif.Spec Require FFG.
From Verif.Spec Require Import FFG Merkle Ssz Beacon Registry Committees GuestSpec VerifySpec HostSpec ExitQueue Pipeline HostInputSpec CliSpec InputCodecSpec NetworkSpec ShuffleSpec Meaning Honest Moving NetworkRun.
From Verif.Proof Require Import BaseLemmas AbiP VerifyP GuestP HostChainP HostInputP HostGuestP PreflightP PipelineP.
From Verif.Props Require Import ConsensusProps VerifyProps GuestToy HostToy HostInputProps CliProps ReplayProps PipelineProps CliRunProps InputCodecProps NetworkProps ShuffleProps MeaningProps HonestProps MovingProps.
Import ListNotations.
Open Scope N_scope.
Notation length := List.length.

(** ** An input of a 32-bit platform is one of a 64-bit platform *)
Lemma pow_wider a b : a <= b -> 2 ^ a <= 2 ^ b.
Proof. intros H. apply N.pow_le_mono_r; lia. Qed.
Lemma short_wider {A} w w' (l : list A) : w <= w' -> short w l -> short w' l.
Proof. unfold short. intros H L. pose proof (pow_wider w w' H). lia. Qed.
Lemma multiproof_wider w w' m : w <= w' -> wf_multiproof w m -> wf_multiproof w' m.
Proof.
  intros H [A B D E]. constructor; [eapply short_wider; eauto| | |pose proof (pow_wider w w' H); lia]; (eapply short_wider; [|eassumption]; lia).
Qed.
Lemma patch_wider w w' p : w <= w' -> wf_patch w p -> wf_patch w' p.
Proof.
  intros H [(A1 & A2 & A3) (B1 & B2 & B3)]. pose proof (pow_wider w w' H). constructor; (split; [assumption|split; [eapply short_wider; eauto|]]); [assumption|].
  eapply Forall_impl; [|exact B3]. cbn beta. intros x [Q1 Q2]. split; [lia|exact Q2].
Qed.
Lemma wf_wider C w w' gi : w <= w' -> wf_input C w gi -> wf_input C w' gi.
Proof.
  intros H [A B D (E1 & E2) (F1 & F2 & F3) G (I1 & I2) (J1 & J2)].
  constructor; eauto using multiproof_wider, short_wider; (split; [eauto using short_wider|]); auto.
  - split; [eauto using short_wider|]. eapply Forall_impl; [|exact F3]. cbn beta. intros x [Q1 Q2]. eauto using patch_wider.
  - eapply Forall_impl; [|exact J2]. cbn beta. intros x Q. eauto using multiproof_wider.
Qed.

Section Runs.
  Variables (n : Network) (X0 : Externals) (C : Codec) (pkd : bytes -> option PublicKey).
  Let X := with_swap_or_not X0 64.
  Let cs := network_spec n.
  Hypothesis U : usize_bits X0 = 64.
  Hypothesis S : sane_codec C.
  Hypothesis Ml : mainnet_limits C.
  Hypothesis Sb : signatures_by_bytes X0.

  Lemma step_input_room nd trusted s t slot : network_node n X C pkd nd trusted s t slot -> exists gi,
    vw_prepare (view X cs pkd (config_for n) nd) (epoch trusted) = Ok (gi, s, t, slot) /\
    N.of_nat (length (encode_input C gi)) + 2 ^ 20 < 2 ^ 32 /\ wf_input C 32 gi /\ gi_consensus_state gi = s /\
    forall bits, bits = 32 \/ bits = 64 ->
      exists r, into_reader (on_platform X bits) cs gi = Ok r /\ verify (on_platform X bits) (config_for n) (guest_reader r) = Ok (t, slot).
  Proof.
    intros (e & us & ls & bs & st & sta & h & [N W (F1 & F2 & F3) V (H1 & H2 & <-) (T1 & T2 & T3) D (A1 & A2) M (Y1 & Y2 & Y3) (Z1 & Z2 & Z3 & Z4 & Z5)]).
    exact (moving_core n X0 C pkd (nd_states nd) (nd_headers nd) (nd_blocks nd) (nd_chain nd) (nd_fuel nd) trusted e s us t ls bs st sta h
      U S Ml Sb N W F1 F2 F3 V H1 H2 T1 T2 T3 D A1 A2 M Y1 Y2 Y3 Z1 Z2 Z3 Z4 Z5).
  Qed.
  Lemma step_input nd trusted s t slot : network_node n X C pkd nd trusted s t slot -> exists gi,
    vw_prepare (view X cs pkd (config_for n) nd) (epoch trusted) = Ok (gi, s, t, slot) /\
    N.of_nat (length (encode_input C gi)) < 2 ^ 32 /\ wf_input C 32 gi /\ gi_consensus_state gi = s /\
    forall bits, bits = 32 \/ bits = 64 ->
      exists r, into_reader (on_platform X bits) cs gi = Ok r /\ verify (on_platform X bits) (config_for n) (guest_reader r) = Ok (t, slot).
  Proof. intros H. apply step_input_room in H as (gi & P & L & Q). exists gi. split; [exact P|]. split; [now apply room|exact Q]. Qed.
  Lemma step_advances nd trusted s t slot : network_node n X C pkd nd trusted s t slot -> finalized s = trusted /\ epoch trusted < epoch (finalized t).
  Proof.
    intros H. pose proof H as (e & us & ls & bs & st & sta & h & H'). pose proof (nf_trusted _ _ _ _ _ _ _ _ (ns_next _ _ _ _ _ _ _ _ _ _ _ _ _ _ _ _ H')) as T.
    destruct (step_input _ _ _ _ _ H) as (gi & P & _). destruct (prepare_advances _ _ _ _ _ _ _ _ _ _ P) as (_ & Q & _). auto.
  Qed.

  Theorem C72_build_input : forall d nodes trusted steps, network_watch n X C pkd nodes trusted steps ->
    exists bs e, build_loop true (map (view X cs pkd (config_for n)) nodes) (epoch trusted) = (bs, Running e) /\
      map (fun b => (b_pre b, b_post b, b_slot b)) bs = steps /\
      forall b, In b bs -> exists input journal,
        build_disk (encode_input C) d bs (InputFile (b_epoch b)) = Some input /\
        build_disk (encode_input C) d bs (JournalFile (b_epoch b)) = Some journal /\
        guest_for n (with_swap_or_not (on_platform X0 32) 64) (decode_input C 32) input = Ok journal.
  Proof.
    intros d nodes trusted steps W.
    assert (G : exists bs e, build_loop true (map (view X cs pkd (config_for n)) nodes) (epoch trusted) = (bs, Running e) /\
      map (fun b => (b_pre b, b_post b, b_slot b)) bs = steps /\
      forall b, In b bs -> N.of_nat (length (encode_input C (b_input b))) < 2 ^ 32 /\
        entry (on_platform X 32) (decode_input C 32) cs (config_for n) (encode_input C (b_input b)) = Ok (journal_encode (b_pre b) (b_post b) (b_slot b))).
    { induction W as [trusted|nd ns trusted fin steps Hf Hle Hmax W IH|nd ns trusted fin s t slot steps Hf Hlt Hn W IH].
      - exists [], (epoch trusted). cbn. repeat split; tauto.
      - destruct IH as (bs & e & IH). exists bs, e. cbn [map build_loop view vw_finalized]. rewrite Hf.
        assert (Hw : fin <? wrap64 (epoch trusted + 1) = true). { apply N.ltb_lt. unfold wrap64, two64. rewrite N.mod_small by lia. lia. }
        rewrite Hw. exact IH.
      - destruct IH as (bs & e & I1 & I2 & I3). destruct (step_input _ _ _ _ _ Hn) as (gi & P & L & Wf & Cg & Q).
        destruct (Q 32 (or_introl eq_refl)) as (r & R1 & R2).
        exists (mkBuilt (epoch trusted) gi s t slot :: bs), e. cbn [map build_loop]. rewrite P. cbn [view vw_finalized]. rewrite Hf.
        assert (Hw : fin <? wrap64 (epoch trusted + 1) = false).
        { apply N.ltb_ge. unfold wrap64, two64. pose proof (N.mod_le (epoch trusted + 1) (2 ^ 64)). lia. }
        rewrite Hw, I1. split; [reflexivity|]. split; [cbn [b_pre b_post b_slot]; now rewrite I2|].
        intros b [<-|Hb]; [|now apply I3]. cbn [b_input b_pre b_post b_slot]. split; [exact L|]. rewrite <- Cg. eapply entry_of_verify; eauto.
        rewrite <- (app_nil_r (encode_input C gi)). apply C63_round_trip; auto. lia. }
    destruct G as (bs & e & G1 & G2 & G3). exists bs, e. split; [exact G1|]. split; [exact G2|]. intros b Hb. destruct (G3 b Hb) as [L En].
    destruct (proj1 (C58_files X cs pkd (config_for n) true nodes (epoch trusted) bs (Running e) (encode_input C) d G1) b Hb) as [D1 D2].
    eexists _, _. split; [exact D1|]. split; [exact D2|].
    rewrite C65_same_parameters, C44_guest_input by exact L. fold cs. rewrite C68_guest_platform by (rewrite ?U; lia). exact En.
  Qed.

  Lemma network_first nodes c s t slot r : network_watch n X C pkd nodes c ((s, t, slot) :: r) ->
    exists nd e us ls, In nd nodes /\ next_finality cs (nd_chain nd) c e s us t ls.
  Proof.
    intros W. remember ((s, t, slot) :: r) as steps eqn:E. induction W as [trusted|nd ns trusted fin steps Hf Hle Hmax W IH|nd ns trusted fin s0 t0 slot0 steps Hf Hlt Hn W IH].
    - discriminate.
    - destruct (IH E) as (m & e & us & ls & Hm & H). exists m, e, us, ls. split; [now right|exact H].
    - injection E as -> -> -> ->. destruct Hn as (e & us & ls & bs & st & sta & h & H). exists nd, e, us, ls. split; [now left|apply H].
  Qed.
  Theorem C72_journals_link : forall ch nodes trusted steps, (forall nd, In nd nodes -> nd_chain nd = ch) -> finalizes_past cs ch ->
    network_watch n X C pkd nodes trusted steps -> linked steps.
  Proof.
    intros ch nodes trusted steps Hc Past W. induction W as [trusted|nd ns trusted fin steps Hf Hle Hmax W IH|nd ns trusted fin s t slot steps Hf Hlt Hn W IH].
    - exact I.
    - apply IH. intros m Hm. apply Hc. now right.
    - destruct steps as [|[[s' t'] slot'] r]; [exact I|]. split; [|apply IH; intros m Hm; apply Hc; now right].
      apply network_first in W as (m & e' & us' & ls' & Hm & N'). destruct Hn as (e & us & ls & bs & st & sta & h & H).
      pose proof (ns_next _ _ _ _ _ _ _ _ _ _ _ _ _ _ _ _ H) as N1. rewrite Hc in N1 by now left. rewrite Hc in N' by now right.
      eapply confirming_state; [exact N1|exact Past|apply N'|apply N'].
  Qed.

  (** [sync], on the host alone or also in the zkVM. *)
  Theorem C72_sync : forall r0vm nodes st ts, network_follow n X C pkd nodes st ts ->
    let executor b := match guest_for n (with_swap_or_not (on_platform X0 32) 64) (decode_input C 32) (encode_input_stdin b) with Ok j => Some j | _ => None end in
    exists e, sync_loop (encode_input C) (run_verify X (decode_input C 64) executor cs (config_for n) r0vm) (map (view X cs pkd (config_for n)) nodes) st
      = (ok_log st ts, Running e).
  Proof.
    intros r0vm nodes st ts F executor. induction F as [st|nd ns st s t slot ts H W1 W2 F IH].
    - eexists. reflexivity.
    - destruct IH as (e & IH). exists e. cbn [map sync_loop ok_log].
      destruct (step_input _ _ _ _ _ H) as (gi & P & L & Wf & Cg & Q). rewrite P.
      assert (EX : on_platform X 64 = X) by (unfold on_platform, X, with_swap_or_not; cbn; now rewrite U).
      destruct (Q 64 (or_intror eq_refl)) as (r & R1 & R2). rewrite EX in R1, R2. destruct (Q 32 (or_introl eq_refl)) as (r' & R1' & R2').
      assert (Vs : FFG.valid_state s).
      { destruct H as (e0 & us & ls & bs & st0 & sta & h & H). eapply nf_valid. apply (ns_next _ _ _ _ _ _ _ _ _ _ _ _ _ _ _ _ H). }
      assert (Vt : FFG.valid_state t).
      { destruct (C10_result_bounds X (config_for n) (guest_reader r) t slot _ R2 eq_refl) as (_ & B & _). left. lia. }
      assert (Hg : decode_input C 64 (encode_input C gi) = Some gi).
      { rewrite <- (app_nil_r (encode_input C gi)). apply C63_round_trip; auto; [lia|]. eapply wf_wider; [|exact Wf]. lia. }
      assert (Ee : executor (encode_input C gi) = Some (journal_encode s t slot)).
      { unfold executor. rewrite C65_same_parameters, C44_guest_input by exact L. fold cs. rewrite C68_guest_platform by (rewrite ?U; lia). fold X.
        replace (entry _ _ _ _ _) with (@Ok unit bytes (journal_encode s t slot)); [reflexivity|]. symmetry. rewrite <- Cg. eapply entry_of_verify; eauto.
        rewrite <- (app_nil_r (encode_input C gi)). apply C63_round_trip; auto. lia. }
      assert (Rv : run_verify X (decode_input C 64) executor cs (config_for n) r0vm s (encode_input C gi) = Ok t).
      { unfold run_verify. rewrite Hg. cbn [ok_or bind]. rewrite R1. cbn [map_err bind]. rewrite R2. cbn [map_err bind].
        destruct r0vm; [|reflexivity]. rewrite Ee. cbn [ok_or bind].
        pose proof (C06_host_decodes_journal s t slot W1 W2 Vs Vt) as [D1 D2].
        change abi_encoded_size with 128%nat.
        assert (Lj : Nat.leb 128 (length (journal_encode s t slot)) = true).
        { apply Nat.leb_le. unfold journal_encode. rewrite app_length, (AbiP.abi_state_length _ W1). lia. }
        rewrite Lj, D1, D2. cbn [assert_ map_err bind].
        rewrite (proj2 (state_eqb_eq t t) eq_refl), (proj2 (state_eqb_eq s s) eq_refl). reflexivity. }
      rewrite Rv, (proj2 (state_eqb_eq t t) eq_refl), IH. reflexivity.
  Qed.
End Runs.

(** ** Non-vacuity: two steps on mainnet *)
(** The chain of C71_nonvacuous, now with the roots of the epochs' own blocks, and one epoch longer. The
    registry changes after the second trusted state. *)
Definition u_T : N := Eval vm_compute in w_trust Mainnet.
Definition u_hstate (e : N) : HState := if e <? u_T + 2 then z_hstate Mainnet e else m_hstate Mainnet e.
Definition u_state_root1 : bytes := Eval vm_compute in mroot g_hash (state_tree g_hash (z_state Mainnet (u_T + 1))).
Definition u_header (e : N) : Header :=
  mkHeader (32 * e) 3 (toy_root 17) (if e =? u_T then w_state_root Mainnet else if e =? u_T + 1 then u_state_root1 else toy_root e) (MLeaf (toy_root 1818)).
Definition u_root0 : bytes := Eval vm_compute in mroot g_hash (header_tree g_hash (u_header u_T)).
Definition u_root1 : bytes := Eval vm_compute in mroot g_hash (header_tree g_hash (u_header (u_T + 1))).
Definition u_root2 : bytes := Eval vm_compute in mroot g_hash (header_tree g_hash (u_header (u_T + 2))).
Definition u_cp (e : N) : Checkpoint :=
  mkCheckpoint e (if e =? u_T then u_root0 else if e =? u_T + 1 then u_root1 else if e =? u_T + 2 then u_root2 else toy_root e).
(** The state that the chain is in at the start of epoch [e]. *)
Definition u_at (e : N) : ConsensusState := mkCS (u_cp (e - 1)) (u_cp (e - 2)).
Definition u_link (e : N) : Link := mkLink (u_cp (e - 1)) (u_cp e).
Definition u_order (e : N) : list N := if e =? u_T + 2 then [6; 1; 0; 3; 2; 4; 5; 7] else [3; 2; 0; 7; 1; 6; 4; 5].
Definition u_att (e k : N) : Attestation :=
  let d := toy_data (32 * e + 4 * k + 3) (u_link e) in
  mkAttestation true [true] (true :: repeat false 63) d
    (g_sig (signing_root g_hash d (get_attester_domain g_hash (network_spec Mainnet) e (fork_at_epoch (network_spec Mainnet) e) toy_gvr)
       ++ g_key (nth (N.to_nat k) (u_order e) 0))).
Definition u_ks : list N := [0; 1; 2; 3; 4; 5; 6; 7].
Definition u_atts (e : N) : list Attestation := map (u_att e) u_ks.
(** The first votes of an epoch are in a block of that epoch, the others in the first block of the next. *)
Definition u_block (slot : N) : option Block :=
  if slot =? 32 * (u_T + 2) + 20 then Some (mkBlock true (firstn 3 (u_atts (u_T + 2))))
  else if slot =? 32 * (u_T + 3) then Some (mkBlock true (skipn 3 (u_atts (u_T + 2))))
  else if slot =? 32 * (u_T + 3) + 20 then Some (mkBlock true (firstn 3 (u_atts (u_T + 3))))
  else if slot =? 32 * (u_T + 4) then Some (mkBlock true (skipn 3 (u_atts (u_T + 3)))) else None.
Definition u_chain : Chain :=
  mkChain (fun slot => if (32 * (u_T + 1) <=? slot) && (slot <=? 32 * (u_T + 4)) && (slot mod 32 =? 0) then Ok (u_at (slot / 32)) else Err 9)
    (fun slot => Ok (u_block slot)) (fun _ => Err 9).
Definition u_states (slot : Slot) : answer HState :=
  if slot =? 0 then Ok (z_hstate Mainnet 0)
  else if (32 * u_T <=? slot) && (slot <=? 32 * (u_T + 3)) && (slot mod 32 =? 0) then Ok (u_hstate (slot / 32)) else Err (NotFound slot).
Definition u_headers (r : Root) : outcome N (option Header) :=
  Ok (if bytes_eqb r u_root1 then Some (u_header (u_T + 1)) else if bytes_eqb r u_root2 then Some (u_header (u_T + 2)) else None).
Definition u_blocks (slot : Slot) : outcome N (option Header) :=
  Ok (if slot =? 32 * u_T then Some (u_header u_T) else if slot =? 32 * (u_T + 1) then Some (u_header (u_T + 1)) else None).
(** The node when the chain has finalized epoch [fin]. *)
Definition u_node (fin : N) : Node := mkNode (Ok fin) u_states u_headers u_blocks u_chain 5.

Lemma u_epochs slot : slot mod 32 = 0 -> 32 * (slot / 32) = slot.
Proof. intros H. pose proof (N.div_mod slot 32). lia. Qed.
Lemma u_chain_at e : u_T + 1 <= e <= u_T + 4 -> state_at (network_spec Mainnet) u_chain e (u_at e).
Proof.
  intros H. unfold state_at. cbn [u_chain ch_state]. change (slots_per_epoch (network_spec Mainnet)) with 32.
  rewrite N.mod_mul, N.div_mul by discriminate. replace (_ && _) with true by lia. reflexivity.
Qed.
Lemma u_past : finalizes_past (network_spec Mainnet) u_chain.
Proof.
  intros e st H. unfold state_at in H. cbn [u_chain ch_state] in H. change (slots_per_epoch (network_spec Mainnet)) with 32 in H.
  rewrite N.mod_mul, N.div_mul in H by discriminate. destruct ((32 * (u_T + 1) <=? e * 32) && (e * 32 <=? 32 * (u_T + 4)) && (0 =? 0)) eqn:E; [|discriminate].
  injection H as <-. cbn [u_at finalized u_cp epoch]. unfold u_T in *. lia.
Qed.
Lemma u_states_at e : u_T <= e <= u_T + 3 -> u_states (32 * e) = Ok (u_hstate e).
Proof.
  intros H. unfold u_states. replace (32 * e =? 0) with false by (unfold u_T in *; lia). rewrite (N.mul_comm 32 e), N.mod_mul, N.div_mul by discriminate.
  replace (_ && _) with true by lia. reflexivity.
Qed.
(** Everything below is for the target epoch [e] of either step. *)
Notation u_target e := (e = u_T + 2 \/ e = u_T + 3).
Lemma u_next e : u_target e -> next_finality (network_spec Mainnet) u_chain (u_cp (e - 2)) e (u_at e) [] (u_at (e + 1)) [u_link e].
Proof.
  intros He. assert (L : u_at (e + 1) = mkCS (u_cp e) (u_cp (e - 1))).
  { unfold u_at. replace (e + 1 - 1) with e by lia. now replace (e + 1 - 2) with (e - 1) by (destruct He; unfold u_T in *; lia). }
  constructor.
  - split; [cbn [u_cp epoch]; unfold u_T in *; lia|]. split.
    + exists (u_at e). split; [apply u_chain_at; lia|reflexivity].
    + intros e' He'. cbn [u_cp epoch] in *. exists (u_at e'). split; [apply u_chain_at; unfold u_T in *; lia|]. cbn [u_at finalized u_cp epoch]. unfold u_T in *. lia.
  - apply u_chain_at. lia.
  - cbn [app states_from]. split; [|exact I]. apply u_chain_at. lia.
  - constructor.
  - destruct He as [->| ->]; vm_compute; discriminate.
  - cbn [app]. rewrite L. unfold u_at, u_link. apply hist_link; [left|apply FFG.ffg_finalize|intros [Hg _]; destruct He as [->| ->]; discriminate Hg|constructor]; destruct He as [->| ->]; vm_compute; reflexivity.
Qed.
Definition u_bs (e : N) : list Block :=
  (if e =? u_T + 3 then [mkBlock true (skipn 3 (u_atts (u_T + 2)))] else []) ++ [mkBlock true (firstn 3 (u_atts e)); mkBlock true (skipn 3 (u_atts e))].
Lemma u_window e : u_target e -> vote_window (network_spec Mainnet) u_chain [u_link e] (u_bs e).
Proof.
  intros He. constructor; [|destruct He as [->| ->]; repeat constructor].
  exists e, e, (map (fun k => 32 * e + N.of_nat k) (seq 0 33)). split; [|split; [destruct He as [->| ->]; vm_compute; reflexivity|split]].
  - split; [|split].
    + intros l [<-|[]]. cbn. lia.
    + exists (u_link e). split; [now left|reflexivity].
    + exists (u_link e). split; [now left|reflexivity].
  - change (slots_per_epoch (network_spec Mainnet)) with 32. split.
    + generalize 0%nat, 33%nat. intros a k. revert a. induction k as [|k IH]; intros a; cbn [seq map]; constructor; [apply IH|].
      apply Forall_forall. intros x Hx. apply in_map_iff in Hx as (j & <- & Hj). apply in_seq in Hj. lia.
    + intros x. rewrite in_map_iff. split.
      * intros (j & <- & Hj). apply in_seq in Hj. lia.
      * intros Hx. exists (N.to_nat (x - 32 * e)). split; [lia|]. apply in_seq. lia.
  - exists (map (fun k => u_block (32 * e + N.of_nat k)) (seq 0 33)). split; [|destruct He as [->| ->]; reflexivity].
    generalize (seq 0 33). intros l. induction l as [|k l IH]; constructor; [reflexivity|exact IH].
Qed.
Lemma u_votes e : u_target e -> votes_for (u_link e) (included (u_bs e)) = u_atts e.
Proof. intros He. rewrite votes_for_eqb. destruct He as [->| ->]; vm_compute; reflexivity. Qed.
Lemma u_chain_votes e : u_target e -> chain_votes [u_link e] (u_bs e) = u_atts e.
Proof. intros He. unfold chain_votes. cbn [flat_map]. now rewrite u_votes, app_nil_r. Qed.
Lemma u_all e (P : Attestation -> Prop) : (forall k, In k u_ks -> P (u_att e k)) -> Forall P (u_atts e).
Proof. intros H. apply Forall_forall. intros a Ha. apply in_map_iff in Ha as (k & <- & Hk). auto. Qed.
Lemma u_targets e x : In x (target_epochs (u_atts e)) <-> x = e.
Proof.
  split; [intros H; apply in_map_iff in H as (a & <- & Ha); apply in_map_iff in Ha as (k & <- & _); reflexivity|].
  intros ->. left. reflexivity.
Qed.
Lemma u_active e vs : vs = w_vs \/ vs = m_vs Mainnet -> u_target e -> active_indices vs e = [0; 1; 2; 3; 4; 5; 6; 7].
Proof. intros [->| ->] [->| ->]; vm_compute; reflexivity. Qed.
(** The committees: the [k]-th element in the shuffled order is alone in the committee of slot [4 k + 3]. *)
Lemma u_committee e k : u_target e -> In k u_ks ->
  spec_beacon_committee g_hash (g_hash ([x01; x00; x00; x00] ++ le_bytes 8 e ++ toy_root 10)) 90 [0; 1; 2; 3; 4; 5; 6; 7] 32 1 (32 * e + 4 * k + 3) 0
  = [nth (N.to_nat k) (u_order e) 0].
Proof. intros [->| ->] H; repeat destruct H as [<-|H]; try contradiction; vm_compute; reflexivity. Qed.
Lemma u_attesters e vs k : vs = w_vs \/ vs = m_vs Mainnet -> u_target e -> In k u_ks ->
  attesting_indices z_X vs (toy_root 10) (u_att e k) = [nth (N.to_nat k) (u_order e) 0].
Proof.
  intros Hv He Hk. unfold attesting_indices. change (epoch (ad_target (att_data (u_att e k)))) with e. cbv zeta. rewrite u_active by assumption.
  change (committees_per_slot (N.of_nat (length [0; 1; 2; 3; 4; 5; 6; 7]))) with 1. change (sha256 z_X) with g_hash.
  unfold spec_attesters. change (set_positions (committee_bits (u_att e k))) with [0]. cbn [map concat].
  change (ad_slot (att_data (u_att e k))) with (32 * e + 4 * k + 3). rewrite u_committee, app_nil_r by assumption.
  cbn [u_att aggregation_bits]. destruct He as [->| ->]; repeat destruct Hk as [<-|Hk]; try contradiction; reflexivity.
Qed.
Lemma u_keys vs k e : vs = w_vs \/ vs = m_vs Mainnet -> u_target e -> In k u_ks ->
  key_at vs (nth (N.to_nat k) (u_order e) 0) = g_key (nth (N.to_nat k) (u_order e) 0) ++ repeat x00 47.
Proof. intros [->| ->] [->| ->] H; repeat destruct H as [<-|H]; try contradiction; reflexivity. Qed.
Lemma u_justified e st : st_validators st = w_vs \/ st_validators st = m_vs Mainnet -> st_genesis_validators_root st = toy_gvr -> u_target e ->
  justified_by z_X Mainnet st (toy_root 10) (u_link e) (u_atts e).
Proof.
  intros Hv Hg He. split.
  - apply u_all. intros k Hk. unfold vote_valid. rewrite u_attesters by assumption.
    split; [reflexivity|]. split; [reflexivity|]. split; [reflexivity|].
    split; [destruct He as [->| ->]; repeat destruct Hk as [<-|Hk]; try contradiction; vm_compute; reflexivity|]. split; [reflexivity|]. split; [discriminate|].
    exists [g_key (nth (N.to_nat k) (u_order e) 0)]. split.
    + cbn [map]. rewrite u_keys by assumption. destruct He as [->| ->]; repeat destruct Hk as [<-|Hk]; try contradiction; vm_compute; reflexivity.
    + rewrite Hg. destruct He as [->| ->]; repeat destruct Hk as [<-|Hk]; try contradiction; vm_compute; reflexivity.
  - assert (V : voters z_X (st_validators st) (toy_root 10) (epoch (target (u_link e))) (u_atts e) =
      filter (fun i => existsb (fun k => i =? nth (N.to_nat k) (u_order e) 0) u_ks && negb (is_slashed (st_validators st) i)) (active_indices (st_validators st) e)).
    { unfold voters. apply filter_ext. intros i. f_equal. unfold u_atts, u_ks. cbn [map existsb]. rewrite !u_attesters by (assumption || (unfold u_ks; cbn [In]; tauto)).
      cbn [mem existsb]. now rewrite !orb_false_r. }
    rewrite V. change (epoch (target (u_link e))) with e. destruct Hv as [-> | ->]; destruct He as [->| ->]; vm_compute; discriminate.
Qed.
Lemma u_includable e vs : vs = w_vs \/ vs = m_vs Mainnet -> u_target e -> Forall (includable z_X vs (toy_root 10)) (u_atts e).
Proof.
  intros Hv He. apply u_all. intros k Hk. unfold includable. change (epoch (ad_target (att_data (u_att e k)))) with e. rewrite u_active by assumption.
  cbv zeta. change (set_positions (committee_bits (u_att e k))) with [0].
  change (committees_per_slot (N.of_nat (length [0; 1; 2; 3; 4; 5; 6; 7]))) with 1. change (sha256 z_X) with g_hash.
  split; [constructor; [lia|constructor]|]. exists [[true]]. split; [|repeat constructor].
  cbn [map]. change (ad_slot (att_data (u_att e k))) with (32 * e + 4 * k + 3). rewrite u_committee by assumption.
  change (aggregation_bits (u_att e k)) with ([true] ++ []). constructor; [reflexivity|constructor].
Qed.
Lemma u_here e : u_target e -> u_states (32 * (e - 2)) = Ok (z_hstate Mainnet (e - 2)).
Proof. intros He. rewrite u_states_at by (unfold u_T in *; lia). unfold u_hstate. now replace (e - 2 <? u_T + 2) with true by (unfold u_T in *; lia). Qed.
Lemma u_later e : u_target e -> u_states (32 * e) = Ok (m_hstate Mainnet e).
Proof. intros He. rewrite u_states_at by lia. unfold u_hstate. now replace (e <? u_T + 2) with false by lia. Qed.
Lemma u_honest e : u_target e -> Forall (fun l =>
  honest_votes Mainnet z_X h_deserialize u_states (u_cp (e - 2)) (z_hstate Mainnet (e - 2)) l (votes_for l (included (u_bs e))) /\
  trusted_support Mainnet z_X u_states (z_hstate Mainnet (e - 2)) l (votes_for l (included (u_bs e)))) [u_link e].
Proof.
  intros He. constructor; [|constructor]. rewrite u_votes by exact He. split; [constructor|].
  - discriminate.
  - cbn [u_link u_cp target epoch]. destruct He as [->| ->]; split; vm_compute; discriminate.
  - exists (m_hstate Mainnet e), (toy_root 10). change (epoch (target (u_link e))) with e.
    split; [now apply u_later|]. split; [reflexivity|]. split; [apply m_keys|].
    split. { cbn [m_hstate hs_randao_mixes]. apply z_mix. apply N.mod_lt. discriminate. }
    split; [vm_compute; reflexivity|]. split. { cbn [m_hstate hs_state st_validators]. rewrite u_active by auto. reflexivity. }
    split; [vm_compute; reflexivity|].
    split; [apply u_justified; auto|apply u_includable; auto].
  - intros st' mix E Hm. change (epoch (target (u_link e))) with e in *. rewrite u_later in E by exact He. injection E as <-.
    cbn [m_hstate hs_randao_mixes] in Hm. rewrite z_mix in Hm by (apply N.mod_lt; discriminate). injection Hm as <-.
    apply (u_justified e (z_state Mainnet (e - 2))); auto.
Qed.
Lemma u_moves limit : limit <= u_T + 5 -> registry_moves limit w_vs (m_vs Mainnet).
Proof.
  intros H. destruct (m_moves Mainnet) as [M1 M2]. split; [exact M1|]. intros i v' Hv. unfold u_T in *.
  do 9 (destruct i as [|i]; [injection Hv as <-; cbn -[N.lt]; rewrite ?N.eqb_refl; cbn -[N.lt]; first [
    (split; [reflexivity|split; [now left|]]; first [now left|right; unfold g_far; lia])|unfold g_far; lia]|]).
  destruct i; discriminate Hv.
Qed.
Lemma u_moving e : u_target e -> moving_chain Mainnet u_states (u_cp (e - 2)) (z_hstate Mainnet (e - 2)) (u_atts e).
Proof.
  intros He. assert (Hl : forall x st', In x (target_epochs (u_atts e)) -> u_states (32 * x) = Ok st' -> x = e /\ st' = m_hstate Mainnet e).
  { intros x st' Hx E. apply u_targets in Hx as ->. rewrite u_later in E by exact He. injection E as <-. auto. }
  constructor.
  - intros s st' E. unfold u_states in E. destruct (s =? 0); [injection E as <-; reflexivity|].
    destruct ((32 * u_T <=? s) && (s <=? 32 * (u_T + 3)) && (s mod 32 =? 0)); [|discriminate E]. injection E as <-. unfold u_hstate.
    repeat match goal with |- context [if ?b then _ else _] => destruct b end; reflexivity.
  - intros st' i v v' E Hv Hv'. cbn [u_cp epoch] in E. rewrite u_here in E by exact He. injection E as <-. congruence.
  - intros x Hx. apply u_targets in Hx as ->. destruct He as [->| ->]; vm_compute; discriminate.
  - intros x st' Hx E. apply Hl in E as [-> ->]; [|exact Hx]. reflexivity.
  - intros x st' Hx E. apply Hl in E as [-> ->]; [|exact Hx]. apply u_moves. cbn [u_cp epoch]. unfold u_T in *. lia.
  - intros x st' i ex v Hx E Hn Hv. apply Hl in E as [-> ->]; [|exact Hx].
    change (st_validators (hs_state (z_hstate Mainnet (e - 2)))) with w_vs in *.
    change (st_validators (hs_state (m_hstate Mainnet e))) with (m_vs Mainnet) in Hn.
    split; [apply nth_error_In in Hv; apply in_map_iff in Hv as (j & <- & _); reflexivity|].
    apply m_new in Hn as [[= <- <-]|[[= <- <-]|[]]]; destruct He as [->| ->]; vm_compute; discriminate.
  - exists (mkQueue 0 0), [e].
    change (st_validators (hs_state (z_hstate Mainnet (e - 2)))) with w_vs. cbn [u_cp epoch].
    split; [reflexivity|]. split; [apply N.le_0_l|]. split; [repeat constructor|].
    split. { intros x. rewrite u_targets. cbn [In]. intuition congruence. }
    assert (Q : exists evs q', queue_run (network_spec Mainnet) (balance_at w_vs) (e - 2) (doubled_churn Mainnet w_vs (e - 2)) (mkQueue 0 0) evs
      [(m_out Mainnet, w_trust Mainnet + 6); (5, w_trust Mainnet + 6)] q').
    { exists [Exit (m_out Mainnet) (u_T + 1) 256000000000; Exit 5 (u_T + 1) 256000000000]. eexists.
      set (q1 := assign (network_spec Mainnet) (u_T + 1) 256000000000 (balance_at w_vs (m_out Mainnet)) (mkQueue 0 0)).
      replace [(m_out Mainnet, w_trust Mainnet + 6); (5, w_trust Mainnet + 6)] with
        [(m_out Mainnet, q_epoch q1); (5, q_epoch (assign (network_spec Mainnet) (u_T + 1) 256000000000 (balance_at w_vs 5) q1))] by (vm_compute; reflexivity).
      apply qr_exit; [unfold u_T in *; lia|split; [reflexivity|destruct He as [->| ->]; vm_compute; discriminate]|].
      apply qr_exit; [unfold u_T in *; lia|split; [reflexivity|destruct He as [->| ->]; vm_compute; discriminate]|apply qr_nil]. }
    destruct Q as (evs & q' & Q).
    assert (Es : u_states (start_slot (network_spec Mainnet) e) = Ok (m_hstate Mainnet e)).
    { replace (start_slot (network_spec Mainnet) e) with (32 * e); [now apply u_later|]. destruct He as [->| ->]; reflexivity. }
    eapply qe_cons; [exact Es|exact Q|apply m_new|exact I|apply qe_nil].
Qed.
Lemma u_typed e : u_target e -> typed_answers n_codec (network_spec Mainnet) h_deserialize u_states (u_atts e).
Proof.
  intros He. destruct (z_typed Mainnet) as [T1 _ _ _]. assert (Es : start_slot (network_spec Mainnet) e = 32 * e) by (destruct He as [->| ->]; reflexivity).
  constructor; [exact T1| | |].
  - intros x st m Hx E Hm. apply u_targets in Hx as ->. rewrite Es, u_later in E by exact He. injection E as <-.
    cbn [m_hstate hs_randao_mixes] in Hm. apply repeat_spec in Hm as ->. reflexivity.
  - intros x st v Hx E Hv. apply u_targets in Hx as ->. rewrite Es, u_later in E by exact He. injection E as <-.
    cbn [m_hstate hs_state st_validators] in Hv. apply in_app_or in Hv as [Hv|[<-|[]]]; [|vm_compute; reflexivity].
    apply in_map_iff in Hv as (i & <- & _). cbn [v_exit_epoch]. destruct ((i =? m_out Mainnet) || (i =? 5)); vm_compute; reflexivity.
  - apply u_all. intros k Hk. destruct He as [->| ->]; repeat destruct Hk as [<-|Hk]; try contradiction; (constructor; small || (repeat split; small)).
Qed.
Lemma u_root e : u_target e -> boundary_block z_X (z_hstate Mainnet (e - 2)) = u_header (e - 2).
Proof.
  intros He. unfold boundary_block. cbn [z_hstate hs_header hs_state].
  destruct He as [->| ->]; unfold u_header; (f_equal; vm_compute; reflexivity).
Qed.
Lemma u_checkpoint e : u_target e -> checkpoint_state z_X (network_spec Mainnet) u_states (u_cp (e - 2)) = Ok (z_hstate Mainnet (e - 2)).
Proof.
  intros He. unfold checkpoint_state, state_at_checkpoint, state_at_epoch_boundary, state_at_epoch. cbn [u_cp epoch root].
  replace (start_slot (network_spec Mainnet) (e - 2)) with (32 * (e - 2)) by (destruct He as [->| ->]; reflexivity).
  rewrite u_here by exact He. cbn [bind]. cbn [z_hstate hs_header hs_state z_state hd_slot st_slot]. rewrite N.eqb_refl. cbn [bind].
  unfold boundary_root. fold (z_state Mainnet (e - 2)). fold (z_hstate Mainnet (e - 2)). rewrite u_root by exact He.
  assert (E : bytes_eqb (if e - 2 =? u_T then u_root0 else if e - 2 =? u_T + 1 then u_root1 else if e - 2 =? u_T + 2 then u_root2 else toy_root (e - 2))
    (tree_root z_X (header_tree (sha256 z_X) (u_header (e - 2)))) = true) by (destruct He as [->| ->]; vm_compute; reflexivity).
  rewrite E. reflexivity.
Qed.
Lemma u_sound e : u_target e ->
  sound_data z_X (network_spec Mainnet) h_deserialize u_headers (u_cp (e - 2)) (z_hstate Mainnet (e - 2)) [root (finalized (u_at (e + 1)))].
Proof.
  intros He. destruct (z_sound Mainnet) as [A1 A2 A3 (B1 & B2 & B3 & B4 & B5 & B6 & B7 & B8 & B9) A5 A6 A7 A8]. constructor.
  - exact A1.
  - exact A2.
  - exact A3.
  - cbn [z_hstate hs_state]. unfold wf_state. split; [exact B1|]. split; [destruct He as [->| ->]; vm_compute; reflexivity|].
    split; [destruct He as [->| ->]; (split; [|split]); vm_compute; reflexivity|]. split; [exact B4|]. split; [exact B5|].
    split; [exact B6|]. split; [exact B7|]. split; [exact B8|exact B9].
  - destruct He as [->| ->]; repeat split; vm_compute; reflexivity.
  - apply z_keys.
  - destruct He as [->| ->]; vm_compute; reflexivity.
  - intros r h _ E. unfold u_headers in E. destruct (bytes_eqb r u_root1); [injection E as <-; repeat split; vm_compute; reflexivity|].
    destruct (bytes_eqb r u_root2); [injection E as <-; repeat split; vm_compute; reflexivity|discriminate].
Qed.
Lemma u_step e fin : u_target e -> network_node Mainnet z_X n_codec h_deserialize (u_node fin) (u_cp (e - 2)) (u_at e) (u_at (e + 1)) (32 * (e - 1)).
Proof.
  intros He. exists e, [], [u_link e], (u_bs e), (z_hstate Mainnet (e - 2)), (z_hstate Mainnet (e - 2)), (u_header (e - 1)).
  constructor; cbn [u_node nd_chain nd_states nd_headers nd_blocks nd_fuel]; rewrite ?u_chain_votes by exact He.
  - now apply u_next.
  - now apply u_window.
  - split; [cbn [u_cp epoch]; unfold u_T in *; lia|]. split; [cbn; lia|]. destruct He as [->| ->]; vm_compute; reflexivity.
  - now apply u_honest.
  - split; [destruct He as [->| ->]; vm_compute; reflexivity|]. split; [destruct He as [->| ->]; vm_compute; reflexivity|reflexivity].
  - split; [now apply u_checkpoint|]. split; [reflexivity|]. rewrite u_root by exact He.
    destruct He as [->| ->]; vm_compute; reflexivity.
  - now apply u_sound.
  - split; [now apply u_here|apply z_keys].
  - now apply u_moving.
  - split; [now apply u_typed|]. destruct He as [->| ->]; (split; split; vm_compute; reflexivity).
  - split; [destruct He as [->| ->]; vm_compute; reflexivity|]. split; [destruct He as [->| ->]; split; vm_compute; (reflexivity || discriminate)|].
    split; [vm_compute; reflexivity|]. split; [vm_compute; reflexivity|]. destruct He as [->| ->]; vm_compute; reflexivity.
Qed.
Lemma u_stepA fin : network_node Mainnet z_X n_codec h_deserialize (u_node fin) (u_cp u_T) (u_at (u_T + 2)) (u_at (u_T + 3)) (32 * (u_T + 1)).
Proof.
  replace (u_cp u_T) with (u_cp (u_T + 2 - 2)) by (f_equal; unfold u_T; lia). replace (u_at (u_T + 3)) with (u_at (u_T + 2 + 1)) by (f_equal; lia).
  replace (32 * (u_T + 1)) with (32 * (u_T + 2 - 1)) by lia. apply u_step. now left.
Qed.
Lemma u_stepB fin : network_node Mainnet z_X n_codec h_deserialize (u_node fin) (u_cp (u_T + 1)) (u_at (u_T + 3)) (u_at (u_T + 4)) (32 * (u_T + 2)).
Proof.
  replace (u_cp (u_T + 1)) with (u_cp (u_T + 3 - 2)) by (f_equal; unfold u_T; lia). replace (u_at (u_T + 4)) with (u_at (u_T + 3 + 1)) by (f_equal; lia).
  replace (32 * (u_T + 2)) with (32 * (u_T + 3 - 1)) by lia. apply u_step. now right.
Qed.
Lemma u_fin3 : finalized (u_at (u_T + 3)) = u_cp (u_T + 1).
Proof. unfold u_at. cbn [finalized]. f_equal. Qed.
Definition u_steps : list (ConsensusState * ConsensusState * Slot) :=
  [(u_at (u_T + 2), u_at (u_T + 3), 32 * (u_T + 1)); (u_at (u_T + 3), u_at (u_T + 4), 32 * (u_T + 2))].
Definition u_nodes : list Node := [u_node u_T; u_node (u_T + 1); u_node (u_T + 1); u_node (u_T + 2)].
Lemma u_watch : network_watch Mainnet z_X n_codec h_deserialize u_nodes (u_cp u_T) u_steps.
Proof.
  eapply nw_wait; [reflexivity|vm_compute; discriminate|vm_compute; reflexivity|].
  eapply nw_step; [reflexivity|vm_compute; reflexivity|apply u_stepA|]; rewrite u_fin3.
  eapply nw_wait; [reflexivity|vm_compute; discriminate|vm_compute; reflexivity|].
  eapply nw_step; [reflexivity|vm_compute; reflexivity|apply u_stepB|apply nw_end].
Qed.
Lemma u_limits : mainnet_limits n_codec.
Proof. repeat split. Qed.
Lemma u_wf e : u_target e \/ e = u_T + 4 -> FFG.wf_state (u_at e).
Proof. intros [[->| ->]| ->]; repeat split; vm_compute; reflexivity. Qed.
(** Four looks at the node, two of them too early: two inputs are built, and the guest accepts both
    files; the second journal starts where the first one ends. *)
Example C72_nonvacuous d : linked u_steps /\ exists bs e,
  build_loop true (map (view z_X (network_spec Mainnet) h_deserialize (config_for Mainnet)) u_nodes) u_T = (bs, Running e) /\
  map (fun b => (b_pre b, b_post b, b_slot b)) bs = u_steps /\
  forall b, In b bs -> exists input journal,
    build_disk (encode_input n_codec) d bs (InputFile (b_epoch b)) = Some input /\
    build_disk (encode_input n_codec) d bs (JournalFile (b_epoch b)) = Some journal /\
    guest_for Mainnet (with_swap_or_not (on_platform z_X0 32) 64) (decode_input n_codec 32) input = Ok journal.
Proof.
  split.
  - apply (C72_journals_link Mainnet z_X0 n_codec h_deserialize u_chain u_nodes (u_cp u_T)); [|exact u_past|exact u_watch].
    intros nd H. repeat destruct H as [<-|H]; try contradiction; reflexivity.
  - pose proof (C72_build_input Mainnet z_X0 n_codec h_deserialize eq_refl n_sane u_limits z_bytes d u_nodes (u_cp u_T) u_steps u_watch) as H.
    change (epoch (u_cp u_T)) with u_T in H. exact H.
Qed.
Example C72_sync_nonvacuous r0vm :
  let executor b := match guest_for Mainnet (with_swap_or_not (on_platform z_X0 32) 64) (decode_input n_codec 32) (encode_input_stdin b) with Ok j => Some j | _ => None end in
  exists e, sync_loop (encode_input n_codec) (run_verify z_X (decode_input n_codec 64) executor (network_spec Mainnet) (config_for Mainnet) r0vm)
    (map (view z_X (network_spec Mainnet) h_deserialize (config_for Mainnet)) [u_node (u_T + 1); u_node (u_T + 2)]) (u_at (u_T + 2))
  = ([mkSyncLine (u_at (u_T + 2)) (u_at (u_T + 3)) SyncOk; mkSyncLine (u_at (u_T + 3)) (u_at (u_T + 4)) SyncOk], Running e).
Proof.
  intros executor.
  assert (F : network_follow Mainnet z_X n_codec h_deserialize [u_node (u_T + 1); u_node (u_T + 2)] (u_at (u_T + 2)) [u_at (u_T + 3); u_at (u_T + 4)]).
  { eapply nf_step; [apply u_stepA|apply u_wf; auto|apply u_wf; auto|].
    eapply nf_step; [rewrite u_fin3; apply u_stepB|apply u_wf; auto|apply u_wf; auto|apply nf_end]. }
  exact (C72_sync Mainnet z_X0 n_codec h_deserialize eq_refl n_sane u_limits z_bytes r0vm _ _ _ F).
Qed.

Print Assumptions C72_build_input.
Print Assumptions C72_journals_link.
Print Assumptions C72_sync.
Print Assumptions C72_nonvacuous.
Print Assumptions C72_sync_nonvacuous.
