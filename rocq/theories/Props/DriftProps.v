(** C75: a committed journal against the balances of the chain when it counts the votes. *)
From Coq Require Import List Arith NArith Bool Lia Sorted Permutation.
From Coq Require Import ZifyBool ZifyNat ZifyN.
From Coq.Init Require Import Byte.
From Verif.Model Require Import Base Types TreeHash Gindices Shuffle Committee ConsensusState Verify GuestReader Guest Cli HostChain HostStore HostInput InputCodec Networks.
From Verif.Spec Require FFG Safety.
From Verif.Spec Require Import FFG Merkle Ssz Beacon Registry GuestSpec Committees VerifySpec HostInputSpec InputCodecSpec NetworkSpec ShuffleSpec Meaning Moving Skipped Drift.
From Verif.Proof Require Import BaseLemmas VerifyP GuestP EndToEndP ShuffleP.
From Verif.Props Require Import CommitteeProps VerifyProps GuestToy ReplayProps InputCodecProps ClientProps NetworkProps ShuffleProps MeaningProps MovingProps SkippedProps.
Import ListNotations.
Open Scope N_scope.

(** ** Sums *)
Lemma sum_of_cons f x l : sum_of f (x :: l) = f x + sum_of f l.
Proof. reflexivity. Qed.
Lemma sum_of_split f (p : N -> bool) l : sum_of f l = sum_of f (filter p l) + sum_of f (filter (fun i => negb (p i)) l).
Proof. induction l as [|x l IH]; [reflexivity|]. cbn [filter]. rewrite sum_of_cons. destruct (p x); cbn [negb]; rewrite sum_of_cons; lia. Qed.
Lemma sum_of_change f g l : sum_of f l <= sum_of g l + sum_of (fun i => f i - g i) l.
Proof. induction l as [|x l IH]; [cbn; lia|]. rewrite !sum_of_cons. lia. Qed.
Lemma sum_of_filter_le f (p q : N -> bool) l : (forall i, In i l -> p i = true -> q i = true) -> sum_of f (filter p l) <= sum_of f (filter q l).
Proof.
  induction l as [|x l IH]; intros H; [cbn; lia|]. specialize (IH (fun i Hi => H i (or_intror Hi))). specialize (H x (or_introl eq_refl)).
  cbn [filter]. destruct (p x); [rewrite (H eq_refl), !sum_of_cons; lia|]. destruct (q x); [rewrite sum_of_cons|]; lia.
Qed.
Lemma filter_filter {A} (p q : A -> bool) l : filter p (filter q l) = filter (fun x => q x && p x) l.
Proof. induction l as [|x l IH]; [reflexivity|]. cbn [filter]. destruct (q x); cbn [filter andb]; [destruct (p x)|]; now rewrite IH. Qed.
Lemma filter_others (p : N -> bool) l : others l (filter p l) = filter (fun i => negb (p i)) l.
Proof.
  unfold others. apply filter_ext_in. intros i Hi. f_equal. apply eq_true_iff_eq. rewrite mem_In, filter_In. tauto.
Qed.

(** The votes of a registry that has moved. *)
Lemma moved_valid X n s s' mix l a limit : registry_moves limit (st_validators s) (st_validators s') -> epoch (target l) <= limit ->
  st_genesis_validators_root s' = st_genesis_validators_root s -> vote_valid X n s mix l a -> vote_valid X n s' mix l a.
Proof.
  intros M He Hg (V1 & V2 & V3 & V4 & V5 & V6 & keys & V7 & V8).
  assert (E : attesting_indices X (st_validators s') mix a = attesting_indices X (st_validators s) mix a)
    by (apply moves_attesting; rewrite V3; eapply moves_active; eauto).
  unfold vote_valid. cbv zeta. rewrite E, Hg. repeat (split; [assumption|]). exists keys. split; [|exact V8].
  rewrite V7. apply map_ext_in. intros i Hi. unfold attesting_indices in Hi. apply filter_In in Hi as [Hi _]. symmetry. eapply moves_key; eauto.
Qed.

(** ** A justified link keeps two thirds *)
(** If [s] sees the link justified at the network's threshold, the registry moves to that of [s'], and
    the drift is within the margin, then [s'] sees a supermajority. *)
Theorem C75_margin : forall X n s s' mix l g limit,
  let vs := st_validators s in let vs' := st_validators s' in let e := epoch (target l) in
  let active := active_indices vs e in
  justified_by X n s mix l g ->
  registry_moves limit vs vs' -> e <= limit -> st_genesis_validators_root s' = st_genesis_validators_root s ->
  2000000000 <= total_balance vs active ->
  drift_within n vs vs' active (voters X vs mix e g) ->
  supermajority_in X n s' mix l g.
Proof.
  intros X n s s' mix l g limit vs vs' e active [Jv Jw] M He Hg T D.
  split; [eapply Forall_impl; [|exact Jv]; intros a; now apply moved_valid with limit|].
  fold vs vs' e in Jw |- *. rewrite (moves_active _ _ _ _ M He). fold active in Jw |- *.
  unfold drift_within in D. set (V := voters X vs mix e g) in *.
  set (p := fun i => existsb (fun a => mem i (attesting_indices X vs mix a)) g && negb (is_slashed vs i)).
  assert (Vo : others active V = filter (fun i => negb (p i)) active) by apply filter_others.
  assert (Av : forall a, In a g -> attesting_indices X vs' mix a = attesting_indices X vs mix a).
  { intros a Ha. apply moves_attesting. rewrite Forall_forall in Jv. destruct (Jv a Ha) as (_ & _ & V3 & _). rewrite V3. eapply moves_active; eauto. }
  (* the voters of s that are not slashed in s' are voters of s' *)
  assert (U : sum_of (balance_at vs') (filter (fun i => negb (is_slashed vs' i)) V) <= sum_of (balance_at vs') (voters X vs' mix e g)).
  { unfold V, voters. rewrite (moves_active _ _ _ _ M He). fold active. rewrite filter_filter. apply sum_of_filter_le. intros i _ H.
    apply andb_true_iff in H as [H1 H2]. apply andb_true_iff in H1 as [H1 _]. rewrite H2, andb_true_r. rewrite <- H1. symmetry.
    clear - Av. induction g as [|a g IH]; [reflexivity|]. cbn [existsb]. rewrite (Av a (or_introl eq_refl)). f_equal. apply IH. intros b Hb. apply Av. now right. }
  pose proof (sum_of_split (balance_at vs') (is_slashed vs') V) as S2. fold (slashed_weight vs' V) in S2.
  pose proof (sum_of_split (balance_at vs) p active) as S0. pose proof (sum_of_split (balance_at vs') p active) as S1.
  rewrite <- Vo in S0, S1. change (filter p active) with V in S0, S1.
  pose proof (sum_of_change (balance_at vs) (balance_at vs') V) as C0. fold (loss vs vs' V) in C0.
  pose proof (sum_of_change (balance_at vs') (balance_at vs) (others active V)) as C1. fold (gain vs vs' (others active V)) in C1.
  unfold total_balance in *. fold (sum_of (balance_at vs) active) in *. fold (sum_of (balance_at vs) V) in *.
  fold (sum_of (balance_at vs') active). fold (sum_of (balance_at vs') (voters X vs' mix e g)).
  assert (P : percent n = 85 \/ percent n = 70) by (destruct n; [now right + now left|now left + now right]).
  destruct P as [P|P]; rewrite P in *; lia.
Qed.

(** The figures of the document: mainnet with 35475927 ETH staked by 1087747 validators tolerates the
    documented drift over the program's lookahead with 4.9 million ETH slashed. *)
Theorem C75_documented : forall vs vs' active (p : N -> bool) k, k <= 4 ->
  documented_drift 35475927 1087747 k 4900000 vs vs' active (filter p active) ->
  drift_within Mainnet vs vs' active (filter p active).
Proof.
  intros vs vs' active p k Hk (B & L & A & E & S). unfold drift_within. rewrite B. change (percent Mainnet) with 85.
  assert (Len : (length (filter p active) + length (others active (filter p active)) = length active)%nat).
  { rewrite filter_others. clear. induction active as [|x l IH]; [reflexivity|]. cbn [filter length]. destruct (p x); cbn [negb length]; lia. }
  set (a := gain _ _ _) in *. set (x := loss _ _ _) in *. set (s := slashed_weight _ _) in *.
  set (na := length (filter p active)) in *. set (nn := length (others _ _)) in *. clearbody a x s na nn.
  unfold Safety.doc_A, Safety.doc_E, Safety.ceil_div in *.
  assert (Q : N.max 128 ((35475927 + 65536 - 1) / 65536) = 542) by reflexivity. rewrite Q in *.
  assert (K : k = 0 \/ k = 1 \/ k = 2 \/ k = 3 \/ k = 4) by lia.
  destruct K as [->|[->|[->|[->| ->]]]]; lia.
Qed.

(** ** The theorem *)
(** A journal committed by the program of a network, the block and state behind its first root as in
    C74, and any later state [s'] of that chain: keys stay, and no activation or exit up to four epochs
    after the trusted one is added or removed. If the balances and slashings of [s'] have drifted no
    further than the threshold allows, then [s'] sees a supermajority for every link. *)
Theorem C75_real_supermajority : forall n X0 C stdin journal, let X := with_swap_or_not X0 64 in
  sane_codec C -> usize_bits X0 = 32 ->
  guest_for n X (decode_input C 32) stdin = Ok journal ->
  exists frame gi pre post slot,
    decode_input C 32 frame = Some gi /\ gi_consensus_state gi = pre /\ journal = journal_encode pre post slot /\
    forall h s, committed X gi h s -> let trusted := epoch (finalized pre) in let vs := registry_at s trusted in
      st_slot s / 32 <= trusted -> epoch (st_finalized s) <= st_slot s / 32 ->
      (forall e, trusted < e <= trusted + 4 -> N.of_nat (length (active_indices vs e)) < 2 ^ 21) ->
      exists gs, groups (gi_attestations gi) gs /\ accepted_chain pre (map fst gs) post /\
        forall l g, In (l, g) gs -> exists mix, length mix = 32%nat /\
          let active := active_indices vs (epoch (target l)) in
          let attesters := voters X vs mix (epoch (target l)) g in
          forall s', registry_moves (trusted + 4) vs (st_validators s') ->
            st_genesis_validators_root s' = st_genesis_validators_root s ->
            2000000000 <= total_balance vs active ->
            drift_within n vs (st_validators s') active attesters \/
            (n = Mainnet /\ documented_drift 35475927 1087747 (epoch (target l) - trusted) 4900000 vs (st_validators s') active attesters) ->
            supermajority_in X n s' mix l g.
Proof.
  intros n X0 C stdin journal X S U H. destruct (C74_journal_means n X0 C stdin journal S U H) as (frame & gi & pre & post & slot & R1 & R2 & R3 & R4).
  exists frame, gi, pre, post, slot. split; [exact R1|]. split; [exact R2|]. split; [exact R3|]. intros h s Hc trusted vs Hs Hf Hn.
  destruct (R4 h s Hc Hs Hf Hn) as (gs & G1 & G2 & G3). exists gs. split; [exact G1|]. split; [exact G2|]. intros l g Hg.
  destruct (G3 l g Hg) as ([_ B] & mix & L & J & _). exists mix. split; [exact L|]. cbn zeta. intros s' M Hr T D.
  apply (C75_margin X n (state_at_start s trusted) s' mix l g (trusted + 4)); auto.
  destruct D as [D|[-> D]]; [exact D|]. eapply C75_documented; [|exact D]. fold trusted in B. lia.
Qed.

(** ** Non-vacuity: the accepted input of C69_nonvacuous, with a registry that moves *)
(** Of the eight validators, one attester is slashed and loses 1 ETH, a second loses 1 ETH and starts to
    exit, the one that did not attest gains 5 ETH, and a ninth joins. *)
Definition d_vs : list Validator :=
  map (fun i => mkValidator (g_key i ++ repeat x00 47) (toy_root i)
                  (if i =? m_out Mainnet then 37000000000 else if (i =? 0) || (i =? 1) then 31000000000 else 32000000000) (i =? 1) 0 0
                  (if (i =? 0) || (i =? 1) then w_trust Mainnet + 6 else g_far) g_far) [0; 1; 2; 3; 4; 5; 6; 7]
  ++ [mkValidator (g_key 8 ++ repeat x00 47) (toy_root 8) 32000000000 false g_far g_far g_far g_far].
Definition d_state : State :=
  mkState false toy_gvr (32 * (w_trust Mainnet + 2)) (fork_at_epoch (network_spec Mainnet) (w_trust Mainnet + 2)) d_vs
    (mkCheckpoint (w_trust Mainnet - 2) (toy_root 7)) 0 0 (fun k => MLeaf (toy_root k)).
Example C75_moves : registry_moves (w_trust Mainnet + 4) w_vs d_vs /\ registry_at (w_state Mainnet) (w_trust Mainnet) = w_vs /\
  st_genesis_validators_root d_state = st_genesis_validators_root (w_state Mainnet).
Proof.
  split; [|split; [vm_compute; reflexivity|reflexivity]]. split; [vm_compute; repeat constructor|]. intros i v' H.
  do 9 (destruct i as [|i]; [injection H as <-; vm_compute; auto; (split; [reflexivity|split; [now left|]]; first [now left|right; split; reflexivity])|]).
  destruct i; discriminate H.
Qed.
Definition d_atts : list Attestation := map (y_att Mainnet (y_order Mainnet)) [0; 1; 2; 3; 4; 5; 6].
Example C75_nonvacuous : let e := w_trust Mainnet + 2 in let active := active_indices w_vs e in
  let attesters := voters y_X w_vs (toy_root 10) e d_atts in
  attesters = [0; 1; 2; 3; 4; 5; 6] /\ others active attesters = [7] /\
  gain w_vs d_vs [7] = 5000000000 /\ loss w_vs d_vs attesters = 2000000000 /\ slashed_weight d_vs attesters = 31000000000 /\
  drift_within Mainnet w_vs d_vs active attesters /\ 2000000000 <= total_balance w_vs active /\
  voters y_X d_vs (toy_root 10) e d_atts = [0; 2; 3; 4; 5; 6].
Proof.
  cbn zeta. assert (V : voters y_X w_vs (toy_root 10) (w_trust Mainnet + 2) d_atts = [0; 1; 2; 3; 4; 5; 6]) by (vm_compute; reflexivity).
  rewrite V. split; [reflexivity|]. split; [vm_compute; reflexivity|]. repeat (split; [vm_compute; reflexivity|]).
  split; [vm_compute; discriminate|]. split; [vm_compute; discriminate|]. vm_compute. reflexivity.
Qed.
(** With two attesters slashed the margin is exceeded, and the later state sees no supermajority. *)
Definition d_slashed : list Validator :=
  map (fun v => mkValidator (v_pubkey v) (v_withdrawal_credentials v) (v_effective_balance v)
                  (mem (v_effective_balance v) [31000000000]) 0 0 (v_exit_epoch v) g_far) d_vs.
Example C75_exceeded : let e := w_trust Mainnet + 2 in let active := active_indices w_vs e in
  ~ drift_within Mainnet w_vs d_slashed active [0; 1; 2; 3; 4; 5; 6] /\
  3 * total_balance d_slashed (voters y_X d_slashed (toy_root 10) e d_atts) < 2 * total_balance d_slashed (active_indices d_slashed e).
Proof. split; [vm_compute; intros H; now apply H|vm_compute; reflexivity]. Qed.

(** The documented bounds, with the stake in three hands: 4 million ETH that attested are slashed, and
    what did not attest gains half a million. *)
Definition d_three (slashed : bool) (gained : N) : list Validator :=
  map (fun b => mkValidator (toy_root 1) (toy_root 2) (1000000000 * b) (slashed && (b =? 4000000)) 0 0 g_far g_far) [27000000; 4000000; 4475927 + gained].
Example C75_documented_nonvacuous : documented_drift 35475927 1087747 4 4900000 (d_three false 0) (d_three true 500000)
    (active_indices (d_three false 0) 100) (filter (fun i => i <? 2) (active_indices (d_three false 0) 100)) /\
  slashed_weight (d_three true 500000) (filter (fun i => i <? 2) (active_indices (d_three false 0) 100)) = 4000000000000000 /\
  percent Mainnet * total_balance (d_three false 0) (active_indices (d_three false 0) 100)
    <= 100 * total_balance (d_three false 0) (filter (fun i => i <? 2) (active_indices (d_three false 0) 100)).
Proof. split; [|split; [vm_compute; reflexivity|vm_compute; discriminate]]. repeat split; vm_compute; first [reflexivity|discriminate]. Qed.

Print Assumptions C75_margin.
Print Assumptions C75_documented.
Print Assumptions C75_real_supermajority.
Print Assumptions C75_moves.
Print Assumptions C75_nonvacuous.
Print Assumptions C75_exceeded.
Print Assumptions C75_documented_nonvacuous.
