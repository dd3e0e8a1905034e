(** C73: if two clients of a network are made to disagree, a large share of the stake can be slashed
    with the attestations in the two sets of proofs. *)
From Coq Require Import List Arith NArith Bool Lia Sorted Permutation.
From Coq Require Import ZifyBool ZifyNat ZifyN.
From Coq.Init Require Import Byte.
From Verif.Model Require Import Base Types TreeHash Multiproof Gindices Shuffle Committee ConsensusState Verify GuestReader Guest Cli HostChain HostStore HostInput InputCodec Networks.
From Verif.Spec Require FFG.
From Verif.Spec Require Import FFG Merkle Ssz Beacon Registry GuestSpec Committees VerifySpec Safety HostInputSpec InputCodecSpec NetworkSpec ClientSpec ShuffleSpec Meaning Skipped Accountability.
From Verif.Proof Require Import BaseLemmas VerifyP GuestP EndToEndP ShuffleP ClientP.
From Verif.Props Require Import CommitteeProps VerifyProps GuestToy ReplayProps InputCodecProps ClientProps NetworkProps ShuffleProps MeaningProps SkippedProps.
Import ListNotations.
Open Scope N_scope.
Notation links_justified_by := Safety.justified_by (only parsing).
Notation votes_justify := Meaning.justified_by (only parsing).

(** ** Sums *)
Lemma sum_cons f x l : sum f (x :: l) = f x + sum f l.
Proof. reflexivity. Qed.
Lemma sum_le f g l : (forall i, In i l -> f i <= g i) -> sum f l <= sum g l.
Proof.
  induction l as [|x l IH]; intros H; cbn [sum fold_right]; [lia|]. change (f x + sum f l <= g x + sum g l).
  specialize (IH (fun i Hi => H i (or_intror Hi))). specialize (H x (or_introl eq_refl)). lia.
Qed.
Lemma sum_plus f g l : sum (fun i => f i + g i) l = sum f l + sum g l.
Proof. induction l as [|x l IH]; [reflexivity|]. change (f x + g x + sum (fun i => f i + g i) l = f x + sum f l + (g x + sum g l)). lia. Qed.
Lemma sum_filter f (p : N -> bool) l : sum f (filter p l) = sum (fun i => if p i then f i else 0) l.
Proof.
  induction l as [|x l IH]; [reflexivity|]. cbn [filter]. rewrite (sum_cons (fun i => if p i then f i else 0)).
  destruct (p x); [rewrite sum_cons|]; lia.
Qed.
Lemma sum_part f a l : NoDup a -> NoDup l -> incl a l -> sum f a = sum (fun i => if mem i a then f i else 0) l.
Proof.
  intros Na Nl I. rewrite <- sum_filter. apply sum_perm. apply NoDup_Permutation; [exact Na|now apply NoDup_filter|].
  intros i. rewrite filter_In, mem_In. split; [intros H; split; auto|tauto].
Qed.
Lemma sum_incl f a l : NoDup a -> NoDup l -> incl a l -> sum f a <= sum f l.
Proof. intros Na Nl I. rewrite (sum_part f a l) by assumption. apply sum_le. intros i _. destruct (mem i a); lia. Qed.
Lemma overlap f a b l : NoDup a -> NoDup b -> NoDup l -> incl a l -> incl b l ->
  sum f a + sum f b <= sum f (filter (fun i => mem i b) a) + sum f l.
Proof.
  intros Na Nb Nl Ia Ib. rewrite (sum_part f a l), (sum_part f b l) by assumption.
  rewrite (sum_part f (filter _ a) l); [|now apply NoDup_filter|exact Nl|intros i Hi; apply filter_In in Hi as [Hi _]; auto].
  rewrite <- !sum_plus. apply sum_le. intros i _.
  assert (E : mem i (filter (fun i => mem i b) a) = mem i a && mem i b).
  { apply eq_true_iff_eq. rewrite andb_true_iff, !mem_In, filter_In, mem_In. tauto. }
  rewrite E. destruct (mem i a), (mem i b); cbn [andb]; lia.
Qed.

Section Network.
  Variables (n : Network) (X0 : Externals) (C : Codec).
  Let X := with_swap_or_not X0 64.
  Let cs := network_spec n.
  Let cfg := config_for n.
  Hypothesis Codec_ok : sane_codec C.
  Hypothesis Guest : usize_bits X0 = 32.

  (** What the input of one step says about the state behind the trusted root. *)
  Definition step_means (p : Step) : Prop := forall h s, committed X (sp_input p) h s -> st_slot s / 32 <= epoch (trusted_of p) ->
    epoch (st_finalized s) <= st_slot s / 32 ->
    (forall e, epoch (trusted_of p) < e <= epoch (trusted_of p) + 4 ->
       N.of_nat (length (active_indices (st_validators (state_at_start s (epoch (trusted_of p)))) e)) < 2 ^ 21) ->
    forall l g, In (l, g) (sp_groups p) -> exists mix, votes_justify X n (state_at_start s (epoch (trusted_of p))) mix l g.
  Lemma client_means s js u : follows (network_proven n X C) s js u -> exists ps, explained X C 32 cs cfg s js u ps /\ Forall step_means ps.
  Proof.
    induction 1 as [s|s j t js u [stdin Hp] D1 D2 Hf (ps & IH1 & IH2)]; [exists []; split; constructor|].
    rewrite C65_same_parameters in Hp.
    destruct (guest_run C 32 X _ _ stdin j Codec_ok W32 Hp) as (frame & gi & r & gs & post & slot & R1 & R2 & R3 & R4 & R5 & R6 & R7 & R8 & R9 & R10 & _).
    rewrite D1 in R9. injection R9 as ->. rewrite D2 in R10. injection R10 as ->.
    exists (mkStep gi r gs :: ps). split.
    - rewrite R8. econstructor; eauto.
    - constructor; [|exact IH2]. intros h s Hc Hs Hfin Hn l g Hg. cbn [sp_input sp_groups trusted_of] in *.
      assert (R7' : Forall (fun g => within_bounds (config_for n) (network_spec n) (finalized (gi_consensus_state gi)) (fst g)) gs).
      { rewrite Forall_forall in *. intros x Hx. now apply R7. }
      destruct (run_means_start n X0 C gi r gs post slot Guest R2 R3 R4 R5 R6 R7' h s Hc Hs Hfin Hn l g Hg) as (_ & _ & mix & _ & J). eauto.
  Qed.

  (** The attestation of [a] as process_attester_slashing sees it. *)
  Definition indexed (vs : list Validator) (mix : bytes) (a : Attestation) : IndexedAttestation :=
    mkIndexed (attesting_indices X vs mix a) (att_data a) (att_signature a).
  Lemma vote_indexed s mix l a : vote_valid X n s mix l a -> is_valid_indexed_attestation X n s (indexed (st_validators s) mix a).
  Proof.
    intros (_ & _ & V3 & _ & _ & V6 & keys & V7 & V8). split; [exact V6|]. split.
    - apply sorted_filter, active_indices_sorted.
    - exists keys. split; [exact V7|]. cbn [indexed ia_data ia_signature]. rewrite V3. exact V8.
  Qed.
  Lemma votes_slashable l m g k s t mix mix' i : slashable l m -> votes_justify X n s mix l g -> votes_justify X n t mix' m k ->
    In i (voters X (st_validators s) mix (epoch (target l)) g) -> In i (voters X (st_validators t) mix' (epoch (target m)) k) ->
    guilty X n s t i.
  Proof.
    intros S [Jl _] [Jm _] Il Im. unfold voters in Il, Im. apply filter_In in Il as [_ Il], Im as [_ Im].
    apply andb_true_iff in Il as [Il Sl], Im as [Im Sm]. apply negb_true_iff in Sl, Sm.
    apply existsb_exists in Il as (a & Ha & Il), Im as (b & Hb & Im). apply mem_In in Il, Im.
    rewrite Forall_forall in Jl, Jm. pose proof (Jl _ Ha) as Va. pose proof (Jm _ Hb) as Vb.
    split; [exact Sl|]. split; [exact Sm|]. exists (indexed (st_validators s) mix a), (indexed (st_validators t) mix' b).
    split; [|split; [exact Il|exact Im]]. split; [|split; [eapply vote_indexed; exact Va|eapply vote_indexed; exact Vb]].
    destruct Va as (_ & A2 & A3 & _), Vb as (_ & B2 & B3 & _). cbn [indexed ia_data]. unfold is_slashable_attestation_data. rewrite A2, A3, B2, B3.
    destruct S as [[Ne E]|[[E1 E2]|[E1 E2]]].
    - left. left. split; [|exact E]. intros D. apply Ne. destruct l as [l1 l2], m as [m1 m2]. cbn [source target] in *. congruence.
    - left. right. split; assumption.
    - right. right. split; assumption.
  Qed.
  Lemma justified_voters s mix l g : votes_justify X n s mix l g -> let vs := st_validators s in let e := epoch (target l) in
    2 * 1000000000 <= total_balance vs (active_indices vs e) ->
    percent n * total_balance vs (active_indices vs e) <= 100 * sum (balance_at vs) (voters X vs mix e g).
  Proof.
    intros [_ J] vs e T. fold vs e in J. unfold total_balance in J at 2. fold (sum (balance_at vs) (voters X vs mix e g)) in J.
    assert (70 <= percent n) by (destruct n; vm_compute; discriminate). nia.
  Qed.

  (** Two clients start from the same state. Their proofs finalize conflicting checkpoints: different
      ones in one epoch, or the chain of the one ahead avoids that of the other. Then there are two
      links in their proofs, voted for by a share of the stake each, such that every validator that
      voted for both can be slashed; and the guilty validators weigh at least the two shares together
      less all the stake there is, up to the drift of balances between the two registries. *)
  Theorem C73_accountable : forall s ja jb ua ub, ja <> [] -> jb <> [] ->
    follows (network_proven n X C) s ja ua -> follows (network_proven n X C) s jb ub ->
    exists pa pb, explained X C 32 cs cfg s ja ua pa /\ explained X C 32 cs cfg s jb ub pb /\
    forall world, truthful X world pa -> truthful X world pb ->
    conflicting (current_justified s) (links pa) (links pb) (finalized ua) (finalized ub) ->
    exists p q l m g k mix mix', In p pa /\ In q pb /\ In (l, g) (sp_groups p) /\ In (m, k) (sp_groups q) /\ slashable l m /\
      votes_justify X n (state_of world p) mix l g /\ votes_justify X n (state_of world q) mix' m k /\
      let vp := st_validators (state_of world p) in let vq := st_validators (state_of world q) in
      let ap := active_indices vp (epoch (target l)) in let aq := active_indices vq (epoch (target m)) in
      exists culprits, NoDup culprits /\ incl culprits ap /\ incl culprits aq /\
        Forall (guilty X n (state_of world p) (state_of world q)) culprits /\
        (2 * 1000000000 <= total_balance vp ap -> 2 * 1000000000 <= total_balance vq aq ->
         forall balance all, NoDup all -> incl ap all -> incl aq all ->
           percent n * (total_balance vp ap + total_balance vq aq) <=
           100 * (sum balance culprits + sum balance all + drift vp balance ap + drift vq balance aq)).
  Proof.
    intros s ja jb ua ub Na Nb Fa Fb. destruct (client_means _ _ _ Fa) as (pa & Ea & Ma). destruct (client_means _ _ _ Fb) as (pb & Eb & Mb).
    exists pa, pb. split; [exact Ea|]. split; [exact Eb|]. intros world Ta Tb Hc.
    destruct (C64_accountable_safety X C 32 cs cfg s ja jb ua ub pa pb Na Nb Ea Eb Hc) as (a & b & _ & _ & _ & _ & Ha & Hb & Hs & _).
    unfold votes in Ha, Hb. apply in_flat_map in Ha as (p & Hp & Ha), Hb as (q & Hq & Hb).
    unfold step_votes in Ha, Hb. apply in_map_iff in Ha as ([l g] & <- & Ha), Hb as ([m k] & <- & Hb). cbn [v_link fst snd] in Hs.
    unfold truthful in Ta, Tb. rewrite Forall_forall in Ma, Mb, Ta, Tb. destruct (Ta p Hp) as (A1 & A2 & A3 & A4). destruct (Tb q Hq) as (B1 & B2 & B3 & B4).
    destruct (Ma p Hp _ _ A1 A2 A3 A4 l g Ha) as [mix J]. destruct (Mb q Hq _ _ B1 B2 B3 B4 m k Hb) as [mix' K]. fold (state_of world p) in J. fold (state_of world q) in K.
    exists p, q, l, m, g, k, mix, mix'. repeat (split; [assumption|]). intros vp vq ap aq.
    set (Vp := voters X vp mix (epoch (target l)) g). set (Vq := voters X vq mix' (epoch (target m)) k).
    assert (Np : NoDup Vp) by (apply sorted_NoDup, sorted_filter, active_indices_sorted).
    assert (Nq : NoDup Vq) by (apply sorted_NoDup, sorted_filter, active_indices_sorted).
    assert (Ip : incl Vp ap) by (intros i Hi; apply filter_In in Hi as [Hi _]; exact Hi).
    assert (Iq : incl Vq aq) by (intros i Hi; apply filter_In in Hi as [Hi _]; exact Hi).
    assert (In_both : forall i, In i (filter (fun i => mem i Vq) Vp) <-> In i Vp /\ In i Vq) by (intros i; now rewrite filter_In, mem_In).
    exists (filter (fun i => mem i Vq) Vp). split; [now apply NoDup_filter|].
    split; [intros i Hi; apply In_both in Hi as [Hi _]; auto|]. split; [intros i Hi; apply In_both in Hi as [_ Hi]; auto|].
    split; [apply Forall_forall; intros i Hi; apply In_both in Hi as [H1 H2]; eapply votes_slashable; eassumption|].
    intros Lp Lq balance all Nd Ia Ib.
    pose proof (justified_voters _ _ _ _ J Lp) as Jp. pose proof (justified_voters _ _ _ _ K Lq) as Jq. cbn zeta in Jp, Jq. fold vp ap Vp in Jp. fold vq aq Vq in Jq.
    pose proof (overlap balance Vp Vq all Np Nq Nd (fun i H => Ia i (Ip i H)) (fun i H => Ib i (Iq i H))) as O.
    assert (D : forall vs V act, NoDup V -> NoDup act -> incl V act -> sum (balance_at vs) V <= sum balance V + drift vs balance act).
    { intros vs V act N1 N2 I. transitivity (sum balance V + drift vs balance V); [|unfold drift; pose proof (sum_incl (fun i => balance_at vs i - balance i) V act N1 N2 I); lia].
      unfold drift. rewrite <- sum_plus. apply sum_le. intros i _. lia. }
    pose proof (D vp Vp ap Np (sorted_NoDup _ (active_indices_sorted _ _)) Ip). pose proof (D vq Vq aq Nq (sorted_NoDup _ (active_indices_sorted _ _)) Iq). lia.
  Qed.

  (** One proof each, from one trusted state whose active set does not change within the lookahead:
      70 percent of the stake (Sepolia: 40) can be slashed. *)
  Theorem C73_one_proof : forall s ja jb ua ub,
    follows (network_proven n X C) s [ja] ua -> follows (network_proven n X C) s [jb] ub ->
    epoch (finalized ua) = epoch (finalized ub) -> root (finalized ua) <> root (finalized ub) ->
    exists pa pb, explained X C 32 cs cfg s [ja] ua [pa] /\ explained X C 32 cs cfg s [jb] ub [pb] /\
    forall world active, truthful X world [pa] -> truthful X world [pb] ->
      let st := state_at_start (snd (world (root (finalized s)))) (epoch (finalized s)) in let vs := st_validators st in
      (forall e, epoch (finalized s) < e <= epoch (finalized s) + 4 -> active_indices vs e = active) ->
      2 * 1000000000 <= total_balance vs active ->
      exists culprits, NoDup culprits /\ incl culprits active /\ Forall (guilty X n st st) culprits /\
        (2 * percent n - 100) * total_balance vs active <= 100 * sum (balance_at vs) culprits.
  Proof.
    intros s ja jb ua ub Fa Fb He Hr.
    destruct (C73_accountable s [ja] [jb] ua ub ltac:(discriminate) ltac:(discriminate) Fa Fb) as (pa & pb & Ea & Eb & H).
    pose proof Ea as Ea'. pose proof Eb as Eb'.
    inversion Ea' as [|? gi ? r gs ? t ? ? ps P1 P2 P3 P4 P5 P6 P7]; subst. inversion P7; subst.
    inversion Eb' as [|? gi' ? r' gs' ? t' ? ? ps' Q1 Q2 Q3 Q4 Q5 Q6 Q7]; subst. inversion Q7; subst.
    eexists. eexists. split; [exact Ea|]. split; [exact Eb|]. intros world active Ta Tb st vs Act T.
    destruct (H world Ta Tb) as (p & q & l & m & g & k & mix & mix' & Hp & Hq & Hl & Hm & Hs & J & K & culprits & N1 & N2 & N3 & N4 & N5).
    { left. split; [exact He|]. congruence. }
    destruct Hp as [<-|[]]. destruct Hq as [<-|[]]. unfold state_of, block_state, trusted_of in *. cbn [sp_input sp_groups] in *. rewrite Q2 in *. fold st vs in N1, N2, N3, N4, N5, J, K.
    assert (El : active_indices vs (epoch (target l)) = active).
    { apply Act. rewrite Forall_forall in P6. destruct (P6 _ Hl) as [[B _] _]. split; [eapply accepted_targets; [exact P5|now apply (in_map fst) in Hl]|].
      replace (epoch_lookahead_limit cfg) with 4 in B by (unfold cfg; destruct n; reflexivity). exact B. }
    assert (Em : active_indices vs (epoch (target m)) = active).
    { apply Act. rewrite Forall_forall in Q6. destruct (Q6 _ Hm) as [[B _] _]. split; [eapply accepted_targets; [exact Q5|now apply (in_map fst) in Hm]|].
      replace (epoch_lookahead_limit cfg) with 4 in B by (unfold cfg; destruct n; reflexivity). exact B. }
    rewrite El, Em in *. exists culprits. repeat (split; [assumption|]).
    assert (Nd : NoDup active) by (rewrite <- El; apply sorted_NoDup, active_indices_sorted).
    specialize (N5 T T (balance_at vs) active Nd (incl_refl _) (incl_refl _)).
    assert (D0 : drift vs (balance_at vs) active = 0).
    { unfold drift. clear. induction active as [|i r IH]; [reflexivity|]. change (balance_at vs i - balance_at vs i + sum (fun i => balance_at vs i - balance_at vs i) r = 0). lia. }
    rewrite D0 in N5.
    assert (sum (balance_at vs) active <= total_balance vs active) by (unfold total_balance, sum; lia). nia.
  Qed.
End Network.

(** *** Example: eight validators on mainnet, two of which vote only once *)
Definition a_T : N := w_trust Mainnet.
Definition a_header (k : N) : Header := mkHeader (32 * (a_T + 3)) k (toy_root k) (toy_root 5151) (MLeaf (toy_root 5252)).
Definition a_root1 : bytes := Eval vm_compute in mroot g_hash (header_tree g_hash (a_header 1)).
Definition a_root2 : bytes := Eval vm_compute in mroot g_hash (header_tree g_hash (a_header 2)).
Definition a_cp (b : bool) : Checkpoint := mkCheckpoint (a_T + 3) (if b then a_root1 else a_root2).
Definition a_next (b : bool) : Checkpoint := mkCheckpoint (a_T + 4) (toy_root (if b then 41 else 42)).
(** From the trusted state both chains skip an epoch, to different blocks, and finalize them. *)
Definition a_links (b : bool) : list Link := [mkLink (current_justified (w_pre Mainnet)) (a_cp b); mkLink (a_cp b) (a_next b)].
Definition a_att (l : Link) (k : N) : Attestation :=
  let e := epoch (target l) in
  let order := if e =? a_T + 3 then [3; 2; 0; 7; 1; 6; 4; 5] else [0; 1; 3; 6; 5; 2; 4; 7] in
  let d := toy_data (32 * e + 4 * k + 3) l in
  mkAttestation true [true] (true :: repeat false 63) d
    (g_sig (signing_root g_hash d (get_attester_domain g_hash (network_spec Mainnet) e (fork_at_epoch (network_spec Mainnet) e) toy_gvr)
       ++ g_key (nth (N.to_nat k) order 0))).
Definition with_votes (gi : GuestInput) (patches : bmap StatePatch) (atts : list Attestation) (slots : list Multiproof) : GuestInput :=
  mkGuestInput (gi_beacon_block gi) (gi_beacon_state gi) (gi_active_validators gi) (gi_public_keys gi) patches (gi_consensus_state gi) atts slots.
Lemma committed_with X gi h s patches atts slots : committed X gi h s -> wf_patches patches -> committed X (with_votes gi patches atts slots) h s.
Proof. intros [A1 A2 A3 A4 A5 A6 A7 A8 A9 A10] W. constructor; assumption. Qed.
Definition a_input (b : bool) : GuestInput :=
  with_votes (y_input Mainnet (y_order Mainnet) [0; 1; 2; 3; 4; 5; 6])
    (map (fun e => (e, mkStatePatch [((e - 2) mod 65536, toy_root 10)] [])) [a_T + 3; a_T + 4])
    (flat_map (fun l => map (a_att l) (if b then [0; 1; 2; 3; 4; 5; 6] else [1; 2; 3; 4; 5; 6; 7])) (a_links b))
    [g_build (header_tree g_hash (a_header (if b then 1 else 2))) [block_slot_gindex]].
Definition a_post (b : bool) : ConsensusState := mkCS (a_next b) (a_cp b).
Definition a_journal (b : bool) : bytes := journal_encode (w_pre Mainnet) (a_post b) (32 * (a_T + 3)).
Lemma a_run b : guest_for Mainnet y_X (decode_input n_codec 32) (encode_input_stdin (encode_input n_codec (a_input b))) = Ok (a_journal b).
Proof. destruct b; run. Qed.
Example C73_nonvacuous : sane_codec n_codec /\ usize_bits g_X = 32 /\
  (forall b, follows (network_proven Mainnet y_X n_codec) (w_pre Mainnet) [a_journal b] (a_post b)) /\
  epoch (finalized (a_post true)) = epoch (finalized (a_post false)) /\ root (finalized (a_post true)) <> root (finalized (a_post false)).
Proof.
  split; [exact n_sane|]. split; [reflexivity|]. split.
  - intros b. apply (follows_step _ _ _ (a_post b)); [|destruct b; vm_compute; reflexivity|destruct b; vm_compute; reflexivity|constructor].
    eexists. exact (a_run b).
  - split; [reflexivity|]. vm_compute. discriminate.
Qed.
Lemma a_committed b : committed y_X (a_input b) (w_header Mainnet) (w_state Mainnet).
Proof.
  unfold a_input. apply committed_with; [exact (proj1 (C69_committed Mainnet))|]. split; repeat constructor.
Qed.
Lemma a_start : state_at_start (w_state Mainnet) a_T = w_state Mainnet.
Proof. exact (state_at_own_start (w_state Mainnet)). Qed.
(** The proofs in both inputs are about one state, in which eight validators are active throughout. *)
Example C73_truthful b r gs : let world := fun _ : bytes => (w_header Mainnet, w_state Mainnet) in
  truthful y_X world [mkStep (a_input b) r gs] /\
  (forall e, a_T < e <= a_T + 4 -> active_indices (st_validators (w_state Mainnet)) e = [0; 1; 2; 3; 4; 5; 6; 7]) /\
  2 * 1000000000 <= total_balance w_vs [0; 1; 2; 3; 4; 5; 6; 7].
Proof.
  intros world.
  assert (A : forall e, a_T < e <= a_T + 4 -> active_indices (st_validators (w_state Mainnet)) e = [0; 1; 2; 3; 4; 5; 6; 7]).
  { intros e He. assert (E : e = a_T + 1 \/ e = a_T + 2 \/ e = a_T + 3 \/ e = a_T + 4) by lia. destruct E as [->|[->|[->| ->]]]; vm_compute; reflexivity. }
  split; [|split; [exact A|vm_compute; discriminate]]. constructor; [|constructor].
  unfold state_of, block_state, trusted_of. cbn [sp_input]. split; [|split; [vm_compute; discriminate|split; [vm_compute; discriminate|]]].
  - exact (a_committed b).
  - intros e He. change (a_T < e <= a_T + 4) in He.
    change (N.of_nat (length (active_indices (st_validators (state_at_start (w_state Mainnet) a_T)) e)) < 2 ^ 21). rewrite a_start, A; [reflexivity|exact He].
Qed.

Print Assumptions C73_accountable.
Print Assumptions C73_one_proof.
Print Assumptions C73_nonvacuous.
Print Assumptions C73_truthful.
