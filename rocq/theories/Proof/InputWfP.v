(** Inputs built by the host are well-formed, so that the guest reads back what the host has written. *)
From Coq Require Import List Arith NArith Bool Lia Sorted.
From Coq Require Import ZifyBool ZifyNat ZifyN.
From Verif.Model Require Import Base Types ConsensusState Multiproof Builder Committee Verify StateFile GuestReader HostChain HostStore HostInput InputCodec.
From Verif.Spec Require Import Merkle MultiproofSpec Ssz Beacon GuestSpec VerifySpec HostInputSpec InputCodecSpec Honest.
From Verif.Proof Require Import BaseLemmas MerkleP VerifyP MultiproofP BuilderP BeaconP InputCodecP HostInputP HostGuestP PreflightP.
Import ListNotations.
Open Scope N_scope.

(** ** Multiproofs *)
Lemma preorder_length t : (length (preorder t) + 1 = 2 * length (leaves t))%nat.
Proof.
  induction t as [c|l IHl r IHr]; [reflexivity|].
  assert (E : length (leaves (MNode l r)) = (length (leaves l) + length (leaves r))%nat) by (cbn [leaves]; rewrite app_length, !map_length; reflexivity).
  rewrite E. cbn [preorder length]. rewrite app_length. lia.
Qed.
Lemma depth_reduce_bound : forall below top mx,
  (length (fst (depth_reduce top below mx)) <= S (length below))%nat /\
  snd (depth_reduce top below mx) <= N.max mx (N.of_nat (length below)).
Proof.
  fix IH 1. intros below top mx. destruct below as [|[] [|[] rest]]; cbn [depth_reduce fst snd length]; try lia.
  destruct top; cbn [fst snd length]; [|lia]. destruct (IH rest true (N.max mx (N.of_nat (S (length rest))))) as [H1 H2]. lia.
Qed.
Lemma depth_loop_bound : forall d stack mx,
  snd (depth_loop d stack mx) <= N.max mx (N.of_nat (length stack + length d)).
Proof.
  induction d as [|b d IH]; intros stack mx; cbn [depth_loop snd length]; [lia|]. destruct b.
  - pose proof (depth_reduce_bound stack true mx) as [H1 H2]. destruct (depth_reduce true stack mx) as [st m']. cbn [fst snd] in *.
    specialize (IH st m'). lia.
  - specialize (IH (false :: stack) (N.max mx (N.of_nat (S (length stack))))). cbn [length] in IH. lia.
Qed.
Lemma max_stack_depth_bound {E} d m : @calculate_max_stack_depth E d = Ok m -> m <= N.of_nat (length d).
Proof.
  unfold calculate_max_stack_depth. pose proof (depth_loop_bound d [] 0) as H. destruct (depth_loop d [] 0) as [st mx]. cbn [snd length] in H.
  intros E1. apply bind_ok in E1 as (u & _ & E1). injection E1 as <-. lia.
Qed.
Lemma node_at_length H : hash32 H -> forall T p c, wf_tree T -> node_at H T p = Some c -> length c = 32%nat.
Proof.
  intros Hh T p c W E. unfold node_at in E. destruct (subtree T p) as [t|] eqn:S; [|discriminate]. injection E as <-.
  apply mroot_length; [exact Hh|]. revert p S W. induction T as [x|l IHl r IHr]; intros [|b p] S W; cbn [subtree] in S; try discriminate.
  - now injection S as <-.
  - now injection S as <-.
  - destruct W as [Wl Wr]. destruct b; eauto.
Qed.
Lemma built_length {E} (e : E) H T b mp : hash32 H -> wf_tree T -> build (tree_oracle e H T) b = Ok mp ->
  length (mp_data mp) = (32 * length (mp_value_mask mp))%nat /\ mp_max_stack_depth mp <= N.of_nat (length (mp_descriptor mp)).
Proof.
  intros Hh Wt B. unfold build in B. set (im := compute_proof_indices_and_value_mask b) in *. clearbody im.
  apply bind_ok in B as (nodes & B1 & B). apply bind_ok in B as (md & B2 & B). injection B as <-. cbn [mp_data mp_value_mask mp_descriptor mp_max_stack_depth].
  split; [|now apply max_stack_depth_bound in B2]. rewrite map_length. clear - Hh Wt B1.
  revert nodes B1. induction im as [|[i v] im IH]; intros nodes B1; cbn [map map_outcome] in B1.
  - injection B1 as <-. reflexivity.
  - apply bind_ok in B1 as (c & C1 & B1). apply bind_ok in B1 as (cs & C2 & B1). injection B1 as <-. cbn [concat length fst] in *.
    rewrite app_length, (IH _ C2). unfold tree_oracle in C1. destruct (node_at H T (path_of i)) as [x|] eqn:Nx; [|discriminate]. injection C1 as <-.
    rewrite (node_at_length H Hh T _ _ Wt Nx). lia.
Qed.
(** A verified proof has fewer than two bits per leaf. *)
Lemma verified_length H mp r : mp_verify H mp r = Ok tt -> (16 * (length (mp_descriptor mp) + 1) <= length (mp_data mp))%nat.
Proof.
  intros V. apply mp_verify_iff in V as (t & (D & W & rest & E) & _). rewrite D, E, app_length, (concat32_length (map snd (leaves t))).
  - rewrite map_length. pose proof (preorder_length t). lia.
  - apply wf_tree_leaves in W. now rewrite Forall_map.
Qed.
Lemma built_wf {E} (e : E) H T b mp r : hash32 H -> wf_tree T -> build (tree_oracle e H T) b = Ok mp -> mp_verify H mp r = Ok tt ->
  blen (mp_data mp) < 2 ^ 32 -> wf_multiproof 32 mp.
Proof.
  intros Hh Wt B V L. destruct (built_length e H T b mp Hh Wt B) as [L1 L2]. apply verified_length in V.
  unfold blen in L. change (2 ^ 32) with 4294967296 in *. 
  split; unfold short; change (2 ^ (32 - 3)) with 536870912; change (2 ^ 32) with 4294967296; lia.
Qed.
(** ** Sizes follow from the size of the encoding *)
Lemma blen_app (a b : bytes) : blen (a ++ b) = blen a + blen b.
Proof. unfold blen. rewrite app_length. lia. Qed.
Lemma blen_e_bytes b : blen b <= blen (e_bytes b).
Proof. unfold e_bytes. rewrite blen_app. lia. Qed.
Lemma blen_multiproof m : blen (mp_data m) <= blen (e_multiproof m).
Proof. unfold e_multiproof. rewrite blen_app. pose proof (blen_e_bytes (mp_data m)). lia. Qed.
Lemma blen_seq_in {A} (e : A -> bytes) l x : In x l -> blen (e x) <= blen (e_seq e l).
Proof.
  unfold e_seq. rewrite blen_app. intros Hx. enough (blen (e x) <= blen (flat_map e l)) by lia.
  induction l as [|y l IH]; [destruct Hx|]. cbn [flat_map]. rewrite blen_app. destruct Hx as [->|Hx]; [lia|]. specialize (IH Hx). lia.
Qed.
Lemma blen_seq {A} (e : A -> bytes) l : Forall (fun x => 0 < blen (e x)) l -> N.of_nat (length l) <= blen (e_seq e l).
Proof. intros F. unfold e_seq. rewrite blen_app. pose proof (blen_flat_map e l F). lia. Qed.
Lemma blen_map {V} e (f : V -> bytes) (m : bmap V) : (forall k, 0 < blen (e k)) -> N.of_nat (length m) <= blen (e_map e f m).
Proof. intros H. apply blen_seq, Forall_forall. intros [k v] _. cbn [fst]. rewrite blen_app. specialize (H k). lia. Qed.
Lemma blen_map_in {V} e (f : V -> bytes) (m : bmap V) k v : In (k, v) m -> blen (f v) <= blen (e_map e f m).
Proof. intros Hx. pose proof (blen_seq_in (fun kv => e (fst kv) ++ f (snd kv)) m (k, v) Hx) as L. cbn [fst snd] in L. rewrite blen_app in L. unfold e_map. lia. Qed.

(** ** The keys *)
Section Keys.
  Variables (pkd : bytes -> option PublicKey) (P : PublicKey -> Prop).
  Hypothesis HP : forall b k, pkd b = Some k -> P k.
  Lemma request_keys cur : forall vs i active b keys b' keys', Forall (fun x => P (pubkey (snd x))) active -> Forall P keys ->
    request_validators pkd cur i vs active b keys = Ok (b', keys') -> Forall P keys'.
  Proof.
    induction vs as [|v vs IH]; intros i active b keys b' keys' Ha Hk E; cbn [request_validators] in E.
    - now injection E as <- <-.
    - destruct (v_exit_epoch v <=? cur).
      + apply bind_ok in E as (b1 & _ & E). eapply IH; eauto.
      + apply bind_ok in E as (b1 & _ & E). apply bind_ok in E as ([pk rest] & N & E).
        assert (G : P pk /\ Forall (fun x => P (pubkey (snd x))) rest).
        { unfold next_key in N. destruct active as [|[j vi] act].
          - destruct (pkd (v_pubkey v)) as [k|] eqn:D; [|discriminate]. injection N as <- <-. eauto.
          - destruct (j =? i).
            + injection N as <- <-. now inversion Ha.
            + destruct (pkd (v_pubkey v)) as [k|] eqn:D; [|discriminate]. injection N as <- <-. eauto. }
        destruct G as [G1 G2]. eapply IH; [exact G2| |exact E]. apply Forall_app. auto.
  Qed.
  Lemma active_keys st e l : active_from_state pkd st e = Ok l -> Forall (fun x => P (pubkey (snd x))) l.
  Proof.
    unfold active_from_state. generalize (filter (fun iv : N * Validator => is_active_validator (snd iv) e) (enumerate 0 (st_validators (hs_state st)))).
    intros ivs. revert l. induction ivs as [|iv ivs IH]; intros l E; cbn [map_outcome] in E.
    - injection E as <-. constructor.
    - apply bind_ok in E as (x & E1 & E). apply bind_ok in E as (r & E2 & E). injection E as <-. constructor; [|auto].
      apply bind_ok in E1 as (vi & E1 & E3). injection E3 as <-. unfold validator_info in E1.
      destruct (pkd (v_pubkey (snd iv))) as [k|] eqn:D; [|discriminate]. injection E1 as <-. cbn. eauto.
  Qed.
End Keys.
(** ** The input *)
Lemma slot_proof_wf X headers r mp : hash32 (sha256 X) -> (forall h, headers r = Ok (Some h) -> wf_header h) ->
  block_slot_proof X headers r = Ok mp -> blen (mp_data mp) < 2 ^ 32 -> wf_multiproof 32 mp.
Proof.
  intros Hh Hw E L. unfold block_slot_proof in E. apply bind_ok in E as (o & E1 & E). apply bind_ok in E as (h & E2 & E).
  apply bind_ok in E as (b & _ & E). apply bind_ok in E as (m & E3 & E). apply bind_ok in E as ([] & E4 & E). injection E as ->.
  apply map_err_ok in E1, E4. destruct o as [h'|]; [|discriminate]. injection E2 as ->.
  eapply built_wf; [exact Hh| |exact E3|exact E4|exact L]. apply header_tree_wf; auto.
Qed.
Theorem to_input_wf C X cs pkd states headers trusted pre atts post gi st :
  sane_spec X cs ->
  to_input X cs pkd states headers trusted (host_reader cs pkd states headers pre atts) (recorded_reads X cs atts post) = Ok gi ->
  checkpoint_state X cs states trusted = Ok st -> sound_data X cs pkd headers trusted st [root (finalized post)] ->
  typed_answers C cs pkd states atts -> wf_checkpoint (current_justified pre) -> wf_checkpoint (finalized pre) ->
  N.of_nat (length (st_validators (hs_state st))) < 2 ^ 32 ->
  blen (encode_input C gi) < 2 ^ 32 -> wf_input C 32 gi.
Proof.
  intros Sane E Ec D T W1 W2 Hn L. pose proof (sd_hash _ _ _ _ _ _ _ D) as Hh.
  destruct (to_input_patches _ _ _ _ _ _ _ _ _ E) as (st' & Ec' & Ep). rewrite Ec in Ec'. injection Ec' as <-.
  apply (recorded_patches X cs states) in Ep as (Ps & Pk & Pp); [|exact Sane].
  unfold to_input in E.
  apply bind_ok in E as (st' & E1 & E). apply (proj1 (map_err_ok _ _ _)) in E1. unfold checkpoint_state in Ec. rewrite Ec in E1. injection E1 as <-.
  apply bind_ok in E as (bp & Eb & E). apply bind_ok in E as ([] & Vb & E). apply bind_ok in E as (? & _ & E).
  apply bind_ok in E as (sp & Es & E). apply bind_ok in E as ([] & Vs & E). apply bind_ok in E as (active & Ea & E).
  apply bind_ok in E as ([vp keys] & Ev & E). apply bind_ok in E as ([] & Vv & E). apply bind_ok in E as (patches & _ & E).
  apply bind_ok in E as (sps & El & E). apply bind_ok in E as (cst & Ecs & E). apply bind_ok in E as (ats & Eat & E). injection E as <-.
  cbn [gi_beacon_block gi_beacon_state gi_active_validators gi_public_keys gi_patches gi_consensus_state gi_attestations gi_block_slot_proofs] in *.
  apply map_err_ok in Vb, Vs, Ea, Vv, Ecs, Eat. cbn [host_reader rd_consensus_state rd_attestations rd_active_validators] in Ecs, Eat, Ea.
  injection Ecs as <-. injection Eat as <-.
  unfold encode_input in L. cbn [gi_beacon_block gi_beacon_state gi_active_validators gi_public_keys gi_patches gi_consensus_state gi_attestations gi_block_slot_proofs] in L.
  rewrite !blen_app in L.
  apply bind_ok in Ea as (sta & _ & Ea). pose proof (active_keys pkd (wf_key C) (ta_keys _ _ _ _ _ T) _ _ _ Ea) as Ka.
  assert (Kk : Forall (wf_key C) keys /\ exists b, build_proof X (registry_tree (sha256 X) (st_validators (hs_state st))) b = Ok vp).
  { unfold validators_multiproof in Ev. apply bind_ok in Ev as (b0 & _ & Ev). apply bind_ok in Ev as ([b ks] & Ev1 & Ev).
    apply bind_ok in Ev as (mp & Ev2 & Ev). injection Ev as -> ->. split; [|eauto].
    eapply (request_keys pkd (wf_key C) (ta_keys _ _ _ _ _ T)); [exact Ka|constructor|exact Ev1]. }
  destruct Kk as (Kk & bv & Bv).
  assert (Bb : exists b, build_proof X (header_tree (sha256 X) (boundary_block X st)) b = Ok bp) by (apply bind_ok in Eb as (b & _ & Eb); eauto).
  assert (Bs : exists b, build_proof X (state_tree (sha256 X) (hs_state st)) b = Ok sp) by (apply bind_ok in Es as (b & _ & Es); eauto).
  destruct Bb as (bb & Bb), Bs as (bs & Bs).
  assert (Hst : wf_state (hs_state st)) by apply D.
  pose proof (blen_multiproof bp). pose proof (blen_multiproof sp). pose proof (blen_multiproof vp).
  split; cbn [gi_beacon_block gi_beacon_state gi_active_validators gi_public_keys gi_patches gi_consensus_state gi_attestations gi_block_slot_proofs].
  - eapply built_wf; [exact Hh| |exact Bb|exact Vb|lia]. apply header_tree_wf; [exact Hh|].
    destruct (sd_header _ _ _ _ _ _ _ D) as (A1 & A2 & A3 & A4 & A5). repeat split; auto. cbn [boundary_block hd_state_root].
    apply mroot_length; [exact Hh|]. now apply state_tree_wf.
  - eapply built_wf; [exact Hh| |exact Bs|exact Vs|lia]. now apply state_tree_wf.
  - eapply built_wf; [exact Hh| |exact Bv|exact Vv|lia]. apply registry_tree_wf; [exact Hh|]. apply Hst.
  - split; [|exact Kk]. unfold short.
    assert (F : Forall (fun x => 0 < blen (e_key C x)) keys).
    { eapply Forall_impl; [|exact Kk]. intros k [Q _]. unfold blen, e_key. rewrite Q. reflexivity. }
    pose proof (blen_seq _ _ F). lia.
  - assert (E8 : forall k, 0 < blen (e_int 8 k)) by (intros k; rewrite blen_e_int; reflexivity).
    assert (E4 : forall k, 0 < blen (e_int 4 k)) by (intros k; rewrite blen_e_int; reflexivity).
    split; [|split].
    + exact Ps.
    + unfold short. pose proof (blen_map (e_int 8) e_patch patches E8). lia.
    + apply Forall_forall. intros [e p] Hp. cbn [fst snd].
      assert (Te : In e (target_epochs atts)) by (apply Pk; now apply (in_map fst) in Hp).
      split.
      { unfold target_epochs in Te. apply in_map_iff in Te as (a & <- & Ha).
        pose proof (ta_attestations _ _ _ _ _ T) as A. rewrite Forall_forall in A. apply (wa_target _ _ (A a Ha)). }
      pose proof (blen_map_in (e_int 8) e_patch patches e p Hp) as Lp. unfold e_patch in Lp at 1. rewrite blen_app in Lp.
      destruct (Pp e p Hp) as (ste & mix & S1 & S2 & S3 & S4).
      pose proof (blen_map (e_int 4) e_b256 (randao_mixes p) E4) as Lm. pose proof (blen_map (e_int 8) (e_int 8) (validator_exits p) E8) as Lx.
      split.
      * unfold short. split; [|split; [lia|]]; rewrite S3.
        -- constructor; constructor.
        -- constructor; [|constructor]. cbn [fst snd]. split.
           ++ destruct Sane as (_ & _ & Z1 & Z2 & _). unfold seed_epoch_index.
              pose proof (N.mod_lt (e + epochs_per_historical_vector cs - min_seed_lookahead cs - 1) _ Z1). lia.
           ++ apply (ta_mixes _ _ _ _ _ T e ste); auto. eapply nth_error_In; eauto.
      * unfold short. destruct (e =? epoch trusted).
        { rewrite S4. split; [constructor|]. split; [reflexivity|constructor]. }
        destruct S4 as [X1 X2]. apply bm_sorted_keys in X1. split; [exact X1|]. split; [lia|].
        apply Forall_forall. intros [i y] Hi. cbn [fst snd]. apply bm_in_get in Hi; [|exact X1]. rewrite X2 in Hi.
        destruct (nth_error (st_validators (hs_state ste)) (N.to_nat i)) as [a|] eqn:Na; [|discriminate].
        destruct (nth_error (st_validators (hs_state st)) (N.to_nat i)) as [b|] eqn:Nb; [|discriminate].
        destruct (v_exit_epoch a =? v_exit_epoch b); [discriminate|]. injection Hi as <-. split.
        -- assert (nth_error (st_validators (hs_state st)) (N.to_nat i) <> None) as Q by congruence. apply nth_error_Some in Q. lia.
        -- apply (ta_exits _ _ _ _ _ T e ste a); auto. eapply nth_error_In; eauto.
  - auto.
  - split; [|apply (ta_attestations _ _ _ _ _ T)]. unfold short.
    assert (F : Forall (fun x => 0 < blen (e_attestation x)) atts).
    { apply Forall_forall. intros a _. unfold e_attestation, e_bytes. rewrite blen_app, blen_e_int. lia. }
    pose proof (blen_seq _ _ F). lia.
  - assert (Hb : rs_blocks (recorded_reads X cs atts post) = [root (finalized post)]) by reflexivity. rewrite Hb in El.
    cbn [map_outcome] in El. apply bind_ok in El as (mp & El1 & El). cbn [bind] in El. injection El as <-.
    unfold short. split; [reflexivity|]. constructor; [|constructor].
    eapply slot_proof_wf; [exact Hh| |exact El1|].
    + intros h Hhd. apply (sd_blocks _ _ _ _ _ _ _ D (root (finalized post)) h); [now left|exact Hhd].
    + pose proof (blen_seq_in e_multiproof [mp] mp (or_introl eq_refl)). pose proof (blen_multiproof mp). lia.
Qed.
