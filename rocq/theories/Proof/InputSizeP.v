(** How many bytes an input takes that the host has built. *)
From Coq Require Import List Arith NArith Bool Lia Sorted.
From Coq Require Import ZifyBool ZifyNat ZifyN.
From Verif.Model Require Import Base Types ConsensusState Multiproof Builder Gindices Committee Verify StateFile GuestReader HostChain HostStore HostInput InputCodec.
From Verif.Spec Require Import Merkle MultiproofSpec Ssz Beacon GuestSpec VerifySpec HostInputSpec InputCodecSpec Honest.
From Verif.Proof Require Import BaseLemmas MerkleP VerifyP MultiproofP BuilderP MultiproofMoreP GuestP BeaconP StateFileP InputCodecP HostInputP HostGuestP PreflightP InputWfP.
Import ListNotations.
Open Scope N_scope.

(** ** Leaves *)
Definition nleaves (t : mtree) : nat := length (leaves t).
Lemma nleaves_node l r : nleaves (MNode l r) = (nleaves l + nleaves r)%nat.
Proof. unfold nleaves. cbn [leaves]. rewrite app_length, !map_length. reflexivity. Qed.
Lemma nleaves_pos t : (1 <= nleaves t)%nat.
Proof. induction t; [reflexivity|]. rewrite nleaves_node. lia. Qed.
Lemma prune_leaves H : forall T S, (nleaves (prune H T S) <= nleaves T)%nat.
Proof.
  induction T as [c|l IHl r IHr]; intros S; cbn [prune]; [lia|]. destruct (stop S).
  - change (nleaves (MLeaf (mroot H (MNode l r)))) with 1%nat. apply nleaves_pos.
  - rewrite !nleaves_node. specialize (IHl (tails false S)). specialize (IHr (tails true S)). lia.
Qed.
Lemma take_all {A} (l : list A) : forall n, N.of_nat (length l) <= n -> take n l = l.
Proof.
  induction l as [|x l IH]; intros n Hn; cbn [take length] in *; [reflexivity|]. destruct (N.eqb_spec n 0); [lia|]. f_equal. apply IH. lia.
Qed.
Lemma take_drop {A} (l : list A) : forall n, take n l ++ drop n l = l.
Proof. induction l as [|x l IH]; intros n; cbn [take drop]; [reflexivity|]. destruct (n =? 0); [reflexivity|]. cbn [app]. now rewrite IH. Qed.
Lemma take_length {A} (l : list A) : forall n, N.of_nat (length (take n l)) = N.min n (N.of_nat (length l)).
Proof.
  induction l as [|x l IH]; intros n; cbn [take length]; [lia|]. destruct (N.eqb_spec n 0); cbn [length]; [lia|]. specialize (IH (n - 1)). lia.
Qed.
Definition total (ts : list mtree) : nat := list_sum (map nleaves ts).
Lemma total_app a b : total (a ++ b) = (total a + total b)%nat.
Proof. unfold total. now rewrite map_app, list_sum_app. Qed.
Lemma fill_full H : forall d items, 2 ^ N.of_nat d <= N.of_nat (length items) -> (nleaves (fill H d items) <= total items)%nat.
Proof.
  induction d as [|d IH]; intros items Hd; (destruct items as [|x items]; [cbn [length] in Hd; pose proof (N.pow_nonzero 2 (N.of_nat 0)); try pose proof (N.pow_nonzero 2 (N.of_nat (S d))); lia|]);
    cbn [fill].
  - change (total (x :: items)) with (nleaves x + total items)%nat. lia.
  - rewrite nleaves_node. set (k := 2 ^ N.of_nat d) in *. rewrite <- (take_drop (x :: items) k) at 3. rewrite total_app.
    rewrite Nat2N.inj_succ, N.pow_succ_r' in Hd. fold k in Hd. pose proof (take_length (x :: items) k) as L.
    assert (L' : N.of_nat (length (take k (x :: items))) + N.of_nat (length (drop k (x :: items))) = N.of_nat (length (x :: items))).
    { rewrite <- Nat2N.inj_add, <- app_length, take_drop. reflexivity. }
    specialize (IH (take k (x :: items)) ltac:(lia)) as I1. specialize (IH (drop k (x :: items)) ltac:(lia)). lia.
Qed.
Lemma fill_leaves H : forall d items, (nleaves (fill H d items) <= total items + S d)%nat.
Proof.
  induction d as [|d IH]; intros items; (destruct items as [|x items]; cbn [fill]; [change (nleaves (MLeaf (zero_root H _))) with 1%nat; lia|]).
  - change (total (x :: items)) with (nleaves x + total items)%nat. lia.
  - rewrite nleaves_node. set (k := 2 ^ N.of_nat d) in *. rewrite <- (take_drop (x :: items) k) at 3. rewrite total_app.
    destruct (N.le_gt_cases k (N.of_nat (length (x :: items)))) as [Hk|Hk].
    + pose proof (take_length (x :: items) k) as L. pose proof (fill_full H d (take k (x :: items))) as F. fold k in F. specialize (F ltac:(lia)).
      specialize (IH (drop k (x :: items))). lia.
    + rewrite take_all by lia. assert (D : drop k (x :: items) = []).
      { pose proof (take_drop (x :: items) k) as E. rewrite take_all in E by lia. apply (app_inv_head (x :: items)). now rewrite app_nil_r. }
      rewrite D. specialize (IH (x :: items)). assert (F : nleaves (fill H d []) = 1%nat) by (destruct d; reflexivity). rewrite F. change (total []) with 0%nat. lia.
Qed.
Lemma validator_leaves H v : nleaves (validator_tree H v) = 9%nat.
Proof. reflexivity. Qed.
Lemma registry_leaves H vs : (nleaves (registry_tree H vs) <= 9 * length vs + 42)%nat.
Proof.
  unfold registry_tree, list_tree. rewrite nleaves_node. pose proof (fill_leaves H 40 (map (validator_tree H) vs)) as F.
  assert (E : total (map (validator_tree H) vs) = (9 * length vs)%nat).
  { induction vs as [|v vs IH]; [reflexivity|]. cbn [map]. change (total (validator_tree H v :: map (validator_tree H) vs)) with (nleaves (validator_tree H v) + total (map (validator_tree H) vs))%nat.
    rewrite IH, validator_leaves; [cbn [length]; lia|]. apply fill_leaves. }
  change (nleaves (MLeaf _)) with 1%nat. lia.
Qed.
(** ** Proofs *)
Lemma built_mask {E} (e : E) H T b mp : build (tree_oracle e H T) b = Ok mp -> length (mp_value_mask mp) = length (compute_proof_indices_and_value_mask b).
Proof.
  intros B. unfold build in B. set (im := compute_proof_indices_and_value_mask b) in *. clearbody im.
  apply bind_ok in B as (nodes & B1 & B). apply bind_ok in B as (md & B2 & B). injection B as <-. cbn [mp_value_mask]. apply map_length.
Qed.
Lemma blen_e_bits l : 8 * blen (e_bits l) <= N.of_nat (length l) + 400.
Proof.
  unfold e_bits. fold (padded l). rewrite !blen_app, !blen_e_int, (proj1 (padded_bytes l)). change (blen (e_bytes order_name)) with 27. unfold words.
  pose proof (N.mul_div_le (N.of_nat (length l) + 31) 32). lia.
Qed.
Lemma proof_size mp m : length (mp_data mp) = (32 * length (mp_value_mask mp))%nat -> (16 * (length (mp_descriptor mp) + 1) <= length (mp_data mp))%nat ->
  (length (mp_value_mask mp) <= m)%nat -> blen (e_multiproof mp) <= 33 * N.of_nat m + 120.
Proof.
  intros H1 H2 H3. unfold e_multiproof, e_bytes. rewrite !blen_app, !blen_e_int. unfold blen at 1.
  pose proof (blen_e_bits (mp_value_mask mp)). pose proof (blen_e_bits (mp_descriptor mp)). lia.
Qed.
(** The requested indices. *)
Lemma request_values pkd cur r : forall i active b keys b' keys', i + N.of_nat (length r) <= 2 ^ 40 -> bs_sorted b ->
  request_validators pkd cur i r active b keys = Ok (b', keys') ->
  bs_sorted b' /\ (forall g, In g b' <-> In g b \/ In g (map fst (registry_values cur i r))) /\ (length keys' <= length keys + length r)%nat.
Proof.
  induction r as [|v r IH]; intros i active b keys b' keys' Hi Hb E; cbn [request_validators registry_values length] in *.
  - injection E as <- <-. split; [exact Hb|]. split; [intros g; cbn [map In]; tauto|lia].
  - assert (Hi' : i < 2 ^ 40) by lia. unfold validator_values. destruct (v_exit_epoch v <=? cur).
    + destruct (validator_indices i Hi') as (_ & _ & _ & _ & _ & _ & G7 & _). cbv zeta in G7.
      rewrite (with_path_ok _ b _ _ G7) in E. cbn [bind] in E.
      apply IH in E as (S & I & L); [|lia|now apply bs_insert_sorted]. split; [exact S|]. split; [|lia].
      intros g. rewrite I, bs_insert_In, map_app, in_app_iff. cbn [map fst In]. intuition auto.
    + destruct (@with_paths_ok HIError T_validators _ _ (validator_paths_ok i v Hi') b Hb) as (b1 & E1 & S1 & I1). rewrite E1 in E. cbn [bind] in E.
      apply bind_ok in E as ([pk act] & _ & E). apply IH in E as (S & I & L); [|lia|exact S1]. rewrite app_length in L. cbn [length] in L.
      split; [exact S|]. split; [|lia]. intros g. rewrite I, I1, map_app, in_app_iff. tauto.
Qed.
Lemma registry_proof_size X pkd cur vs active mp keys : hash32 (sha256 X) -> wf_registry vs ->
  validators_multiproof X pkd cur vs active = Ok (mp, keys) ->
  (length (mp_value_mask mp) <= 9 * length vs + 42)%nat /\ (length keys <= length vs)%nat.
Proof.
  intros Hh W E. assert (Hl : N.of_nat (length vs) <= 2 ^ 40) by apply W. unfold validators_multiproof in E.
  apply bind_ok in E as (b0 & E0 & E). apply bind_ok in E as ([b ks] & E1 & E). apply bind_ok in E as (m & E2 & E). injection E as -> ->.
  assert (B0 : b0 = [3]) by (vm_compute in E0; injection E0 as <-; reflexivity). subst b0.
  apply request_values in E1 as (S & I & L); [|lia|repeat constructor]. cbn [length Nat.add] in L. split; [|exact L].
  set (gv := all_values cur vs). assert (Hb : forall g, In g b <-> In g (map fst gv)).
  { intros g. rewrite I. unfold gv, all_values. rewrite map_app, in_app_iff. cbn [map fst In]. tauto. }
  pose proof (all_values_nodes (sha256 X) cur vs W) as F. rewrite Forall_forall in F. fold gv in F.
  pose proof (all_values_sorted cur vs Hl) as SS. fold gv in SS.
  assert (Hpos : forall g, In g b -> 1 < g < 2 ^ 64).
  { intros g Hg. apply Hb, in_map_iff in Hg as (x & <- & Hx). apply F in Hx. tauto. }
  assert (EQ : map gindex_of (map path_of b) = b).
  { rewrite map_map. rewrite <- (map_id b) at 2. apply map_ext_in. intros g Hg. apply gindex_of_path_of. apply Hpos in Hg. lia. }
  assert (Inb : forall p, In p (map path_of b) <-> In p (map (fun x => path_of (fst x)) gv)).
  { intros p. rewrite !in_map_iff. split.
    - intros (g & <- & Hg). apply Hb, in_map_iff in Hg as (x & <- & Hx). eauto.
    - intros (x & <- & Hx). exists (fst x). split; auto. apply Hb. now apply in_map. }
  destruct (build_correct HI_Build (sha256 X) (registry_tree (sha256 X) vs) (map path_of b)) as (mp' & M1 & M2 & M3 & M4).
  - exact Hh.
  - now apply registry_tree_wf.
  - intros p q Hp Hq. apply (left_sorted_antichain _ SS); now apply Inb.
  - apply NoDup_map_in; [|now apply bs_sorted_NoDup]. intros x y Hx Hy Exy.
    apply Hpos in Hx, Hy. rewrite <- (gindex_of_path_of x), <- (gindex_of_path_of y), Exy by lia. auto.
  - intros p Hp. assert (Hp' := Hp). apply in_map_iff in Hp' as (g & <- & Hg). split.
    + apply Inb, in_map_iff in Hp as (x & Ex & Hx). apply F in Hx as [_ Hx]. rewrite Ex in Hx.
      unfold node_at, present in *. intros Hn. rewrite Hn in Hx. discriminate.
    + apply Hpos in Hg. apply path_of_length; unfold two64; lia.
  - intros Q. apply map_eq_nil in Q. subst b. apply (Hb 3). unfold gv, all_values. rewrite map_app. apply in_or_app. right. now left.
  - rewrite EQ in M1. unfold build_proof in E2. rewrite M1 in E2. injection E2 as ->. rewrite M4, !map_length.
    pose proof (prune_leaves (sha256 X) (registry_tree (sha256 X) vs) (map path_of b)) as Q. pose proof (registry_leaves (sha256 X) vs). unfold nleaves in Q at 1.
    etransitivity; [exact Q|assumption].
Qed.
(** ** Attestations *)
Lemma attestation_size C a : mainnet_limits C -> wf_attestation C a -> blen (e_attestation a) <= 17000.
Proof.
  intros (M1 & M2 & M3) W. unfold e_attestation, e_bytes. rewrite blen_app, blen_e_int. unfold ssz_attestation.
  assert (Q : forall x b, blen (x :: b) = 1 + blen b) by (intros; unfold blen; cbn [length]; lia). rewrite Q.
  rewrite blen_encode, (fits_size _ _ (att_parts_fit C a W)). destruct W as [H1 H2 _ _ _ _ _ _]. rewrite M1, M2 in H1. 
  unfold content_size, att_parts, att_shape, ssz_bitlist. rewrite M3.
  assert (B : blen (bits_bytes (aggregation_bits a ++ [true])) < 16386).
  { rewrite blen_bits, app_length. cbn [length]. apply N.div_lt_upper_bound; [lia|]. destruct (att_electra a); lia. }
  change ((64 + 7) / 8) with 8.
  destruct (att_electra a); cbn [contents app shape_size fold_right]; rewrite ?app_nil_r; lia.
Qed.
Lemma blen_seq_bound {A} (e : A -> bytes) l k : Forall (fun x => blen (e x) <= k) l -> blen (e_seq e l) <= k * N.of_nat (length l) + 8.
Proof.
  intros F. unfold e_seq. rewrite blen_app, blen_e_int. enough (blen (flat_map e l) <= k * N.of_nat (length l)) by lia.
  induction F as [|x l Hx F IH]; cbn [flat_map length]; [change (blen []) with 0; lia|]. rewrite blen_app. lia.
Qed.
(** ** Patches *)
Lemma patches_size (m : bmap StatePatch) : (forall e p, In (e, p) m -> exists i mix, randao_mixes p = [(i, mix)] /\ blen mix = 32) ->
  blen (e_map (e_int 8) e_patch m) <= 68 * N.of_nat (length m) + 16 * N.of_nat (length (flat_map (fun p => validator_exits (snd p)) m)) + 8.
Proof.
  intros H. unfold e_map, e_seq. rewrite blen_app, blen_e_int.
  match goal with |- N.of_nat 8 + ?x <= _ => enough (x <= 68 * N.of_nat (length m) + 16 * N.of_nat (length (flat_map (fun p => validator_exits (snd p)) m))) by lia end.
  induction m as [|[e p] m IH]; cbn [flat_map length fst snd]; [reflexivity|]. rewrite !blen_app, blen_e_int, app_length.
  specialize (IH ltac:(intros e' p' Hp; apply (H e' p'); now right)). destruct (H e p (or_introl eq_refl)) as (i & mix & R1 & R2).
  assert (P : blen (e_patch p) = 60 + 16 * N.of_nat (length (validator_exits p))).
  { unfold e_patch. rewrite R1. unfold e_map, e_seq. cbn [flat_map fst snd length]. unfold e_b256, e_bytes. rewrite !blen_app, !blen_e_int, R2.
    assert (Q : blen (flat_map (fun kv : N * N => e_int 8 (fst kv) ++ e_int 8 (snd kv)) (validator_exits p)) = 16 * N.of_nat (length (validator_exits p))).
    { induction (validator_exits p) as [|x l IHl]; cbn [flat_map length]; [reflexivity|]. rewrite !blen_app, !blen_e_int, IHl. lia. }
    rewrite Q. change (blen []) with 0. lia. }
  lia.
Qed.
(** ** The input *)
Theorem to_input_size C X cs pkd states headers trusted pre atts post gi st :
  sane_spec X cs -> mainnet_limits C ->
  to_input X cs pkd states headers trusted (host_reader cs pkd states headers pre atts) (recorded_reads X cs atts post) = Ok gi ->
  checkpoint_state X cs states trusted = Ok st -> sound_data X cs pkd headers trusted st [root (finalized post)] ->
  typed_answers C cs pkd states atts -> wf_checkpoint (current_justified pre) -> wf_checkpoint (finalized pre) ->
  blen (encode_input C gi) <= 400 * N.of_nat (length (st_validators (hs_state st))) + 17100 * N.of_nat (length atts) + 16 * exit_count gi + 10000.
Proof.
  intros Sane M E Ec D T W1 W2. pose proof (sd_hash _ _ _ _ _ _ _ D) as Hh.
  destruct (to_input_patches _ _ _ _ _ _ _ _ _ E) as (st' & Ec' & Ep). rewrite Ec in Ec'. injection Ec' as <-.
  apply (recorded_patches X cs states) in Ep as (Ps & Pk & Pp); [|exact Sane].
  unfold to_input in E.
  apply bind_ok in E as (st' & E1 & E). apply (proj1 (map_err_ok _ _ _)) in E1. unfold checkpoint_state in Ec. rewrite Ec in E1. injection E1 as <-.
  apply bind_ok in E as (bp & Eb & E). apply bind_ok in E as ([] & Vb & E). apply bind_ok in E as (? & _ & E).
  apply bind_ok in E as (sp & Es & E). apply bind_ok in E as ([] & Vs & E). apply bind_ok in E as (active & Ea & E).
  apply bind_ok in E as ([vp keys] & Ev & E). apply bind_ok in E as ([] & Vv & E). apply bind_ok in E as (patches & _ & E).
  apply bind_ok in E as (sps & El & E). apply bind_ok in E as (cst & Ecs & E). apply bind_ok in E as (ats & Eat & E). injection E as <-.
  unfold exit_count.
  cbn [gi_beacon_block gi_beacon_state gi_active_validators gi_public_keys gi_patches gi_consensus_state gi_attestations gi_block_slot_proofs] in *.
  apply map_err_ok in Vb, Vs, Ea, Vv, Ecs, Eat. cbn [host_reader rd_consensus_state rd_attestations rd_active_validators] in Ecs, Eat, Ea.
  injection Ecs as <-. injection Eat as <-.
  assert (Hst : wf_state (hs_state st)) by apply D.
  assert (Wb : wf_header (boundary_block X st)).
  { destruct (sd_header _ _ _ _ _ _ _ D) as (A1 & A2 & A3 & A4 & A5). repeat split; auto. cbn [boundary_block hd_state_root].
    apply mroot_length; [exact Hh|]. now apply state_tree_wf. }
  (* the block *)
  assert (L1 : blen (e_multiproof bp) <= 300).
  { unfold block_multiproof in Eb. apply bind_ok in Eb as (b & Q & Eb). vm_compute in Q. injection Q as <-. unfold build_proof in Eb.
    destruct (built_length _ _ _ _ _ Hh (header_tree_wf _ _ Hh Wb) Eb) as [D1 _].
    etransitivity; [apply (proof_size bp 4 D1 (verified_length _ _ _ Vb))|vm_compute; discriminate].
    rewrite (built_mask _ _ _ _ _ Eb). vm_compute. lia. }
  (* the state *)
  assert (L2 : blen (e_multiproof sp) <= 3000).
  { unfold build_state_multiproof in Es. apply bind_ok in Es as (b & Q & Es). 
    assert (Lb : (length (compute_proof_indices_and_value_mask b) <= 80)%nat).
    { destruct (st_fulu (hs_state st)); vm_compute in Q; injection Q as <-; vm_compute; lia. }
    unfold build_proof in Es. destruct (built_length _ _ _ _ _ Hh (state_tree_wf _ _ Hh Hst) Es) as [D1 _].
    etransitivity; [apply (proof_size sp 80 D1 (verified_length _ _ _ Vs))|vm_compute; discriminate].
    rewrite (built_mask _ _ _ _ _ Es). exact Lb. }
  (* the registry and the keys *)
  assert (Wr : wf_registry (st_validators (hs_state st))) by apply Hst.
  destruct (registry_proof_size _ _ _ _ _ _ _ Hh Wr Ev) as [R1 R2].
  assert (L3 : blen (e_multiproof vp) <= 33 * (9 * N.of_nat (length (st_validators (hs_state st))) + 42) + 120).
  { unfold validators_multiproof in Ev. apply bind_ok in Ev as (b0 & _ & Ev). apply bind_ok in Ev as ([b ks] & _ & Ev).
    apply bind_ok in Ev as (mp & Ev2 & Ev). injection Ev as -> ->. unfold build_proof in Ev2.
    destruct (built_length _ _ _ _ _ Hh (registry_tree_wf _ _ Hh Wr) Ev2) as [D1 _].
    pose proof (proof_size vp _ D1 (verified_length _ _ _ Vv) R1). lia. }
  assert (L4 : blen (e_seq (e_key C) keys) <= 96 * N.of_nat (length (st_validators (hs_state st))) + 8).
  { apply bind_ok in Ea as (sta & _ & Ea). pose proof (active_keys pkd (wf_key C) (ta_keys _ _ _ _ _ T) _ _ _ Ea) as Ka.
    assert (Kk : Forall (wf_key C) keys).
    { unfold validators_multiproof in Ev. apply bind_ok in Ev as (b0 & _ & Ev). apply bind_ok in Ev as ([b ks] & Ev1 & Ev).
      apply bind_ok in Ev as (mp & Ev2 & Ev). injection Ev as -> ->.
      eapply (request_keys pkd (wf_key C) (ta_keys _ _ _ _ _ T)); [exact Ka|constructor|exact Ev1]. }
    assert (F : Forall (fun x => blen (e_key C x) <= 96) keys) by (eapply Forall_impl; [|exact Kk]; intros k [Q _]; unfold blen, e_key; rewrite Q; reflexivity).
    pose proof (blen_seq_bound _ _ _ F). lia. }
  (* the patches *)
  assert (L5 : blen (e_map (e_int 8) e_patch patches) <=
    68 * N.of_nat (length atts) + 16 * N.of_nat (length (flat_map (fun p => validator_exits (snd p)) patches)) + 8).
  { assert (Lp : (length patches <= length atts)%nat).
    { rewrite <- (map_length fst patches). replace (length atts) with (length (target_epochs atts)) by apply map_length.
      apply NoDup_incl_length; [|intros e He; now apply Pk]. now apply bm_sorted_NoDup. }
    pose proof (patches_size patches) as Q. etransitivity; [apply Q|lia].
    intros e p Hp. destruct (Pp e p Hp) as (ste & mix & S1 & S2 & S3 & _). exists (seed_epoch_index cs e), mix. split; [exact S3|].
    assert (Te : In e (target_epochs atts)) by (apply Pk; now apply (in_map fst) in Hp).
    assert (B : b32 mix) by (apply (ta_mixes _ _ _ _ _ T e ste); auto; eapply nth_error_In; eauto). unfold b32 in B. unfold blen. now rewrite B. }
  (* the rest *)
  assert (L6 : blen (e_state pre) = 96).
  { destruct W1 as [_ W1], W2 as [_ W2]. unfold b32 in *. unfold e_state, e_checkpoint, e_b256, e_bytes. rewrite !blen_app, !blen_e_int. unfold blen. rewrite W1, W2. reflexivity. }
  assert (L7 : blen (e_seq e_attestation atts) <= 17000 * N.of_nat (length atts) + 8).
  { apply blen_seq_bound. eapply Forall_impl; [|exact (ta_attestations _ _ _ _ _ T)]. intros a Wa. eapply attestation_size; eauto. }
  assert (L8 : blen (e_seq e_multiproof sps) <= 400).
  { assert (Hb : rs_blocks (recorded_reads X cs atts post) = [root (finalized post)]) by reflexivity. rewrite Hb in El.
    cbn [map_outcome] in El. apply bind_ok in El as (mp & El1 & El). cbn [bind] in El. injection El as <-.
    assert (Q : blen (e_multiproof mp) <= 300); [|assert (F : Forall (fun m => blen (e_multiproof m) <= 300) [mp]) by (constructor; [exact Q|constructor]); pose proof (blen_seq_bound _ _ _ F) as Q1; cbn [length] in Q1; lia].
    unfold block_slot_proof in El1. apply bind_ok in El1 as (o & F1 & El1). apply bind_ok in El1 as (h & F2 & El1).
    apply bind_ok in El1 as (b & Q & El1). apply bind_ok in El1 as (m & F3 & El1). apply bind_ok in El1 as ([] & F4 & El1). injection El1 as ->.
    apply map_err_ok in F1, F4. destruct o as [h'|]; [|discriminate]. injection F2 as ->. vm_compute in Q. injection Q as <-.
    assert (Wh : wf_header h) by (apply (sd_blocks _ _ _ _ _ _ _ D (root (finalized post))); [now left|exact F1]).
    unfold build_proof in F3. destruct (built_length _ _ _ _ _ Hh (header_tree_wf _ _ Hh Wh) F3) as [D1 _].
    etransitivity; [apply (proof_size mp 4 D1 (verified_length _ _ _ F4))|vm_compute; discriminate].
    rewrite (built_mask _ _ _ _ _ F3). vm_compute. lia. }
  unfold encode_input. cbn [gi_beacon_block gi_beacon_state gi_active_validators gi_public_keys gi_patches gi_consensus_state gi_attestations gi_block_slot_proofs].
  rewrite !blen_app. lia.
Qed.
