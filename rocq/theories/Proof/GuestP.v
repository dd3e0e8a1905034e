(** Soundness of what the guest extracts from its three multiproofs. *)
From Coq Require Import List Arith ZArith NArith Bool Lia Sorted.
From Coq.Init Require Import Byte.
From Verif.Model Require Import Base Types ConsensusState Multiproof Gindices Verify GuestReader.
From Verif.Spec Require Import Merkle MultiproofSpec Ssz Beacon GuestSpec.
From Verif.Proof Require Import BaseLemmas MerkleP MultiproofP MultiproofMoreP VerifyP BeaconP.
Import ListNotations.
Open Scope N_scope.
Notation length := List.length.

Definition values_true (H : bytes -> bytes) (T : mtree) (vals : list (N * bytes)) : Prop :=
  forall g c, In (g, c) vals -> forall x, node_at H T (path_of g) = Some x -> x = c.
Lemma values_true_cons H T g c vals : values_true H T ((g, c) :: vals) ->
  (forall x, node_at H T (path_of g) = Some x -> c = x) /\ values_true H T vals.
Proof.
  intros V. split.
  - intros x Hx. symmetry. apply (V g c); simpl; auto.
  - intros g' c' Hin. apply V. now right.
Qed.
Lemma values_true_verified H T mp : hash32 H -> wf_tree T -> checkable H T mp ->
  mp_verify H mp (mroot H T) = Ok tt -> values_true H T (mp_values mp).
Proof.
  intros Hh HT (t & He & Hd & Hi) Hv g c Hin x Hx.
  destruct (N.eq_dec g 0) as [-> |Hg].
  - exfalso. apply mp_values_in in Hin. rewrite (mp_nodes_tree_small _ _ He Hd) in Hin.
    apply in_map_iff in Hin as ([q v] & E & _). simpl in E. injection E as E _.
    pose proof (gindex_of_pos q). lia.
  - apply (multiproof_binding H mp T t g c (path_of g) x); auto; [|apply gindex_of_path_of; lia].
    now apply mp_values_in.
Qed.

Lemma next_checked_ok vals g c rest : next_checked vals g = Ok (c, rest) <-> vals = (g, c) :: rest.
Proof.
  unfold next_checked, assert_. destruct vals as [|[g' c'] r]; [split; discriminate|].
  destruct (N.eqb_spec g' g) as [-> |Hn]; simpl; split; intros E; try discriminate; congruence.
Qed.
Lemma next_assert_ok vals g c rest : next_assert_gindex vals g = Ok (c, rest) <-> vals = (g, c) :: rest.
Proof.
  unfold next_assert_gindex. destruct vals as [|[g' c'] r]; [split; discriminate|].
  destruct (N.eqb_spec g' g) as [-> |Hn]; split; intros E; try discriminate; congruence.
Qed.

Lemma has_compressed_iff X pk b : length b = 48%nat -> length (pk_serialize X pk) = 48%nat ->
  has_compressed_chunks X pk (firstn 32 b) (chunk 16 (skipn 32 b)) = true <-> pk_serialize X pk = b.
Proof.
  intros Hb Hp. unfold has_compressed_chunks. rewrite !andb_true_iff, !bytes_eqb_eq.
  assert (E16 : length (skipn 32 b) = 16%nat) by (rewrite skipn_length; lia).
  rewrite (chunk_firstn 16 (skipn 32 b) E16).
  rewrite (firstn_all2 (n := 16) (skipn 32 (pk_serialize X pk))) by (rewrite skipn_length; lia).
  unfold chunk at 1. rewrite skipn_app, E16, (skipn_all2 (n := 16) (skipn 32 b)) by lia. simpl app. split.
  - intros [[E1 E2] _]. rewrite <- (firstn_skipn 32 (pk_serialize X pk)), E1, E2. apply firstn_skipn.
  - intros ->. repeat split.
Qed.

Lemma extract_one_ok X H vs pks i v vals vi vals' pks' :
  pk48 X -> wf_validator v -> nth_error vs (N.to_nat i) = Some v -> i < 2 ^ 40 ->
  values_true H (registry_tree H vs) vals ->
  extract_one X vals pks i = Ok (vi, vals', pks') ->
  same_validator X v vi /\ values_true H (registry_tree H vs) vals' /\ (length vals' < length vals)%nat.
Proof.
  intros Hk Hw Hv Hi V E. unfold extract_one in E. destruct pks as [|pk pks0]; [discriminate|].
  pose proof Hw as (W1 & W2 & W3 & W4 & W5 & W6 & W7).
  destruct (node_at_validator H vs i v Hv Hi W1) as (N1 & N2 & N3 & N4 & N5 & N6 & N7).
  apply bind_ok in E as ([p1 v1] & E1 & E). apply (proj1 (next_checked_ok _ _ _ _)) in E1. subst vals.
  apply bind_ok in E as ([p2 v2] & E1 & E). apply (proj1 (next_checked_ok _ _ _ _)) in E1. subst v1.
  apply bind_ok in E as (u & E1 & E). apply (proj1 (assert_ok _ _)) in E1.
  apply bind_ok in E as ([eb v3] & E3 & E). apply (proj1 (next_checked_ok _ _ _ _)) in E3. subst v2.
  apply bind_ok in E as ([sl v4] & E3 & E). apply (proj1 (next_checked_ok _ _ _ _)) in E3. subst v3.
  apply bind_ok in E as (slb & Esl & E).
  apply bind_ok in E as ([ae v5] & E3 & E). apply (proj1 (next_checked_ok _ _ _ _)) in E3. subst v4.
  apply bind_ok in E as ([ac v6] & E3 & E). apply (proj1 (next_checked_ok _ _ _ _)) in E3. subst v5.
  apply bind_ok in E as ([ex v7] & E3 & E). apply (proj1 (next_checked_ok _ _ _ _)) in E3. subst v6.
  injection E as <- <- <-.
  apply values_true_cons in V as [V1 V]. apply V1 in N1. subst p1.
  apply values_true_cons in V as [V2 V]. apply V2 in N2. subst p2.
  apply values_true_cons in V as [V3 V]. apply V3 in N3. subst eb.
  apply values_true_cons in V as [V4 V]. apply V4 in N4. subst sl.
  apply values_true_cons in V as [V5 V]. apply V5 in N5. subst ae.
  apply values_true_cons in V as [V6 V]. apply V6 in N6. subst ac.
  apply values_true_cons in V as [V7 V]. apply V7 in N7. subst ex.
  rewrite bool_from_ssz in Esl. injection Esl as <-.
  rewrite !u64_from_ssz by assumption.
  split; [|split; [exact V|simpl; lia]].
  apply has_compressed_iff in E1; auto. repeat (split; [reflexivity || assumption|]). reflexivity.
Qed.

Lemma extract_one_suffix X pks i vals vi vals' pks' :
  extract_one X vals pks i = Ok (vi, vals', pks') ->
  exists pre, vals = pre ++ vals' /\ pre <> [].
Proof.
  intros E. unfold extract_one in E. destruct pks as [|pk pks0]; [discriminate|].
  apply bind_ok in E as ([p1 v1] & E1 & E). apply (proj1 (next_checked_ok _ _ _ _)) in E1. subst vals.
  apply bind_ok in E as ([p2 v2] & E1 & E). apply (proj1 (next_checked_ok _ _ _ _)) in E1. subst v1.
  apply bind_ok in E as (u & E1 & E).
  apply bind_ok in E as ([eb v3] & E3 & E). apply (proj1 (next_checked_ok _ _ _ _)) in E3. subst v2.
  apply bind_ok in E as ([sl v4] & E3 & E). apply (proj1 (next_checked_ok _ _ _ _)) in E3. subst v3.
  apply bind_ok in E as (slb & Esl & E).
  apply bind_ok in E as ([ae v5] & E3 & E). apply (proj1 (next_checked_ok _ _ _ _)) in E3. subst v4.
  apply bind_ok in E as ([ac v6] & E3 & E). apply (proj1 (next_checked_ok _ _ _ _)) in E3. subst v5.
  apply bind_ok in E as ([ex v7] & E3 & E). apply (proj1 (next_checked_ok _ _ _ _)) in E3. subst v6.
  injection E as <- <- <-. eexists [_; _; _; _; _; _; _]. split; [reflexivity|discriminate].
Qed.
Lemma extract_loop_ok X H vs cur : pk48 X -> wf_registry vs ->
  forall fuel vals pks i cache out,
  values_true H (registry_tree H vs) vals ->
  bm_sorted cache -> (forall j, i <= j -> bm_get cache j = None) ->
  extract_loop X fuel cur vals pks i cache = Ok out ->
  i <= N.of_nat (length vs) /\ bm_sorted out /\
  (forall j, j < i -> bm_get out j = bm_get cache j) /\
  (forall j, i <= j -> match nth_error vs (N.to_nat j), bm_get out j with
            | Some v, Some vi => same_validator X v vi
            | Some v, None => v_exit_epoch v <= cur
            | None, Some _ => False
            | None, None => True
            end).
Proof.
  intros Hk [Hw Hlen]. induction fuel as [|fuel IH]; intros vals pks i cache out V Hs Hc E; [discriminate|].
  cbn [extract_loop] in E. destruct vals as [|[g c] rest]; [discriminate|].
  assert (Step : forall v0 cache' pks' o, values_true H (registry_tree H vs) v0 -> bm_sorted cache' ->
    (forall j, i + 1 <= j -> bm_get cache' j = None) -> (forall j, j < i -> bm_get cache' j = bm_get cache j) ->
    extract_loop X fuel cur v0 pks' (i + 1) cache' = Ok o ->
    exists v, nth_error vs (N.to_nat i) = Some v /\ i < 2 ^ 40 /\ wf_validator v /\ i <= N.of_nat (length vs) /\ bm_sorted o /\
      (forall j, j < i -> bm_get o j = bm_get cache j) /\ bm_get o i = bm_get cache' i /\
      (forall j, i < j -> match nth_error vs (N.to_nat j), bm_get o j with
            | Some v, Some vi => same_validator X v vi
            | Some v, None => v_exit_epoch v <= cur
            | None, Some _ => False
            | None, None => True
            end)).
  { intros v0 cache' pks' o V0 S0 C0 C1 E0. apply IH in E0 as (L & So & P1 & P2); auto.
    destruct (nth_error vs (N.to_nat i)) as [v|] eqn:Ev.
    2:{ apply nth_error_None in Ev. lia. }
    exists v. split; [reflexivity|]. split; [lia|]. split.
    { rewrite Forall_forall in Hw. apply Hw. eapply nth_error_In; eauto. }
    split; [lia|]. split; [exact So|]. split.
    { intros j Hj. rewrite P1 by lia. apply C1. lia. }
    split; [apply P1; lia|]. intros j Hj. apply P2. lia. }
  destruct (N.eqb_spec g 3) as [-> |Hg3].
  - apply bind_ok in E as (u & E1 & E). apply (proj1 (assert_ok _ _)) in E1. apply N.eqb_eq in E1.
    apply bind_ok in E as (u' & E2 & E). apply (proj1 (assert_ok _ _)) in E2. injection E as <-.
    apply values_true_cons in V as [V1 _]. rewrite (V1 _ (node_at_registry_length H vs)) in E1.
    rewrite u64_from_ssz in E1 by (change (2 ^ 64) with 18446744073709551616; change (2 ^ 40) with 1099511627776 in Hlen; lia).
    split; [lia|]. split; [exact Hs|]. split; [auto|]. intros j Hj. rewrite (Hc j Hj).
    replace (nth_error vs (N.to_nat j)) with (@None Validator); [exact I|]. symmetry. apply nth_error_None. lia.
  - destruct (N.eqb_spec g (exit_epoch_gindex i)) as [-> |Hge].
    + apply bind_ok in E as (u & E1 & E). apply (proj1 (assert_ok _ _)) in E1. apply N.leb_le in E1.
      apply values_true_cons in V as [V1 V].
      destruct (Step rest cache pks out V Hs) as (v & Ev & Hi & Wv & L & So & P1 & P2 & P3).
      { intros j Hj. apply Hc. lia. }
      { reflexivity. }
      { exact E. }
      split; [exact L|]. split; [exact So|]. split; [exact P1|]. intros j Hj.
      destruct (N.eq_dec j i) as [-> |Hji]; [|apply P3; lia].
      rewrite Ev, P2, (Hc i) by lia. pose proof Wv as (W1 & _ & _ & _ & _ & W6 & _).
      destruct (node_at_validator H vs i v Ev Hi W1) as (_ & _ & _ & _ & _ & _ & N7).
      rewrite (V1 _ N7), u64_from_ssz in E1; auto.
    + apply bind_ok in E as ([[vi v'] pks'] & E1 & E).
      destruct (extract_one_suffix _ _ _ _ _ _ _ E1) as (pre & Epre & _).
      assert (V' : values_true H (registry_tree H vs) v').
      { intros g' c' Hin. apply V. rewrite Epre. apply in_or_app. auto. }
      destruct (Step v' (bm_insert cache i vi) pks' out V') as (v & Ev & Hi & Wv & L & So & P1 & P2 & P3).
      { now apply bm_insert_sorted. }
      { intros j Hj. rewrite bm_get_insert by auto. destruct (N.eqb_spec j i); [lia|]. apply Hc. lia. }
      { intros j Hj. rewrite bm_get_insert by auto. destruct (N.eqb_spec j i); [lia|]. reflexivity. }
      { exact E. }
      destruct (extract_one_ok X H vs pks i v _ _ _ _ Hk Wv Ev Hi V E1) as (Sv & _ & _).
      split; [exact L|]. split; [exact So|]. split; [exact P1|]. intros j Hj.
      destruct (N.eq_dec j i) as [-> |Hji]; [|apply P3; lia].
      rewrite Ev, P2, bm_get_insert, N.eqb_refl by auto. exact Sv.
Qed.
Lemma extract_validators_ok X H vs cur mp pks out : hash32 H -> pk48 X -> wf_registry vs ->
  checkable H (registry_tree H vs) mp -> mp_verify H mp (mroot H (registry_tree H vs)) = Ok tt ->
  extract_validators_multiproof X mp pks cur = Ok out -> faithful_registry X vs cur out.
Proof.
  intros Hh Hk Hw Hc Hv E.
  assert (V : values_true H (registry_tree H vs) (mp_values mp)).
  { apply values_true_verified; auto. now apply registry_tree_wf. }
  unfold extract_validators_multiproof in E.
  apply (extract_loop_ok X H vs cur Hk Hw) in E; auto; [|constructor].
  destruct E as (_ & So & _ & P). split; [now apply bm_sorted_keys|]. intros i. apply P. lia.
Qed.

Lemma extract_fuel_mono X cur : forall f f' vals pks i cache, (length vals < f)%nat -> (length vals < f')%nat ->
  extract_loop X f cur vals pks i cache = extract_loop X f' cur vals pks i cache.
Proof.
  induction f as [|f IH]; intros f' vals pks i cache H1 H2; [lia|]. destruct f' as [|f']; [lia|].
  cbn [extract_loop]. destruct vals as [|[g c] rest]; [reflexivity|]. cbn [List.length] in *.
  destruct (g =? 3); [reflexivity|]. destruct (g =? exit_epoch_gindex i).
  - unfold bind, assert_. destruct (u64_from_chunk c <=? cur); [|reflexivity]. apply IH; lia.
  - destruct (extract_one X ((g, c) :: rest) pks i) as [[[vi v'] pks']| |] eqn:E; [|reflexivity|reflexivity].
    cbn [bind]. destruct (extract_one_suffix _ _ _ _ _ _ _ E) as (pre & Ep & Hp).
    apply (f_equal (@List.length _)) in Ep. rewrite app_length in Ep. cbn [List.length] in Ep.
    destruct pre; [easy|]. cbn [List.length] in Ep. apply IH; lia.
Qed.
Lemma extract_fuel X mp pks cur f : (length (mp_values mp) < f)%nat ->
  extract_loop X f cur (mp_values mp) pks 0 [] = extract_validators_multiproof X mp pks cur.
Proof. intros Hf. apply extract_fuel_mono; lia. Qed.

(** ** The block and state proofs *)
Lemma Ok_inj {E A} (a b : A) : @Ok E A a = Ok b -> a = b.
Proof. now injection 1. Qed.
Lemma block_state_root_ok H h mp sr : values_true H (header_tree H h) (mp_values mp) ->
  extract_beacon_block_multiproof mp = Ok sr -> sr = hd_state_root h.
Proof.
  intros V E. unfold extract_beacon_block_multiproof in E.
  apply bind_ok in E as ([c rest] & E1 & E). apply (proj1 (next_assert_ok _ _ _ _)) in E1.
  apply bind_ok in E as (u & _ & E). injection E as <-. rewrite E1 in V.
  apply values_true_cons in V as [V _]. apply V, node_at_header_state.
Qed.
Lemma state_info_ok H s mp si : wf_state s -> values_true H (state_tree H s) (mp_values mp) ->
  extract_beacon_state_multiproof mp = Ok si ->
  si = mkStateInfo (st_genesis_validators_root s) (st_slot s) (st_fork s)
         (mroot H (registry_tree H (st_validators s))) (epoch (st_finalized s))
         (st_earliest_exit_epoch s) (st_earliest_consolidation_epoch s).
Proof.
  intros (W1 & W2 & (W3 & W4 & W5) & _ & W6 & _ & W7 & W8 & _) V E. unfold extract_beacon_state_multiproof in E.
  destruct (node_at_state H s) as (N1 & N2 & N3 & N4 & N5 & N6 & N7 & N8 & N9). cbv beta in *.
  apply bind_ok in E as ([c1 v1] & E1 & E). apply (proj1 (next_assert_ok _ _ _ _)) in E1. rewrite E1 in V.
  apply values_true_cons in V as [V1 V]. apply V1 in N1. subst c1.
  apply bind_ok in E as ([c2 v2] & E2 & E). apply (proj1 (next_assert_ok _ _ _ _)) in E2. subst v1.
  apply values_true_cons in V as [V2 V]. apply V2 in N2. subst c2.
  apply bind_ok in E as ([c3 v3] & E3 & E). apply (proj1 (next_assert_ok _ _ _ _)) in E3. subst v2.
  apply values_true_cons in V as [V3 V]. apply V3 in N3. subst c3.
  apply bind_ok in E as ([c4 v4] & E4 & E). apply (proj1 (next_assert_ok _ _ _ _)) in E4. subst v3.
  apply values_true_cons in V as [V4 V]. apply V4 in N4. subst c4.
  apply bind_ok in E as ([c5 v5] & E5 & E). apply (proj1 (next_assert_ok _ _ _ _)) in E5. subst v4.
  apply values_true_cons in V as [V5 V]. apply V5 in N5. subst c5.
  apply bind_ok in E as ([c6 v6] & E6 & E). apply (proj1 (next_assert_ok _ _ _ _)) in E6. subst v5.
  apply values_true_cons in V as [V6 V]. apply V6 in N6. subst c6.
  apply bind_ok in E as ([c7 v7] & E7 & E). apply (proj1 (next_assert_ok _ _ _ _)) in E7. subst v6.
  apply values_true_cons in V as [V7 V]. apply V7 in N7. subst c7.
  apply bind_ok in E as ([c8 v8] & E8 & E). apply (proj1 (next_assert_ok _ _ _ _)) in E8. subst v7.
  apply values_true_cons in V as [V8 V]. apply V8 in N8. subst c8.
  apply bind_ok in E as ([c9 v9] & E9 & E). apply (proj1 (next_assert_ok _ _ _ _)) in E9. subst v8.
  apply values_true_cons in V as [V9 V]. apply V9 in N9. subst c9.
  apply bind_ok in E as (u & _ & E). apply Ok_inj in E. subst si.
  rewrite !u64_from_ssz by assumption. rewrite !chunk_firstn by assumption. destruct (st_fork s); reflexivity.
Qed.

Lemma into_reader_ok X cs gi r : into_reader X cs gi = Ok r ->
  exists sr si vals,
    mp_verify (sha256 X) (gi_beacon_block gi) (root (finalized (gi_consensus_state gi))) = Ok tt /\
    extract_beacon_block_multiproof (gi_beacon_block gi) = Ok sr /\
    mp_verify (sha256 X) (gi_beacon_state gi) sr = Ok tt /\
    extract_beacon_state_multiproof (gi_beacon_state gi) = Ok si /\
    mp_verify (sha256 X) (gi_active_validators gi) (si_validators_root si) = Ok tt /\
    extract_validators_multiproof X (gi_active_validators gi) (gi_public_keys gi)
      (epoch (finalized (gi_consensus_state gi))) = Ok vals /\
    si_fork si = fork_at_epoch cs (epoch_of_slot cs (si_slot si)) /\
    @registry_loop GuestError cs (si_finalized_checkpoint_epoch si) (epoch (finalized (gi_consensus_state gi)))
      (epoch (current_justified (gi_consensus_state gi))) (epoch_of_slot cs (si_slot si)) vals = Ok (gr_validators r) /\
    validate_state_patches cs (gi_patches gi) (epoch (finalized (gi_consensus_state gi))) si (gr_validators r) = Ok tt /\
    fold_outcome (block_slots_step X) (gi_block_slot_proofs gi) [] = Ok (gr_block_slots r) /\
    gr_spec r = cs /\ gr_genesis_validators_root r = si_genesis_validators_root si /\
    gr_patches r = gi_patches gi /\ gr_consensus_state r = gi_consensus_state gi /\
    gr_attestations r = gi_attestations gi.
Proof.
  unfold into_reader. intros E.
  apply bind_ok in E as ([] & E1 & E). apply (proj1 (map_err_ok _ _ _)) in E1.
  apply bind_ok in E as (sr & E2 & E). apply (proj1 (map_err_ok _ _ _)) in E2.
  apply bind_ok in E as ([] & E3 & E). apply (proj1 (map_err_ok _ _ _)) in E3.
  apply bind_ok in E as (si & E4 & E). apply (proj1 (map_err_ok _ _ _)) in E4.
  apply bind_ok in E as ([] & E5 & E). apply (proj1 (map_err_ok _ _ _)) in E5.
  apply bind_ok in E as (vals & E6 & E). apply (proj1 (map_err_ok _ _ _)) in E6.
  apply bind_ok in E as (u & E7 & E). apply (proj1 (ensure_ok _ _ _)) in E7. apply fork_eqb_eq in E7.
  apply bind_ok in E as (vals' & E8 & E).
  apply bind_ok in E as ([] & E9 & E).
  apply bind_ok in E as (bs & E10 & E). injection E as <-.
  exists sr, si, vals. cbn [gr_validators gr_block_slots gr_spec gr_genesis_validators_root gr_patches gr_consensus_state gr_attestations].
  auto 20.
Qed.

(** ** Block slots *)
Lemma block_slots_get X proofs : forall m m' r s,
  fold_outcome (block_slots_step X) proofs m = Ok m' -> rm_get m' r = Some s ->
  rm_get m r = Some s \/
  exists mp c rest, In mp proofs /\ calculate_root (sha256 X) mp = Ok r /\
    mp_values mp = (block_slot_gindex, c) :: rest /\ s = u64_from_chunk c.
Proof.
  induction proofs as [|mp ps IH]; intros m m' r s E G.
  - simpl in E. injection E as <-. auto.
  - cbn [fold_outcome] in E. apply bind_ok in E as (m1 & E1 & E).
    destruct (IH _ _ _ _ E G) as [G1|(mp' & c & rest & Hin & Hx)].
    2:{ right. exists mp', c, rest. split; [now right|exact Hx]. }
    unfold block_slots_step in E1. apply bind_ok in E1 as (rt & E2 & E1). apply (proj1 (map_err_ok _ _ _)) in E2.
    apply bind_ok in E1 as ([c rest] & E3 & E1). apply (proj1 (map_err_ok _ _ _)) in E3.
    apply (proj1 (next_assert_ok _ _ _ _)) in E3. injection E1 as <-. rewrite rm_get_insert in G1.
    destruct (bytes_eqb r rt) eqn:Er; [|auto].
    apply bytes_eqb_eq in Er. subst rt. injection G1 as <-. right. exists mp, c, rest. simpl. auto.
Qed.
Lemma block_slot_ok X h proofs m s : hash32 (sha256 X) -> wf_header h ->
  (forall mp, In mp proofs -> checkable (sha256 X) (header_tree (sha256 X) h) mp) ->
  fold_outcome (block_slots_step X) proofs [] = Ok m ->
  rm_get m (mroot (sha256 X) (header_tree (sha256 X) h)) = Some s -> s = hd_slot h.
Proof.
  intros Hh Hw Hc E G. destruct (block_slots_get X proofs [] m _ _ E G) as [G1|(mp & c & rest & Hin & Hr & Hv & ->)].
  - discriminate.
  - assert (V : values_true (sha256 X) (header_tree (sha256 X) h) (mp_values mp)).
    { apply values_true_verified; auto; [now apply header_tree_wf|].
      apply mp_verify_iff. now apply calculate_root_iff. }
    rewrite Hv in V. apply values_true_cons in V as [V _]. rewrite (V _ (node_at_header_slot _ h)).
    apply u64_from_ssz. apply Hw.
Qed.
