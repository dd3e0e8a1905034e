(** SSZ trees of the beacon containers: field positions, codecs. *)
From Coq Require Import List Arith ZArith NArith Bool Lia String.
From Coq.Init Require Import Byte.
From Verif.Model Require Import Base Types Multiproof Gindices ConsensusState GuestReader.
From Verif.Spec Require Import Merkle Ssz Beacon.
From Verif.Proof Require Import BaseLemmas MerkleP MultiproofP.
Import ListNotations.
Open Scope N_scope.
Notation length := List.length.

(** ** take and drop *)
Lemma take_firstn {A} (l : list A) : forall n, take n l = firstn (N.to_nat n) l.
Proof.
  induction l as [|x r IH]; intros n; simpl; [now rewrite firstn_nil|].
  destruct (N.eqb_spec n 0) as [-> |Hn]; [reflexivity|].
  rewrite IH. replace (N.to_nat n) with (S (N.to_nat (n - 1))) by lia. reflexivity.
Qed.
Lemma drop_skipn {A} (l : list A) : forall n, drop n l = skipn (N.to_nat n) l.
Proof.
  induction l as [|x r IH]; intros n; simpl; [now rewrite skipn_nil|].
  destruct (N.eqb_spec n 0) as [-> |Hn]; [reflexivity|].
  rewrite IH. replace (N.to_nat n) with (S (N.to_nat (n - 1))) by lia. reflexivity.
Qed.

(** ** The tree [fill] *)
Lemma zero_root_length H d : hash32 H -> length (zero_root H d) = 32%nat.
Proof. intros Hh. destruct d; simpl; auto. Qed.
Lemma fill_wf H d : hash32 H -> forall items, Forall wf_tree items -> wf_tree (fill H d items).
Proof.
  intros Hh. induction d as [|d IH]; intros [|x r] F.
  - simpl. reflexivity.
  - simpl. now inversion F.
  - simpl. apply zero_root_length with (d := S d) (1 := Hh).
  - cbn [fill wf_tree]. rewrite take_firstn, drop_skipn. split; apply IH.
    + apply Forall_forall. intros y Hy. rewrite Forall_forall in F. apply F.
      rewrite <- (firstn_skipn (N.to_nat (2 ^ N.of_nat d)) (x :: r)). apply in_or_app. auto.
    + apply Forall_forall. intros y Hy. rewrite Forall_forall in F. apply F.
      rewrite <- (firstn_skipn (N.to_nat (2 ^ N.of_nat d)) (x :: r)). apply in_or_app. auto.
Qed.
(** Its root is the SSZ merkleization of the items' roots. *)
Lemma merkleize_nil H d : merkleize H d [] = zero_root H d.
Proof. induction d; simpl; auto. rewrite firstn_nil, skipn_nil, IHd. reflexivity. Qed.
Lemma to_nat_pow2 d : N.to_nat (2 ^ N.of_nat d) = Nat.pow 2 d.
Proof. rewrite N2Nat.inj_pow, Nat2N.id. reflexivity. Qed.
Lemma fill_root H d : forall items, mroot H (fill H d items) = merkleize H d (map (mroot H) items).
Proof.
  induction d as [|d IH]; intros [|x r].
  - reflexivity.
  - reflexivity.
  - cbn [fill mroot map]. now rewrite merkleize_nil.
  - cbn [fill mroot merkleize]. rewrite take_firstn, drop_skipn, !IH, to_nat_pow2, firstn_map, skipn_map. reflexivity.
Qed.

Lemma nth_error_skipn_ {A} (l : list A) : forall n i, nth_error (skipn n l) i = nth_error l (n + i).
Proof. induction l as [|x r IH]; intros [|n] i; simpl; auto. now destruct i. Qed.
Lemma nth_error_firstn_ {A} (l : list A) : forall n i, (i < n)%nat -> nth_error (firstn n l) i = nth_error l i.
Proof. induction l as [|x r IH]; intros [|n] [|i] Hi; simpl; auto; try lia. apply IH; lia. Qed.
(** Position of the [i]-th item. *)
Fixpoint bits (d : nat) (i : N) : path :=
  match d with
  | O => []
  | S d' => if 2 ^ N.of_nat d' <=? i then true :: bits d' (i - 2 ^ N.of_nat d') else false :: bits d' i
  end.
Lemma bits_length d : forall i, length (bits d i) = d.
Proof. induction d; intros i; simpl; auto. destruct (_ <=? _); simpl; auto. Qed.
Lemma bits_fold d : forall i g, i < 2 ^ N.of_nat d -> fold_left gindex_step (bits d i) g = g * 2 ^ N.of_nat d + i.
Proof.
  induction d as [|d IH]; intros i g Hi.
  - change (2 ^ N.of_nat 0) with 1 in *. simpl. lia.
  - assert (E : 2 ^ N.of_nat (S d) = 2 * 2 ^ N.of_nat d) by (rewrite Nat2N.inj_succ, N.pow_succ_r'; reflexivity).
    cbn [bits]. rewrite E in *. destruct (N.leb_spec (2 ^ N.of_nat d) i); cbn [fold_left]; rewrite IH by lia;
      unfold gindex_step; lia.
Qed.
Lemma fill_subtree H d : forall items i x, nth_error items (N.to_nat i) = Some x ->
  i < 2 ^ N.of_nat d -> subtree (fill H d items) (bits d i) = Some x.
Proof.
  induction d as [|d IH]; intros items i x Hx Hi.
  - change (2 ^ N.of_nat 0) with 1 in Hi. replace i with 0 in * by lia. destruct items; simpl in *; congruence.
  - assert (E : 2 ^ N.of_nat (S d) = 2 * 2 ^ N.of_nat d) by (rewrite Nat2N.inj_succ, N.pow_succ_r'; reflexivity).
    destruct items as [|y r]; [destruct (N.to_nat i); discriminate|].
    cbn [fill bits]. rewrite take_firstn, drop_skipn. rewrite E in Hi.
    destruct (N.leb_spec (2 ^ N.of_nat d) i); cbn [subtree]; apply IH; try lia.
    + rewrite nth_error_skipn_. replace (N.to_nat (2 ^ N.of_nat d) + N.to_nat (i - 2 ^ N.of_nat d))%nat with (N.to_nat i) by lia. auto.
    + rewrite nth_error_firstn_ by lia. auto.
Qed.
Lemma fill_node H d items i g x : nth_error items (N.to_nat i) = Some x -> i < 2 ^ N.of_nat d ->
  g = 2 ^ N.of_nat d + i -> subtree (fill H d items) (path_of g) = Some x.
Proof.
  intros Hx Hi ->.
  replace (2 ^ N.of_nat d + i) with (gindex_of (bits d i)).
  - rewrite path_of_gindex_of. now apply fill_subtree.
  - unfold gindex_of. rewrite bits_fold by auto. lia.
Qed.
Lemma gindex_of_app p q : gindex_of (p ++ q) = fold_left gindex_step q (gindex_of p).
Proof. unfold gindex_of. now rewrite fold_left_app. Qed.

(** ** Chunk codecs *)
Lemma ssz_u64_length x : length (ssz_u64 x) = 32%nat.
Proof. unfold ssz_u64, chunk. rewrite app_length, le_bytes_length, repeat_length. reflexivity. Qed.
Lemma u64_from_ssz x : x < 2 ^ 64 -> u64_from_chunk (ssz_u64 x) = x.
Proof.
  intros Hx. unfold u64_from_chunk, ssz_u64, chunk. rewrite firstn_app, le_bytes_length.
  replace (8 - 8)%nat with 0%nat by lia. rewrite firstn_O, app_nil_r.
  rewrite firstn_all2 by (rewrite le_bytes_length; lia). apply le_val_le_bytes_small. exact Hx.
Qed.
Lemma forallb_zero l : forallb (byte_eqb x00) l = true <-> l = repeat x00 (length l).
Proof.
  induction l as [|b l IH]; simpl; [tauto|]. rewrite andb_true_iff, IH, byte_eqb_eq. split.
  - intros [<- E]. now f_equal.
  - intros E. injection E; intros. split; auto.
Qed.
Lemma bool_from_ssz {E : Type} (b : bool) : @bool_from_chunk E (chunk 1 [if b then x01 else x00]) = Ok b.
Proof. destruct b; reflexivity. Qed.
Lemma bool_from_chunk_ok {E : Type} c (b : bool) : @bool_from_chunk E c = Ok b ->
  exists n, c = (if b then x01 else x00) :: repeat x00 n.
Proof.
  destruct c as [|a r]; simpl; [discriminate|]. unfold assert_. destruct (forallb (byte_eqb x00) r) eqn:F; [|discriminate].
  apply forallb_zero in F. simpl. destruct a; try discriminate; intros X; injection X as <-; eauto;
    exists (length r); now rewrite F at 1.
Qed.
Lemma chunk_length n b : length b = n -> (n <= 32)%nat -> length (chunk n b) = 32%nat.
Proof. intros. unfold chunk. rewrite app_length, repeat_length. lia. Qed.
Lemma chunk_firstn n b : length b = n -> firstn n (chunk n b) = b.
Proof. intros <-. unfold chunk. rewrite firstn_app, Nat.sub_diag, firstn_O, app_nil_r. apply firstn_all. Qed.

(** ** Well-formedness *)
Lemma u64_tree_wf x : wf_tree (u64_tree x). Proof. apply ssz_u64_length. Qed.
Lemma bool_tree_wf b : wf_tree (bool_tree b). Proof. destruct b; reflexivity. Qed.
Lemma bytes48_tree_wf b : length b = 48%nat -> wf_tree (bytes48_tree b).
Proof.
  intros Hb. split; cbn [wf_tree].
  - rewrite firstn_length. lia.
  - apply chunk_length; [rewrite skipn_length; lia|lia].
Qed.
Lemma validator_tree_wf H v : hash32 H -> wf_validator v -> wf_tree (validator_tree H v).
Proof.
  intros Hh (H1 & H2 & _). apply fill_wf; auto. repeat constructor; auto using u64_tree_wf, bool_tree_wf;
  try apply u64_tree_wf; try apply bool_tree_wf; now apply bytes48_tree_wf.
Qed.
Lemma wf_node l r : wf_tree l -> wf_tree r -> wf_tree (MNode l r). Proof. split; auto. Qed.
Lemma wf_leaf c : length c = 32%nat -> wf_tree (MLeaf c). Proof. auto. Qed.
Lemma registry_tree_wf H vs : hash32 H -> wf_registry vs -> wf_tree (registry_tree H vs).
Proof.
  intros Hh [F _]. unfold registry_tree, list_tree. apply wf_node; [|apply wf_leaf, ssz_u64_length].
  apply fill_wf; [exact Hh|]. rewrite Forall_map.
  eapply Forall_impl; [|exact F]. intros a Ha. now apply validator_tree_wf.
Qed.
Lemma header_tree_wf H h : hash32 H -> wf_header h -> wf_tree (header_tree H h).
Proof.
  intros Hh (_ & _ & H1 & H2 & H3). apply fill_wf; auto.
  repeat (apply Forall_cons; [first [apply u64_tree_wf|exact H1|exact H2|exact H3]|]). constructor.
Qed.
Lemma fork_tree_wf H f : hash32 H -> length (previous_version f) = 4%nat -> length (current_version f) = 4%nat ->
  wf_tree (fork_tree H f).
Proof.
  intros Hh H1 H2. apply fill_wf; auto.
  repeat (apply Forall_cons; [first [apply u64_tree_wf|apply wf_leaf, chunk_length; [assumption|lia]]|]). constructor.
Qed.
Lemma checkpoint_tree_wf H c : hash32 H -> length (root c) = 32%nat -> wf_tree (checkpoint_tree H c).
Proof.
  intros Hh H1. apply fill_wf; auto. repeat (apply Forall_cons; [first [apply u64_tree_wf|exact H1]|]). constructor.
Qed.
Lemma state_tree_wf H s : hash32 H -> wf_state s -> wf_tree (state_tree H s).
Proof.
  intros Hh (H1 & _ & (H2 & H3 & _) & H4 & _ & H5 & _ & _ & H6). apply fill_wf; auto.
  unfold state_fields. apply Forall_app. split.
  2:{ destruct (st_fulu s); repeat constructor; apply H6. }
  repeat (apply Forall_cons; [lazymatch goal with
    | |- wf_tree (st_other _ _) => apply H6
    | |- wf_tree (u64_tree _) => apply u64_tree_wf
    | |- wf_tree (MLeaf _) => apply wf_leaf, H1
    | |- wf_tree (registry_tree _ _) => apply registry_tree_wf; [exact Hh|exact H4]
    | |- wf_tree (fork_tree _ _) => apply fork_tree_wf; assumption
    | |- wf_tree (checkpoint_tree _ _) => apply checkpoint_tree_wf; assumption
    end|]).
  constructor.
Qed.

(** ** Positions *)
Lemma node_at_sub H T g t : subtree T (path_of g) = Some t -> node_at H T (path_of g) = Some (mroot H t).
Proof. unfold node_at. now intros ->. Qed.
Lemma node_at_header_slot H h : node_at H (header_tree H h) (path_of block_slot_gindex) = Some (ssz_u64 (hd_slot h)).
Proof. apply (node_at_sub H _ _ (u64_tree (hd_slot h))). apply (fill_node H 3 _ 0); reflexivity. Qed.
Lemma node_at_header_state H h : node_at H (header_tree H h) (path_of state_root_gindex) = Some (hd_state_root h).
Proof. apply (node_at_sub H _ _ (MLeaf (hd_state_root h))). apply (fill_node H 3 _ 3); reflexivity. Qed.
Lemma state_fields_depth H s : Nat.log2_up (length (state_fields H s)) = 6%nat.
Proof. unfold state_fields. destruct (st_fulu s); reflexivity. Qed.
Lemma state_field_node H s k x : nth_error (state_fields H s) (N.to_nat k) = Some x -> k < 64 ->
  subtree (state_tree H s) (path_of (64 + k)) = Some x.
Proof.
  intros Hx Hk. unfold state_tree, container_tree. rewrite state_fields_depth. apply (fill_node H 6 _ k); auto.
Qed.
Lemma nested_node H T g d items i x : 1 <= g -> subtree T (path_of g) = Some (fill H d items) ->
  nth_error items (N.to_nat i) = Some x -> i < 2 ^ N.of_nat d ->
  subtree T (path_of (g * 2 ^ N.of_nat d + i)) = Some x.
Proof.
  intros Hg Ht Hx Hi.
  replace (path_of (g * 2 ^ N.of_nat d + i)) with (path_of g ++ bits d i).
  - rewrite subtree_app, Ht. now apply fill_subtree.
  - apply gindex_of_inj. rewrite gindex_of_path_of by lia. rewrite gindex_of_app, gindex_of_path_of by lia.
    now apply bits_fold.
Qed.
Lemma node_at_state H s :
  let at_ g := node_at H (state_tree H s) (path_of g) in
  at_ genesis_validators_root_gindex = Some (st_genesis_validators_root s) /\
  at_ slot_gindex = Some (ssz_u64 (st_slot s)) /\
  at_ fork_previous_version_gindex = Some (chunk 4 (previous_version (st_fork s))) /\
  at_ fork_current_version_gindex = Some (chunk 4 (current_version (st_fork s))) /\
  at_ fork_epoch_gindex = Some (ssz_u64 (fork_epoch (st_fork s))) /\
  at_ validators_gindex = Some (mroot H (registry_tree H (st_validators s))) /\
  at_ finalized_checkpoint_epoch_gindex = Some (ssz_u64 (epoch (st_finalized s))) /\
  at_ earliest_exit_epoch_gindex = Some (ssz_u64 (st_earliest_exit_epoch s)) /\
  at_ earliest_consolidation_epoch_gindex = Some (ssz_u64 (st_earliest_consolidation_epoch s)).
Proof.
  cbv zeta.
  assert (F : subtree (state_tree H s) (path_of (64 + 3)) = Some (fork_tree H (st_fork s))).
  { apply state_field_node; reflexivity. }
  assert (C : subtree (state_tree H s) (path_of (64 + 20)) = Some (checkpoint_tree H (st_finalized s))).
  { apply state_field_node; reflexivity. }
  repeat match goal with |- _ /\ _ => split end.
  - refine (node_at_sub H _ _ (MLeaf _) _). apply (state_field_node H s 1 (MLeaf _)); reflexivity.
  - refine (node_at_sub H _ _ (u64_tree _) _). apply (state_field_node H s 2 (u64_tree _)); reflexivity.
  - refine (node_at_sub H _ _ (MLeaf _) _). apply (nested_node H _ (64 + 3) 2 _ 0 (MLeaf _) ltac:(discriminate) F); reflexivity.
  - refine (node_at_sub H _ _ (MLeaf _) _). apply (nested_node H _ (64 + 3) 2 _ 1 (MLeaf _) ltac:(discriminate) F); reflexivity.
  - refine (node_at_sub H _ _ (u64_tree _) _). apply (nested_node H _ (64 + 3) 2 _ 2 (u64_tree _) ltac:(discriminate) F); reflexivity.
  - refine (node_at_sub H _ _ (registry_tree H (st_validators s)) _). apply (state_field_node H s 11 (registry_tree H (st_validators s))); reflexivity.
  - refine (node_at_sub H _ _ (u64_tree _) _). apply (nested_node H _ (64 + 20) 1 _ 0 (u64_tree _) ltac:(discriminate) C); reflexivity.
  - refine (node_at_sub H _ _ (u64_tree _) _). apply (state_field_node H s 31 (u64_tree _)); reflexivity.
  - refine (node_at_sub H _ _ (u64_tree _) _). apply (state_field_node H s 33 (u64_tree _)); reflexivity.
Qed.

Lemma validator_field_gindex_small c i : c < 32 -> i < 2 ^ 40 ->
  validator_field_gindex c i = (2 * 2 ^ 40 + i) * 8 * (c / 8) + c mod 8.
Proof.
  intros Hc Hi. unfold validator_field_gindex. change (2 * 2 ^ 40) with 2199023255552. change (2 ^ 40) with 1099511627776 in *.
  apply wrap64_small. change two64 with 18446744073709551616.
  assert (c / 8 <= 3) by (apply N.lt_succ_r; apply N.div_lt_upper_bound; lia).
  assert (c mod 8 < 8) by (apply N.mod_lt; lia). nia.
Qed.
Lemma list_node H d items i x : nth_error items (N.to_nat i) = Some x -> i < 2 ^ N.of_nat d ->
  subtree (list_tree H d items) (path_of (2 * 2 ^ N.of_nat d + i)) = Some x.
Proof.
  intros Hx Hi. replace (path_of (2 * 2 ^ N.of_nat d + i)) with (false :: bits d i).
  - unfold list_tree. cbn [subtree]. now apply fill_subtree.
  - apply gindex_of_inj. rewrite gindex_of_path_of by (pose proof (N.pow_nonzero 2 (N.of_nat d)); lia).
    change (false :: bits d i) with ([false] ++ bits d i). rewrite gindex_of_app. now apply bits_fold.
Qed.
Lemma registry_node_validator H vs i v : nth_error vs (N.to_nat i) = Some v -> i < 2 ^ 40 ->
  subtree (registry_tree H vs) (path_of (2 * 2 ^ 40 + i)) = Some (validator_tree H v).
Proof.
  intros Hv Hi. apply (list_node H 40 (map (validator_tree H) vs) i); [|exact Hi]. now apply map_nth_error.
Qed.
Definition validator_items (v : Validator) : list mtree :=
  [bytes48_tree (v_pubkey v); MLeaf (v_withdrawal_credentials v); u64_tree (v_effective_balance v);
   bool_tree (v_slashed v); u64_tree (v_activation_eligibility_epoch v); u64_tree (v_activation_epoch v);
   u64_tree (v_exit_epoch v); u64_tree (v_withdrawable_epoch v)].
Lemma validator_item_node H T g v k x : 1 <= g -> subtree T (path_of g) = Some (validator_tree H v) ->
  nth_error (validator_items v) (N.to_nat k) = Some x -> k < 8 -> subtree T (path_of (g * 8 + k)) = Some x.
Proof. intros Hg R Hx Hk. apply (nested_node H _ g 3 _ k x Hg R Hx Hk). Qed.
Lemma pubkey_node H T g v (b : bool) : 1 <= g -> subtree T (path_of g) = Some (validator_tree H v) ->
  subtree T (path_of (g * 8 * 2 + (if b then 1 else 0))) =
    Some (MLeaf (if b then chunk 16 (skipn 32 (v_pubkey v)) else firstn 32 (v_pubkey v))).
Proof.
  intros Hg R. replace (path_of _) with (path_of (g * 8 + 0) ++ [b]).
  - rewrite subtree_app, (validator_item_node H T g v 0 _ Hg R eq_refl) by lia. destruct b; reflexivity.
  - apply gindex_of_inj. rewrite gindex_of_path_of by (destruct b; lia).
    rewrite gindex_of_app, gindex_of_path_of by lia. cbn [fold_left]. unfold gindex_step. destruct b; lia.
Qed.
Lemma node_at_validator H vs i v : nth_error vs (N.to_nat i) = Some v -> i < 2 ^ 40 -> length (v_pubkey v) = 48%nat ->
  let at_ g := node_at H (registry_tree H vs) (path_of (g i)) in
  at_ public_key_0_gindex = Some (firstn 32 (v_pubkey v)) /\
  at_ public_key_1_gindex = Some (chunk 16 (skipn 32 (v_pubkey v))) /\
  at_ effective_balance_gindex = Some (ssz_u64 (v_effective_balance v)) /\
  at_ slashed_gindex = Some (chunk 1 [if v_slashed v then x01 else x00]) /\
  at_ activation_eligibility_epoch_gindex = Some (ssz_u64 (v_activation_eligibility_epoch v)) /\
  at_ activation_epoch_gindex = Some (ssz_u64 (v_activation_epoch v)) /\
  at_ exit_epoch_gindex = Some (ssz_u64 (v_exit_epoch v)).
Proof.
  intros Hv Hi Hp. cbv zeta. pose proof (registry_node_validator H vs i v Hv Hi) as R.
  unfold public_key_0_gindex, public_key_1_gindex, effective_balance_gindex, slashed_gindex,
    activation_eligibility_epoch_gindex, activation_epoch_gindex, exit_epoch_gindex.
  rewrite !validator_field_gindex_small by (auto; reflexivity).
  assert (Hg : 1 <= 2 * 2 ^ 40 + i) by lia. set (g := 2 * 2 ^ 40 + i) in *. clearbody g.
  change (16 / 8) with 2. change (17 / 8) with 2. change (10 / 8) with 1. change (11 / 8) with 1.
  change (12 / 8) with 1. change (13 / 8) with 1. change (14 / 8) with 1. rewrite !N.mul_1_r.
  change (16 mod 8) with 0. change (17 mod 8) with 1. change (10 mod 8) with 2. change (11 mod 8) with 3.
  change (12 mod 8) with 4. change (13 mod 8) with 5. change (14 mod 8) with 6.
  repeat match goal with |- _ /\ _ => split end; refine (node_at_sub _ _ _ (MLeaf _) _).
  - exact (pubkey_node H _ g v false Hg R).
  - exact (pubkey_node H _ g v true Hg R).
  - apply (validator_item_node H _ g v 2 _ Hg R); reflexivity.
  - apply (validator_item_node H _ g v 3 _ Hg R); reflexivity.
  - apply (validator_item_node H _ g v 4 _ Hg R); reflexivity.
  - apply (validator_item_node H _ g v 5 _ Hg R); reflexivity.
  - apply (validator_item_node H _ g v 6 _ Hg R); reflexivity.
Qed.
Lemma node_at_registry_length H vs : node_at H (registry_tree H vs) (path_of 3) = Some (ssz_u64 (N.of_nat (length vs))).
Proof.
  change (path_of 3) with [true]. unfold node_at, registry_tree, list_tree. cbn [subtree option_map mroot].
  now rewrite map_length.
Qed.

(** Generalized indices of validator fields, from the SSZ definition. *)
Local Open Scope string_scope.
Local Open Scope N_scope.
Lemma validator_indices : forall i, i < 2 ^ 40 ->
  let at_ p := generalized_index T_validators (Index i :: p) 1 in
  at_ [Field "public_key"; Index 0] = Some (public_key_0_gindex i) /\
  at_ [Field "public_key"; Index 47] = Some (public_key_1_gindex i) /\
  at_ [Field "effective_balance"] = Some (effective_balance_gindex i) /\
  at_ [Field "slashed"] = Some (slashed_gindex i) /\
  at_ [Field "activation_eligibility_epoch"] = Some (activation_eligibility_epoch_gindex i) /\
  at_ [Field "activation_epoch"] = Some (activation_epoch_gindex i) /\
  at_ [Field "exit_epoch"] = Some (exit_epoch_gindex i) /\
  generalized_index T_validators [Length] 1 = Some 3.
Proof.
  intros i Hi. cbv zeta. unfold public_key_0_gindex, public_key_1_gindex, effective_balance_gindex, slashed_gindex,
    activation_eligibility_epoch_gindex, activation_epoch_gindex, exit_epoch_gindex.
  rewrite !validator_field_gindex_small by (auto; reflexivity).
  unfold T_validators. cbn [generalized_index item chunk_count T_validator find_field String.eqb Ascii.eqb Bool.eqb List.length].
  rewrite (proj2 (N.ltb_lt _ _) Hi).
  change (power_of_two_ceil (2 ^ 40)) with (2 ^ 40).
  cbn [generalized_index item chunk_count T_validator find_field String.eqb Ascii.eqb Bool.eqb List.length].
  repeat match goal with |- _ /\ _ => split end; try reflexivity; cbn [N.ltb N.compare Pos.compare Pos.compare_cont];
    f_equal; change (power_of_two_ceil (N.of_nat 8)) with 8; try change (power_of_two_ceil ((48 + 31) / 32)) with 2;
    set (p := 2 ^ 40); clearbody p; cbn [N.div N.div_eucl N.pos_div_eucl N.modulo fst snd N.leb N.sub N.compare Pos.compare Pos.compare_cont];
    change (0 / 32) with 0; change (47 / 32) with 1; change (16 / 8) with 2; change (17 / 8) with 2; change (16 mod 8) with 0; change (17 mod 8) with 1;
    change (10 / 8) with 1; change (11 / 8) with 1; change (12 / 8) with 1; change (13 / 8) with 1; change (14 / 8) with 1;
    change (10 mod 8) with 2; change (11 mod 8) with 3; change (12 mod 8) with 4; change (13 mod 8) with 5; change (14 mod 8) with 6; lia.
Qed.
