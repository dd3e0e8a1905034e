(** C84: the states the host works with are the answered ones, and their roots determine them. *)
From Coq Require Import String List Arith NArith Bool Lia ZifyBool ZifyNat ZifyN.
From Coq.Init Require Import Byte.
From Verif.Model Require Import Base Types HostStore HostChain HostInput BeaconClient StateFile StateJson StateView Networks.
From Verif.Spec Require Import Merkle Ssz Beacon HostInputSpec StateJsonSpec HashTreeRoot.
From Verif.Proof Require Import BaseLemmas MerkleP BeaconP StateJsonP StateViewP.
From Verif.Props Require Import MultiproofProps StateJsonProps.
Import ListNotations.
Open Scope list_scope.
Open Scope N_scope.

Definition state_kind (st : TState) : kind := Container (StateJsonSpec.state_fields (ts_version st)).
Definition named (st : TState) : list (string * val) := combine (map fst (StateJsonSpec.state_fields (ts_version st))) (ts_fields st).

(** ** Values *)
(** Whatever the node answers, what was read is a value of its type: numbers in range, lengths within limits. *)
Theorem C84_values_in_range r st : read_state r = Ok st -> wf (state_kind st) (VSeq (ts_fields st)).
Proof. intros H. apply C82_version_is_the_announced in H as (? & ? & d & _ & _ & _ & _ & H). exact (read_wf d st H). Qed.

Lemma get_in st name n k : wf (state_kind st) (VSeq (ts_fields st)) ->
  find (fun f => String.eqb (fst f) name) (StateJsonSpec.state_fields (ts_version st)) = Some (n, k) -> In (name, get st name) (named st) /\ wf k (get st name).
Proof.
  intros Hw Hf. split; [|now apply (get_wf st name k n)]. apply wf_container in Hw as (vs & E & Hw). injection E as <-. unfold get, named. rewrite typed_names.
  destruct (find_wf name k (StateJsonSpec.state_fields (ts_version st)) (ts_fields st) n Hw Hf) as (x & E & _). rewrite E. cbn [snd].
  apply find_some in E as [E1 E2]. cbn [fst] in E2. apply String.eqb_eq in E2 as ->. exact E1.
Qed.
(** The fields that the host uses are those of the answer, by their names. *)
Definition validator_val (v : Validator) : val :=
  VSeq [VBytes (v_pubkey v); VBytes (v_withdrawal_credentials v); VNum (v_effective_balance v); VBool (v_slashed v);
        VNum (v_activation_eligibility_epoch v); VNum (v_activation_epoch v); VNum (v_exit_epoch v); VNum (v_withdrawable_epoch v)].
Definition checkpoint_val (c : Checkpoint) : val := VSeq [VNum (epoch c); VBytes (root c)].
Definition fork_val (f : Fork) : val := VSeq [VBytes (previous_version f); VBytes (current_version f); VNum (fork_epoch f)].
Theorem C84_fields_are_the_answered H r st : read_state r = Ok st ->
  let s := hs_state (view H st) in let h := hs_header (view H st) in
  In ("genesis_validators_root"%string, VBytes (st_genesis_validators_root s)) (named st) /\
  In ("slot"%string, VNum (st_slot s)) (named st) /\
  In ("fork"%string, fork_val (st_fork s)) (named st) /\
  (exists body, hd_body h = MLeaf body /\
   In ("latest_block_header"%string, VSeq [VNum (hd_slot h); VNum (hd_proposer_index h); VBytes (hd_parent_root h); VBytes (hd_state_root h); VBytes body]) (named st)) /\
  In ("validators"%string, VSeq (map validator_val (st_validators s))) (named st) /\
  In ("randao_mixes"%string, VSeq (map VBytes (hs_randao_mixes (view H st)))) (named st) /\
  In ("finalized_checkpoint"%string, checkpoint_val (st_finalized s)) (named st) /\
  (hs_supported (view H st) = true -> In ("earliest_exit_epoch"%string, VNum (st_earliest_exit_epoch s)) (named st) /\
     In ("earliest_consolidation_epoch"%string, VNum (st_earliest_consolidation_epoch s)) (named st)).
Proof.
  intros Hr. apply C84_values_in_range in Hr. cbn [view hs_state hs_header hs_randao_mixes hs_supported]. unfold view_state.
  cbn [st_genesis_validators_root st_slot st_fork st_validators st_finalized st_earliest_exit_epoch st_earliest_consolidation_epoch].
  split; [|split; [|split; [|split; [|split; [|split; [|split]]]]]].
  - destruct (get_in st "genesis_validators_root" "genesis_validators_root" Bytes32 Hr) as [I W]; [destruct (ts_version st); reflexivity|]. destruct W as (b & E & _). now rewrite E in *.
  - destruct (get_in st "slot" "slot" uint64 Hr) as [I W]; [destruct (ts_version st); reflexivity|]. destruct W as (b & E & _). now rewrite E in *.
  - destruct (get_in st "fork" "fork" Fork_ Hr) as [I W]; [destruct (ts_version st); reflexivity|]. revert I W. generalize (get st "fork"). intros v I Hw. container Hw. fields. exact I.
  - destruct (get_in st "latest_block_header" "latest_block_header" BeaconBlockHeader Hr) as [I W]; [destruct (ts_version st); reflexivity|].
    revert I W. generalize (get st "latest_block_header"). intros v I Hw. container Hw. fields. eexists. split; [reflexivity|]. exact I.
  - destruct (get_in st "validators" "validators" (registry Validator_) Hr) as [I W]; [destruct (ts_version st); reflexivity|].
    revert I W. generalize (get st "validators"). intros v I (vs & -> & _ & Hf). cbn [as_seq]. rewrite map_map. rewrite (map_ext_in _ (fun x => x)), map_id; [exact I|].
    intros x Hx. rewrite Forall_forall in Hf. specialize (Hf x Hx). container Hf. fields. reflexivity.
  - destruct (get_in st "randao_mixes" "randao_mixes" (Vector Bytes32 65536) Hr) as [I W]; [destruct (ts_version st); reflexivity|].
    revert I W. generalize (get st "randao_mixes"). intros v I (vs & -> & _ & Hf). cbn [as_seq]. rewrite map_map. rewrite (map_ext_in _ (fun x => x)), map_id; [exact I|].
    intros x Hx. rewrite Forall_forall in Hf. destruct (Hf x Hx) as (b & -> & _). reflexivity.
  - destruct (get_in st "finalized_checkpoint" "finalized_checkpoint" Checkpoint_ Hr) as [I W]; [destruct (ts_version st); reflexivity|].
    revert I W. generalize (get st "finalized_checkpoint"). intros v I Hw. container Hw. fields. exact I.
  - intros Hs. split.
    + destruct (get_in st "earliest_exit_epoch" "earliest_exit_epoch" uint64 Hr) as [I W]; [destruct (ts_version st); try discriminate; reflexivity|]. destruct W as (b & E & _). now rewrite E in *.
    + destruct (get_in st "earliest_consolidation_epoch" "earliest_consolidation_epoch" uint64 Hr) as [I W]; [destruct (ts_version st); try discriminate; reflexivity|]. destruct W as (b & E & _). now rewrite E in *.
Qed.
(** What the other theorems ask of the states and headers that a node serves holds for every answer that is read:
    [sd_state] and [sd_header] (Spec/HostInputSpec.v), [ta_mixes] and [ta_exits] (Spec/Honest.v), and that the
    mix of every epoch is there. *)
Theorem C84_well_formed H r st : hash32 H -> read_state r = Ok st ->
  wf_header (hs_header (view H st)) /\ (length (hs_randao_mixes (view H st)) = N.to_nat 65536) /\
  Forall (fun m => length m = 32%nat) (hs_randao_mixes (view H st)) /\ wf_registry (st_validators (hs_state (view H st))) /\
  (hs_supported (view H st) = true -> wf_state (hs_state (view H st))).
Proof. intros Hh Hr. apply view_wf; auto. now apply (C84_values_in_range r). Qed.
Theorem C84_headers_are_well_formed j h : header_of_json j = Some h -> wf_header h.
Proof.
  unfold header_of_json. destruct (response_data j) as [d|]; [|discriminate]. destruct (from_json header_response_t d) as [v|] eqn:E; [|discriminate].
  assert (wf HeaderAnswer v) as Hw by (eapply (typed_wf header_response_t); [reflexivity|exact (from_json_typed _ _ _ E)]). clear E. container Hw.
  match goal with W : wf (Container [("message"%string, _); _]) _ |- _ => container W end.
  match goal with W : wf BeaconBlockHeader ?x |- _ => pose proof (wf_header_of x W) as G; container W end. fields. intros E. injection E as <-. exact G.
Qed.

(** ** Trees and roots *)
(** The tree behind the host's proofs is the one that SSZ prescribes for the answered values, and so is the root. *)
Theorem C84_state_tree H r st : read_state r = Ok st -> hs_supported (view H st) = true ->
  state_tree H (hs_state (view H st)) = ssz_tree H (state_kind st) (VSeq (ts_fields st)).
Proof. intros Hr Hs. apply state_tree_is; auto. now apply (C84_values_in_range r). Qed.
Theorem C84_answered_state_root H status v vs j more :
  is_error_status status = false -> no_clash more -> shows (Container (StateJsonSpec.state_fields v)) (VSeq vs) j -> not_newer v j ->
  v = VElectra \/ v = VFulu ->
  exists st, read_state (Replied status (state_answer v j more)) = Ok st /\ hs_supported (view H st) = true /\
    mroot H (state_tree H (hs_state (view H st))) = hash_tree_root H (Container (StateJsonSpec.state_fields v)) (VSeq vs).
Proof.
  intros Es C S N Hv. assert (R := C82_answer_is_accepted status v vs j more Es C S N). exists (mkTState v vs). split; [exact R|].
  assert (hs_supported (view H (mkTState v vs)) = true) as Hs by (destruct Hv as [-> | ->]; reflexivity). split; [exact Hs|].
  now rewrite (C84_state_tree H _ _ R Hs).
Qed.
(** The same for the last block header in the state, and for headers that the node answers. *)
Theorem C84_header_tree H r st : read_state r = Ok st ->
  exists v, In ("latest_block_header"%string, v) (named st) /\ header_tree H (hs_header (view H st)) = ssz_tree H BeaconBlockHeader v.
Proof.
  intros Hr. apply C84_values_in_range in Hr. exists (get st "latest_block_header").
  destruct (get_in st "latest_block_header" "latest_block_header" BeaconBlockHeader Hr) as [I W]; [destruct (ts_version st); reflexivity|].
  split; [exact I|]. symmetry. now apply header_tree_is.
Qed.
Theorem C84_answered_header_root H rt canonical s p pr sr br sig j more : ~ In "data"%string (map fst more) ->
  shows HeaderAnswer (VSeq [VBytes rt; VBool canonical; VSeq [VSeq [VNum s; VNum p; VBytes pr; VBytes sr; VBytes br]; VBytes sig]]) j ->
  exists h, header_of_json (answer j more) = Some h /\
    mroot H (header_tree H h) = hash_tree_root H BeaconBlockHeader (VSeq [VNum s; VNum p; VBytes pr; VBytes sr; VBytes br]).
Proof.
  intros C S. assert (R := C82_header_is_read rt canonical s p pr sr br sig j more C S). eexists. split; [exact R|].
  apply C84_headers_are_well_formed in R as (H1 & H2 & H3 & H4 & H5). cbn [hd_slot hd_proposer_index hd_parent_root hd_state_root hd_body] in *.
  unfold hash_tree_root. rewrite header_tree_is; [reflexivity|]. cbn [wf_tree] in H5.
  apply wf_container. eexists. split; [reflexivity|]. cbn [wf_all]. repeat split; eexists; (split; [reflexivity|]); auto; lia.
Qed.

(** ** Roots determine states *)
(** Without a collision of the hash function, values of one type with the same root are the same value. *)
Theorem C84_root_determines_the_value H k v v' : hash32 H -> small k = true -> wf k v -> wf k v' ->
  no_collision H (ssz_tree H k v) (ssz_tree H k v') -> hash_tree_root H k v = hash_tree_root H k v' -> v = v'.
Proof. intros Hh Hs W W' Hn E. now apply (root_determines H k Hh). Qed.
(** Two answers of a version, from whatever nodes, for which the host computes the same state root are the same
    state in every field. *)
Theorem C84_root_determines_the_state H r r' st st' : hash32 H -> read_state r = Ok st -> read_state r' = Ok st' ->
  ts_version st = ts_version st' -> hs_supported (view H st) = true ->
  no_collision H (state_tree H (hs_state (view H st))) (state_tree H (hs_state (view H st'))) ->
  mroot H (state_tree H (hs_state (view H st))) = mroot H (state_tree H (hs_state (view H st'))) -> st = st'.
Proof.
  intros Hh R R' V Hs Hn E. assert (hs_supported (view H st') = true) as Hs' by (cbn [view hs_supported] in *; now rewrite <- V).
  rewrite (C84_state_tree H _ _ R Hs), (C84_state_tree H _ _ R' Hs') in *. apply C84_values_in_range in R, R'. unfold state_kind in *. rewrite <- V in *.
  apply (root_determines H _ Hh) in E; auto; [|apply state_small]. destruct st as [v vs], st' as [v' vs']. cbn [ts_version ts_fields] in *. congruence.
Qed.
(** A trusted checkpoint fixes the state: whatever the nodes answer, two runs that accept states of a version for
    the same checkpoint work with the same state, down to the fields that no proof covers. *)
Theorem C84_checkpoint_determines_the_state X cs states states' c r r' st st' : hash32 (sha256 X) ->
  checkpoint_state X cs states c = Ok (view (sha256 X) st) -> checkpoint_state X cs states' c = Ok (view (sha256 X) st') ->
  read_state r = Ok st -> read_state r' = Ok st' -> ts_version st = ts_version st' -> hs_supported (view (sha256 X) st) = true ->
  no_collision (sha256 X) (header_tree (sha256 X) (boundary_block X (view (sha256 X) st))) (header_tree (sha256 X) (boundary_block X (view (sha256 X) st'))) ->
  no_collision (sha256 X) (state_tree (sha256 X) (hs_state (view (sha256 X) st))) (state_tree (sha256 X) (hs_state (view (sha256 X) st'))) ->
  st = st'.
Proof.
  intros Hh C C' R R' V Hs Hn1 Hn2. apply (C84_root_determines_the_state (sha256 X) r r'); auto.
  assert (forall sts s, checkpoint_state X cs sts c = Ok s -> root c = boundary_root X s) as G.
  { intros sts s Ec. unfold checkpoint_state, state_at_checkpoint in Ec. apply bind_ok in Ec as (s1 & E1 & E2). apply bind_ok in E2 as (u & E2 & E3). injection E3 as ->.
    unfold ensure in E2. destruct (bytes_eqb (root c) (boundary_root X s)) eqn:Eb; [|discriminate]. now apply bytes_eqb_eq in Eb. }
  apply G in C, C'. rewrite C in C'. clear G C. unfold boundary_root in C'.
  destruct (C84_well_formed (sha256 X) r st Hh R) as ((A1 & A2 & A3 & A4 & A5) & _ & _ & _ & A6). destruct (C84_well_formed (sha256 X) r' st' Hh R') as ((B1 & B2 & B3 & B4 & B5) & _ & _ & _ & B6).
  assert (hs_supported (view (sha256 X) st') = true) as Hs' by (cbn [view hs_supported] in *; now rewrite <- V).
  assert (forall s, wf_state s -> length (mroot (sha256 X) (state_tree (sha256 X) s)) = 32%nat) as L by (intros s Ws; apply mroot_length; auto; now apply state_tree_wf).
  revert Hn1 C'. unfold header_tree, container_tree, boundary_block. cbn [length hd_slot hd_proposer_index hd_parent_root hd_state_root hd_body].
  intros Hn1 C'. apply fill_split in C'; auto; cbn [length]; try lia.
  - repeat match goal with F : Forall2 _ (_ :: _) (_ :: _) |- _ => inversion F; clear F; subst end.
    match goal with F : mroot _ (MLeaf (tree_root X _)) = mroot _ (MLeaf (tree_root X _)) /\ _ |- _ => exact (proj1 F) end.
  - vm_compute. discriminate.
  - repeat constructor; auto; try apply u64_tree_wf; cbn [wf_tree]; unfold tree_root; auto.
  - repeat constructor; auto; try apply u64_tree_wf; cbn [wf_tree]; unfold tree_root; auto.
Qed.

(** ** Examples *)
(** The hash inputs of the all-zero value of a type, without duplicates within a vector. *)
Definition zero32 : bytes := repeat x00 32.
Fixpoint tower_root (H : bytes -> bytes) (d : nat) (r : bytes) : bytes :=
  match d with O => r | S d' => let x := tower_root H d' r in H (x ++ x) end.
Fixpoint tower (H : bytes -> bytes) (d : nat) (r : bytes) : list bytes :=
  match d with O => [] | S d' => let x := tower_root H d' r in (x ++ x) :: tower H d' r end.
Section Zeros.
  Variable H : bytes -> bytes.
  Fixpoint zin (k : kind) : bytes * list bytes :=
    match k with
    | Uint _ | Boolean => (zero32, [])
    | ByteVector n => let d := levels ((n + 31) / 32) in (tower_root H d zero32, tower H d zero32)
    | ByteList n => let x := zero_root H (levels ((n + 31) / 32)) ++ le_bytes 32 0 in (H x, [x])
    | Vector k' n =>
        if basic k' then let d := levels ((n * basic_size k' + 31) / 32) in (tower_root H d zero32, tower H d zero32)
        else let d := levels n in let (r, l) := zin k' in (tower_root H d r, tower H d r ++ l)
    | List_ k' n =>
        let x := zero_root H (if basic k' then levels ((n * basic_size k' + 31) / 32) else levels n) ++ le_bytes 32 0 in (H x, [x])
    | Container fs =>
        let zs := (fix go (fs : list (string * kind)) : list (bytes * list bytes) := match fs with [] => [] | (_, k') :: r => zin k' :: go r end) fs in
        let t := fill H (levels (N.of_nat (length fs))) (map (fun z => MLeaf (fst z)) zs) in
        (mroot H t, hash_inputs H t ++ flat_map snd zs)
    | Bitvector n => let d := levels ((n + 255) / 256) in (tower_root H d zero32, tower H d zero32)
    | Bitlist n => let x := zero_root H (levels ((n + 255) / 256)) ++ le_bytes 32 0 in (H x, [x])
    end.
End Zeros.
(** Vectors fill their trees. *)
Fixpoint full (k : kind) : bool :=
  match k with
  | Uint n => (n <=? 32)%nat
  | Boolean | ByteList _ | List_ _ _ => true
  | ByteVector n => let m := (n + 31) / 32 in 2 ^ N.of_nat (levels m) =? m
  | Vector k' n => if basic k' then let m := (n * basic_size k' + 31) / 32 in 2 ^ N.of_nat (levels m) =? m else (2 ^ N.of_nat (levels n) =? n) && full k'
  | Container fs => (fix go (fs : list (string * kind)) : bool := match fs with [] => true | (_, k') :: r => full k' && go r end) fs
  | Bitvector n => let m := (n + 255) / 256 in 2 ^ N.of_nat (levels m) =? m
  | Bitlist _ => true
  end.
Lemma fill_uniform H r L d : forall items, N.of_nat (length items) = 2 ^ N.of_nat d ->
  Forall (fun t => mroot H t = r /\ incl (hash_inputs H t) L) items ->
  mroot H (fill H d items) = tower_root H d r /\ incl (hash_inputs H (fill H d items)) (tower H d r ++ L).
Proof.
  induction d as [|d IH]; intros items Hl Hf.
  - destruct items as [|x [|y items]]; cbn [length] in Hl; try (change (2 ^ N.of_nat 0) with 1 in Hl; lia). inversion Hf; subst. assumption.
  - assert (2 ^ N.of_nat (S d) = 2 * 2 ^ N.of_nat d) as P by now rewrite Nat2N.inj_succ, N.pow_succ_r'. rewrite P in Hl.
    assert (2 ^ N.of_nat d <> 0) as P0 by now apply N.pow_nonzero.
    destruct items as [|x items]; [cbn [length] in Hl; lia|]. set (l := x :: items) in *.
    assert (fill H (S d) l = MNode (fill H d (take (2 ^ N.of_nat d) l)) (fill H d (drop (2 ^ N.of_nat d) l))) as -> by reflexivity.
    rewrite <- (take_drop_ l (2 ^ N.of_nat d)) in Hf. apply Forall_app in Hf as [F1 F2]. clearbody l.
    destruct (IH (take (2 ^ N.of_nat d) l)) as [E1 I1]; auto; [rewrite take_firstn, firstn_length; lia|].
    destruct (IH (drop (2 ^ N.of_nat d) l)) as [E2 I2]; auto; [rewrite drop_skipn, skipn_length; lia|].
    cbn [mroot hash_inputs tower tower_root]. rewrite E1, E2. split; [reflexivity|].
    intros y [<-|Hy]; [now left|]. right. apply in_app_iff in Hy as [Hy|Hy]; auto.
Qed.
Lemma fill_inputs H d : forall items, mroot H (fill H d (map (fun t => MLeaf (mroot H t)) items)) = mroot H (fill H d items) /\
  incl (hash_inputs H (fill H d items)) (hash_inputs H (fill H d (map (fun t => MLeaf (mroot H t)) items)) ++ flat_map (hash_inputs H) items).
Proof.
  induction d as [|d IH]; intros items.
  - destruct items as [|x items]; cbn; split; auto; [apply incl_refl|]. apply incl_appl, incl_refl.
  - destruct items as [|x items]; [cbn; split; auto; apply incl_refl|]. set (l := x :: items).
    assert (forall f, fill H (S d) (map f l) = MNode (fill H d (take (2 ^ N.of_nat d) (map f l))) (fill H d (drop (2 ^ N.of_nat d) (map f l)))) as -> by reflexivity.
    assert (fill H (S d) l = MNode (fill H d (take (2 ^ N.of_nat d) l)) (fill H d (drop (2 ^ N.of_nat d) l))) as -> by reflexivity. clearbody l.
    rewrite !take_firstn, !drop_skipn, !firstn_map, !skipn_map. set (k := N.to_nat (2 ^ N.of_nat d)).
    destruct (IH (firstn k l)) as [E1 I1]. destruct (IH (skipn k l)) as [E2 I2]. cbn [mroot hash_inputs]. rewrite E1, E2. split; [reflexivity|].
    assert (flat_map (hash_inputs H) l = flat_map (hash_inputs H) (firstn k l) ++ flat_map (hash_inputs H) (skipn k l)) as -> by (rewrite <- flat_map_app; now rewrite firstn_skipn). intros y [<-|Hy]; [now left|]. right. rewrite !in_app_iff in *.
    destruct Hy as [Hy|Hy]; [apply I1 in Hy|apply I2 in Hy]; apply in_app_iff in Hy; tauto.
Qed.
Lemma zeros_pad n : (n <= 32)%nat -> pad32 (repeat x00 n) = zero32.
Proof. intros Hn. unfold pad32, zero32. rewrite repeat_length, <- repeat_app. f_equal. lia. Qed.
Lemma zeros_pack n : pack (repeat x00 n) = repeat zero32 ((n + 31) / 32).
Proof.
  unfold pack. rewrite repeat_length. generalize ((n + 31) / 32)%nat at 1 2. intros m.
  assert (forall i, pad32 (firstn 32 (skipn (32 * i) (repeat x00 n))) = zero32) as G.
  { intros i. replace (firstn 32 (skipn (32 * i) (repeat x00 n))) with (repeat x00 (Nat.min 32 (n - 32 * i))); [apply zeros_pad; lia|].
    generalize (32 * i)%nat. clear. intros m. revert n. induction m as [|m IH]; intros n.
    - cbn [skipn]. rewrite Nat.sub_0_r. revert n. generalize 32%nat. induction n as [|a IH]; intros [|b]; cbn [Nat.min firstn repeat]; auto. now rewrite IH.
    - destruct n as [|n]; [reflexivity|]. cbn [repeat skipn Nat.sub]. apply IH. }
  induction m as [|m IH]; [reflexivity|]. rewrite seq_S, map_app, IH. cbn [map]. rewrite G. symmetry. apply repeat_cons.
Qed.
Lemma zeros_uniform H d n : N.of_nat ((n + 31) / 32) = 2 ^ N.of_nat d ->
  mroot H (fill H d (map MLeaf (pack (repeat x00 n)))) = tower_root H d zero32 /\
  incl (hash_inputs H (fill H d (map MLeaf (pack (repeat x00 n))))) (tower H d zero32).
Proof.
  intros Hl. rewrite <- (app_nil_r (tower H d zero32)). apply fill_uniform; [now rewrite map_length, pack_length, repeat_length|].
  rewrite zeros_pack, Forall_map. apply Forall_forall. intros x Hx. apply repeat_spec in Hx as ->. split; [reflexivity|]. intros y [].
Qed.
Lemma basic_zero k : basic k = true -> basic_bytes k (zero k) = repeat x00 (N.to_nat (basic_size k)).
Proof. destruct k; try discriminate; intros _; cbn [zero basic_bytes basic_size]; [rewrite Nat2N.id; apply le_bytes_zero|reflexivity]. Qed.
Lemma basics_zero k n : basic k = true -> concat (map (basic_bytes k) (repeat (zero k) n)) = repeat x00 (n * N.to_nat (basic_size k)).
Proof.
  intros Hb. induction n as [|n IH]; [reflexivity|]. cbn [repeat map concat Nat.mul]. now rewrite IH, basic_zero, <- repeat_app.
Qed.
Lemma bits_zero n : bitfield (repeat false n) = repeat x00 ((n + 7) / 8).
Proof.
  unfold bitfield. rewrite repeat_length. assert (forall i, bit_byte (repeat false n) i = x00) as G.
  { intros i. unfold bit_byte. cbn [seq fold_right]. assert (forall m, nth m (repeat false n) false = false) as -> by (intros m; apply nth_repeat). now rewrite !nth_repeat. }
  generalize ((n + 7) / 8)%nat. induction n0 as [|m IH]; [reflexivity|]. rewrite seq_S, map_app, IH. cbn [map]. rewrite G. symmetry. apply repeat_cons.
Qed.
Theorem zin_sound H k : full k = true -> mroot H (ssz_tree H k (zero k)) = fst (zin H k) /\ incl (hash_inputs H (ssz_tree H k (zero k))) (snd (zin H k)).
Proof.
  induction k as [n| |n|n|k n IH|k n IH|fs IH|n|n] using kind_ind'; intros Hf.
  - cbn [full] in Hf. cbn [zero ssz_tree mroot hash_inputs zin fst snd]. rewrite le_bytes_zero, zeros_pad by lia. split; [reflexivity|]. intros y [].
  - split; [reflexivity|]. intros y [].
  - cbn [full] in Hf. cbn [zero ssz_tree zin fst snd]. apply zeros_uniform. rewrite nat_div32, N2Nat.id. lia.
  - cbn [zero ssz_tree zin fst snd with_length]. destruct (levels ((n + 31) / 32)); cbn [pack length Nat.add Nat.div Nat.divmod fst seq map fill mroot hash_inputs zero_root app]; (split; [reflexivity|apply incl_refl]).
  - cbn [full] in Hf. cbn [zero ssz_tree zin fst snd]. destruct (basic k) eqn:Eb.
    + rewrite basics_zero by assumption. apply zeros_uniform. rewrite nat_div32, Nat2N.inj_mul, !N2Nat.id. lia.
    + apply andb_true_iff in Hf as [H1 H2]. destruct (IH H2) as [E I]. destruct (zin H k) as [r l]. cbn [fst snd] in *.
      apply fill_uniform; [rewrite map_length, repeat_length, N2Nat.id; lia|]. rewrite Forall_map. apply Forall_forall. intros x Hx. apply repeat_spec in Hx as ->. auto.
  - cbn [zero ssz_tree zin fst snd with_length map concat]. change (pack []) with (@nil bytes). cbn [map length]. destruct (basic k).
    + destruct (levels _); cbn [fill mroot hash_inputs app]; (split; [reflexivity|apply incl_refl]).
    + destruct (levels _); cbn [fill mroot hash_inputs app]; (split; [reflexivity|apply incl_refl]).
  - cbn [zero]. rewrite ssz_tree_container. cbn [zin fst snd].
    match goal with |- context [trees H fs ?l] => set (vs := l) end. match goal with |- context [map _ ?l] => set (zs := l) end.
    assert (map (fun t => MLeaf (mroot H t)) (trees H fs vs) = map (fun z => MLeaf (fst z)) zs /\ incl (flat_map (hash_inputs H) (trees H fs vs)) (flat_map snd zs)) as [E I].
    { subst vs zs. revert Hf. induction IH as [|[n k] fs Hk _ IH]; intros Hf; [split; [reflexivity|intros y []]|]. cbn [full] in Hf. apply andb_true_iff in Hf as [H1 H2].
      destruct (Hk H1) as [E1 I1]. destruct (IH H2) as [E2 I2]. cbn [trees map flat_map]. cbn [snd] in E1, I1. rewrite E1, E2. split; [reflexivity|].
      intros y Hy. apply in_app_iff in Hy. apply in_app_iff. destruct Hy; auto. }
    destruct (fill_inputs H (levels (N.of_nat (length fs))) (trees H fs vs)) as [E2 I2]. rewrite E in *. split; [now symmetry|].
    intros y Hy. apply I2 in Hy. rewrite in_app_iff in *. destruct Hy; auto.
  - cbn [full] in Hf. cbn [zero ssz_tree zin fst snd]. rewrite bits_zero. apply zeros_uniform. rewrite nat_div32, Nat2N.inj_div, Nat2N.inj_add, N2Nat.id.
    change (N.of_nat 7) with 7. change (N.of_nat 8) with 8. replace ((n + 7) / 8 + 31) with ((n + 7 + 31 * 8) / 8) by (rewrite N.div_add by lia; reflexivity).
    rewrite N.div_div by lia. replace (n + 7 + 31 * 8) with (n + 255) by lia. change (8 * 32) with 256. lia.
  - cbn [zero ssz_tree zin fst snd with_length]. change (bitfield []) with (@nil byte). change (pack []) with (@nil bytes). cbn [map].
    destruct (levels ((n + 255) / 256)); cbn [length fill mroot hash_inputs zero_root app]; (split; [reflexivity|apply incl_refl]).
Qed.
Definition inj_b (H : bytes -> bytes) (l : list bytes) : bool :=
  let hl := map (fun a => (a, H a)) l in
  forallb (fun x => forallb (fun y => negb (bytes_eqb (snd x) (snd y)) || bytes_eqb (fst x) (fst y)) hl) hl.
Lemma inj_b_sound H l : inj_b H l = true -> injective_on H l.
Proof.
  unfold inj_b. intros G a b Ha Hb E. rewrite forallb_forall in G. specialize (G (a, H a) (in_map (fun a => (a, H a)) _ _ Ha)). rewrite forallb_forall in G.
  specialize (G (b, H b) (in_map (fun a => (a, H a)) _ _ Hb)). cbn [fst snd] in G. rewrite E in G.
  assert (bytes_eqb (H b) (H b) = true) as F by now apply bytes_eqb_eq. rewrite F in G. now apply bytes_eqb_eq in G.
Qed.
(** A hash function without collisions on the all-zero Fulu state and its block. *)
Fixpoint mix (c : N) (a b : bytes) : bytes :=
  match a, b with
  | x :: a', y :: b' =>
      let z := byte_of_N (3 * Byte.to_N x + 5 * Byte.to_N y + 7 * c + Byte.to_N x * c + Byte.to_N y * Byte.to_N y * c + 1) in z :: mix (Byte.to_N z) a' b'
  | _, _ => []
  end.
Definition v_hash (x : bytes) : bytes := firstn 32 (mix 11 x (skipn 32 x) ++ repeat x00 32).
Lemma v_hash32 : hash32 v_hash.
Proof. intros x. unfold v_hash. rewrite firstn_length, app_length, repeat_length. lia. Qed.
Definition v_kind : kind := Container (StateJsonSpec.state_fields VFulu).
Definition v_state : TState := mkTState VFulu (zeros VFulu).
Definition v_answer (more : list (string * json)) : Reply json := Replied 200 (state_answer VFulu (write v_kind (VSeq (zeros VFulu))) more).
Lemma v_read more : no_clash more -> read_state (v_answer more) = Ok v_state.
Proof. intros Hc. destruct (C82_state_nonvacuous VFulu). now apply C82_answer_is_accepted. Qed.
Definition v_root : bytes := Eval vm_compute in fst (zin v_hash v_kind).
Definition v_header : Header := mkHeader 0 0 zero32 v_root (MLeaf zero32).
Lemma v_inputs_ok : let l := snd (zin v_hash v_kind) ++ hash_inputs v_hash (header_tree v_hash v_header) in inj_b v_hash l = true.
Proof. vm_compute. reflexivity. Qed.
Lemma v_full : full v_kind = true. Proof. vm_compute. reflexivity. Qed.
Lemma v_tree : mroot v_hash (state_tree v_hash (hs_state (view v_hash v_state))) = v_root /\
  incl (hash_inputs v_hash (state_tree v_hash (hs_state (view v_hash v_state)))) (snd (zin v_hash v_kind)).
Proof.
  rewrite (C84_state_tree v_hash (v_answer []) v_state); [|apply v_read; split; intros []|reflexivity]. unfold state_kind, v_state. cbn [ts_version ts_fields]. rewrite <- zero_state.
  destruct (zin_sound v_hash v_kind v_full) as [E I]. split; [|exact I]. etransitivity; [exact E|]. vm_compute. reflexivity.
Qed.
Definition v_X : Externals := mkExternals v_hash (fun k => k) (fun _ _ _ => true) (fun l _ _ => Some l) 64.
Lemma v_block : boundary_block v_X (view v_hash v_state) = v_header.
Proof.
  unfold boundary_block, tree_root. change (sha256 v_X) with v_hash. rewrite (proj1 v_tree). reflexivity.
Qed.
Example C84_checkpoint_nonvacuous :
  let c := mkCheckpoint 0 (mroot v_hash (header_tree v_hash v_header)) in
  exists r r', r <> r' /\ read_state r = Ok v_state /\ read_state r' = Ok v_state /\
    checkpoint_state v_X mainnet_spec (fun _ => Ok (view v_hash v_state)) c = Ok (view v_hash v_state) /\
    hs_supported (view v_hash v_state) = true /\
    no_collision v_hash (header_tree v_hash (boundary_block v_X (view v_hash v_state))) (header_tree v_hash (boundary_block v_X (view v_hash v_state))) /\
    no_collision v_hash (state_tree v_hash (hs_state (view v_hash v_state))) (state_tree v_hash (hs_state (view v_hash v_state))).
Proof.
  intros c. exists (v_answer []), (v_answer [("finalized"%string, JBool true)]). split.
  { unfold v_answer. generalize (write v_kind (VSeq (zeros VFulu))). intros j E. discriminate E. }
  split; [apply v_read; split; intros []|]. split; [apply v_read; split; cbn; intros [H|[]]; discriminate|].
  pose proof (inj_b_sound _ _ v_inputs_ok) as J.
  split; [|split; [reflexivity|split]].
  - unfold checkpoint_state, state_at_checkpoint, state_at_epoch_boundary, state_at_epoch. cbn [bind].
    assert (hd_slot (hs_header (view v_hash v_state)) =? st_slot (hs_state (view v_hash v_state)) = true) as -> by reflexivity. cbn [bind].
    unfold boundary_root, tree_root. rewrite v_block. assert (bytes_eqb (root c) (mroot v_hash (header_tree v_hash v_header)) = true) as E by now apply bytes_eqb_eq.
    change (sha256 v_X) with v_hash. rewrite E. reflexivity.
  - rewrite v_block. eapply injective_on_incl; [exact J|]. intros x Hx. apply in_app_iff in Hx. apply in_app_iff. right. now destruct Hx.
  - eapply injective_on_incl; [exact J|]. intros x Hx. apply in_app_iff in Hx. apply in_app_iff. left. destruct Hx; now apply v_tree.
Qed.
(** Without that assumption it fails: for a constant function all states have one root. *)
Example C84_collision_refuted : exists H r r' st st', hash32 H /\ read_state r = Ok st /\ read_state r' = Ok st' /\ ts_version st = ts_version st' /\
  hs_supported (view H st) = true /\ mroot H (state_tree H (hs_state (view H st))) = mroot H (state_tree H (hs_state (view H st'))) /\ st <> st'.
Proof.
  set (H := fun _ : bytes => zero32). set (one := map (fun f => if String.eqb (fst f) "slot" then VNum 1 else zero (snd f)) (StateJsonSpec.state_fields VFulu)).
  exists H, (v_answer []), (Replied 200 (state_answer VFulu (write v_kind (VSeq one)) [])), v_state, (mkTState VFulu one).
  split; [intros x; reflexivity|]. split; [apply v_read; split; intros []|]. split.
  { assert (wf v_kind (VSeq one)) as W.
    { apply wf_container. eexists. split; [reflexivity|]. assert (forall fs, (forall k, In ("slot"%string, k) fs -> k = uint64) -> wf_all fs (map (fun f => if String.eqb (fst f) "slot" then VNum 1 else zero (snd f)) fs)) as G.
      { induction fs as [|[n k] fs IH]; intros Hk; [exact I|]. cbn [map wf_all fst snd]. split; [|apply IH; intros; apply Hk; now right].
        destruct (String.eqb n "slot") eqn:E; [|apply zero_wf]. apply String.eqb_eq in E as ->. rewrite (Hk k) by now left. exists 1. split; auto. reflexivity. }
      apply G. intros k Hk. unfold StateJsonSpec.state_fields, since in Hk. cbn [number N.leb N.compare Pos.compare Pos.compare_cont app In] in Hk.
      repeat (destruct Hk as [Hk|Hk]; [try discriminate Hk; now injection Hk as <-|]). destruct Hk. }
    apply C82_answer_is_accepted; [reflexivity|split; intros []| |].
    - apply write_shows; [apply state_distinct|exact W].
    - now apply written_not_newer. }
  split; [reflexivity|]. split; [reflexivity|]. split.
  - assert (forall s, mroot H (state_tree H s) = zero32) as G by (intros s; unfold state_tree, container_tree; unfold Beacon.state_fields; destruct (st_fulu s); reflexivity).
    now rewrite !G.
  - intros E. apply (f_equal (fun s => nth 2 (ts_fields s) (VNum 7))) in E. discriminate E.
Qed.

Print Assumptions C84_values_in_range.
Print Assumptions C84_fields_are_the_answered.
Print Assumptions C84_well_formed.
Print Assumptions C84_headers_are_well_formed.
Print Assumptions C84_state_tree.
Print Assumptions C84_answered_state_root.
Print Assumptions C84_header_tree.
Print Assumptions C84_answered_header_root.
Print Assumptions C84_root_determines_the_value.
Print Assumptions C84_root_determines_the_state.
Print Assumptions C84_checkpoint_determines_the_state.
