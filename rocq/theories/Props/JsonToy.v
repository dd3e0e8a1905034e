(** A node that answers in JSON: the chain of C72_nonvacuous, with states and blocks in full. *)
From Coq Require Import String List Arith NArith Bool Lia ZifyBool ZifyNat ZifyN.
From Coq.Init Require Import Byte.
From Verif.Model Require Import Base Types Shuffle ConsensusState Verify GuestReader Guest Cli CliRun HostChain HostStore HostInput BeaconClient StateFile Networks.
From Verif.Model Require Import InputCodec.
From Verif.Spec Require FFG.
From Verif.Spec Require Import Merkle Ssz Beacon Registry Committees GuestSpec VerifySpec HostSpec ExitQueue Pipeline HostInputSpec CliSpec InputCodecSpec NetworkSpec ShuffleSpec Meaning Honest Moving NetworkRun StateJsonSpec HashTreeRoot BlockSpec JsonRun.
From Verif.Model Require Import StateJson StateView BlockJson.
From Verif.Proof Require Import BaseLemmas MerkleP BeaconP PipelineP HostChainP StateJsonP StateViewP.
From Verif.Props Require Import ConsensusProps VerifyProps GuestToy HostToy BeaconClientProps NetworkProps HonestProps MovingProps InputCodecProps MeaningProps NetworkRunProps StateJsonProps StateViewProps BlockJsonProps.
Import ListNotations.
Open Scope list_scope.
Open Scope N_scope.
Notation length := List.length.

(** ** States *)
Definition j_body : bytes := Eval vm_compute in mroot g_hash (ssz_tree g_hash (Container (BlockSpec.body_fields VElectra)) (x_body [])).
Definition j_vs (e : N) : list Validator := if e <? u_T + 2 then w_vs else m_vs Mainnet.
Definition j_special : list string := ["genesis_validators_root"; "slot"; "fork"; "latest_block_header"; "validators"]%string.
Definition j_value (e : N) (f : string * kind) : val :=
  if String.eqb (fst f) "genesis_validators_root" then VBytes toy_gvr
  else if String.eqb (fst f) "slot" then VNum (32 * e)
  else if String.eqb (fst f) "fork" then fork_val (fork_at_epoch (network_spec Mainnet) e)
  else if String.eqb (fst f) "latest_block_header" then VSeq [VNum (32 * e); VNum 3; VBytes (toy_root 17); VBytes (toy_root 0); VBytes j_body]
  else if String.eqb (fst f) "validators" then VSeq (map validator_val (j_vs e))
  else if String.eqb (fst f) "randao_mixes" then VSeq (repeat (VBytes (toy_root 10)) (N.to_nat 65536))
  else zero (snd f).
Definition j_state (e : N) : TState := mkTState VElectra (map (j_value e) (StateJsonSpec.state_fields VElectra)).
Definition j_hstate (e : N) : HState := StateView.view g_hash (j_state e).
Definition j_epochs : list N := [0; u_T; u_T + 1; u_T + 2; u_T + 3].
Lemma j_all (P : string * kind -> Prop) : (forall n k, ~ In n ("randao_mixes"%string :: j_special) -> full k = true -> P (n, k)) ->
  P ("genesis_validators_root"%string, Bytes32) -> P ("slot"%string, uint64) -> P ("fork"%string, Fork_) -> P ("latest_block_header"%string, BeaconBlockHeader) ->
  P ("validators"%string, registry Validator_) -> P ("randao_mixes"%string, Vector Bytes32 65536) -> Forall P (StateJsonSpec.state_fields VElectra).
Proof.
  intros H0 H1 H2 H3 H4 H5 H6. unfold StateJsonSpec.state_fields, since. cbn [number N.leb N.compare Pos.compare Pos.compare_cont app].
  repeat (constructor; [first [exact H1|exact H2|exact H3|exact H4|exact H5|exact H6|apply H0; [cbn; intuition discriminate|vm_compute; reflexivity]]|]). constructor.
Qed.
Lemma j_validators e : Forall wf_validator (j_vs e).
Proof. unfold j_vs. destruct (e <? u_T + 2); repeat (constructor; [repeat split; vm_compute; reflexivity|]); constructor. Qed.
Lemma j_validator_wf v : wf_validator v -> wf Validator_ (validator_val v).
Proof.
  intros (H1 & H2 & H3 & H4 & H5 & H6 & H7). apply x_cont. cbn [wf_all]. repeat split; try (apply x_number; assumption); try (apply x_bytes; lia).
  exists (v_slashed v). reflexivity.
Qed.
Lemma j_other e n k : ~ In n ("randao_mixes"%string :: j_special) -> j_value e (n, k) = zero k.
Proof.
  intros Hn. unfold j_value. cbn [fst snd].
  repeat match goal with |- context [String.eqb n ?s] => destruct (String.eqb_spec n s) as [->|_]; [exfalso; apply Hn; cbn; tauto|] end. reflexivity.
Qed.
Ltac epochs H := repeat destruct H as [<-|H]; try contradiction.
Lemma j_state_wf e : In e j_epochs -> wf (Container (StateJsonSpec.state_fields VElectra)) (VSeq (map (j_value e) (StateJsonSpec.state_fields VElectra))).
Proof.
  intros He. apply x_cont. assert (forall fs, Forall (fun f => wf (snd f) (j_value e f)) fs -> wf_all fs (map (j_value e) fs)) as G.
  { intros fs Hf. induction Hf as [|[n k] fs Hf _ IH]; [exact I|]. split; assumption. }
  apply G, j_all; cbn [snd].
  - intros n k Hn _. rewrite j_other by exact Hn. apply zero_wf.
  - apply x_bytes. vm_compute. reflexivity.
  - apply x_number. epochs He; vm_compute; reflexivity.
  - apply x_cont. cbn [wf_all]. repeat split; try (apply x_bytes; epochs He; vm_compute; reflexivity). apply x_number. epochs He; vm_compute; reflexivity.
  - apply x_cont. cbn [wf_all]. repeat split; try (apply x_bytes; vm_compute; reflexivity); apply x_number; epochs He; vm_compute; reflexivity.
  - exists (map validator_val (j_vs e)). split; [reflexivity|]. rewrite map_length. split; [unfold j_vs; destruct (e <? u_T + 2); vm_compute; discriminate|].
    rewrite Forall_map. eapply Forall_impl; [|apply j_validators]. apply j_validator_wf.
  - eexists. split; [reflexivity|]. rewrite repeat_length. split; [apply N2Nat.id|]. apply Forall_forall. intros x Hx. apply repeat_spec in Hx as ->. apply x_bytes. vm_compute. reflexivity.
Qed.
Definition j_answer (e : N) : json := state_answer VElectra (write (Container (StateJsonSpec.state_fields VElectra)) (VSeq (map (j_value e) (StateJsonSpec.state_fields VElectra)))) [].
Lemma j_read e : In e j_epochs -> read_state (Replied 200 (j_answer e)) = Ok (j_state e).
Proof.
  intros He. apply C82_answer_is_accepted; [reflexivity|split; intros []| |].
  - apply write_shows; [apply state_distinct|now apply j_state_wf].
  - apply written_not_newer. now apply j_state_wf.
Qed.
(** *** Fields *)
Lemma j_get e name k : find (fun f => String.eqb (fst f) name) (StateJsonSpec.state_fields VElectra) = Some (name, k) -> get (j_state e) name = j_value e (name, k).
Proof.
  unfold get, j_state. cbn [ts_version ts_fields]. rewrite typed_names. generalize (StateJsonSpec.state_fields VElectra). intros fs.
  induction fs as [|[n k'] fs IH]; [discriminate|]. cbn [map combine find fst]. destruct (String.eqb n name) eqn:E; [|exact IH].
  apply String.eqb_eq in E as ->. intros H. injection H as ->. reflexivity.
Qed.
Lemma j_validator v : validator_of (validator_val v) = v.
Proof. now destruct v. Qed.
Lemma j_st_validators e : st_validators (hs_state (j_hstate e)) = j_vs e.
Proof.
  unfold j_hstate, StateView.view, view_state. cbn [hs_state st_validators]. rewrite (j_get e "validators" (registry Validator_)) by reflexivity.
  unfold j_value. cbn [fst snd String.eqb Ascii.eqb Bool.eqb as_seq]. rewrite map_map, (map_ext _ (fun x => x)), map_id; [reflexivity|]. apply j_validator.
Qed.
Lemma j_st_gvr e : st_genesis_validators_root (hs_state (j_hstate e)) = toy_gvr.
Proof. unfold j_hstate, StateView.view, view_state. cbn [hs_state st_genesis_validators_root]. now rewrite (j_get e "genesis_validators_root" Bytes32) by reflexivity. Qed.
Lemma j_st_slot e : st_slot (hs_state (j_hstate e)) = 32 * e.
Proof. unfold j_hstate, StateView.view, view_state. cbn [hs_state st_slot]. now rewrite (j_get e "slot" uint64) by reflexivity. Qed.
Lemma j_st_fork e : st_fork (hs_state (j_hstate e)) = fork_at_epoch (network_spec Mainnet) e.
Proof.
  unfold j_hstate, StateView.view, view_state. cbn [hs_state st_fork]. rewrite (j_get e "fork" Fork_) by reflexivity. unfold j_value. cbn [fst snd String.eqb Ascii.eqb Bool.eqb].
  now destruct (fork_at_epoch (network_spec Mainnet) e).
Qed.
Lemma j_st_exit e : st_earliest_exit_epoch (hs_state (j_hstate e)) = 0.
Proof. unfold j_hstate, StateView.view, view_state. cbn [hs_state st_earliest_exit_epoch]. now rewrite (j_get e "earliest_exit_epoch" uint64) by reflexivity. Qed.
Lemma j_hs_header e : hs_header (j_hstate e) = mkHeader (32 * e) 3 (toy_root 17) (toy_root 0) (MLeaf j_body).
Proof. unfold j_hstate, StateView.view. cbn [hs_header]. now rewrite (j_get e "latest_block_header" BeaconBlockHeader) by reflexivity. Qed.
Lemma j_mixes e : hs_randao_mixes (j_hstate e) = z_mixes.
Proof.
  unfold j_hstate, StateView.view. cbn [hs_randao_mixes]. rewrite (j_get e "randao_mixes" (Vector Bytes32 65536)) by reflexivity.
  unfold j_value. cbn [fst snd String.eqb Ascii.eqb Bool.eqb as_seq]. unfold z_mixes. generalize (N.to_nat 65536). intros m. induction m as [|m IH]; [reflexivity|]. cbn [repeat map as_bytes]. now rewrite IH.
Qed.
Lemma j_supported e : hs_supported (j_hstate e) = true.
Proof. reflexivity. Qed.
(** *** Roots *)
Definition j_field_root (e : N) (f : string * kind) : bytes :=
  if String.eqb (fst f) "randao_mixes" then tower_root g_hash 16 (toy_root 10)
  else if existsb (String.eqb (fst f)) j_special then mroot g_hash (ssz_tree g_hash (snd f) (j_value e f)) else fst (zin g_hash (snd f)).
Lemma trees_map H g fs : trees H fs (map g fs) = map (fun f => ssz_tree H (snd f) (g f)) fs.
Proof. induction fs as [|[n k] fs IH]; [reflexivity|]. cbn [map trees]. now rewrite IH. Qed.
Lemma j_computed e n k : String.eqb n "randao_mixes" = false -> existsb (String.eqb n) j_special = true ->
  MLeaf (mroot g_hash (ssz_tree g_hash k (j_value e (n, k)))) = MLeaf (j_field_root e (n, k)).
Proof. intros H1 H2. unfold j_field_root. cbn [fst snd]. now rewrite H1, H2. Qed.
Lemma j_mixes_root e : mroot g_hash (ssz_tree g_hash (Vector Bytes32 65536) (j_value e ("randao_mixes"%string, Vector Bytes32 65536))) = tower_root g_hash 16 (toy_root 10).
Proof.
  assert (j_value e ("randao_mixes"%string, Vector Bytes32 65536) = VSeq (repeat (VBytes (toy_root 10)) (N.to_nat 65536))) as -> by reflexivity.
  assert (forall n d, N.of_nat n = 2 ^ N.of_nat d -> levels 65536 = d -> mroot g_hash (ssz_tree g_hash (Vector Bytes32 65536) (VSeq (repeat (VBytes (toy_root 10)) n))) = tower_root g_hash d (toy_root 10)) as G.
  { intros n d Hn Hd. cbn [ssz_tree]. change (basic Bytes32) with false. cbn iota. rewrite Hd.
    apply (fill_uniform g_hash (toy_root 10) [] d); [now rewrite map_length, repeat_length|]. rewrite Forall_map. apply Forall_forall. intros x Hx. apply repeat_spec in Hx as ->.
    split; [vm_compute; reflexivity|]. intros y Hy. vm_compute in Hy. exact Hy. }
  apply G; [apply N2Nat.id|vm_compute; reflexivity].
Qed.
Lemma j_mixes_field e : j_field_root e ("randao_mixes"%string, Vector Bytes32 65536) = tower_root g_hash 16 (toy_root 10).
Proof. reflexivity. Qed.
Lemma j_state_root_is e : In e j_epochs -> mroot g_hash (state_tree g_hash (hs_state (j_hstate e))) =
  mroot g_hash (fill g_hash 6 (map (fun f => MLeaf (j_field_root e f)) (StateJsonSpec.state_fields VElectra))).
Proof.
  intros He. unfold j_hstate. rewrite (C84_state_tree g_hash _ _ (j_read e He) (j_supported e)). unfold state_kind. cbn [j_state ts_version ts_fields].
  rewrite ssz_tree_container, trees_map. rewrite <- (proj1 (fill_inputs g_hash _ _)), map_map. change (levels (N.of_nat (length (StateJsonSpec.state_fields VElectra)))) with 6%nat.
  apply (f_equal (fun l => mroot g_hash (fill g_hash 6 l))), map_ext_Forall. apply j_all; cbn [snd].
  - intros n k Hn Hk. rewrite j_other by exact Hn. f_equal. unfold j_field_root. cbn [fst snd]. destruct (String.eqb_spec n "randao_mixes") as [->|_]; [exfalso; apply Hn; now left|].
    assert (existsb (String.eqb n) j_special = false) as ->.
    { destruct (existsb (String.eqb n) j_special) eqn:E; [|reflexivity]. apply existsb_exists in E as (m & Hm & E). apply String.eqb_eq in E as ->. exfalso. apply Hn. now right. }
    now apply zin_sound.
  - apply j_computed; reflexivity.
  - apply j_computed; reflexivity.
  - apply j_computed; reflexivity.
  - apply j_computed; reflexivity.
  - apply j_computed; reflexivity.
  - apply (f_equal MLeaf). rewrite j_mixes_root. symmetry. apply j_mixes_field.
Qed.
