(** A node that answers in JSON: the chain of C72_nonvacuous with the states of JsonToy.v and blocks in full. *)
From Coq Require Import String List Arith NArith Bool Lia Sorted ZifyBool ZifyNat ZifyN.
From Coq.Init Require Import Byte.
From Verif.Model Require Import Base Types TreeHash Shuffle ConsensusState Verify GuestReader Guest Cli CliRun HostChain HostStore HostInput BeaconClient StateFile Networks.
From Verif.Model Require Import InputCodec.
From Verif.Spec Require FFG.
From Verif.Spec Require Import FFG Merkle Ssz Beacon Registry Committees GuestSpec VerifySpec HostSpec ExitQueue Pipeline HostInputSpec CliSpec InputCodecSpec NetworkSpec ShuffleSpec Meaning Honest Moving NetworkRun StateJsonSpec HashTreeRoot BlockSpec JsonRun.
From Verif.Model Require Import StateJson StateView BlockJson JsonText.
From Verif.Spec Require JsonSyntax.
From Verif.Proof Require Import BaseLemmas MerkleP BeaconP PipelineP HostChainP StateJsonP StateViewP JsonPrintP.
From Verif.Props Require Import ConsensusProps VerifyProps GuestToy HostToy BeaconClientProps PipelineProps NetworkProps HonestProps MovingProps InputCodecProps MeaningProps NetworkRunProps StateJsonProps StateViewProps BlockJsonProps JsonToy.
Import ListNotations.
Open Scope list_scope.
Open Scope N_scope.
Notation length := List.length.

Definition j_tree (e : N) := fill g_hash 6 (map (fun f => MLeaf (j_field_root e f)) (StateJsonSpec.state_fields VElectra)).
Definition j_state_root0 : bytes := Eval vm_compute in mroot g_hash (j_tree u_T).
Definition j_state_root1 : bytes := Eval vm_compute in mroot g_hash (j_tree (u_T + 1)).
Definition j_state_root (e : N) : bytes := if e =? u_T then j_state_root0 else if e =? u_T + 1 then j_state_root1 else toy_root e.
Definition j_header (e : N) : Header := mkHeader (32 * e) 3 (toy_root 17) (j_state_root e) (MLeaf j_body).
Definition j_root0 : bytes := Eval vm_compute in mroot g_hash (header_tree g_hash (j_header u_T)).
Definition j_root1 : bytes := Eval vm_compute in mroot g_hash (header_tree g_hash (j_header (u_T + 1))).
Definition j_root2 : bytes := Eval vm_compute in mroot g_hash (header_tree g_hash (j_header (u_T + 2))).
Definition j_cp (e : N) : Checkpoint :=
  mkCheckpoint e (if e =? u_T then j_root0 else if e =? u_T + 1 then j_root1 else if e =? u_T + 2 then j_root2 else toy_root e).
Definition j_at (e : N) : ConsensusState := mkCS (j_cp (e - 1)) (j_cp (e - 2)).
Definition j_link (e : N) : Link := mkLink (j_cp (e - 1)) (j_cp e).
Definition j_att (e k : N) : Attestation :=
  let d := toy_data (32 * e + 4 * k + 3) (j_link e) in
  mkAttestation true [true] (true :: repeat false 63) d
    (g_sig (signing_root g_hash d (get_attester_domain g_hash (network_spec Mainnet) e (fork_at_epoch (network_spec Mainnet) e) toy_gvr)
       ++ g_key (nth (N.to_nat k) (u_order e) 0))).
Definition j_atts (e : N) : list Attestation := map (j_att e) u_ks.
(** The attestations in the block of a slot. *)
Definition j_content (slot : N) : option (list Attestation) :=
  if slot =? 32 * u_T then Some [] else if slot =? 32 * (u_T + 1) then Some []
  else if slot =? 32 * (u_T + 2) + 20 then Some (firstn 3 (j_atts (u_T + 2)))
  else if slot =? 32 * (u_T + 3) then Some (skipn 3 (j_atts (u_T + 2)))
  else if slot =? 32 * (u_T + 3) + 20 then Some (firstn 3 (j_atts (u_T + 3)))
  else if slot =? 32 * (u_T + 4) then Some (skipn 3 (j_atts (u_T + 3))) else None.
Definition j_block_value (slot : N) (atts : list Attestation) : val := x_block slot 3 (toy_root 17) (j_state_root (slot / 32)) atts.
(** The server: what it answers to the requests of a list, 404 to everything else. *)
Definition j_end : Url := mkUrl [x68; x3a; x2f; x2f; x6e] true [[]] None.
Definition j_finality (s : ConsensusState) : json :=
  answer (write FinalityAnswer (VSeq [checkpoint_value (current_justified s); checkpoint_value (current_justified s); checkpoint_value (finalized s)])) [].
Definition j_header_answer (e : N) : json :=
  answer (write HeaderAnswer (VSeq [VBytes (root (j_cp e)); VBool true;
    VSeq [VSeq [VNum (32 * e); VNum 3; VBytes (toy_root 17); VBytes (j_state_root e); VBytes j_body]; VBytes (repeat x00 96)]])) [].
Definition j_reply (fin : N) (q : Request) : option json :=
  match q with
  | GetState (AtSlot s) => if (s mod 32 =? 0) && existsb (N.eqb (s / 32)) j_epochs then Some (j_answer (s / 32)) else None
  | GetFinality (AtSlot s) => if (32 * (u_T + 1) <=? s) && (s <=? 32 * (u_T + 4)) && (s mod 32 =? 0) then Some (j_finality (j_at (s / 32))) else None
  | GetFinality Head => Some (j_finality (mkCS (j_cp (fin + 1)) (j_cp fin)))
  | GetHeader (AtRoot r) => if bytes_eqb r j_root1 then Some (j_header_answer (u_T + 1)) else if bytes_eqb r j_root2 then Some (j_header_answer (u_T + 2)) else None
  | GetBlock (AtSlot s) => match j_content s with Some atts => Some (x_answer VElectra (j_block_value s atts) []) | None => None end
  | _ => None
  end.
Definition j_requests : list Request :=
  map (fun e => GetState (AtSlot (32 * e))) j_epochs ++ [GetFinality Head] ++ map (fun e => GetFinality (AtSlot (32 * e))) [u_T + 1; u_T + 2; u_T + 3; u_T + 4] ++
  [GetHeader (AtRoot j_root1); GetHeader (AtRoot j_root2)] ++
  map (fun s => GetBlock (AtSlot s)) [32 * u_T; 32 * (u_T + 1); 32 * (u_T + 2) + 20; 32 * (u_T + 3); 32 * (u_T + 3) + 20; 32 * (u_T + 4)].
Definition j_url (q : Request) : Url := mkUrl (u_origin j_end) true ([] ++ BeaconClient.path q) None.
(** It answers with text; what the host makes of it is [j_server]. *)
Definition j_text_server (fin : N) (u : Url) : Reply bytes :=
  match find (fun q => url_eqb (j_url q) u) j_requests with
  | Some q => match j_reply fin q with Some j => Replied 200 (JsonSyntax.print j) | None => Replied 404 [] end
  | None => Replied 404 []
  end.
Definition j_server (fin : N) : Url -> Reply json := json_server (j_text_server fin).
Lemma j_join q : join j_end (BeaconClient.path q) = Some (j_url q).
Proof. reflexivity. Qed.
Lemma j_known fin q j : j_reply fin q = Some j -> In q j_requests.
Proof.
  intros H. unfold j_requests. rewrite !in_app_iff. destruct q as [i|i|i|i]; destruct i as [s|r|]; try discriminate H; cbn [j_reply] in H.
  - right. right. right. left. destruct (bytes_eqb r j_root1) eqn:E1; [apply bytes_eqb_eq in E1 as ->; now left|].
    destruct (bytes_eqb r j_root2) eqn:E2; [apply bytes_eqb_eq in E2 as ->; right; now left|discriminate H].
  - right. right. right. right. apply in_map_iff. exists s. split; [reflexivity|].
    unfold j_content in H. cbn [In]. repeat match goal with H : context [s =? ?x] |- _ => destruct (N.eqb_spec s x); [subst s; tauto|] end. discriminate H.
  - left. apply in_map_iff. destruct (s mod 32 =? 0) eqn:E1; [|discriminate H]. cbn [andb] in H. destruct (existsb (N.eqb (s / 32)) j_epochs) eqn:E2; [|discriminate H].
    apply existsb_exists in E2 as (e & He & E2). apply N.eqb_eq in E2. exists e. split; [|exact He]. do 2 f_equal. rewrite <- E2. apply u_epochs. lia.
  - right. right. left. apply in_map_iff. destruct ((32 * (u_T + 1) <=? s) && (s <=? 32 * (u_T + 4)) && (s mod 32 =? 0)) eqn:E; [|discriminate H].
    exists (s / 32). split; [do 2 f_equal; apply u_epochs; lia|]. pose proof (N.div_mod s 32 ltac:(discriminate)). cbn [In]. lia.
  - right. left. now left.
Qed.
Lemma j_url_inj q q' : url_eqb (j_url q) (j_url q') = true -> q = q'.
Proof. intros E. apply url_eqb_eq in E. apply (C67_urls_distinct j_end q q' (j_url q)); [apply j_join|rewrite E; apply j_join]. Qed.
Lemma j_printed fin q j : j_reply fin q = Some j -> json_of_text (JsonSyntax.print j) = Some j.
Proof.
  intros H. destruct q as [i|i|i|i]; destruct i as [s|r|]; try discriminate H; cbn [j_reply] in H; repeat match type of H with context [if ?b then _ else _] => destruct b end; try discriminate H.
  - injection H as <-. apply read_answer; [reflexivity|vm_compute; lia].
  - injection H as <-. apply read_answer; [reflexivity|vm_compute; lia].
  - destruct (j_content s) as [atts|]; [|discriminate H]. injection H as <-. apply read_block_answer; try apply block_plain; cbn; [exact I|lia].
  - injection H as <-. apply read_state_answer; apply state_plain.
  - injection H as <-. apply read_answer; [reflexivity|vm_compute; lia].
  - injection H as <-. apply read_answer; [reflexivity|vm_compute; lia].
Qed.
Lemma j_read_body fin q : read_body (match j_reply fin q with Some j => Replied 200 (JsonSyntax.print j) | None => Replied 404 [] end) =
  match j_reply fin q with Some j => Replied 200 j | None => Replied 404 JNull end.
Proof. destruct (j_reply fin q) as [j|] eqn:E; [|reflexivity]. cbn [read_body]. now rewrite (j_printed fin q j E). Qed.
Lemma j_served fin q : j_server fin (j_url q) = match j_reply fin q with Some j => Replied 200 j | None => Replied 404 JNull end.
Proof.
  unfold j_server, json_server, j_text_server. destruct (find (fun q' => url_eqb (j_url q') (j_url q)) j_requests) as [q'|] eqn:E.
  - apply find_some in E as [_ E]. apply j_url_inj in E as ->. apply j_read_body.
  - destruct (j_reply fin q) as [j|] eqn:R; [|reflexivity]. apply j_known in R. apply (find_none _ _ E) in R. exfalso.
    assert (url_eqb (j_url q) (j_url q) = true) by (apply url_eqb_eq; reflexivity). congruence.
Qed.
(** ** What the host sees *)
Definition j_node (fin : N) : Node := json_node g_hash n_codec j_end (j_server fin) 5.
Lemma j_asked {A} fin q (dec : json -> option A) : ask j_end (j_server fin) q dec = match j_reply fin q with Some j => ok_or (dec j) (CHttp None) | None => Err (CHttp (Some 404)) end.
Proof. unfold ask. rewrite j_join, j_served. now destruct (j_reply fin q). Qed.
Lemma j_states_none fin s : j_reply fin (GetState (AtSlot s)) = None -> nd_states (j_node fin) s = Err (POther 5).
Proof. intros H. cbn [j_node json_node nd_states]. unfold ask_state. rewrite j_join, j_served, H. reflexivity. Qed.
Lemma j_states_at fin e : In e j_epochs -> nd_states (j_node fin) (32 * e) = Ok (j_hstate e).
Proof.
  intros He. cbn [j_node json_node nd_states]. unfold ask_state. rewrite j_join, j_served. cbn [j_reply].
  rewrite (N.mul_comm 32 e), N.mod_mul, N.div_mul by discriminate. replace (existsb (N.eqb e) j_epochs) with true by (symmetry; apply existsb_exists; exists e; split; [exact He|apply N.eqb_refl]).
  change (0 =? 0) with true. cbn [andb]. rewrite (j_read e He). reflexivity.
Qed.
Lemma j_states_some fin s st : nd_states (j_node fin) s = Ok st -> exists e, In e j_epochs /\ s = 32 * e /\ st = j_hstate e.
Proof.
  intros H. destruct (j_reply fin (GetState (AtSlot s))) as [j|] eqn:E; [|rewrite j_states_none in H by exact E; discriminate H].
  cbn [j_reply] in E. destruct ((s mod 32 =? 0) && existsb (N.eqb (s / 32)) j_epochs) eqn:B; [|discriminate E]. clear E.
  apply andb_true_iff in B as [B1 B2]. apply existsb_exists in B2 as (e & He & B2). apply N.eqb_eq in B1, B2. apply u_epochs in B1. rewrite B2 in B1. exists e. split; [exact He|]. split; [now symmetry|].
  rewrite <- B1, j_states_at in H by exact He. revert H. generalize (j_hstate e). intros x H. now injection H.
Qed.
Lemma j_cp_wf e : e < 2 ^ 64 -> wf_checkpoint (j_cp e).
Proof.
  intros H. split; [exact H|]. unfold j_cp. cbn [root]. repeat match goal with |- context [if ?b then _ else _] => destruct b end; try (vm_compute; reflexivity).
Qed.
Lemma j_state_root_length e : length (j_state_root e) = 32%nat.
Proof. unfold j_state_root. repeat match goal with |- context [if ?b then _ else _] => destruct b end; vm_compute; reflexivity. Qed.
Lemma j_finality_read s : wf_checkpoint (current_justified s) -> wf_checkpoint (finalized s) ->
  finality_of_json (j_finality s) = Some (mkFinality (current_justified s) (current_justified s) (finalized s)).
Proof.
  intros H1 H2. destruct s as [[ce cr] [fe fr]]. cbn [current_justified finalized] in *. apply (C82_checkpoints_are_read ce cr ce cr fe fr); [intros []|].
  apply write_shows; [vm_compute; reflexivity|]. apply x_cont. cbn [wf_all]. repeat split; now apply (x_checkpoint (mkCheckpoint _ _)).
Qed.
Lemma j_head fin : fin + 1 < 2 ^ 64 -> ask_finality j_end (j_server fin) Head = Ok (mkFinality (j_cp (fin + 1)) (j_cp (fin + 1)) (j_cp fin)).
Proof. intros H. unfold ask_finality. rewrite j_asked. cbn [j_reply]. rewrite j_finality_read by (apply j_cp_wf; lia). reflexivity. Qed.
Notation j_chain fin := (json_chain n_codec j_end (j_server fin)).
Lemma j_chain_at fin e : u_T + 1 <= e <= u_T + 4 -> state_at (network_spec Mainnet) (j_chain fin) e (j_at e).
Proof.
  intros H. unfold state_at. cbn [json_chain ch_state]. change (slots_per_epoch (network_spec Mainnet)) with 32.
  unfold ask_finality. rewrite j_asked. cbn [j_reply]. rewrite N.mod_mul, N.div_mul by discriminate. replace (_ && _) with true by lia.
  rewrite j_finality_read by (apply j_cp_wf; unfold u_T in *; lia). cbn [ok_or bind f_current_justified f_finalized]. unfold cs_new, is_valid.
  cbn [j_at current_justified finalized j_cp epoch]. replace (e - 2 <? e - 1) with true by (unfold u_T in *; lia). reflexivity.
Qed.
Lemma j_atts_wf e : u_target e -> Forall (fun a => att_electra a = true /\ wf_attestation n_codec a) (j_atts e).
Proof.
  intros He. apply Forall_forall. intros a Ha. apply in_map_iff in Ha as (k & <- & Hk). split; [reflexivity|].
  destruct He as [->| ->]; repeat destruct Hk as [<-|Hk]; try contradiction; (constructor; small || (repeat split; small)).
Qed.
Lemma j_content_wf s atts : j_content s = Some atts -> s < 2 ^ 64 /\ N.of_nat (length atts) <= 8 /\ Forall (fun a => att_electra a = true /\ wf_attestation n_codec a) atts.
Proof.
  intros H. assert (Hs : Forall (fun a => att_electra a = true /\ wf_attestation n_codec a) (j_atts (u_T + 2)) /\ Forall (fun a => att_electra a = true /\ wf_attestation n_codec a) (j_atts (u_T + 3))) by (split; apply j_atts_wf; auto).
  destruct Hs as [H1 H2].
  assert (G : forall P (l : list Attestation), Forall P l -> Forall P (firstn 3 l) /\ Forall P (skipn 3 l)).
  { intros P l F. rewrite <- (firstn_skipn 3 l) in F. now apply Forall_app in F. }
  apply G in H1 as [H1 H1'], H2 as [H2 H2']. unfold j_content in H.
  assert (N : forall t l, Some l = Some atts -> t < 2 ^ 64 -> N.of_nat (length l) <= 8 -> Forall (fun a => att_electra a = true /\ wf_attestation n_codec a) l -> s = t ->
    s < 2 ^ 64 /\ N.of_nat (length atts) <= 8 /\ Forall (fun a => att_electra a = true /\ wf_attestation n_codec a) atts).
  { intros t l E A B D ->. injection E as <-. auto. }
  destruct (N.eqb_spec s (32 * u_T)) as [Es|_]; [eapply (N (32 * u_T)); [exact H|vm_compute; reflexivity|vm_compute; discriminate|constructor|exact Es]|].
  destruct (N.eqb_spec s (32 * (u_T + 1))) as [Es|_]; [eapply (N (32 * (u_T + 1))); [exact H|vm_compute; reflexivity|vm_compute; discriminate|constructor|exact Es]|].
  destruct (N.eqb_spec s (32 * (u_T + 2) + 20)) as [Es|_]; [eapply (N (32 * (u_T + 2) + 20)); [exact H|vm_compute; reflexivity|vm_compute; discriminate|exact H1|exact Es]|].
  destruct (N.eqb_spec s (32 * (u_T + 3))) as [Es|_]; [eapply (N (32 * (u_T + 3))); [exact H|vm_compute; reflexivity|vm_compute; discriminate|exact H1'|exact Es]|].
  destruct (N.eqb_spec s (32 * (u_T + 3) + 20)) as [Es|_]; [eapply (N (32 * (u_T + 3) + 20)); [exact H|vm_compute; reflexivity|vm_compute; discriminate|exact H2|exact Es]|].
  destruct (N.eqb_spec s (32 * (u_T + 4))) as [Es|_]; [eapply (N (32 * (u_T + 4))); [exact H|vm_compute; reflexivity|vm_compute; discriminate|exact H2'|exact Es]|].
  discriminate H.
Qed.
Lemma j_block_read fin s : ask_block j_end (j_server fin) (AtSlot s) = Ok (option_map (fun atts => mkTBlock VElectra (j_block_value s atts)) (j_content s)).
Proof.
  unfold ask_block. rewrite j_asked. cbn [j_reply]. destruct (j_content s) as [atts|] eqn:E; [|reflexivity].
  apply j_content_wf in E as (E1 & E2 & E3). unfold x_answer. rewrite C85_written_block_is_read; [reflexivity|intros []|intros []|].
  apply (x_block_wf n_codec); auto; [exact u_limits|reflexivity|apply j_state_root_length].
Qed.
Lemma j_block_at fin s : ch_block (j_chain fin) s = Ok (option_map (mkBlock true) (j_content s)).
Proof.
  cbn [json_chain ch_block]. rewrite j_block_read. cbn [code map_err bind]. destruct (j_content s) as [atts|] eqn:E; [|reflexivity]. cbn [option_map].
  apply j_content_wf in E as (_ & _ & E). unfold j_block_value. rewrite x_view by (exact n_sane || exact u_limits || exact E). reflexivity.
Qed.
Lemma j_block_header e : block_header g_hash (mkTBlock VElectra (j_block_value (32 * e) [])) = j_header e.
Proof.
  unfold j_header, block_header, j_block_value, x_block. cbn [tb_value sub as_seq as_num as_bytes nth].
  rewrite (N.mul_comm 32 e), N.div_mul by discriminate. apply (f_equal (fun b => mkHeader _ _ _ _ (MLeaf b))). vm_compute. reflexivity.
Qed.
Lemma j_blocks_at fin e : e = u_T \/ e = u_T + 1 -> nd_blocks (j_node fin) (32 * e) = Ok (Some (j_header e)).
Proof.
  intros He. cbn [j_node json_node nd_blocks]. rewrite j_block_read. assert (j_content (32 * e) = Some []) as -> by (destruct He as [->| ->]; reflexivity).
  cbn [option_map code map_err opt_map bind]. now rewrite j_block_header.
Qed.
Lemma j_header_read e : e < 2 ^ 59 -> header_of_json (j_header_answer e) = Some (j_header e).
Proof.
  intros H. unfold j_header_answer, j_header. apply (C82_header_is_read (root (j_cp e)) true _ _ _ _ _ (repeat x00 96)); [intros []|].
  apply write_shows; [vm_compute; reflexivity|]. apply x_cont. cbn [wf_all]. repeat split; try (apply x_bytes; vm_compute; reflexivity).
  - apply x_bytes. destruct (j_cp_wf e) as [_ L]; [lia|]. unfold b32 in L. lia.
  - now exists true.
  - apply x_cont. cbn [wf_all]. repeat split; try (apply x_bytes; vm_compute; reflexivity).
    apply x_cont. cbn [wf_all]. repeat split; try (apply x_bytes; vm_compute; reflexivity); try (apply x_number; lia). apply x_bytes. rewrite j_state_root_length. reflexivity.
Qed.
Lemma j_headers_at fin e : e = u_T + 1 \/ e = u_T + 2 -> nd_headers (j_node fin) (root (j_cp e)) = Ok (Some (j_header e)).
Proof.
  intros He. cbn [j_node json_node nd_headers]. unfold ask_header. rewrite j_asked. cbn [j_reply].
  destruct He as [->| ->].
  - assert (bytes_eqb (root (j_cp (u_T + 1))) j_root1 = true) as -> by (vm_compute; reflexivity). rewrite j_header_read by (vm_compute; reflexivity). reflexivity.
  - assert (bytes_eqb (root (j_cp (u_T + 2))) j_root1 = false) as -> by (vm_compute; reflexivity).
    assert (bytes_eqb (root (j_cp (u_T + 2))) j_root2 = true) as -> by (vm_compute; reflexivity). rewrite j_header_read by (vm_compute; reflexivity). reflexivity.
Qed.
(** ** One step *)
Lemma j_next fin e : u_target e -> next_finality (network_spec Mainnet) (j_chain fin) (j_cp (e - 2)) e (j_at e) [] (j_at (e + 1)) [j_link e].
Proof.
  intros He. assert (L : j_at (e + 1) = mkCS (j_cp e) (j_cp (e - 1))).
  { unfold j_at. replace (e + 1 - 1) with e by lia. now replace (e + 1 - 2) with (e - 1) by (destruct He; unfold u_T in *; lia). }
  constructor.
  - split; [cbn [j_cp epoch]; unfold u_T in *; lia|]. split.
    + exists (j_at e). split; [apply j_chain_at; lia|reflexivity].
    + intros e' He'. cbn [j_cp epoch] in *. exists (j_at e'). split; [apply j_chain_at; unfold u_T in *; lia|]. cbn [j_at finalized j_cp epoch]. unfold u_T in *. lia.
  - apply j_chain_at. lia.
  - cbn [app states_from]. split; [|exact I]. apply j_chain_at. lia.
  - constructor.
  - destruct He as [->| ->]; vm_compute; discriminate.
  - cbn [app]. rewrite L. unfold j_at, j_link. apply hist_link; [left|apply FFG.ffg_finalize|intros [Hg _]; destruct He as [->| ->]; discriminate Hg|constructor]; destruct He as [->| ->]; vm_compute; reflexivity.
Qed.
Definition j_bs (e : N) : list Block :=
  (if e =? u_T + 3 then [mkBlock true (skipn 3 (j_atts (u_T + 2)))] else []) ++ [mkBlock true (firstn 3 (j_atts e)); mkBlock true (skipn 3 (j_atts e))].
Lemma j_window fin e : u_target e -> vote_window (network_spec Mainnet) (j_chain fin) [j_link e] (j_bs e).
Proof.
  intros He. constructor; [|destruct He as [->| ->]; repeat constructor].
  exists e, e, (map (fun k => 32 * e + N.of_nat k) (seq 0 33)). split; [|split; [destruct He as [->| ->]; vm_compute; reflexivity|split]].
  - split; [|split].
    + intros l [<-|[]]. cbn. lia.
    + exists (j_link e). split; [now left|reflexivity].
    + exists (j_link e). split; [now left|reflexivity].
  - change (slots_per_epoch (network_spec Mainnet)) with 32. split.
    + generalize 0%nat, 33%nat. intros a k. revert a. induction k as [|k IH]; intros a; cbn [seq map]; constructor; [apply IH|].
      apply Forall_forall. intros x Hx. apply in_map_iff in Hx as (j & <- & Hj). apply in_seq in Hj. lia.
    + intros x. rewrite in_map_iff. split.
      * intros (j & <- & Hj). apply in_seq in Hj. lia.
      * intros Hx. exists (N.to_nat (x - 32 * e)). split; [lia|]. apply in_seq. lia.
  - exists (map (fun k => option_map (mkBlock true) (j_content (32 * e + N.of_nat k))) (seq 0 33)). split; [|destruct He as [->| ->]; reflexivity].
    generalize (seq 0 33). intros l. induction l as [|k l IH]; constructor; [apply j_block_at|exact IH].
Qed.
Lemma j_votes e : u_target e -> votes_for (j_link e) (included (j_bs e)) = j_atts e.
Proof. intros He. rewrite votes_for_eqb. destruct He as [->| ->]; vm_compute; reflexivity. Qed.
Lemma j_chain_votes e : u_target e -> chain_votes [j_link e] (j_bs e) = j_atts e.
Proof. intros He. unfold chain_votes. cbn [flat_map]. now rewrite j_votes, app_nil_r. Qed.
Lemma j_votes_all e (P : Attestation -> Prop) : (forall k, In k u_ks -> P (j_att e k)) -> Forall P (j_atts e).
Proof. intros H. apply Forall_forall. intros a Ha. apply in_map_iff in Ha as (k & <- & Hk). auto. Qed.
Lemma j_targets e x : In x (target_epochs (j_atts e)) <-> x = e.
Proof.
  split; [intros H; apply in_map_iff in H as (a & <- & Ha); apply in_map_iff in Ha as (k & <- & _); reflexivity|].
  intros ->. left. reflexivity.
Qed.
Lemma j_attesters e vs k : vs = w_vs \/ vs = m_vs Mainnet -> u_target e -> In k u_ks ->
  attesting_indices z_X vs (toy_root 10) (j_att e k) = [nth (N.to_nat k) (u_order e) 0].
Proof.
  intros Hv He Hk. unfold attesting_indices. change (epoch (ad_target (att_data (j_att e k)))) with e. cbv zeta. rewrite u_active by assumption.
  change (committees_per_slot (N.of_nat (length [0; 1; 2; 3; 4; 5; 6; 7]))) with 1. change (sha256 z_X) with g_hash.
  unfold spec_attesters. change (set_positions (committee_bits (j_att e k))) with [0]. cbn [map concat].
  change (ad_slot (att_data (j_att e k))) with (32 * e + 4 * k + 3). rewrite u_committee, app_nil_r by assumption.
  cbn [j_att aggregation_bits]. destruct He as [->| ->]; repeat destruct Hk as [<-|Hk]; try contradiction; reflexivity.
Qed.
Lemma j_justified e st : st_validators st = w_vs \/ st_validators st = m_vs Mainnet -> st_genesis_validators_root st = toy_gvr -> u_target e ->
  justified_by z_X Mainnet st (toy_root 10) (j_link e) (j_atts e).
Proof.
  intros Hv Hg He. split.
  - apply j_votes_all. intros k Hk. unfold vote_valid. rewrite j_attesters by assumption.
    split; [reflexivity|]. split; [reflexivity|]. split; [reflexivity|].
    split; [destruct He as [->| ->]; repeat destruct Hk as [<-|Hk]; try contradiction; vm_compute; reflexivity|]. split; [reflexivity|]. split; [discriminate|].
    exists [g_key (nth (N.to_nat k) (u_order e) 0)]. split.
    + cbn [map]. rewrite u_keys by assumption. destruct He as [->| ->]; repeat destruct Hk as [<-|Hk]; try contradiction; vm_compute; reflexivity.
    + rewrite Hg. destruct He as [->| ->]; repeat destruct Hk as [<-|Hk]; try contradiction; vm_compute; reflexivity.
  - assert (V : voters z_X (st_validators st) (toy_root 10) (epoch (target (j_link e))) (j_atts e) =
      filter (fun i => existsb (fun k => i =? nth (N.to_nat k) (u_order e) 0) u_ks && negb (is_slashed (st_validators st) i)) (active_indices (st_validators st) e)).
    { unfold voters. apply filter_ext. intros i. f_equal. unfold j_atts, u_ks. cbn [map existsb]. rewrite !j_attesters by (assumption || (unfold u_ks; cbn [In]; tauto)).
      cbn [mem existsb]. now rewrite !orb_false_r. }
    rewrite V. change (epoch (target (j_link e))) with e. destruct Hv as [-> | ->]; destruct He as [->| ->]; vm_compute; discriminate.
Qed.
Lemma j_includable e vs : vs = w_vs \/ vs = m_vs Mainnet -> u_target e -> Forall (includable z_X vs (toy_root 10)) (j_atts e).
Proof.
  intros Hv He. apply j_votes_all. intros k Hk. unfold includable. change (epoch (ad_target (att_data (j_att e k)))) with e. rewrite u_active by assumption.
  cbv zeta. change (set_positions (committee_bits (j_att e k))) with [0].
  change (committees_per_slot (N.of_nat (length [0; 1; 2; 3; 4; 5; 6; 7]))) with 1. change (sha256 z_X) with g_hash.
  split; [constructor; [lia|constructor]|]. exists [[true]]. split; [|repeat constructor].
  cbn [map]. change (ad_slot (att_data (j_att e k))) with (32 * e + 4 * k + 3). rewrite u_committee by assumption.
  change (aggregation_bits (j_att e k)) with ([true] ++ []). constructor; [reflexivity|constructor].
Qed.
Lemma j_here fin e : u_target e -> nd_states (j_node fin) (32 * (e - 2)) = Ok (j_hstate (e - 2)).
Proof. intros He. apply j_states_at. unfold j_epochs, u_T in *. cbn [In]. lia. Qed.
Lemma j_later fin e : u_target e -> nd_states (j_node fin) (32 * e) = Ok (j_hstate e).
Proof. intros He. apply j_states_at. unfold j_epochs, u_T in *. cbn [In]. lia. Qed.
Lemma j_old e : u_target e -> st_validators (hs_state (j_hstate (e - 2))) = w_vs.
Proof. intros He. rewrite j_st_validators. unfold j_vs. now replace (e - 2 <? u_T + 2) with true by (unfold u_T in *; lia). Qed.
Lemma j_new e : u_target e -> st_validators (hs_state (j_hstate e)) = m_vs Mainnet.
Proof. intros He. rewrite j_st_validators. unfold j_vs. now replace (e <? u_T + 2) with false by (unfold u_T in *; lia). Qed.
Lemma j_ok {E} (a b : HState) : @Ok E HState a = Ok b -> a = b.
Proof. intros H. now injection H. Qed.
Lemma j_later_is fin e st : u_target e -> nd_states (j_node fin) (32 * e) = Ok st -> st = j_hstate e.
Proof. intros He H. rewrite j_later in H by exact He. now apply j_ok in H. Qed.
Lemma j_mix e i : i < 65536 -> nth_error (hs_randao_mixes (j_hstate e)) (N.to_nat i) = Some (toy_root 10).
Proof. rewrite j_mixes. apply z_mix. Qed.
Lemma j_honest fin e : u_target e -> Forall (fun l =>
  honest_votes Mainnet z_X h_deserialize (nd_states (j_node fin)) (j_cp (e - 2)) (j_hstate (e - 2)) l (votes_for l (included (j_bs e))) /\
  trusted_support Mainnet z_X (nd_states (j_node fin)) (j_hstate (e - 2)) l (votes_for l (included (j_bs e)))) [j_link e].
Proof.
  intros He. constructor; [|constructor]. rewrite j_votes by exact He. split; [constructor|].
  - discriminate.
  - cbn [j_link j_cp target epoch]. destruct He as [->| ->]; split; vm_compute; discriminate.
  - exists (j_hstate e), (toy_root 10). change (epoch (target (j_link e))) with e.
    split; [now apply j_later|]. split; [now rewrite !j_st_gvr|]. rewrite (j_new e He). split; [apply m_keys|].
    split. { apply j_mix. apply N.mod_lt. discriminate. }
    split; [vm_compute; reflexivity|]. split. { rewrite u_active by auto. reflexivity. }
    split; [vm_compute; reflexivity|].
    split; [apply j_justified; [right; now apply j_new|apply j_st_gvr|exact He]|apply j_includable; auto].
  - intros st' mix E Hm. change (epoch (target (j_link e))) with e in *. apply j_later_is in E; [|exact He]. subst st'.
    rewrite j_mix in Hm by (apply N.mod_lt; discriminate). injection Hm as <-.
    apply (j_justified e (hs_state (j_hstate (e - 2)))); [left; now apply j_old|apply j_st_gvr|exact He].
Qed.
Lemma j_moving fin e : u_target e -> moving_chain Mainnet (nd_states (j_node fin)) (j_cp (e - 2)) (j_hstate (e - 2)) (j_atts e).
Proof.
  intros He. assert (Hl : forall x st', In x (target_epochs (j_atts e)) -> nd_states (j_node fin) (32 * x) = Ok st' -> x = e /\ st' = j_hstate e).
  { intros x st' Hx E. apply j_targets in Hx as ->. apply j_later_is in E; auto. }
  constructor.
  - intros s st' E. apply j_states_some in E as (x & _ & _ & ->). now rewrite !j_st_gvr.
  - intros st' i v v' E Hv Hv'. cbn [j_cp epoch] in E. rewrite j_here in E by exact He. apply j_ok in E. subst st'. congruence.
  - intros x Hx. apply j_targets in Hx as ->. rewrite j_st_slot. destruct He as [->| ->]; vm_compute; discriminate.
  - intros x st' Hx E. apply Hl in E as [-> ->]; [|exact Hx]. apply j_st_fork.
  - intros x st' Hx E. apply Hl in E as [-> ->]; [|exact Hx]. rewrite (j_new e He), (j_old e He). apply u_moves. cbn [j_cp epoch]. unfold u_T in *. lia.
  - intros x st' i ex v Hx E Hn Hv. apply Hl in E as [-> ->]; [|exact Hx]. rewrite (j_old e He), (j_new e He) in Hn. rewrite (j_old e He) in Hv.
    split; [apply nth_error_In in Hv; apply in_map_iff in Hv as (j & <- & _); reflexivity|].
    apply m_new in Hn as [[= <- <-]|[[= <- <-]|[]]]; destruct He as [->| ->]; vm_compute; discriminate.
  - exists (mkQueue 0 0), [e]. rewrite (j_old e He). rewrite j_st_exit. cbn [j_cp epoch].
    split; [reflexivity|]. split; [apply N.le_0_l|]. split; [repeat constructor|].
    split. { intros x. rewrite j_targets. cbn [In]. intuition congruence. }
    assert (Q : exists evs q', queue_run (network_spec Mainnet) (balance_at w_vs) (e - 2) (doubled_churn Mainnet w_vs (e - 2)) (mkQueue 0 0) evs
      [(m_out Mainnet, w_trust Mainnet + 6); (5, w_trust Mainnet + 6)] q').
    { exists [Exit (m_out Mainnet) (u_T + 1) 256000000000; Exit 5 (u_T + 1) 256000000000]. eexists.
      set (q1 := assign (network_spec Mainnet) (u_T + 1) 256000000000 (balance_at w_vs (m_out Mainnet)) (mkQueue 0 0)).
      replace [(m_out Mainnet, w_trust Mainnet + 6); (5, w_trust Mainnet + 6)] with
        [(m_out Mainnet, q_epoch q1); (5, q_epoch (assign (network_spec Mainnet) (u_T + 1) 256000000000 (balance_at w_vs 5) q1))] by (vm_compute; reflexivity).
      apply qr_exit; [unfold u_T in *; lia|split; [reflexivity|destruct He as [->| ->]; vm_compute; discriminate]|].
      apply qr_exit; [unfold u_T in *; lia|split; [reflexivity|destruct He as [->| ->]; vm_compute; discriminate]|apply qr_nil]. }
    destruct Q as (evs & q' & Q).
    assert (Es : nd_states (j_node fin) (start_slot (network_spec Mainnet) e) = Ok (j_hstate e)).
    { replace (start_slot (network_spec Mainnet) e) with (32 * e); [now apply j_later|]. destruct He as [->| ->]; reflexivity. }
    eapply qe_cons; [exact Es|exact Q|rewrite (j_new e He); apply m_new|exact I|apply qe_nil].
Qed.
Lemma j_boundary e : u_target e -> boundary_block z_X (j_hstate (e - 2)) = j_header (e - 2).
Proof.
  intros He. unfold boundary_block. rewrite j_hs_header. cbn [hd_slot hd_proposer_index hd_parent_root hd_body]. unfold tree_root. change (sha256 z_X) with g_hash.
  rewrite j_state_root_is by (unfold j_epochs, u_T in *; cbn [In]; lia). unfold j_header. apply (f_equal (fun b => mkHeader _ _ _ b _)).
  fold (j_tree (e - 2)). destruct He as [->| ->]; vm_compute; reflexivity.
Qed.
Lemma j_header_root e : u_target e -> mroot g_hash (header_tree g_hash (j_header (e - 2))) = root (j_cp (e - 2)).
Proof. intros [->| ->]; vm_compute; reflexivity. Qed.
Lemma j_no_collision e : u_target e -> no_collision g_hash (header_tree g_hash (j_header (e - 2))) (header_tree g_hash (j_header (e - 2))).
Proof.
  intros He. assert (J : inj_b g_hash (hash_inputs g_hash (header_tree g_hash (j_header (e - 2)))) = true) by (destruct He as [->| ->]; vm_compute; reflexivity).
  apply inj_b_sound in J. eapply injective_on_incl; [exact J|]. intros y Hy. apply in_app_iff in Hy. tauto.
Qed.
Lemma j_checkpoint fin e : u_target e -> checkpoint_state z_X (network_spec Mainnet) (nd_states (j_node fin)) (j_cp (e - 2)) = Ok (j_hstate (e - 2)).
Proof.
  intros He. unfold checkpoint_state, state_at_checkpoint, state_at_epoch_boundary, state_at_epoch. cbn [j_cp epoch].
  replace (start_slot (network_spec Mainnet) (e - 2)) with (32 * (e - 2)) by (destruct He as [->| ->]; reflexivity).
  rewrite j_here by exact He. cbn [bind]. rewrite j_hs_header, j_st_slot. cbn [hd_slot]. rewrite N.eqb_refl. cbn [bind].
  unfold boundary_root. rewrite j_boundary by exact He. fold (j_cp (e - 2)).
  assert (E : bytes_eqb (root (j_cp (e - 2))) (tree_root z_X (header_tree (sha256 z_X) (j_header (e - 2)))) = true) by (apply bytes_eqb_eq; symmetry; now apply j_header_root).
  unfold ensure. rewrite E. reflexivity.
Qed.
Lemma j_step fin e : u_target e -> json_next Mainnet z_X n_codec h_deserialize j_end (j_server fin) 5 (j_cp (e - 2)) (j_at e) (j_at (e + 1)) (32 * (e - 1)).
Proof.
  intros He. exists e, [], [j_link e], (j_bs e), (j_hstate (e - 2)), (j_hstate (e - 2)), (j_header (e - 1)), (j_header (e - 2)).
  destruct (z_typed Mainnet) as [T1 _ _ _]. destruct (z_sound Mainnet) as [A1 A2 A3 _ _ _ _ _].
  constructor; change (sha256 z_X) with g_hash; fold (j_node fin); rewrite ?j_chain_votes by exact He.
  - now apply j_next.
  - now apply j_window.
  - split; [cbn [j_cp epoch]; unfold u_T in *; lia|]. split; [cbn; lia|]. destruct He as [->| ->]; vm_compute; reflexivity.
  - now apply j_honest.
  - replace (finalized (j_at (e + 1))) with (j_cp (e - 1)) by (cbn [j_at finalized]; f_equal; unfold u_T in *; lia).
    split; [apply j_headers_at; unfold u_T in *; lia|]. split; [destruct He as [->| ->]; vm_compute; reflexivity|reflexivity].
  - split; [now apply j_checkpoint|]. split; [apply j_supported|]. rewrite j_hs_header. cbn [hd_slot]. split; [apply j_blocks_at; unfold u_T in *; lia|].
    split; [now apply j_header_root|]. rewrite j_boundary by exact He.
    now apply j_no_collision.
  - exact (conj A1 (conj A2 (conj A3 T1))).
  - rewrite (j_old e He). apply z_keys.
  - rewrite j_st_fork, j_st_slot. f_equal. now rewrite N.mul_comm, N.div_mul by discriminate.
  - split; [now apply j_here|]. rewrite (j_old e He). apply z_keys.
  - now apply j_moving.
  - rewrite (j_old e He). split; [destruct He as [->| ->]; vm_compute; reflexivity|]. split; [destruct He as [->| ->]; split; vm_compute; (reflexivity || discriminate)|].
    split; [vm_compute; reflexivity|]. split; [vm_compute; reflexivity|]. destruct He as [->| ->]; vm_compute; reflexivity.
Qed.
Lemma j_stepA fin : json_next Mainnet z_X n_codec h_deserialize j_end (j_server fin) 5 (j_cp u_T) (j_at (u_T + 2)) (j_at (u_T + 3)) (32 * (u_T + 1)).
Proof.
  replace (j_cp u_T) with (j_cp (u_T + 2 - 2)) by (f_equal; unfold u_T; lia). replace (j_at (u_T + 3)) with (j_at (u_T + 2 + 1)) by (f_equal; lia).
  replace (32 * (u_T + 1)) with (32 * (u_T + 2 - 1)) by lia. apply j_step. now left.
Qed.
Lemma j_stepB fin : json_next Mainnet z_X n_codec h_deserialize j_end (j_server fin) 5 (j_cp (u_T + 1)) (j_at (u_T + 3)) (j_at (u_T + 4)) (32 * (u_T + 2)).
Proof.
  replace (j_cp (u_T + 1)) with (j_cp (u_T + 3 - 2)) by (f_equal; unfold u_T; lia). replace (j_at (u_T + 4)) with (j_at (u_T + 3 + 1)) by (f_equal; lia).
  replace (32 * (u_T + 2)) with (32 * (u_T + 3 - 1)) by lia. apply j_step. now right.
Qed.
Lemma j_fin3 : finalized (j_at (u_T + 3)) = j_cp (u_T + 1).
Proof. unfold j_at. cbn [finalized]. f_equal. Qed.
Definition j_steps : list (ConsensusState * ConsensusState * Slot) :=
  [(j_at (u_T + 2), j_at (u_T + 3), 32 * (u_T + 1)); (j_at (u_T + 3), j_at (u_T + 4), 32 * (u_T + 2))].
(** The node's answers at four looks. *)
Definition j_servers : list (Url -> Reply json) := [j_server u_T; j_server (u_T + 1); j_server (u_T + 1); j_server (u_T + 2)].
Lemma j_watch : json_watch Mainnet z_X n_codec h_deserialize j_end 5 j_servers (j_cp u_T) j_steps.
Proof.
  eapply jw_wait; [apply j_head; vm_compute; reflexivity|vm_compute; discriminate|vm_compute; reflexivity|].
  eapply jw_step; [apply j_head; vm_compute; reflexivity|vm_compute; reflexivity|apply j_stepA|]; rewrite j_fin3.
  eapply jw_wait; [apply j_head; vm_compute; reflexivity|vm_compute; discriminate|vm_compute; reflexivity|].
  eapply jw_step; [apply j_head; vm_compute; reflexivity|vm_compute; reflexivity|apply j_stepB|apply jw_end].
Qed.
Lemma j_follow : json_follow Mainnet z_X n_codec h_deserialize j_end 5 [j_server (u_T + 1); j_server (u_T + 2)] (j_at (u_T + 2)) [j_at (u_T + 3); j_at (u_T + 4)].
Proof.
  eapply jf_step; [apply j_stepA|]. eapply jf_step; [rewrite j_fin3; apply j_stepB|apply jf_end].
Qed.
Lemma j_block_is_read : block_of_json (x_answer VElectra (j_block_value (32 * u_T) []) []) = Some (mkTBlock VElectra (j_block_value (32 * u_T) [])).
Proof.
  destruct (j_content_wf (32 * u_T) []) as (E1 & E2 & E3); [reflexivity|]. unfold x_answer. rewrite C85_written_block_is_read; [reflexivity|intros []|intros []|].
  apply (x_block_wf n_codec); [exact u_limits|exact E1|reflexivity|reflexivity|apply j_state_root_length|exact E2|exact E3].
Qed.
