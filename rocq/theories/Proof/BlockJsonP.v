(** C85: the blocks the host works with. *)
From Coq Require Import String List Arith NArith Bool Lia ZifyBool ZifyNat ZifyN.
From Coq.Init Require Import Byte.
From Verif.Model Require Import Base Types ConsensusState GuestReader Verify HostChain HostStore HostInput CliRun BeaconClient StateFile.
From Verif.Model Require InputCodec.
From Verif.Spec Require Import Merkle Ssz Beacon InputCodecSpec Honest StateJsonSpec HashTreeRoot BlockSpec.
From Verif.Model Require Import StateJson StateView BlockJson.
From Verif.Proof Require Import BaseLemmas StateJsonP StateViewP.
From Verif.Proof Require InputCodecP.
Import ListNotations.
Open Scope list_scope.
Open Scope N_scope.

(** ** Reading *)
Lemma api_block v : api (block_t v) = Some (BeaconBlock v).
Proof. destruct v; vm_compute; reflexivity. Qed.
(** A Fulu block is an Electra block. *)
Definition read_as (v : version) : version := match v with VFulu => VElectra | _ => v end.
Lemma read_as_kind v : BeaconBlock (read_as v) = BeaconBlock v.
Proof. destruct v; reflexivity. Qed.
Lemma block_additions_required v v' w : next_version v = Some v' -> newer v w = true -> w <> VFulu ->
  Forall (requires (block_t w)) (block_additions v').
Proof.
  intros Hn Hw Hf. apply Forall_forall. intros path Hp. apply requires_b_sound. revert path Hp. apply Forall_forall.
  destruct v; cbn in Hn; try discriminate; injection Hn as <-; destruct w; try discriminate Hw; try (now destruct Hf); repeat constructor.
Qed.
Lemma newer_block_refused v w j : block_not_newer v j -> newer v w = true -> w <> VFulu -> from_json (block_t w) j = None.
Proof.
  unfold block_not_newer. intros Hn Hw Hf. destruct (next_version v) as [v'|] eqn:E; [|destruct v; try discriminate; destruct w; discriminate].
  assert (v' <> VFulu) as Hv by (intros ->; destruct v; try discriminate E; destruct w; try discriminate Hw; now apply Hf).
  destruct v'; try (now destruct Hv); destruct Hn as (path & Hp & Hl);
    (eapply lacks_refused; [|exact Hl]; pose proof (block_additions_required _ _ _ E Hw Hf) as F; rewrite Forall_forall in F; now apply F).
Qed.
Theorem block_shown v x j : shows (BeaconBlock v) x j -> block_not_newer v j -> block_of_value j = Some (mkTBlock (read_as v) x).
Proof.
  intros Hs Hn. rewrite <- read_as_kind in Hs. pose proof (read_shown _ _ _ _ (api_block (read_as v)) Hs) as R. unfold block_of_value, block_order. cbn [try_blocks].
  assert (forall w, newer v w = true -> w <> VFulu -> from_json (block_t w) j = None) as F by (intros; eapply newer_block_refused; eauto).
  destruct v; cbn [read_as] in *; rewrite ?F by (reflexivity || discriminate); now rewrite R.
Qed.
Lemma block_answer_read b s more more' : ~ In "data"%string (map fst more) -> ~ In "message"%string (map fst more') ->
  block_of_json (block_answer b s more more') = block_of_value b.
Proof.
  intros H1 H2. unfold block_of_json, block_answer. rewrite response_answer by assumption. unfold only_member. cbn [filter fst String.eqb Ascii.eqb Bool.eqb].
  now rewrite filter_absent.
Qed.
Lemma try_blocks_some order j b : try_blocks order j = Some b -> In (tb_version b) order /\ from_json (block_t (tb_version b)) j = Some (tb_value b).
Proof.
  induction order as [|v r IH]; cbn [try_blocks]; [discriminate|]. destruct (from_json (block_t v) j) as [x|] eqn:E.
  - intros H. injection H as <-. cbn. auto.
  - intros H. apply IH in H as [H1 H2]. cbn. auto.
Qed.
Lemma block_of_json_value j b : block_of_json j = Some b -> exists d, block_of_value d = Some b.
Proof.
  unfold block_of_json. destruct (response_data j) as [[| | | |l|m]|]; try discriminate.
  - destruct l as [|d [|? ?]]; try discriminate. eauto.
  - destruct (only_member m "message"); [eauto|discriminate].
Qed.
Lemma read_block_wf j b : block_of_json j = Some b -> wf (BeaconBlock (tb_version b)) (tb_value b).
Proof.
  intros H. apply block_of_json_value in H as (d & H). apply try_blocks_some in H as [_ H].
  apply (typed_wf (block_t (tb_version b))); [apply api_block|]. eapply from_json_typed. exact H.
Qed.
Lemma read_block_version j b : block_of_json j = Some b -> In (tb_version b) block_order.
Proof. intros H. apply block_of_json_value in H as (d & H). now apply try_blocks_some in H as [H _]. Qed.

(** What an ordinary node writes. *)
Lemma block_distinct v : distinct (BeaconBlock v) = true.
Proof. destruct v; vm_compute; reflexivity. Qed.
Lemma written_lacks fs vs name : wf (Container fs) (VSeq vs) -> ~ In name (map fst fs) -> lacks [name] (write (Container fs) (VSeq vs)).
Proof.
  intros Hw Hn. apply wf_container in Hw as (? & E & Hw). injection E as <-. rewrite write_container. exists (write_all fs vs). split; auto. left. now rewrite write_names.
Qed.
Lemma written_lacks_in fs v n k rest : distinct (Container fs) = true -> wf (Container fs) v -> In (n, k) fs ->
  (forall x, wf k x -> lacks rest (write k x)) -> lacks (n :: rest) (write (Container fs) v).
Proof.
  intros D Hw Hi Hr. apply wf_container in Hw as (vs & -> & Hw). rewrite write_container. exists (write_all fs vs). split; auto. right.
  rewrite distinct_container in D. apply andb_true_iff in D as [D _]. split; [rewrite write_names by assumption; now apply nodup_b_sound|].
  clear D. revert vs Hw Hi. induction fs as [|[n' k'] fs IH]; intros [|x vs] Hw Hi; cbn in Hw; try tauto; [destruct Hi|].
  destruct Hw as [Hx Hw]. destruct Hi as [Hi|Hi].
  - injection Hi as -> ->. exists (write k x). split; [now left|auto].
  - destruct (IH vs Hw Hi) as (j' & H1 & H2). exists j'. split; auto. now right.
Qed.
Lemma written_block_not_newer v x : wf (BeaconBlock v) x -> block_not_newer v (write (BeaconBlock v) x).
Proof.
  intros Hw. pose proof (block_distinct v) as D.
  assert (forall name, ~ In name (map fst (BlockSpec.body_fields v)) -> lacks ["body"%string; name] (write (BeaconBlock v) x)) as L.
  { intros name Hn. eapply written_lacks_in; [exact D|exact Hw|do 4 right; left; reflexivity|]. intros y Hy. destruct (proj1 (wf_container _ _) Hy) as (ys & -> & _). now apply written_lacks. }
  assert (forall name, In ("execution_payload"%string, Container (payload v)) (BlockSpec.body_fields v) -> ~ In name (map fst (payload v)) ->
    lacks ["body"%string; "execution_payload"%string; name] (write (BeaconBlock v) x)) as L2.
  { intros name Hi Hn. eapply written_lacks_in; [exact D|exact Hw|do 4 right; left; reflexivity|]. intros y Hy. eapply written_lacks_in; [|exact Hy|exact Hi|].
    - unfold BeaconBlock in D. rewrite distinct_container in D. apply andb_true_iff in D as [_ D]. cbn [distinct_all] in D.
      repeat (apply andb_true_iff in D as [? D]). assumption.
    - intros z Hz. destruct (proj1 (wf_container _ _) Hz) as (zs & -> & _). now apply written_lacks. }
  unfold block_not_newer. destruct v; cbn [next_version block_additions]; auto.
  - eexists. split; [left; reflexivity|]. apply L. vm_compute. intuition discriminate.
  - eexists. split; [left; reflexivity|]. apply L. vm_compute. intuition discriminate.
  - eexists. split; [left; reflexivity|]. apply L2; vm_compute; [tauto|intuition discriminate].
  - eexists. split; [left; reflexivity|]. apply L2; vm_compute; [tauto|intuition discriminate].
  - eexists. split; [left; reflexivity|]. apply L. vm_compute. intuition discriminate.
Qed.

(** ** Attestations *)
Lemma attestation_of_value v : wf ElectraAttestation v -> exists a, v = attestation_value a /\ att_electra a = true /\
  N.of_nat (length (aggregation_bits a)) <= 131072 /\ N.of_nat (length (committee_bits a)) = 64 /\
  u64 (ad_slot (att_data a)) /\ u64 (ad_index (att_data a)) /\ b32 (ad_beacon_block_root (att_data a)) /\
  wf_checkpoint (ad_source (att_data a)) /\ wf_checkpoint (ad_target (att_data a)) /\ length (att_signature a) = 96%nat.
Proof.
  intros Hw. unfold ElectraAttestation in Hw. container Hw.
  repeat match goal with
  | W : wf AttestationData_ _ |- _ => container W
  | W : wf Checkpoint_ _ |- _ => container W
  | W : wf BLSSignature _ |- _ => destruct W as (? & -> & ?)
  | W : wf (Bitlist _) _ |- _ => destruct W as (? & -> & ?)
  | W : wf (Bitvector _) _ |- _ => destruct W as (? & -> & ?)
  end. fields. change (2 ^ (8 * N.of_nat 8)) with (2 ^ 64) in *.
  match goal with |- exists a, VSeq [VBits ?bits; VSeq [VNum ?s; VNum ?i; VBytes ?b; VSeq [VNum ?se; VBytes ?sr]; VSeq [VNum ?te; VBytes ?tr]]; VBytes ?sg; VBits ?cb] = _ /\ _ =>
    exists (mkAttestation true bits cb (mkAttestationData s i b (mkCheckpoint se sr) (mkCheckpoint te tr)) sg) end.
  cbn [aggregation_bits committee_bits att_data att_electra att_signature ad_slot ad_index ad_beacon_block_root ad_source ad_target].
  unfold wf_checkpoint, u64, b32. cbn [epoch root]. split; [reflexivity|]. repeat split; auto; lia.
Qed.
Lemma value_ssz a : att_electra a = true -> to_ssz electra_attestation_t (attestation_value a) = encode_container (InputCodec.att_parts a).
Proof.
  intros Ha. unfold electra_attestation_t, attestation_value. rewrite to_ssz_cont. f_equal. unfold InputCodec.att_parts. rewrite Ha. cbn [ssz_parts app].
  assert (forall c, to_ssz checkpoint_t (checkpoint_value c) = InputCodec.ssz_checkpoint c) as Ec.
  { intros c. unfold checkpoint_t, checkpoint_value. rewrite to_ssz_cont, encode_fixed by (repeat constructor; eexists; reflexivity).
    cbn [ssz_parts map concat]. unfold InputCodec.ssz_checkpoint. cbn. now rewrite app_nil_r. }
  assert (to_ssz attestation_data_t (data_value (att_data a)) = InputCodec.ssz_data (att_data a)) as ->.
  { unfold attestation_data_t, data_value. rewrite to_ssz_cont, encode_fixed by (repeat constructor; eexists; reflexivity).
    cbn [ssz_parts map concat]. rewrite !Ec. unfold InputCodec.ssz_data. cbn [part_of ty_size u64_str root_t checkpoint_t part_bytes to_ssz app]. now rewrite app_nil_r. }
  reflexivity.
Qed.
Definition any_sig (C : InputCodec.Codec) : InputCodec.Codec :=
  InputCodec.mkCodec (InputCodec.pk_raw C) (InputCodec.pk_parse C) (fun _ => true) (InputCodec.max_per_committee C) (InputCodec.max_per_slot C) (InputCodec.max_committees C).
Lemma any_sig_unssz C b a : InputCodec.unssz_attestation C b = Some a -> InputCodec.unssz_attestation (any_sig C) b = Some a.
Proof.
  unfold InputCodec.unssz_attestation, any_sig, InputCodec.att_shape. cbn [InputCodec.sig_ok InputCodec.max_per_committee InputCodec.max_per_slot InputCodec.max_committees].
  destruct b as [|z body]; auto. destruct (byte_eqb z x00); [|destruct (byte_eqb z x01); [|auto]].
  - destruct (decode_container _ body) as [[|[?|bits] [|[d|?] [|[sg|?] [|? ?]]]]|]; auto. destruct (InputCodec.unssz_bitlist _ bits); auto.
    destruct (InputCodec.sig_ok C sg); [auto|discriminate].
  - destruct (decode_container _ body) as [[|[?|bits] [|[d|?] [|[sg|?] [|[cb|?] [|? ?]]]]]|]; auto. destruct (InputCodec.unssz_bitlist _ bits); auto.
    destruct (InputCodec.unssz_bitvector _ cb); auto. destruct (InputCodec.sig_ok C sg); [auto|discriminate].
Qed.
Lemma any_sig_sane C : sane_codec C -> sane_codec (any_sig C).
Proof. intros [S1 S2 S3 S4]. now constructor. Qed.
Theorem convert_exact C v : sane_codec C -> mainnet_limits C -> wf ElectraAttestation v -> exists a, v = attestation_value a /\ att_electra a = true /\
  convert_attestation C v = (if InputCodec.sig_ok C (att_signature a) then Some a else None) /\
  (InputCodec.sig_ok C (att_signature a) = true -> wf_attestation C a).
Proof.
  intros S (L1 & L2 & L3) Hw. destruct (attestation_of_value v Hw) as (a & -> & Ea & W1 & W2 & W3 & W4 & W5 & W6 & W7 & W8).
  assert (forall C', InputCodec.max_per_slot C' = 131072 -> InputCodec.max_committees C' = 64 -> InputCodec.sig_ok C' (att_signature a) = true -> wf_attestation C' a) as W.
  { intros C' M1 M2 G. constructor; auto; rewrite Ea, ?M1, ?M2; auto. }
  exists a. split; [reflexivity|]. split; [exact Ea|]. split; [|now apply W]. unfold convert_attestation. rewrite value_ssz by assumption.
  assert (x01 :: encode_container (InputCodec.att_parts a) = InputCodec.ssz_attestation a) as -> by (unfold InputCodec.ssz_attestation; now rewrite Ea).
  destruct (InputCodec.sig_ok C (att_signature a)) eqn:G; [apply InputCodecP.unssz_attestation_ok; auto|].
  destruct (InputCodec.unssz_attestation C (InputCodec.ssz_attestation a)) as [a'|] eqn:E; [|reflexivity]. pose proof (any_sig_unssz _ _ _ E) as E'.
  rewrite InputCodecP.unssz_attestation_ok in E'; [|now apply any_sig_sane|now apply W]. injection E' as <-.
  apply InputCodecP.unssz_attestation_wf in E as [_ _ _ _ _ _ _ [_ E]]. congruence.
Qed.
Lemma value_inj a b : att_electra a = att_electra b -> attestation_value a = attestation_value b -> a = b.
Proof.
  destruct a as [e bits cb [s i r [se sr] [te tr]] sg], b as [e' bits' cb' [s' i' r' [se' sr'] [te' tr']] sg']. cbn. intros -> H. injection H as -> -> -> -> -> -> -> -> -> ->. reflexivity.
Qed.
Theorem convert_all C vs : sane_codec C -> mainnet_limits C -> Forall (wf ElectraAttestation) vs -> exists l, vs = map attestation_value l /\
  Forall (fun a => att_electra a = true) l /\
  all (convert_attestation C) vs = (if forallb (fun a => InputCodec.sig_ok C (att_signature a)) l then Some l else None) /\
  (forallb (fun a => InputCodec.sig_ok C (att_signature a)) l = true -> Forall (wf_attestation C) l).
Proof.
  intros S L Hw. induction Hw as [|v vs Hv _ (l & -> & E & A & W)].
  - exists []. repeat split; constructor.
  - destruct (convert_exact C v S L Hv) as (a & -> & Ea & Ca & Wa). exists (a :: l). split; [reflexivity|]. split; [now constructor|]. cbn [forallb map all]. rewrite Ca, A.
    destruct (InputCodec.sig_ok C (att_signature a)), (forallb (fun a0 => InputCodec.sig_ok C (att_signature a0)) l); cbn [andb]; split; auto; try discriminate.
Qed.

(** The field of the body. *)
Lemma body_names v : map fst (BlockJson.body_fields v) = map fst (BlockSpec.body_fields v).
Proof. destruct v; reflexivity. Qed.
Lemma body_field_wf b name k : wf (BeaconBlock (tb_version b)) (tb_value b) ->
  find (fun f => String.eqb (fst f) name) (BlockSpec.body_fields (tb_version b)) = Some (name, k) -> wf k (body_field b name).
Proof.
  destruct b as [v x]. cbn [tb_version tb_value]. intros Hw Hf. unfold BeaconBlock in Hw. container Hw.
  unfold body_field. cbn [tb_version tb_value]. rewrite body_names. cbn [sub as_seq nth].
  apply wf_container in H3 as (ys & -> & W). change (wf_all (BlockSpec.body_fields v) ys) in W. destruct (find_wf name k _ ys name W Hf) as (x & Ex & Wx).
  cbn [as_seq]. rewrite Ex. exact Wx.
Qed.

(** ** Collecting *)
Lemma fold_push C vs : forall m, fold_outcome (fun m v => a <- ok_or (convert_attestation C v) (HOther 6) ;; Ok (lm_push m (att_link a) a)) vs m =
  match all (convert_attestation C) vs with
  | Some l => Ok (fold_left (fun m a => lm_push m (att_link a) a) l m)
  | None => Err (HOther 6)
  end.
Proof.
  induction vs as [|v vs IH]; intros m; [reflexivity|]. cbn [fold_outcome all]. destruct (convert_attestation C v) as [a|]; cbn [ok_or bind]; [|reflexivity].
  rewrite IH. now destruct (all (convert_attestation C) vs).
Qed.
Lemma index_value C m b : index_block_value C m (Some b) =
  match block_view C b with Ok x => index_block m (Some x) | Err e => Err (HOther e) | Panic => Panic end.
Proof.
  unfold index_block_value, block_view. destruct (is_electra (tb_version b)); [|reflexivity]. rewrite fold_push.
  now destruct (all (convert_attestation C) (as_seq (body_field b "attestations"))).
Qed.
