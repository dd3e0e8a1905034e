(** C85: how blocks are read, and what a node that answers in JSON gives the host. *)
From Coq Require Import String List Arith NArith Bool Lia ZifyBool ZifyNat ZifyN.
From Coq.Init Require Import Byte.
From Verif.Model Require Import Base Types ConsensusState Verify GuestReader HostChain HostStore HostInput CliRun BeaconClient Networks StateFile.
From Verif.Model Require InputCodec.
From Verif.Spec Require Import Merkle Ssz Beacon GuestSpec HostSpec Pipeline HostInputSpec InputCodecSpec Honest StateJsonSpec HashTreeRoot BlockSpec NetworkRun JsonRun.
From Verif.Model Require Import StateJson StateView BlockJson.
From Verif.Proof Require Import BaseLemmas MerkleP BeaconP StateJsonP StateViewP BlockJsonP.
From Verif.Props Require Import StateJsonProps StateViewProps.
Import ListNotations.
Open Scope list_scope.
Open Scope N_scope.

(** ** Reading *)
(** A block of any version, written as the beacon API prescribes, with members in any order and further members at
    any depth, is read with exactly its values, as long as not everything that the next version adds is there too. A
    Fulu block is read as an Electra block, which has the same fields. The version that the answer announces (in
    [more]) is not looked at. *)
Theorem C85_block_is_read v x j s more more' : ~ In "data"%string (map fst more) -> ~ In "message"%string (map fst more') ->
  shows (BeaconBlock v) x j -> block_not_newer v j ->
  block_of_json (block_answer j s more more') = Some (mkTBlock (match v with VFulu => VElectra | _ => v end) x).
Proof. intros H1 H2 Hs Hn. rewrite block_answer_read by assumption. now apply block_shown. Qed.
(** In particular what an ordinary node writes. *)
Theorem C85_written_block_is_read v x s more more' : ~ In "data"%string (map fst more) -> ~ In "message"%string (map fst more') ->
  wf (BeaconBlock v) x ->
  block_of_json (block_answer (write (BeaconBlock v) x) s more more') = Some (mkTBlock (match v with VFulu => VElectra | _ => v end) x).
Proof. intros H1 H2 Hw. apply C85_block_is_read; auto using written_block_not_newer. apply write_shows; auto using block_distinct. Qed.
(** Whatever the node answers, what was read is a block of its version. *)
Theorem C85_values_in_range j b : block_of_json j = Some b -> wf (BeaconBlock (tb_version b)) (tb_value b) /\ tb_version b <> VFulu.
Proof. intros H. split; [now apply read_block_wf with j|]. apply read_block_version in H. intros E. rewrite E in H. cbn in H. intuition discriminate. Qed.
(** A block without something that every version has is refused; one without the requests that Electra adds
    is not taken for an Electra block. *)
Theorem C85_incomplete_block_is_refused path d s more more' : ~ In "data"%string (map fst more) -> ~ In "message"%string (map fst more') ->
  In path ([["slot"%string]; ["proposer_index"%string]; ["parent_root"%string]; ["state_root"%string]; ["body"%string]] ++ map (fun f => ["body"; fst f]%string) (BlockSpec.body_fields VPhase0))%list ->
  lacks path d -> block_of_json (block_answer d s more more') = None.
Proof.
  intros H1 H2 Hp Hl. rewrite block_answer_read by assumption.
  assert (forall v, from_json (block_t v) d = None) as F.
  { intros v. eapply lacks_refused; [|exact Hl]. apply requires_b_sound. revert path Hp Hl. apply (Forall_forall (fun path => lacks path d -> requires_b (block_t v) path = true)).
    destruct v; repeat (constructor; [intros _; reflexivity|]); constructor. }
  unfold block_of_value, block_order. cbn [try_blocks]. now rewrite !F.
Qed.
Theorem C85_electra_needs_requests d s more more' b : ~ In "data"%string (map fst more) -> ~ In "message"%string (map fst more') ->
  lacks ["body"; "execution_requests"]%string d -> block_of_json (block_answer d s more more') = Some b -> tb_version b <> VElectra.
Proof.
  intros H1 H2 Hl Hb E. rewrite block_answer_read in Hb by assumption. apply try_blocks_some in Hb as [_ Hb]. rewrite E in Hb.
  rewrite (lacks_refused ["body"; "execution_requests"]%string) in Hb; [discriminate| |exact Hl]. apply requires_b_sound. reflexivity.
Qed.

(** ** Attestations *)
(** The fields of a body by name. *)
Definition body_named (b : TBlock) : list (string * val) :=
  match tb_value b with
  | VSeq [_; _; _; _; VSeq body] => combine (map fst (BlockSpec.body_fields (tb_version b))) body
  | _ => []
  end.
Lemma body_field_named b name k : wf (BeaconBlock (tb_version b)) (tb_value b) ->
  find (fun f => String.eqb (fst f) name) (BlockSpec.body_fields (tb_version b)) = Some (name, k) -> In (name, body_field b name) (body_named b).
Proof.
  destruct b as [v x]. cbn [tb_version tb_value]. intros Hw Hf. unfold BeaconBlock in Hw. container Hw.
  unfold body_field, body_named. cbn [tb_version tb_value]. rewrite body_names. cbn [sub as_seq nth].
  match goal with W : wf (Container (BlockSpec.body_fields v)) ?y |- _ => apply wf_container in W as (ys & -> & W); change (wf_all (BlockSpec.body_fields v) ys) in W end.
  cbn [as_seq]. destruct (find_wf name k _ ys name H3 Hf) as (x & Ex & Wx). rewrite Ex. cbn [snd]. now apply find_some in Ex as [Ex _].
Qed.
(** The attestations of an Electra block that was read reach the host unchanged, in their order, if the signatures are
    points of the curve's group, and then they are values of Lighthouse's type; otherwise the host reports an error. *)
Theorem C85_attestations_are_the_answered C j b : sane_codec C -> mainnet_limits C ->
  block_of_json j = Some b -> tb_version b = VElectra ->
  exists l, In ("attestations"%string, VSeq (map attestation_value l)) (body_named b) /\ Forall (fun a => att_electra a = true) l /\
    (Forall (fun a => InputCodec.sig_ok C (att_signature a) = true) l -> block_view C b = Ok (mkBlock true l) /\ Forall (wf_attestation C) l) /\
    (~ Forall (fun a => InputCodec.sig_ok C (att_signature a) = true) l -> exists e, block_view C b = Err e).
Proof.
  intros S L Hb Hv. apply read_block_wf in Hb.
  assert (find (fun f => String.eqb (fst f) "attestations") (BlockSpec.body_fields (tb_version b)) = Some ("attestations"%string, List_ ElectraAttestation 8)) as Hf by (rewrite Hv; reflexivity).
  pose proof (body_field_wf b _ _ Hb Hf) as (vs & E & _ & W). destruct (convert_all C vs S L W) as (l & -> & El & A & Wl).
  exists l. split; [rewrite <- E; eapply body_field_named; eauto|]. split; [exact El|].
  unfold block_view. rewrite Hv, E. cbn [is_electra as_seq]. rewrite A.
  assert (Forall (fun a => InputCodec.sig_ok C (att_signature a) = true) l <-> forallb (fun a => InputCodec.sig_ok C (att_signature a)) l = true) as -> by (rewrite forallb_forall, Forall_forall; reflexivity).
  destruct (forallb (fun a => InputCodec.sig_ok C (att_signature a)) l); split; auto; try discriminate; try tauto. intros _. eauto.
Qed.
(** Blocks before Electra are unsupported. *)
Theorem C85_older_blocks_are_unsupported C b m : tb_version b <> VElectra -> index_block_value C m (Some b) = Err UnsupportedBlockVersion.
Proof. unfold index_block_value. destruct (tb_version b); intros H; try reflexivity. now destruct H. Qed.
(** Converting while collecting, as the code does, finds the same attestations as when blocks are converted as they are
    fetched (Model/HostChain.v). *)
Theorem C85_collecting C cs blocks ch links atts : (forall s, ch_block ch s = (ob <- blocks s ;; match ob with Some b => x <- block_view C b ;; Ok (Some x) | None => Ok None end)) ->
  collect_from_blocks C cs blocks links = Ok atts <-> collect_attestations_for_links cs ch links = Ok atts.
Proof.
  intros Hc. unfold collect_from_blocks, collect_attestations_for_links. destruct links as [|l r]; [reflexivity|]. cbv zeta.
  generalize (epoch_range (sat_mul (min_target l r) (slots_per_epoch cs)) (sat_mul (sat_add (max_target l r) 1) (slots_per_epoch cs))). intros slots.
  assert (forall m0, (exists bs, map_outcome (fun sl => map_err HOther (blocks sl)) slots = Ok bs /\ forall m, fold_outcome (index_block_value C) bs m0 = Ok m <->
      exists bs', map_outcome (fun sl => map_err HOther (ch_block ch sl)) slots = Ok bs' /\ fold_outcome index_block bs' m0 = Ok m) \/
    ((forall bs, map_outcome (fun sl => map_err HOther (blocks sl)) slots <> Ok bs) /\ forall bs', map_outcome (fun sl => map_err HOther (ch_block ch sl)) slots <> Ok bs')) as G.
  { induction slots as [|s slots IH]; intros m0; cbn [map_outcome].
    - left. exists []. split; [reflexivity|]. intros m. split; [intros H; exists []; auto|intros (bs' & E & H); injection E as <-; exact H].
    - rewrite Hc. destruct (blocks s) as [ob|e|]; cbn [map_err bind]; [|right; split; discriminate..].
      destruct (IH m0) as [(bs & E & _)|[N1 N2]].
      + rewrite E. cbn [bind]. left. exists (ob :: bs). split; [reflexivity|]. intros m. cbn [fold_outcome].
        destruct ob as [b|]; cbn [map_err bind].
        * rewrite index_value. destruct (block_view C b) as [x|e|]; cbn [map_err bind].
          2, 3: split; [discriminate|intros (bs' & ? & _); discriminate].
          split.
          -- intros H. apply bind_ok in H as (m1 & H1 & H2). destruct (IH m1) as [(bs1 & E1 & G)|[N1 N2]]; [|now apply N1 in E].
             rewrite E in E1. injection E1 as <-. apply G in H2 as (bs' & E' & H2). rewrite E'. cbn [bind]. exists (Some x :: bs'). split; [reflexivity|]. cbn [fold_outcome]. now rewrite H1.
          -- intros (bs' & E' & H). apply bind_ok in E' as (bs2 & E2 & E'). injection E' as <-. cbn [fold_outcome] in H. apply bind_ok in H as (m1 & H1 & H2). rewrite H1. cbn [bind].
             destruct (IH m1) as [(bs1 & E1 & G)|[N1 N2]]; [|now apply N1 in E]. rewrite E in E1. injection E1 as <-. apply G. eauto.
        * cbn [index_block_value]. destruct (IH m0) as [(bs1 & E1 & G)|[N1 N2]]; [|now apply N1 in E]. rewrite E in E1. injection E1 as <-. cbn [bind]. rewrite G. split.
          -- intros (bs' & E' & H). rewrite E'. cbn [bind]. exists (None :: bs'). auto.
          -- intros (bs' & E' & H). apply bind_ok in E' as (bs2 & E2 & E'). injection E' as <-. eauto.
      + right. split.
        * intros bs H. apply bind_ok in H as (bs2 & E2 & _). now apply N1 in E2.
        * intros bs H. apply bind_ok in H as (x & _ & H). apply bind_ok in H as (bs2 & E2 & _). now apply N2 in E2. }
  destruct (G []) as [(bs & E & K)|[N1 N2]].
  - rewrite E. cbn [bind]. split.
    + intros H. apply bind_ok in H as (m & H & H'). apply K in H as (bs' & E' & H). rewrite E'. cbn [bind]. rewrite H. exact H'.
    + intros H. apply bind_ok in H as (bs' & E' & H). apply bind_ok in H as (m & H & H'). assert (fold_outcome (index_block_value C) bs [] = Ok m) as -> by (apply K; eauto). exact H'.
  - split; intros H; apply bind_ok in H as (bs' & E & _); [now apply N1 in E|now apply N2 in E].
Qed.

(** ** Roots *)
(** The header that stands for a block has the block's root. *)
Theorem C85_block_root H j b : block_of_json j = Some b ->
  mroot H (header_tree H (block_header H b)) = hash_tree_root H (BeaconBlock (tb_version b)) (tb_value b).
Proof.
  intros Hb. apply read_block_wf in Hb. destruct b as [v x]. cbn [tb_version tb_value] in *. unfold BeaconBlock in Hb. container Hb. fields.
  unfold block_header, body_root, hash_tree_root, BeaconBlock. cbn [tb_version tb_value sub as_seq as_num as_bytes nth]. rewrite ssz_tree_container. cbn [trees].
  rewrite !bytes32_tree by lia. reflexivity.
Qed.
Theorem C85_block_header_wf H j b : hash32 H -> block_of_json j = Some b -> wf_header (block_header H b).
Proof.
  intros Hh Hb. apply read_block_wf in Hb. destruct b as [v x]. cbn [tb_version tb_value] in *. unfold BeaconBlock in Hb. container Hb. fields.
  unfold wf_header, block_header. cbn [tb_version tb_value sub as_seq as_num as_bytes nth hd_slot hd_proposer_index hd_parent_root hd_state_root hd_body wf_tree].
  change (2 ^ (8 * N.of_nat 8)) with (2 ^ 64) in *. repeat split; auto; try lia. unfold body_root, hash_tree_root. apply mroot_length; auto. apply ssz_tree_wf; auto.
  destruct v; reflexivity.
Qed.
(** Two answers with the same root hold the same block, in every field. *)
Theorem C85_root_determines_the_block H j j' b b' : hash32 H -> block_of_json j = Some b -> block_of_json j' = Some b' -> tb_version b = tb_version b' ->
  no_collision H (ssz_tree H (BeaconBlock (tb_version b)) (tb_value b)) (ssz_tree H (BeaconBlock (tb_version b)) (tb_value b')) ->
  mroot H (header_tree H (block_header H b)) = mroot H (header_tree H (block_header H b')) -> b = b'.
Proof.
  intros Hh Hb Hb' V Hn E. rewrite (C85_block_root H j b Hb), (C85_block_root H j' b' Hb') in E. apply read_block_wf in Hb, Hb'. rewrite <- V in *.
  destruct b as [v x], b' as [v' x']. cbn [tb_version tb_value] in *. subst v'. f_equal. apply (root_determines H (BeaconBlock v) Hh) in E; auto. destruct v; reflexivity.
Qed.

(** Headers with the same root are equal. *)
Lemma header_determined H h h' : hash32 H -> wf_header h -> wf_header h' -> (exists b, hd_body h = MLeaf b) -> (exists b, hd_body h' = MLeaf b) ->
  no_collision H (header_tree H h) (header_tree H h') -> mroot H (header_tree H h) = mroot H (header_tree H h') -> h = h'.
Proof.
  intros Hh (A1 & A2 & A3 & A4 & A5) (B1 & B2 & B3 & B4 & B5) (b & Eb) (b' & Eb'). destruct h as [s p pr sr bd], h' as [s' p' pr' sr' bd'].
  cbn [hd_slot hd_proposer_index hd_parent_root hd_state_root hd_body] in *. subst bd bd'. cbn [wf_tree] in *.
  assert (forall s p pr sr b, s < 2 ^ 64 -> p < 2 ^ 64 -> length pr = 32%nat -> length sr = 32%nat -> length b = 32%nat ->
    wf BeaconBlockHeader (VSeq [VNum s; VNum p; VBytes pr; VBytes sr; VBytes b])) as W.
  { intros. apply wf_container. eexists. split; [reflexivity|]. cbn [wf_all]. repeat split; eexists; (split; [reflexivity|]); auto; lia. }
  pose proof (W s p pr sr b A1 A2 A3 A4 A5) as W1. pose proof (W s' p' pr' sr' b' B1 B2 B3 B4 B5) as W2.
  intros Hn E. change (mkHeader s p pr sr (MLeaf b)) with (header_of_val (VSeq [VNum s; VNum p; VBytes pr; VBytes sr; VBytes b])) in *.
  change (mkHeader s' p' pr' sr' (MLeaf b')) with (header_of_val (VSeq [VNum s'; VNum p'; VBytes pr'; VBytes sr'; VBytes b'])) in *.
  rewrite <- !header_tree_is in Hn, E by assumption. apply (root_determines H BeaconBlockHeader Hh) in E; auto. congruence.
Qed.
(** A block with the root of the trusted checkpoint is the block of the checkpoint's state: the one that the host takes
    from the state and the one that the node serves agree in every field of the header. *)
Theorem C85_block_of_checkpoint X cs states c r j st b : hash32 (sha256 X) ->
  checkpoint_state X cs states c = Ok (view (sha256 X) st) -> read_state r = Ok st -> hs_supported (view (sha256 X) st) = true ->
  block_of_json j = Some b -> hash_tree_root (sha256 X) (BeaconBlock (tb_version b)) (tb_value b) = root c ->
  no_collision (sha256 X) (header_tree (sha256 X) (block_header (sha256 X) b)) (header_tree (sha256 X) (boundary_block X (view (sha256 X) st))) ->
  block_header (sha256 X) b = boundary_block X (view (sha256 X) st).
Proof.
  intros Hh Ec R Hs Hb E Hn. rewrite <- (C85_block_root (sha256 X) j b Hb) in E. destruct (C84_well_formed (sha256 X) r st Hh R) as ((A1 & A2 & A3 & A4 & A5) & _ & _ & _ & A6).
  apply (header_determined (sha256 X)); auto; [now apply C85_block_header_wf with j| |eexists; reflexivity|eexists; reflexivity|].
  - unfold boundary_block, wf_header. cbn [hd_slot hd_proposer_index hd_parent_root hd_state_root hd_body]. repeat split; auto. apply mroot_length; auto. apply state_tree_wf; auto.
  - rewrite E. unfold checkpoint_state, state_at_checkpoint in Ec. apply bind_ok in Ec as (s1 & E1 & E2). apply bind_ok in E2 as (u & E2 & E3). injection E3 as ->.
    unfold ensure in E2. destruct (bytes_eqb (root c) (boundary_root X (view (sha256 X) st))) eqn:Eb; [|discriminate]. now apply bytes_eqb_eq in Eb.
Qed.

(** ** What a node that answers in JSON gives the host *)
(** These are the requests of the client without a cache (Model/BeaconClient.v). *)
Theorem C85_client {A} storable endpoint server q (dec : json -> option A) : ask endpoint server q dec = fst (get_json storable endpoint server None q dec).
Proof. unfold ask, get_json. now destruct (join endpoint (BeaconClient.path q)). Qed.
(** A block that the node does not have (404) is an empty slot, everything else that is not a block an error. *)
Theorem C85_empty_slot endpoint server i ob : ask_block endpoint server i = Ok ob <->
  exists u, join endpoint (BeaconClient.path (GetBlock i)) = Some u /\
    ((ob = None /\ exists j, server u = Replied 404 j) \/
     (exists b status j, ob = Some b /\ server u = Replied status j /\ is_error_status status = false /\ block_of_json j = Some b)).
Proof.
  unfold ask_block, ask. destruct (join endpoint (BeaconClient.path (GetBlock i))) as [u|]; [|split; [discriminate|intros (? & ? & _); discriminate]].
  split.
  - destruct (server u) as [|st j] eqn:Er; [discriminate|]. cbn [read_reply]. destruct (is_error_status st) eqn:Es.
    + cbn [or_absent]. destruct (st =? 404) eqn:E4; [|discriminate]. intros E. injection E as <-. apply N.eqb_eq in E4 as ->. exists u. rewrite Er. split; [reflexivity|]. left. eauto.
    + destruct (block_of_json j) as [b|] eqn:Eb; [|discriminate]. intros E. cbn in E. injection E as <-. exists u. rewrite Er. split; [reflexivity|]. right. exists b, st, j. auto.
  - intros (u' & E & [(-> & j & Er)|(b & st & j & -> & Er & Es & Eb)]); injection E as <-; rewrite Er; cbn [read_reply]; [reflexivity|]. rewrite Es, Eb. reflexivity.
Qed.
Lemma ask_ok {A} endpoint server q (dec : json -> option A) a : ask endpoint server q dec = Ok a -> exists j, dec j = Some a.
Proof.
  unfold ask. destruct (join endpoint (BeaconClient.path q)) as [u|]; [|discriminate]. destruct (server u) as [|st j]; [discriminate|]. cbn [read_reply].
  destruct (is_error_status st); [discriminate|]. destruct (dec j) as [a'|] eqn:E; [|discriminate]. cbn. intros H. injection H as <-. eauto.
Qed.
Lemma or_absent_ok {A} (o : outcome ClientError A) a : or_absent o = Ok (Some a) -> o = Ok a.
Proof. destruct o as [x|[]|]; cbn; try congruence. destruct status as [st|]; [destruct (st =? 404)|]; congruence. Qed.
Lemma code_ok {A} (o : outcome ClientError A) a : code o = Ok a -> o = Ok a.
Proof. destruct o; cbn; congruence. Qed.
Lemma opt_map_ok {A B} (f : A -> B) o b : opt_map f o = Ok (Some b) -> exists a, o = Ok (Some a) /\ b = f a.
Proof. unfold opt_map. intros H. apply bind_ok in H as (x & -> & H). destruct x as [a|]; [|discriminate]. injection H as <-. eauto. Qed.
Lemma finality_typed j f : finality_of_json j = Some f -> wf_checkpoint (f_current_justified f) /\ wf_checkpoint (f_finalized f).
Proof.
  unfold finality_of_json. destruct (response_data j) as [d|]; [|discriminate]. destruct (from_json finality_t d) as [v|] eqn:E; [|discriminate].
  assert (exists k, api finality_t = Some k) as (k & Ek) by (eexists; reflexivity).
  assert (wf k v) as Hw by (eapply (typed_wf finality_t); [exact Ek|exact (from_json_typed _ _ _ E)]). cbv in Ek. injection Ek as <-. clear E.
  container Hw. repeat match goal with W : wf (Container _) ?x |- _ => is_var x; container W end. change (Uint 8) with uint64 in *. fields. cbn [checkpoint_of].
  intros E. injection E as <-.
  cbn [f_current_justified f_finalized]. unfold wf_checkpoint, u64, b32. cbn [epoch root]. change (2 ^ (8 * N.of_nat 8)) with (2 ^ 64) in *. repeat split; auto; lia.
Qed.

(** Whatever the answers are, everything that reaches the host is a value of its type. *)
Record well_typed (C : InputCodec.Codec) (nd : Node) : Prop := {
  wt_states : forall s st, nd_states nd s = Ok st -> wf_header (hs_header st) /\ (length (hs_randao_mixes st) = N.to_nat 65536) /\
    Forall b32 (hs_randao_mixes st) /\ wf_registry (st_validators (hs_state st)) /\ (hs_supported st = true -> wf_state (hs_state st));
  wt_headers : forall r h, nd_headers nd r = Ok (Some h) -> wf_header h;
  wt_blocks : forall s h, nd_blocks nd s = Ok (Some h) -> wf_header h;
  wt_finality : forall s st, ch_state (nd_chain nd) s = Ok st -> wf_checkpoint (current_justified st) /\ wf_checkpoint (finalized st);
  wt_attestations : forall s b, ch_block (nd_chain nd) s = Ok (Some b) -> Forall (wf_attestation C) (bl_attestations b) }.
Theorem C85_answers_are_well_typed H C endpoint server fuel : hash32 H -> sane_codec C -> mainnet_limits C ->
  well_typed C (json_node H C endpoint server fuel).
Proof.
  intros Hh S L. constructor; cbn [json_node nd_states nd_headers nd_blocks nd_chain json_chain ch_state ch_block].
  - intros s st E. destruct (ask_state endpoint server (AtSlot s)) as [t|e|] eqn:Ea; cbn in E; try discriminate. injection E as <-.
    unfold ask_state in Ea. destruct (join endpoint (BeaconClient.path (GetState (AtSlot s)))) as [u|]; [|discriminate]. now apply (C84_well_formed H (server u)).
  - intros r h E. apply code_ok in E. apply or_absent_ok, ask_ok in E as (j & E). now apply C84_headers_are_well_formed in E.
  - intros s h E. apply opt_map_ok in E as (b & E & ->). apply code_ok in E. apply or_absent_ok, ask_ok in E as (j & E). now apply C85_block_header_wf with j.
  - intros s st E. apply code_ok in E. apply bind_ok in E as (f & E1 & E2). apply ask_ok in E1 as (j & E1). apply finality_typed in E1.
    unfold cs_new in E2. apply bind_ok in E2 as (x & _ & E2). injection E2 as <-. exact E1.
  - intros s b E. apply bind_ok in E as (ob & E1 & E2). destruct ob as [tb|]; [|discriminate]. apply bind_ok in E2 as (x & E2 & E3). injection E3 as <-.
    apply code_ok in E1. apply or_absent_ok, ask_ok in E1 as (j & E1). destruct (is_electra (tb_version tb)) eqn:Ev.
    + assert (tb_version tb = VElectra) as V by (destruct (tb_version tb); try discriminate; reflexivity).
      destruct (C85_attestations_are_the_answered C j tb S L E1 V) as (l & _ & _ & A & B).
      destruct (Forall_dec (fun a => InputCodec.sig_ok C (att_signature a) = true) (fun a => bool_dec _ _) l) as [F|F].
      * destruct (A F) as [A1 A2]. rewrite A1 in E2. injection E2 as <-. exact A2.
      * destruct (B F) as [e B']. rewrite B' in E2. discriminate.
    + unfold block_view in E2. rewrite Ev in E2. injection E2 as <-. constructor.
Qed.

(** ** Examples *)
(** All-zero blocks with attestations. *)
Definition x_body (atts : list Attestation) : val :=
  VSeq (map (fun f => if String.eqb (fst f) "attestations" then VSeq (map attestation_value atts) else zero (snd f)) (BlockSpec.body_fields VElectra)).
Definition x_block (slot proposer : N) (parent state_root : bytes) (atts : list Attestation) : val :=
  VSeq [VNum slot; VNum proposer; VBytes parent; VBytes state_root; x_body atts].
Lemma x_number x : x < 2 ^ 64 -> wf uint64 (VNum x). Proof. intros H. exists x. split; auto. Qed.
Lemma x_bytes n b : N.of_nat (length b) = n -> wf (ByteVector n) (VBytes b). Proof. intros H. exists b. auto. Qed.
Lemma x_cont fs vs : wf_all fs vs -> wf (Container fs) (VSeq vs). Proof. intros H. apply wf_container. eauto. Qed.
Lemma x_checkpoint c : wf_checkpoint c -> wf Checkpoint_ (checkpoint_value c).
Proof. intros [H1 H2]. unfold b32 in H2. apply x_cont. cbn [wf_all]. repeat split; [now apply x_number|apply x_bytes; lia]. Qed.
Lemma x_attestation C a : mainnet_limits C -> att_electra a = true -> wf_attestation C a -> wf ElectraAttestation (attestation_value a).
Proof.
  intros (M1 & M2 & M3) He [W1 W2 W3 W4 W5 W6 W7 [W8 _]]. rewrite He, ?M2, ?M3 in *. unfold b32 in W5. apply x_cont. cbn [wf_all]. repeat split.
  - exists (aggregation_bits a). split; auto.
  - apply x_cont. cbn [wf_all]. repeat split; try (now apply x_number); try (apply x_bytes; lia); now apply x_checkpoint.
  - apply x_bytes. lia.
  - exists (committee_bits a). split; auto.
Qed.
Lemma x_body_wf C atts : mainnet_limits C -> N.of_nat (length atts) <= 8 -> Forall (fun a => att_electra a = true /\ wf_attestation C a) atts ->
  wf (Container (BlockSpec.body_fields VElectra)) (x_body atts).
Proof.
  intros M L F. apply x_cont. assert (forall fs, Forall (fun f => wf (snd f) (if String.eqb (fst f) "attestations" then VSeq (map attestation_value atts) else zero (snd f))) fs ->
    wf_all fs (map (fun f => if String.eqb (fst f) "attestations" then VSeq (map attestation_value atts) else zero (snd f)) fs)) as G.
  { intros fs Hf. induction Hf as [|[n k] fs Hf _ IH]; [exact I|]. split; assumption. }
  apply G. unfold BlockSpec.body_fields, since. cbn [number N.leb N.compare Pos.compare Pos.compare_cont app].
  repeat (constructor; [cbn [fst snd String.eqb Ascii.eqb Bool.eqb]; try apply zero_wf|]); [|constructor].
  exists (map attestation_value atts). split; [reflexivity|]. rewrite map_length. split; [exact L|]. rewrite Forall_map. eapply Forall_impl; [|exact F].
  cbn beta. intros a [H1 H2]. now apply (x_attestation C).
Qed.
Lemma x_block_wf C slot proposer parent state_root atts : mainnet_limits C -> slot < 2 ^ 64 -> proposer < 2 ^ 64 -> length parent = 32%nat -> length state_root = 32%nat ->
  N.of_nat (length atts) <= 8 -> Forall (fun a => att_electra a = true /\ wf_attestation C a) atts -> wf (BeaconBlock VElectra) (x_block slot proposer parent state_root atts).
Proof.
  intros. apply x_cont. cbn [wf_all]. repeat split; try (now apply x_number); try (apply x_bytes; lia). now apply (x_body_wf C).
Qed.
Lemma x_field slot proposer parent state_root atts : body_field (mkTBlock VElectra (x_block slot proposer parent state_root atts)) "attestations" = VSeq (map attestation_value atts).
Proof. reflexivity. Qed.
(** What the host gets of such a block. *)
Lemma x_convert C atts : sane_codec C -> mainnet_limits C -> Forall (fun a => att_electra a = true /\ wf_attestation C a) atts ->
  all (convert_attestation C) (map attestation_value atts) = Some atts.
Proof.
  intros S L F. assert (Forall (wf ElectraAttestation) (map attestation_value atts)) as W.
  { rewrite Forall_map. eapply Forall_impl; [|exact F]. cbn beta. intros a [H1 H2]. now apply (x_attestation C). }
  destruct (convert_all C _ S L W) as (l & E & El & A & _).
  assert (l = atts) as ->.
  { clear A W. revert atts F E. induction El as [|a l Ha El IH]; intros [|b atts] F E; try discriminate; [reflexivity|]. cbn [map] in E.
    assert (attestation_value b = attestation_value a /\ map attestation_value atts = map attestation_value l) as [E1 E2] by (revert E; generalize (attestation_value a), (attestation_value b), (map attestation_value l), (map attestation_value atts); intros ? ? ? ? E; injection E; auto).
    inversion F as [|? ? [Hb _] F']; subst. f_equal; [symmetry; apply value_inj; congruence|]. now apply IH. }
  rewrite A. assert (forallb (fun a => InputCodec.sig_ok C (att_signature a)) atts = true) as ->; [|reflexivity].
  apply forallb_forall. intros a Ha. rewrite Forall_forall in F. now destruct (F a Ha) as [_ [_ _ _ _ _ _ _ [_ ?]]].
Qed.
Lemma x_view C slot proposer parent state_root atts : sane_codec C -> mainnet_limits C -> Forall (fun a => att_electra a = true /\ wf_attestation C a) atts ->
  block_view C (mkTBlock VElectra (x_block slot proposer parent state_root atts)) = Ok (mkBlock true atts).
Proof. intros S L F. unfold block_view. cbn [tb_version is_electra]. rewrite x_field. cbn [as_seq]. now rewrite x_convert. Qed.
(** The answers of an ordinary node. *)
Definition x_answer (v : version) (x : val) (more : list (string * json)) : json := block_answer (write (BeaconBlock v) x) JNull more [].
Example C85_block_nonvacuous v : let x := zero (BeaconBlock v) in
  wf (BeaconBlock v) x /\ shows (BeaconBlock v) x (write (BeaconBlock v) x) /\ block_not_newer v (write (BeaconBlock v) x).
Proof.
  intros x. pose proof (zero_wf (BeaconBlock v)) as W. split; [exact W|]. split; [apply write_shows; auto using block_distinct|now apply written_block_not_newer].
Qed.
(** A Fulu block is read as an Electra block even if the answer announces something else. *)
Example C85_announced_version_ignored : exists announced,
  block_of_json (x_answer VFulu (zero (BeaconBlock VFulu)) [("version"%string, JStr (version_name announced))]) = Some (mkTBlock VElectra (zero (BeaconBlock VFulu))) /\
  announced = VPhase0.
Proof.
  exists VPhase0. split; [|reflexivity]. apply C85_written_block_is_read; [|intros []|apply zero_wf]. intros [H|[]]. discriminate H.
Qed.
Example C85_incomplete_nonvacuous : let d := JObj [("slot"%string, JNull)] in lacks ["body"; "graffiti"]%string (JObj [("body"%string, d)]) /\ lacks ["proposer_index"%string] d.
Proof.
  intros d. split.
  - eexists. split; [reflexivity|]. right. split; [repeat constructor; intros []|]. exists d. split; [now left|]. eexists. split; [reflexivity|]. left. intros [H|[]]. discriminate H.
  - eexists. split; [reflexivity|]. left. intros [H|[]]. discriminate H.
Qed.
Example C85_requests_nonvacuous : let x := zero (BeaconBlock VDeneb) in lacks ["body"; "execution_requests"]%string (write (BeaconBlock VDeneb) x) /\
  block_of_json (x_answer VDeneb x []) = Some (mkTBlock VDeneb x).
Proof.
  intros x. pose proof (zero_wf (BeaconBlock VDeneb)) as W. split; [|apply C85_written_block_is_read; auto].
  pose proof (written_block_not_newer VDeneb x W) as (path & [<-|[]] & H). exact H.
Qed.
(** Two attestations; in the second codec the signature of the second one is no point. *)
Definition x_att (k : N) (sig : byte) : Attestation :=
  mkAttestation true [true; false; true] (repeat false 63 ++ [true])
    (mkAttestationData (100 + k) 0 (repeat x07 32) (mkCheckpoint 2 (repeat x02 32)) (mkCheckpoint 3 (repeat x03 32))) (repeat sig 96).
Definition x_codec : InputCodec.Codec := InputCodec.mkCodec (fun k => k ++ repeat x00 95) (fun b => if bytes_eqb b (firstn 1 b ++ repeat x00 95) then Some (firstn 1 b) else None)
  (fun s => negb (bytes_eqb s (repeat x0b 96))) 2048 131072 64.
Lemma x_sane : sane_codec x_codec.
Proof.
  constructor; try (vm_compute; reflexivity). intros b k _. cbn [InputCodec.pk_parse InputCodec.pk_raw x_codec].
  destruct (bytes_eqb b (firstn 1 b ++ repeat x00 95)) eqn:E; [|discriminate]. apply bytes_eqb_eq in E. intros G. injection G as <-. now symmetry.
Qed.
Lemma x_limits : mainnet_limits x_codec. Proof. repeat split. Qed.
Lemma x_att_wf k : k = 1 \/ k = 2 -> att_electra (x_att k x0a) = true /\ wf_attestation x_codec (x_att k x0a).
Proof. intros [-> | ->]; (split; [reflexivity|]); (constructor; repeat split; vm_compute; (reflexivity || discriminate)). Qed.
Definition x_good : val := x_block 132 7 (repeat x04 32) (repeat x05 32) [x_att 1 x0a; x_att 2 x0a].
Definition x_bad : val := x_block 132 7 (repeat x04 32) (repeat x05 32) [x_att 1 x0a; x_att 2 x0b].
Lemma x_good_wf : wf (BeaconBlock VElectra) x_good.
Proof.
  apply (x_block_wf x_codec); try (vm_compute; (reflexivity || discriminate)); [exact x_limits|]. repeat (constructor; [apply x_att_wf; auto|]). constructor.
Qed.
Definition x_any : InputCodec.Codec := InputCodec.mkCodec (InputCodec.pk_raw x_codec) (InputCodec.pk_parse x_codec) (fun _ => true) 2048 131072 64.
Lemma x_bad_wf : wf (BeaconBlock VElectra) x_bad.
Proof.
  apply (x_block_wf x_any); try (vm_compute; (reflexivity || discriminate)); [repeat split|]. repeat constructor; vm_compute; (reflexivity || discriminate).
Qed.
Example C85_attestations_nonvacuous :
  block_of_json (x_answer VElectra x_good []) = Some (mkTBlock VElectra x_good) /\ block_view x_codec (mkTBlock VElectra x_good) = Ok (mkBlock true [x_att 1 x0a; x_att 2 x0a]) /\
  block_of_json (x_answer VElectra x_bad []) = Some (mkTBlock VElectra x_bad) /\ exists e, block_view x_codec (mkTBlock VElectra x_bad) = Err e.
Proof.
  split; [apply C85_written_block_is_read; auto using x_good_wf|]. split.
  { apply x_view; [exact x_sane|exact x_limits|]. repeat (constructor; [apply x_att_wf; auto|]). constructor. }
  assert (block_of_json (x_answer VElectra x_bad []) = Some (mkTBlock VElectra x_bad)) as R by (apply C85_written_block_is_read; auto using x_bad_wf). split; [exact R|].
  destruct (C85_attestations_are_the_answered x_codec _ _ x_sane x_limits R eq_refl) as (l & I & El & _ & B). apply B. intros F.
  assert (map attestation_value l = map attestation_value [x_att 1 x0a; x_att 2 x0b]) as E.
  { unfold body_named, x_bad, x_block, x_body in I. cbn [tb_value tb_version] in I. revert I. cbn [BlockSpec.body_fields since number N.leb N.compare Pos.compare Pos.compare_cont app map fst snd combine String.eqb Ascii.eqb Bool.eqb In].
    generalize (map attestation_value [x_att 1 x0a; x_att 2 x0b]). intros w I. repeat (destruct I as [I|I]; [try discriminate I; try (injection I as I; now symmetry)|]). destruct I. }
  destruct l as [|a [|b [|c l]]]; cbn [map] in E; try discriminate E. assert (attestation_value b = attestation_value (x_att 2 x0b)) as Eb by congruence.
  inversion El as [|? ? _ El']; subst. inversion El' as [|? ? Hb _]; subst. apply value_inj in Eb; [|exact Hb]. subst b.
  inversion F as [|? ? _ F']; subst. inversion F' as [|? ? Hs _]; subst. vm_compute in Hs. discriminate.
Qed.
(** One block in the window of the link from epoch 2 to epoch 3: its attestations are found, in either way. *)
Definition x_link : Link := mkLink (mkCheckpoint 2 (repeat x02 32)) (mkCheckpoint 3 (repeat x03 32)).
Definition x_blocks (s : Slot) : outcome N (option TBlock) := Ok (if s =? 105 then Some (mkTBlock VElectra x_good) else None).
Example C85_collecting_nonvacuous : collect_from_blocks x_codec mainnet_spec x_blocks [x_link] = Ok [x_att 1 x0a; x_att 2 x0a].
Proof.
  apply (C85_collecting x_codec mainnet_spec x_blocks (mkChain (fun _ => Err 0) (fun s => Ok (if s =? 105 then Some (mkBlock true [x_att 1 x0a; x_att 2 x0a]) else None)) (fun _ => Err 0))).
  - intros s. cbn [ch_block x_blocks]. unfold x_blocks. cbn [bind]. destruct (s =? 105); [|reflexivity].
    rewrite (proj1 (proj2 C85_attestations_nonvacuous)). reflexivity.
  - vm_compute. reflexivity.
Qed.
(** Roots. *)
Lemma x_inputs : inj_b v_hash (hash_inputs v_hash (ssz_tree v_hash (BeaconBlock VElectra) x_good)) = true.
Proof. vm_compute. reflexivity. Qed.
Example C85_root_nonvacuous : let j := x_answer VElectra x_good [] in let j' := x_answer VElectra x_good [("finalized"%string, JBool true)] in
  j <> j' /\ block_of_json j = Some (mkTBlock VElectra x_good) /\ block_of_json j' = Some (mkTBlock VElectra x_good) /\
  no_collision v_hash (ssz_tree v_hash (BeaconBlock VElectra) x_good) (ssz_tree v_hash (BeaconBlock VElectra) x_good) /\
  mroot v_hash (header_tree v_hash (block_header v_hash (mkTBlock VElectra x_good))) <> mroot v_hash (header_tree v_hash (block_header v_hash (mkTBlock VElectra x_bad))).
Proof.
  intros j j'. split. { unfold j, j', x_answer, block_answer, answer. generalize (write (BeaconBlock VElectra) x_good). intros w E. discriminate E. }
  split; [apply C85_written_block_is_read; auto using x_good_wf|]. split; [apply C85_written_block_is_read; [intros [H|[]]; discriminate H|intros []|exact x_good_wf]|].
  split; [|vm_compute; discriminate]. pose proof (inj_b_sound _ _ x_inputs) as J. eapply injective_on_incl; [exact J|]. intros y Hy. apply in_app_iff in Hy. tauto.
Qed.

Print Assumptions C85_block_is_read.
Print Assumptions C85_written_block_is_read.
Print Assumptions C85_values_in_range.
Print Assumptions C85_incomplete_block_is_refused.
Print Assumptions C85_electra_needs_requests.
Print Assumptions C85_attestations_are_the_answered.
Print Assumptions C85_older_blocks_are_unsupported.
Print Assumptions C85_collecting.
Print Assumptions C85_block_root.
Print Assumptions C85_block_header_wf.
Print Assumptions C85_root_determines_the_block.
Print Assumptions C85_block_of_checkpoint.
Print Assumptions C85_client.
Print Assumptions C85_empty_slot.
Print Assumptions C85_answers_are_well_typed.
