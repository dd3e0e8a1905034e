(** C84: the states the host works with, their trees and their roots. *)
From Coq Require Import String List Arith NArith Bool Lia ZifyBool ZifyNat ZifyN.
From Coq.Init Require Import Byte.
From Verif.Model Require Import Base Types HostStore HostInput BeaconClient StateFile StateJson StateView.
From Verif.Spec Require Import Merkle Ssz Beacon StateJsonSpec HashTreeRoot.
From Verif.Model Require InputCodec.
From Verif.Proof Require Import BaseLemmas MerkleP BeaconP StateJsonP.
From Verif.Proof Require InputCodecP.
Import ListNotations.
Open Scope list_scope.
Open Scope N_scope.

(** ** What was read is in range *)
Lemma typed_wf t : forall k v, api t = Some k -> typed t v = true -> wf k v.
Proof.
  induction t as [n s| |n|n|n t IH|n t IH|fs IH|n|n] using ty_ind'; intros k v Ha Ht.
  - destruct s; [|discriminate]. injection Ha as <-. destruct v; try discriminate. cbn [typed] in Ht. cbn [wf]. eexists. split; [reflexivity|lia].
  - injection Ha as <-. destruct v; try discriminate. cbn [wf]. eauto.
  - injection Ha as <-. destruct v; try discriminate. cbn [typed] in Ht. cbn [wf]. eexists. split; [reflexivity|]. unfold blen in Ht. lia.
  - injection Ha as <-. destruct v; try discriminate. cbn [typed] in Ht. cbn [wf]. eexists. split; [reflexivity|]. unfold blen in Ht. lia.
  - cbn in Ha. destruct (api t) as [k'|] eqn:E; [|discriminate]. injection Ha as <-. destruct v; try discriminate. cbn [typed] in Ht.
    apply andb_true_iff in Ht as [H1 H2]. cbn [wf]. eexists. split; [reflexivity|]. unfold len in H1. split; [lia|].
    apply Forall_forall. intros x Hx. rewrite forallb_forall in H2. apply IH; auto.
  - cbn in Ha. destruct (api t) as [k'|] eqn:E; [|discriminate]. injection Ha as <-. destruct v; try discriminate. cbn [typed] in Ht.
    apply andb_true_iff in Ht as [H1 H2]. cbn [wf]. eexists. split; [reflexivity|]. unfold len in H1. split; [lia|].
    apply Forall_forall. intros x Hx. rewrite forallb_forall in H2. apply IH; auto.
  - rewrite api_cont in Ha. destruct (api_fields fs) as [ks|] eqn:E; [|discriminate]. injection Ha as <-.
    destruct v as [| | |l|]; try discriminate. rewrite typed_cont in Ht. apply wf_container. exists l. split; [reflexivity|].
    revert ks l E Ht. induction IH as [|[n t] fs Hk _ IH]; intros ks l E Ht.
    + injection E as <-. destruct l; [exact I|discriminate].
    + cbn [api_fields] in E. destruct (api t) as [k|] eqn:Ek; [|discriminate]. destruct (api_fields fs) as [ks'|]; [|discriminate].
      injection E as <-. destruct l as [|x l]; [discriminate|]. cbn [typed_all] in Ht. apply andb_true_iff in Ht as [H1 H2]. cbn [wf_all]. split; auto.
  - injection Ha as <-. destruct v; try discriminate. cbn [typed] in Ht. cbn [wf]. eexists. split; [reflexivity|]. unfold len in Ht. lia.
  - injection Ha as <-. destruct v; try discriminate. cbn [typed] in Ht. cbn [wf]. eexists. split; [reflexivity|]. unfold len in Ht. lia.
Qed.
Lemma read_wf j st : state_of_json j = Some st -> wf (Container (StateJsonSpec.state_fields (ts_version st))) (VSeq (ts_fields st)).
Proof. intros H. apply (typed_wf (TCont (typed_fields (ts_version st)))); [apply api_state|]. rewrite typed_cont. exact (read_typed _ _ H). Qed.

(** ** Chunks *)
Lemma pad32_length b : (length b <= 32)%nat -> length (pad32 b) = 32%nat.
Proof. intros H. unfold pad32. rewrite app_length, repeat_length. lia. Qed.
Lemma pack_length b : length (pack b) = ((length b + 31) / 32)%nat.
Proof. unfold pack. now rewrite map_length, seq_length. Qed.
Lemma pack_chunks b : Forall (fun c => length c = 32%nat) (pack b).
Proof.
  unfold pack. apply Forall_forall. intros c Hc. apply in_map_iff in Hc as (i & <- & _). apply pad32_length. rewrite firstn_length. lia.
Qed.
Lemma leaves_wf cs : Forall (fun c => length c = 32%nat) cs -> Forall wf_tree (map MLeaf cs).
Proof. intros H. rewrite Forall_map. exact H. Qed.
Lemma slices_concat (b : bytes) n : concat (map (fun i => firstn 32 (skipn (32 * i) b)) (seq 0 n)) = firstn (32 * n) b.
Proof.
  induction n as [|n IH]; [reflexivity|]. rewrite seq_S, map_app, concat_app, IH. cbn [map concat Nat.add]. rewrite app_nil_r.
  replace (32 * S n)%nat with (32 * n + 32)%nat by lia. generalize (32 * n)%nat. clear. intros m. revert b. induction m as [|m IH]; intros b; [reflexivity|].
  destruct b as [|x b]; [now rewrite skipn_nil, !firstn_nil|]. cbn [firstn skipn app Nat.add]. now rewrite <- IH.
Qed.
Lemma pad32_inj a b : length a = length b -> pad32 a = pad32 b -> a = b.
Proof. intros Hl E. unfold pad32 in E. now apply app_inj_length in E as [E _]. Qed.
Lemma pack_inj b b' : length b = length b' -> pack b = pack b' -> b = b'.
Proof.
  intros Hl E. unfold pack in E. rewrite <- Hl in E.
  assert (forall l, map (fun i => pad32 (firstn 32 (skipn (32 * i) b))) l = map (fun i => pad32 (firstn 32 (skipn (32 * i) b'))) l ->
    map (fun i => firstn 32 (skipn (32 * i) b)) l = map (fun i => firstn 32 (skipn (32 * i) b')) l) as G.
  { induction l as [|i l IH]; [reflexivity|]. cbn [map]. intros F. injection F as F1 F2. f_equal; auto. apply pad32_inj; auto.
    rewrite !firstn_length, !skipn_length. lia. }
  apply G in E. apply (f_equal (@concat byte)) in E. rewrite !slices_concat in E. rewrite !firstn_all2 in E; auto; lia.
Qed.

(** ** Trees *)
Fixpoint small_all (fs : list (string * kind)) : bool := match fs with [] => true | (_, k') :: r => small k' && small_all r end.
Lemma small_container fs : small (Container fs) = small_all fs. Proof. reflexivity. Qed.
Section Trees.
  Variable H : bytes -> bytes.
  Fixpoint trees (fs : list (string * kind)) (vs : list val) : list mtree :=
    match fs, vs with
    | (_, k') :: fs', x :: vs' => ssz_tree H k' x :: trees fs' vs'
    | _, _ => []
    end.
End Trees.
Lemma ssz_tree_container H fs vs : ssz_tree H (Container fs) (VSeq vs) = fill H (levels (N.of_nat (length fs))) (trees H fs vs).
Proof. reflexivity. Qed.
Lemma trees_length H fs : forall vs, wf_all fs vs -> length (trees H fs vs) = length fs.
Proof. induction fs as [|[n k] fs IH]; intros [|x vs] Hw; cbn in *; try tauto. f_equal. now apply IH. Qed.
Theorem ssz_tree_wf H k : hash32 H -> forall v, small k = true -> wf k v -> wf_tree (ssz_tree H k v).
Proof.
  intros Hh. induction k as [n| |n|n|k n IH|k n IH|fs IH|n|n] using kind_ind'; intros v Hs Hw.
  - destruct Hw as (x & -> & _). cbn [ssz_tree wf_tree]. apply pad32_length. rewrite le_bytes_length. cbn [small] in Hs. lia.
  - destruct Hw as (b & ->). reflexivity.
  - destruct Hw as (b & -> & _). apply fill_wf; auto. apply leaves_wf, pack_chunks.
  - destruct Hw as (b & -> & _). cbn [ssz_tree with_length wf_tree]. split; [|apply le_bytes_length]. apply fill_wf; auto. apply leaves_wf, pack_chunks.
  - destruct Hw as (vs & -> & _ & Hf). cbn [ssz_tree]. destruct (basic k); apply fill_wf; auto; [apply leaves_wf, pack_chunks|].
    rewrite Forall_map. eapply Forall_impl; [|exact Hf]. intros x Hx. now apply IH.
  - destruct Hw as (vs & -> & _ & Hf). cbn [small] in Hs. apply andb_true_iff in Hs as [_ Hs].
    cbn [ssz_tree with_length wf_tree]. split; [|apply le_bytes_length]. destruct (basic k); apply fill_wf; auto; [apply leaves_wf, pack_chunks|].
    rewrite Forall_map. eapply Forall_impl; [|exact Hf]. intros x Hx. now apply IH.
  - apply wf_container in Hw as (vs & -> & Hw). rewrite ssz_tree_container. apply fill_wf; auto. rewrite small_container in Hs.
    revert vs Hw. induction IH as [|[n k] fs Hk _ IH]; intros [|x vs] Hw; cbn [wf_all trees] in *; try tauto; [constructor|].
    cbn [small_all] in Hs. apply andb_true_iff in Hs as [H1 H2]. destruct Hw as [W1 W2]. constructor; [now apply Hk|now apply IH].
  - destruct Hw as (b & -> & _). apply fill_wf; auto. apply leaves_wf, pack_chunks.
  - destruct Hw as (b & -> & _). cbn [ssz_tree with_length wf_tree]. split; [|apply le_bytes_length]. apply fill_wf; auto. apply leaves_wf, pack_chunks.
Qed.
Lemma state_small v : small (Container (StateJsonSpec.state_fields v)) = true.
Proof. destruct v; vm_compute; reflexivity. Qed.

(** ** Roots determine values *)
Lemma capacity n : n <= 2 ^ N.of_nat (levels n).
Proof.
  unfold levels. rewrite N2Nat.id. destruct (N.le_gt_cases n 1) as [L|L].
  - pose proof (N.pow_nonzero 2 (N.log2_up n)). lia.
  - now apply N.log2_up_spec.
Qed.
Lemma no_collision_incl H a b c d : no_collision H a b ->
  incl (hash_inputs H c) (hash_inputs H a) -> incl (hash_inputs H d) (hash_inputs H b) -> no_collision H c d.
Proof.
  intros Hn H1 H2. unfold no_collision in *. eapply injective_on_incl; [exact Hn|]. intros x Hx. apply in_app_iff in Hx as [Hx|Hx]; apply in_app_iff; auto.
Qed.
Lemma node_split H l r l' r' : hash32 H -> wf_tree (MNode l r) -> wf_tree (MNode l' r') -> no_collision H (MNode l r) (MNode l' r') ->
  mroot H (MNode l r) = mroot H (MNode l' r') ->
  mroot H l = mroot H l' /\ mroot H r = mroot H r' /\ no_collision H l l' /\ no_collision H r r'.
Proof.
  intros Hh [W1 W2] [W3 W4] Hn E. cbn [mroot] in E. apply Hn in E.
  2: { apply in_app_iff. left. now left. } 2: { apply in_app_iff. right. now left. }
  apply app_inj_length in E as [E1 E2]; [|now rewrite !mroot_length]. split; auto. split; auto.
  split; (eapply no_collision_incl; [exact Hn| |]); cbn [hash_inputs]; intros x Hx; right; apply in_app_iff; auto.
Qed.
Lemma take_drop_ {A} (l : list A) n : take n l ++ drop n l = l.
Proof. rewrite take_firstn, drop_skipn. apply firstn_skipn. Qed.
Lemma fill_split H d : hash32 H -> forall items items', length items = length items' -> N.of_nat (length items) <= 2 ^ N.of_nat d ->
  Forall wf_tree items -> Forall wf_tree items' -> no_collision H (fill H d items) (fill H d items') ->
  mroot H (fill H d items) = mroot H (fill H d items') ->
  Forall2 (fun t t' => mroot H t = mroot H t' /\ no_collision H t t') items items'.
Proof.
  intros Hh. induction d as [|d IH]; intros items items' Hl Hc W W' Hn E.
  - destruct items as [|x [|y items]], items' as [|x' [|y' items']]; cbn [length] in *; try discriminate; try lia; [constructor|].
    constructor; [|constructor]. now split.
  - destruct items as [|x items], items' as [|x' items']; try discriminate; [constructor|].
    assert (forall y ys, fill H (S d) (y :: ys) = MNode (fill H d (take (2 ^ N.of_nat d) (y :: ys))) (fill H d (drop (2 ^ N.of_nat d) (y :: ys)))) as F by reflexivity.
    pose proof (fill_wf H (S d) Hh _ W) as F1. pose proof (fill_wf H (S d) Hh _ W') as F2. rewrite !F in *. clear F.
    set (l := x :: items) in *. set (l' := x' :: items') in *. clearbody l l'.
    destruct (node_split H _ _ _ _ Hh F1 F2 Hn E) as (E1 & E2 & N1 & N2).
    rewrite <- (take_drop_ l (2 ^ N.of_nat d)) in W. rewrite <- (take_drop_ l' (2 ^ N.of_nat d)) in W'. apply Forall_app in W as [W1 W2]. apply Forall_app in W' as [W3 W4].
    rewrite <- (take_drop_ l (2 ^ N.of_nat d)), <- (take_drop_ l' (2 ^ N.of_nat d)).
    replace (2 ^ N.of_nat (S d)) with (2 * 2 ^ N.of_nat d) in Hc by (rewrite Nat2N.inj_succ, N.pow_succ_r'; reflexivity).
    apply Forall2_app; apply IH; auto; rewrite ?take_firstn, ?drop_skipn, ?firstn_length, ?skipn_length; lia.
Qed.
Lemma leaves_split H : forall cs cs', Forall2 (fun t t' => mroot H t = mroot H t' /\ no_collision H t t') (map MLeaf cs) (map MLeaf cs') -> cs = cs'.
Proof.
  induction cs as [|c cs IH]; intros [|c' cs'] F; inversion F as [|? ? ? ? [E _] F']; subst; [reflexivity|]. cbn [mroot] in E. f_equal; auto.
Qed.
Lemma chunks_inj H d b b' : hash32 H -> length b = length b' -> N.of_nat ((length b + 31) / 32) <= 2 ^ N.of_nat d ->
  no_collision H (fill H d (map MLeaf (pack b))) (fill H d (map MLeaf (pack b'))) ->
  mroot H (fill H d (map MLeaf (pack b))) = mroot H (fill H d (map MLeaf (pack b'))) -> b = b'.
Proof.
  intros Hh Hl Hc Hn E. apply pack_inj; auto. apply (leaves_split H).
  eapply fill_split; [exact Hh| | | | |exact Hn|exact E]; try (apply leaves_wf, pack_chunks); rewrite !map_length, !pack_length; lia.
Qed.
Lemma basic_length k v : basic k = true -> wf k v -> N.of_nat (length (basic_bytes k v)) = basic_size k.
Proof.
  destruct k; try discriminate; intros _ Hw; [destruct Hw as (x & -> & _)|destruct Hw as (b & ->)]; cbn [basic_bytes basic_size]; [now rewrite le_bytes_length|reflexivity].
Qed.
Lemma basics_length k vs : basic k = true -> Forall (wf k) vs -> N.of_nat (length (concat (map (basic_bytes k) vs))) = N.of_nat (length vs) * basic_size k.
Proof.
  intros Hb. induction 1 as [|v vs Hv _ IH]; [reflexivity|]. cbn [map concat length]. rewrite app_length. pose proof (basic_length k v Hb Hv). lia.
Qed.
Lemma basic_inj k v v' : basic k = true -> wf k v -> wf k v' -> basic_bytes k v = basic_bytes k v' -> v = v'.
Proof.
  destruct k; try discriminate; intros _ Hw Hw' E.
  - destruct Hw as (x & -> & Hx), Hw' as (x' & -> & Hx'). cbn [basic_bytes] in E. f_equal. eapply le_bytes_inj; eauto.
  - destruct Hw as (b & ->), Hw' as (b' & ->). now destruct b, b'.
Qed.
Lemma basics_inj k : forall vs vs', basic k = true -> length vs = length vs' -> Forall (wf k) vs -> Forall (wf k) vs' ->
  concat (map (basic_bytes k) vs) = concat (map (basic_bytes k) vs') -> vs = vs'.
Proof.
  induction vs as [|v vs IH]; intros [|v' vs'] Hb Hl W W' E; try discriminate; [reflexivity|].
  inversion W; inversion W'; subst. cbn [map concat] in E. apply app_inj_length in E as [E1 E2].
  - f_equal; [now apply (basic_inj k)|]. apply IH; auto.
  - pose proof (basic_length k v). pose proof (basic_length k v'). lia.
Qed.
Lemma nat_div32 a : N.of_nat ((a + 31) / 32) = (N.of_nat a + 31) / 32.
Proof. rewrite Nat2N.inj_div, Nat2N.inj_add. reflexivity. Qed.
Lemma chunks_fit a n : N.of_nat a <= n -> N.of_nat ((a + 31) / 32) <= 2 ^ N.of_nat (levels ((n + 31) / 32)).
Proof.
  intros Hl. rewrite nat_div32. etransitivity; [|apply capacity]. apply N.div_le_mono; lia.
Qed.
Lemma bitfield_length l : length (bitfield l) = ((length l + 7) / 8)%nat.
Proof. unfold bitfield. now rewrite map_length, seq_length. Qed.
Lemma bitfield_inj l l' : length l = length l' -> bitfield l = bitfield l' -> l = l'.
Proof.
  intros Hl E. rewrite !bitfield_is in E. pose proof (InputCodecP.unssz_bitvector_ok (N.of_nat (length l)) l eq_refl) as E1.
  unfold InputCodec.ssz_bitvector in E1. rewrite E in E1. fold (InputCodec.ssz_bitvector l') in E1. rewrite InputCodecP.unssz_bitvector_ok in E1 by lia. congruence.
Qed.
Lemma bit_chunks_fit (l : list bool) n : N.of_nat (length l) <= n -> N.of_nat ((length (bitfield l) + 31) / 32) <= 2 ^ N.of_nat (levels ((n + 255) / 256)).
Proof.
  intros Hl. rewrite nat_div32, bitfield_length, Nat2N.inj_div, Nat2N.inj_add. etransitivity; [|apply capacity]. change (N.of_nat 7) with 7. change (N.of_nat 8) with 8.
  replace ((N.of_nat (length l) + 7) / 8 + 31) with ((N.of_nat (length l) + 7 + 31 * 8) / 8) by (rewrite N.div_add by lia; reflexivity).
  rewrite N.div_div by lia. change (8 * 32) with 256. apply N.div_le_mono; lia.
Qed.
Theorem root_determines H k : hash32 H -> forall v v', small k = true -> wf k v -> wf k v' ->
  no_collision H (ssz_tree H k v) (ssz_tree H k v') -> hash_tree_root H k v = hash_tree_root H k v' -> v = v'.
Proof.
  intros Hh. unfold hash_tree_root. induction k as [n| |n|n|k n IH|k n IH|fs IH|n|n] using kind_ind'; intros v v' Hs Hw Hw' Hn E.
  - destruct Hw as (x & -> & Hx), Hw' as (x' & -> & Hx'). cbn [ssz_tree mroot] in E. apply pad32_inj in E; [|now rewrite !le_bytes_length].
    f_equal. eapply le_bytes_inj; eauto.
  - destruct Hw as (b & ->), Hw' as (b' & ->). now destruct b, b'.
  - destruct Hw as (b & -> & Hl), Hw' as (b' & -> & Hl'). cbn [ssz_tree] in *. f_equal. eapply chunks_inj; [exact Hh| | |exact Hn|exact E]; [lia|].
    apply chunks_fit. lia.
  - destruct Hw as (b & -> & Hl), Hw' as (b' & -> & Hl').
    destruct (node_split H _ _ _ _ Hh (ssz_tree_wf H (ByteList n) Hh (VBytes b) Hs ltac:(cbn [wf]; eauto)) (ssz_tree_wf H (ByteList n) Hh (VBytes b') Hs ltac:(cbn [wf]; eauto)) Hn E) as (E1 & E2 & N1 & _).
    cbn [small] in Hs. cbn [mroot] in E2. apply le_bytes_inj in E2; [|change (2 ^ (8 * N.of_nat 32)) with (2 ^ 64 * 2 ^ 192); lia..].
    f_equal. eapply chunks_inj; [exact Hh| | |exact N1|exact E1]; [lia|]. apply chunks_fit. lia.
  - destruct Hw as (vs & -> & Hl & Hf), Hw' as (vs' & -> & Hl' & Hf'). cbn [ssz_tree small] in *. f_equal. destruct (basic k) eqn:Eb.
    + eapply basics_inj; eauto; [lia|]. pose proof (basics_length k vs Eb Hf). pose proof (basics_length k vs' Eb Hf').
      eapply chunks_inj; [exact Hh| | |exact Hn|exact E]; [rewrite <- Hl' in Hl; lia|]. apply chunks_fit. rewrite H0, Hl. lia.
    + assert (Forall wf_tree (map (ssz_tree H k) vs)) as W1 by (rewrite Forall_map; eapply Forall_impl; [|exact Hf]; intros; now apply ssz_tree_wf).
      assert (Forall wf_tree (map (ssz_tree H k) vs')) as W2 by (rewrite Forall_map; eapply Forall_impl; [|exact Hf']; intros; now apply ssz_tree_wf).
      apply fill_split in E; auto; [|rewrite !map_length; lia|rewrite map_length, Hl; apply capacity].
      clear W1 W2 Hn Hl Hl'. revert vs' Hf' E. induction Hf as [|x vs Hx _ IHv]; intros [|x' vs'] Hf' E; inversion E as [|? ? ? ? [E1 E2] E3]; subst; auto.
      inversion Hf'; subst. f_equal; auto.
  - destruct Hw as (vs & -> & Hl & Hf), Hw' as (vs' & -> & Hl' & Hf').
    destruct (node_split H _ _ _ _ Hh (ssz_tree_wf H (List_ k n) Hh (VSeq vs) Hs ltac:(cbn [wf]; eauto)) (ssz_tree_wf H (List_ k n) Hh (VSeq vs') Hs ltac:(cbn [wf]; eauto)) Hn E) as (E1 & E2 & N1 & _).
    cbn [small] in Hs. apply andb_true_iff in Hs as [Hs1 Hs]. cbn [mroot] in E2.
    apply le_bytes_inj in E2; [|change (2 ^ (8 * N.of_nat 32)) with (2 ^ 64 * 2 ^ 192); lia..]. assert (length vs = length vs') as El by lia.
    f_equal. clear E Hn. destruct (basic k) eqn:Eb.
    + eapply basics_inj; eauto. pose proof (basics_length k vs Eb Hf) as B1. pose proof (basics_length k vs' Eb Hf') as B2. rewrite <- El in B2.
      eapply chunks_inj; [exact Hh| | |exact N1|exact E1]; [lia|]. apply chunks_fit. rewrite B1. apply N.mul_le_mono_r. exact Hl.
    + assert (Forall wf_tree (map (ssz_tree H k) vs)) as W1 by (rewrite Forall_map; eapply Forall_impl; [|exact Hf]; intros; now apply ssz_tree_wf).
      assert (Forall wf_tree (map (ssz_tree H k) vs')) as W2 by (rewrite Forall_map; eapply Forall_impl; [|exact Hf']; intros; now apply ssz_tree_wf).
      apply fill_split in E1; auto; [|rewrite !map_length; lia|rewrite map_length; etransitivity; [exact Hl|apply capacity]].
      clear W1 W2 N1 Hl Hl' E2 El. revert vs' Hf' E1. induction Hf as [|x vs Hx _ IHv]; intros [|x' vs'] Hf' E; inversion E as [|? ? ? ? [E1 E2] E3]; subst; auto.
      inversion Hf'; subst. f_equal; auto.
  - pose proof (ssz_tree_wf H (Container fs) Hh v Hs Hw) as _. apply wf_container in Hw as (vs & -> & Hw). apply wf_container in Hw' as (vs' & -> & Hw').
    rewrite !ssz_tree_container in *. rewrite small_container in Hs. f_equal.
    assert (forall us, wf_all fs us -> Forall wf_tree (trees H fs us)) as W.
    { clear - Hh Hs. induction fs as [|[n k] fs IH]; intros [|x us] Hu; cbn [wf_all trees small_all] in *; try tauto; [constructor|].
      apply andb_true_iff in Hs as [H1 H2]. destruct Hu. constructor; [now apply ssz_tree_wf|now apply IH]. }
    apply fill_split in E; auto; [|now rewrite !trees_length|rewrite trees_length by assumption; apply capacity].
    clear W Hn. revert vs vs' Hw Hw' E. induction IH as [|[n k] fs Hk _ IH]; intros [|x vs] [|x' vs'] Hw Hw' E; cbn [wf_all trees small_all] in *; try tauto.
    apply andb_true_iff in Hs as [H1 H2]. destruct Hw as [A1 A2], Hw' as [B1 B2]. inversion E as [|? ? ? ? [E1 E2] E3]; subst. f_equal; auto.
  - destruct Hw as (b & -> & Hl), Hw' as (b' & -> & Hl'). cbn [ssz_tree] in *. f_equal. apply bitfield_inj; [lia|].
    eapply chunks_inj; [exact Hh| | |exact Hn|exact E]; [rewrite !bitfield_length; f_equal; lia|]. apply bit_chunks_fit. lia.
  - destruct Hw as (b & -> & Hl), Hw' as (b' & -> & Hl').
    destruct (node_split H _ _ _ _ Hh (ssz_tree_wf H (Bitlist n) Hh (VBits b) Hs ltac:(cbn [wf]; eauto)) (ssz_tree_wf H (Bitlist n) Hh (VBits b') Hs ltac:(cbn [wf]; eauto)) Hn E) as (E1 & E2 & N1 & _).
    cbn [small] in Hs. cbn [mroot] in E2. apply le_bytes_inj in E2; [|change (2 ^ (8 * N.of_nat 32)) with (2 ^ 64 * 2 ^ 192); lia..].
    f_equal. apply bitfield_inj; [lia|]. eapply chunks_inj; [exact Hh| | |exact N1|exact E1]; [rewrite !bitfield_length; f_equal; lia|]. apply bit_chunks_fit. lia.
Qed.

(** ** The trees of the model *)
Lemma pack_one b : (0 < length b <= 32)%nat -> pack b = [pad32 b].
Proof.
  intros Hl. unfold pack. replace ((length b + 31) / 32)%nat with 1%nat.
  - cbn [seq map Nat.mul Nat.add]. f_equal. f_equal. cbn [skipn]. now apply firstn_all2.
  - apply (Nat.div_unique (length b + 31) 32 1 (length b - 1)); lia.
Qed.
Lemma pad32_full b : length b = 32%nat -> pad32 b = b.
Proof. intros Hl. unfold pad32. rewrite Hl. apply app_nil_r. Qed.
Lemma pad32_chunk n b : length b = n -> pad32 b = chunk n b.
Proof. intros <-. reflexivity. Qed.
Lemma bytes32_tree H b : length b = 32%nat -> ssz_tree H Bytes32 (VBytes b) = MLeaf b.
Proof. intros Hl. cbn [ssz_tree Bytes32]. rewrite pack_one by lia. now rewrite pad32_full. Qed.
Lemma bytes4_tree H b : length b = 4%nat -> ssz_tree H (ByteVector 4) (VBytes b) = MLeaf (chunk 4 b).
Proof. intros Hl. cbn [ssz_tree]. rewrite pack_one by lia. now rewrite (pad32_chunk 4). Qed.
Lemma uint64_tree H x : ssz_tree H uint64 (VNum x) = u64_tree x.
Proof. reflexivity. Qed.
Lemma boolean_tree H b : ssz_tree H Boolean (VBool b) = bool_tree b.
Proof. reflexivity. Qed.
Lemma pubkey_tree H b : length b = 48%nat -> ssz_tree H BLSPubkey (VBytes b) = bytes48_tree b.
Proof.
  intros Hl. cbn [ssz_tree BLSPubkey]. unfold pack. rewrite Hl. change ((48 + 31) / 32)%nat with 2%nat. cbn [seq map Nat.mul Nat.add].
  change (levels ((48 + 31) / 32)) with 1%nat. cbn [skipn]. rewrite pad32_full by (rewrite firstn_length; lia).
  rewrite (firstn_all2 (skipn 32 b)) by (rewrite skipn_length; lia). rewrite (pad32_chunk 16) by (rewrite skipn_length; lia). reflexivity.
Qed.
Lemma le_bytes_zero k : le_bytes k 0 = repeat x00 k.
Proof. induction k as [|k IH]; [reflexivity|]. cbn [le_bytes repeat]. change (0 / 256) with 0. now rewrite IH. Qed.
Lemma le_bytes_split a b x : le_bytes (a + b) x = le_bytes a x ++ le_bytes b (x / 256 ^ N.of_nat a).
Proof.
  revert x. induction a as [|a IH]; intros x; [cbn [le_bytes app Nat.add N.of_nat]; now rewrite N.pow_0_r, N.div_1_r|].
  cbn [le_bytes app Nat.add]. rewrite IH, N.div_div, Nat2N.inj_succ, N.pow_succ_r'; auto; try discriminate. now apply N.pow_nonzero.
Qed.
Lemma small_le_bytes x : x < 2 ^ 64 -> le_bytes 32 x = ssz_u64 x.
Proof.
  intros Hx. change 32%nat with (8 + 24)%nat. rewrite le_bytes_split, N.div_small by exact Hx. now rewrite le_bytes_zero.
Qed.
Ltac split_match Hw := repeat match type of Hw with
  | match ?vs with [] => False | _ :: _ => _ end => destruct vs as [|? ?]; [destruct Hw|]; destruct Hw as [? Hw]
  | match ?vs with [] => True | _ :: _ => False end => destruct vs as [|? ?]; [clear Hw|destruct Hw]
  end.
Ltac container Hw := apply wf_container in Hw as (? & -> & Hw); split_match Hw.
Ltac fields := repeat match goal with
  | W : wf uint64 _ |- _ => destruct W as (? & -> & ?)
  | W : wf Boolean _ |- _ => destruct W as (? & ->)
  | W : wf Bytes32 _ |- _ => destruct W as (? & -> & ?)
  | W : wf BLSPubkey _ |- _ => destruct W as (? & -> & ?)
  | W : wf (ByteVector _) _ |- _ => destruct W as (? & -> & ?)
  end.
Lemma validator_tree_is H v : wf Validator_ v -> ssz_tree H Validator_ v = validator_tree H (validator_of v).
Proof.
  intros Hw. container Hw. fields. unfold Validator_. rewrite ssz_tree_container. cbn [trees].
  rewrite pubkey_tree, bytes32_tree by lia. reflexivity.
Qed.
Lemma fork_tree_is H v : wf Fork_ v -> ssz_tree H Fork_ v = fork_tree H (fork_of v).
Proof. intros Hw. container Hw. fields. unfold Fork_. rewrite ssz_tree_container. cbn [trees]. rewrite !bytes4_tree by lia. reflexivity. Qed.
Lemma checkpoint_tree_is H v : wf Checkpoint_ v -> ssz_tree H Checkpoint_ v = checkpoint_tree H (checkpoint_of_val v).
Proof. intros Hw. container Hw. fields. unfold Checkpoint_. rewrite ssz_tree_container. cbn [trees]. rewrite !bytes32_tree by lia. reflexivity. Qed.
Lemma header_tree_is H v : wf BeaconBlockHeader v -> ssz_tree H BeaconBlockHeader v = header_tree H (header_of_val v).
Proof. intros Hw. container Hw. fields. unfold BeaconBlockHeader. rewrite ssz_tree_container. cbn [trees]. rewrite !bytes32_tree by lia. reflexivity. Qed.
Lemma registry_tree_is H v : wf (registry Validator_) v -> ssz_tree H (registry Validator_) v = registry_tree H (map validator_of (as_seq v)).
Proof.
  intros (vs & -> & Hl & Hf). unfold registry. cbn [as_seq]. unfold registry_tree, list_tree. rewrite !map_length, <- small_le_bytes by (change (2 ^ 64) with (2 ^ 40 * 2 ^ 24); lia).
  cbn [ssz_tree]. change (basic Validator_) with false. cbn [negb]. unfold with_length. change (levels (2 ^ 40)) with 40%nat. f_equal. f_equal.
  rewrite map_map. apply map_ext_in. intros x Hx. rewrite Forall_forall in Hf. now apply validator_tree_is, Hf.
Qed.
Lemma cons_eq {A} (a b : A) l l' : a = b -> l = l' -> a :: l = b :: l'.
Proof. now intros -> ->. Qed.
Lemma state_tree_is H st : supported (ts_version st) = true -> wf (Container (StateJsonSpec.state_fields (ts_version st))) (VSeq (ts_fields st)) ->
  state_tree H (view_state H st) = ssz_tree H (Container (StateJsonSpec.state_fields (ts_version st))) (VSeq (ts_fields st)).
Proof.
  intros Hs Hw. rewrite ssz_tree_container. apply wf_container in Hw as (vs & E & Hw). injection E as <-. destruct st as [v vs]. cbn [ts_version ts_fields] in *.
  unfold state_tree, container_tree.
  destruct v; try discriminate; unfold StateJsonSpec.state_fields, since in Hw |- *; cbn [number N.leb N.compare Pos.compare Pos.compare_cont app] in Hw |- *;
    split_match Hw; cbn [trees]; (apply (f_equal2 (fill H)); [reflexivity|]); unfold Beacon.state_fields; cbn [app view_state is_fulu ts_version st_fulu].
  all: repeat (apply cons_eq); try reflexivity.
  1,8: match goal with W : wf Bytes32 ?v |- _ = ssz_tree _ Bytes32 ?v => destruct W as (b & -> & ?); rewrite bytes32_tree by lia; reflexivity end.
  all: symmetry; match goal with
    | |- ssz_tree _ uint64 ?v = _ => match goal with W : wf uint64 v |- _ => destruct W as (? & -> & ?); reflexivity end
    | |- ssz_tree _ Fork_ _ = _ => rewrite fork_tree_is by assumption; reflexivity
    | |- ssz_tree _ Checkpoint_ _ = _ => rewrite checkpoint_tree_is by assumption; reflexivity
    | |- ssz_tree _ (registry _) _ = _ => rewrite registry_tree_is by assumption; reflexivity
    end.
Qed.

(** ** The view is well-formed *)
Lemma find_wf name k : forall fs vs n, wf_all fs vs -> find (fun f => String.eqb (fst f) name) fs = Some (n, k) ->
  exists x, find (fun nv => String.eqb (fst nv) name) (combine (map fst fs) vs) = Some (n, x) /\ wf k x.
Proof.
  induction fs as [|[m k'] fs IH]; intros [|x vs] n Hw Hf; cbn [wf_all] in Hw; try tauto; [discriminate|]. destruct Hw as [H1 H2].
  cbn [find map combine fst] in *. destruct (String.eqb m name); [|now apply IH]. injection Hf as <- <-. eauto.
Qed.
Lemma typed_names v : map fst (typed_fields v) = map fst (StateJsonSpec.state_fields v).
Proof. destruct v; reflexivity. Qed.
Lemma get_wf st name k n : wf (Container (StateJsonSpec.state_fields (ts_version st))) (VSeq (ts_fields st)) ->
  find (fun f => String.eqb (fst f) name) (StateJsonSpec.state_fields (ts_version st)) = Some (n, k) -> wf k (get st name).
Proof.
  intros Hw Hf. apply wf_container in Hw as (vs & E & Hw). injection E as <-. unfold get. rewrite typed_names.
  destruct (find_wf name k (StateJsonSpec.state_fields (ts_version st)) (ts_fields st) n Hw Hf) as (x & -> & Hx). exact Hx.
Qed.
Ltac field_wf Hw k := refine (get_wf _ _ k _ Hw _); lazymatch goal with |- context [ts_version ?st] => destruct (ts_version st); try discriminate; reflexivity end.
Lemma wf_validator_of v : wf Validator_ v -> wf_validator (validator_of v).
Proof. intros Hw. container Hw. fields. unfold wf_validator. cbn -[N.pow N.of_nat] in *. change (2 ^ (8 * N.of_nat 8)) with (2 ^ 64) in *. repeat split; auto; lia. Qed.
Lemma wf_registry_of v : wf (registry Validator_) v -> wf_registry (map validator_of (as_seq v)).
Proof.
  intros (vs & -> & Hl & Hf). split; [|rewrite map_length; exact Hl]. cbn [as_seq]. rewrite Forall_map. eapply Forall_impl; [|exact Hf]. intros x. apply wf_validator_of.
Qed.
Lemma wf_header_of v : wf BeaconBlockHeader v -> wf_header (header_of_val v).
Proof. intros Hw. container Hw. fields. unfold wf_header. cbn -[N.pow N.of_nat] in *. change (2 ^ (8 * N.of_nat 8)) with (2 ^ 64) in *. repeat split; auto; lia. Qed.
Lemma wf_fork_of v : wf Fork_ v -> wf_fork (fork_of v).
Proof. intros Hw. container Hw. fields. unfold wf_fork. cbn -[N.pow N.of_nat] in *. change (2 ^ (8 * N.of_nat 8)) with (2 ^ 64) in *. repeat split; auto; lia. Qed.
Lemma wf_checkpoint_of v : wf Checkpoint_ v -> epoch (checkpoint_of_val v) < 2 ^ 64 /\ length (root (checkpoint_of_val v)) = 32%nat.
Proof. intros Hw. container Hw. fields. cbn -[N.pow N.of_nat] in *. change (2 ^ (8 * N.of_nat 8)) with (2 ^ 64) in *. repeat split; auto; lia. Qed.
Lemma wf_uint64_of v : wf uint64 v -> as_num v < 2 ^ 64.
Proof. intros (x & -> & Hx). exact Hx. Qed.
Lemma wf_bytes32_of v : wf Bytes32 v -> length (as_bytes v) = 32%nat.
Proof. intros (x & -> & Hx). cbn [as_bytes]. lia. Qed.
Lemma others_wf H fs : hash32 H -> forall vs k, small_all fs = true -> wf_all fs vs ->
  wf_tree (match nth_error (combine fs vs) k with Some (nk, v) => ssz_tree H (snd nk) v | None => MLeaf (repeat x00 32) end).
Proof.
  intros Hh. induction fs as [|[n k'] fs IH]; intros [|x vs] k Hs Hw; cbn [wf_all small_all] in *; try tauto; [now destruct k|].
  apply andb_true_iff in Hs as [S1 S2]. destruct Hw as [W1 W2]. destruct k as [|k]; [now apply ssz_tree_wf|]. cbn [combine nth_error]. now apply IH.
Qed.
Theorem view_wf H st : hash32 H -> wf (Container (StateJsonSpec.state_fields (ts_version st))) (VSeq (ts_fields st)) ->
  wf_header (hs_header (view H st)) /\ length (hs_randao_mixes (view H st)) = N.to_nat 65536 /\
  Forall (fun m => length m = 32%nat) (hs_randao_mixes (view H st)) /\ wf_registry (st_validators (hs_state (view H st))) /\
  (supported (ts_version st) = true -> wf_state (hs_state (view H st))).
Proof.
  intros Hh Hw. cbn [view hs_header hs_randao_mixes hs_state].
  assert (wf (registry Validator_) (get st "validators")) as W1 by (field_wf Hw (registry Validator_)).
  split; [apply wf_header_of; field_wf Hw BeaconBlockHeader|].
  assert (wf (Vector Bytes32 65536) (get st "randao_mixes")) as W2 by (field_wf Hw (Vector Bytes32 65536)).
  destruct W2 as (vs & -> & Hl & Hf). cbn [as_seq]. rewrite map_length. split; [lia|].
  split; [rewrite Forall_map; eapply Forall_impl; [|exact Hf]; intros x; apply wf_bytes32_of|].
  split; [now apply wf_registry_of|]. intros Hs.
  unfold wf_state. cbn [view_state st_genesis_validators_root st_slot st_fork st_validators st_finalized st_earliest_exit_epoch st_earliest_consolidation_epoch st_other].
  split; [apply wf_bytes32_of; field_wf Hw Bytes32|]. split; [apply wf_uint64_of; field_wf Hw uint64|]. split; [apply wf_fork_of; field_wf Hw Fork_|].
  split; [now apply wf_registry_of|].
  assert (wf Checkpoint_ (get st "finalized_checkpoint")) as W3 by (field_wf Hw Checkpoint_). apply wf_checkpoint_of in W3 as [E1 E2].
  split; [exact E1|]. split; [exact E2|].
  split; [apply wf_uint64_of; revert Hs; intros Hs; refine (get_wf _ _ uint64 _ Hw _); destruct (ts_version st); try discriminate; reflexivity|].
  split; [apply wf_uint64_of; refine (get_wf _ _ uint64 _ Hw _); destruct (ts_version st); try discriminate; reflexivity|].
  intros k. pose proof (state_small (ts_version st)) as Sm. rewrite small_container in Sm. apply wf_container in Hw as (us & E & Hw). injection E as <-.
  now apply others_wf.
Qed.
