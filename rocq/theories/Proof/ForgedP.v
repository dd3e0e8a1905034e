(** The guest reads the trusted root only when it checks the proof of the block. *)
From Coq Require Import List Arith ZArith NArith Bool Lia.
From Coq Require Import ZifyBool ZifyNat ZifyN.
From Verif.Model Require Import Base Types ConsensusState Multiproof Gindices Committee Verify GuestReader Guest InputCodec.
From Verif.Spec Require Import Merkle MultiproofSpec HostInputSpec InputCodecSpec Forged.
From Verif.Proof Require Import BaseLemmas MerkleP MultiproofP ForgeryP InputCodecP InputWfP InputSizeP ConsensusStateP GuestP.
Import ListNotations.
Open Scope N_scope.
Notation length := List.length.

(** ** A short forged proof *)
Fixpoint graft (H : bytes -> bytes) (T : mtree) (p : path) (a : ktree) {struct p} : ktree :=
  match p, T with
  | [], _ => a
  | true :: q, MNode l r => KNode (KLeaf (mroot H l) false) (graft H r q a)
  | false :: q, MNode l r => KNode (graft H l q a) (KLeaf (mroot H r) false)
  | _ :: _, MLeaf c => KLeaf c false
  end.
Lemma graft_root H p : forall T a, subtree T p = Some (MLeaf (mroot H (k_tree a))) -> mroot H (k_tree (graft H T p a)) = mroot H T.
Proof.
  induction p as [|[] p IH]; intros T a Hs.
  - simpl in *. injection Hs; intros ->. reflexivity.
  - destruct T as [|l r]; [discriminate|]. simpl in Hs. cbn [graft k_tree mroot]. now rewrite (IH r a Hs).
  - destruct T as [|l r]; [discriminate|]. simpl in Hs. cbn [graft k_tree mroot]. now rewrite (IH l a Hs).
Qed.
Lemma graft_wf H p : hash32 H -> forall T a, wf_tree T -> wf_tree (k_tree a) -> wf_tree (k_tree (graft H T p a)).
Proof.
  intros Hh. induction p as [|[] p IH]; intros T a HT Ha; auto; destruct T as [|l r]; auto; destruct HT;
    cbn [graft k_tree wf_tree]; split; auto; now apply mroot_length.
Qed.
Lemma graft_vals H p : forall T a g c, subtree T p = Some c -> (forall g', k_vals g' a = k_vals 0 a) -> k_vals g (graft H T p a) = k_vals 0 a.
Proof.
  induction p as [|[] p IH]; intros T a g c Hs Hc; [apply Hc| |];
    (destruct T as [|l r]; [discriminate|]); cbn [graft k_vals]; simpl in Hs.
  - rewrite (IH r a _ c); auto.
  - rewrite (IH l a _ c); auto. now rewrite app_nil_r.
Qed.
Lemma leaves_node l r : length (leaves (MNode l r)) = (length (leaves l) + length (leaves r))%nat.
Proof. cbn [leaves]. now rewrite app_length, !map_length. Qed.
Lemma graft_leaves H p : forall T a, (length (leaves (k_tree (graft H T p a))) <= length p + length (leaves (k_tree a)))%nat.
Proof.
  induction p as [|[] p IH]; intros T a; [cbn; lia| |]; (destruct T as [|l r]; cbn [graft k_tree]; [cbn; lia|]);
    rewrite leaves_node; cbn [length leaves].
  - specialize (IH r a). lia.
  - specialize (IH l a). lia.
Qed.
Lemma comb_leaves q v : length (leaves (k_tree (comb q v))) = S (length q).
Proof. induction q as [|[] q IH]; [reflexivity| |]; cbn [comb k_tree]; rewrite leaves_node, IH; cbn [length leaves]; lia. Qed.
Lemma leaves_data t : wf_tree t -> length (concat (map snd (leaves t))) = (32 * length (leaves t))%nat.
Proof.
  induction t as [c|l IHl r IHr]; intros W.
  - cbn [leaves map concat snd length]. rewrite app_nil_r. cbn [wf_tree] in W. lia.
  - destruct W as [W1 W2]. rewrite leaves_node, map_snd_leaves_node, concat_app, app_length, IHl, IHr by assumption. lia.
Qed.
(** The proof, and its size. *)
Theorem short_forgery H T p g v : hash32 H -> wf_tree T -> g < two64 -> length v = 32%nat ->
  subtree T p = Some (MLeaf (forged_chunk H [(g, v)])) ->
  exists mp, mp_verify H mp (mroot H T) = Ok tt /\ mp_values mp = [(g, v)] /\
    (length (mp_value_mask mp) <= length p + 67)%nat /\ length (mp_data mp) = (32 * length (mp_value_mask mp))%nat /\
    (length (mp_descriptor mp) + 1 = 2 * length (mp_value_mask mp))%nat /\ mp_max_stack_depth mp = 0.
Proof.
  intros Hh HT Hg Hv Hs. set (vals := [(g, v)]) in *.
  assert (F1 : Forall (fun x : N * bytes => fst x < two64) vals) by (repeat constructor; assumption).
  assert (F2 : Forall (fun x : N * bytes => length (snd x) = 32%nat) vals) by (repeat constructor; assumption).
  pose proof (forged_wf vals F2) as Wf. set (k := graft H T p (forged vals)). exists (k_mp k).
  assert (W : wf_tree (k_tree k)) by (apply graft_wf; auto).
  assert (Lv : (length (leaves (k_tree k)) <= length p + 67)%nat).
  { pose proof (graft_leaves H p T (forged vals)) as G. fold k in G. unfold vals in G. rewrite forged_cons in G. cbn [k_tree] in G.
    rewrite leaves_node, comb_leaves, low_bits_length in G. cbn [forged k_tree leaves length map app] in G. lia. }
  split; [|split; [|split; [|split; [|split]]]].
  - apply mp_verify_iff. exists (k_tree k). repeat split; auto.
    + exists []. simpl. now rewrite app_nil_r.
    + unfold k. destruct p as [|b p]; [exact I|]. destruct T as [|l r]; [destruct b; discriminate|]. destruct b; exact I.
    + symmetry. now apply graft_root.
  - rewrite k_mp_values by auto. unfold k. rewrite (graft_vals H p T _ 1 _ Hs).
    + now apply forged_vals.
    + intros g'. rewrite !forged_vals; auto.
  - cbn [k_mp mp_value_mask]. now rewrite k_mask_length.
  - cbn [k_mp mp_value_mask mp_data]. rewrite k_mask_length. now apply leaves_data.
  - cbn [k_mp mp_value_mask mp_descriptor]. rewrite k_mask_length. apply preorder_length.
  - reflexivity.
Qed.

(** ** The same story about another block *)
Definition read_with (R : Reader) (s : ConsensusState) : Reader :=
  mkReader (rd_chain_spec R) (rd_genesis_validators_root R) (rd_fork R) (rd_active_validators R) (rd_randao_mix R) (rd_attestations R) (Ok s) (rd_slot_for_block R).
Lemma same_group X R s av c atts : process_group X (read_with R s) av c atts = process_group X R av c atts.
Proof. reflexivity. Qed.
Lemma same_committees X R s av e : compute_committees X (read_with R s) av e = compute_committees X R av e.
Proof. reflexivity. Qed.

Lemma transition_about st l u r : state_transition st l = Ok u -> epoch (finalized st) < epoch (current_justified st) ->
  (epoch (finalized st) < epoch (finalized u) /\ epoch (finalized u) < epoch (current_justified u) /\ state_transition (about_block st r) l = Ok u) \/
  (finalized u = finalized st /\ epoch (finalized u) < epoch (current_justified u) /\ state_transition (about_block st r) l = Ok (about_block u r)).
Proof.
  intros E Hlt. unfold state_transition in *.
  assert (V : is_valid (about_block st r) = true). { unfold is_valid. cbn [about_block finalized current_justified epoch]. lia. }
  rewrite V. apply bind_ok in E as ([] & _ & E). cbn [about_block current_justified finalized assert_ bind] in *.
  destruct (checkpoint_eqb (current_justified st) (source l)) eqn:C; [|discriminate E]. apply checkpoint_eqb_eq in C.
  unfold safe_add in *. destruct (epoch (source l) + 1 <? two64) eqn:O1; [|discriminate]. cbn [bind] in *.
  destruct (epoch (target l) =? epoch (source l) + 1) eqn:T.
  - injection E as <-. left. cbn [finalized current_justified]. rewrite <- C in *. split; [exact Hlt|]. split; [lia|reflexivity].
  - rewrite C in *. rewrite O1 in *. cbn [bind] in *. destruct (epoch (source l) + 1 <? epoch (target l)) eqn:T2; [|discriminate]. injection E as <-.
    right. cbn [finalized current_justified about_block epoch]. split; [reflexivity|]. split; [lia|reflexivity].
Qed.

Lemma link_about X cfg R st0 r st g u : process_link X cfg R (finalized st) st g = Ok u -> epoch (finalized st) < epoch (current_justified st) ->
  (epoch (finalized st) < epoch (finalized u) /\ process_link X cfg (read_with R st0) (finalized (about_block st r)) (about_block st r) g = Ok u) \/
  (finalized u = finalized st /\ epoch (finalized u) < epoch (current_justified u) /\
   process_link X cfg (read_with R st0) (finalized (about_block st r)) (about_block st r) g = Ok (about_block u r)).
Proof.
  intros E Hlt. destruct g as [l atts]. unfold process_link in *. cbn [read_with rd_chain_spec rd_active_validators] in *.
  apply bind_ok in E as ([] & _ & E). apply bind_ok in E as ([] & E1 & E). apply bind_ok in E as (avl & E2 & E).
  apply bind_ok in E as (c & E3 & E). apply bind_ok in E as (pt & E4 & E). apply bind_ok in E as ([] & E5 & E).
  apply bind_ok in E as (s' & E6 & E). apply bind_ok in E as ([] & _ & E). injection E as ->. apply (proj1 (map_err_ok _ _ _)) in E6.
  rewrite (proj2 (checkpoint_eqb_eq _ _) eq_refl). cbn [ensure bind]. change (validate_link cfg (rd_chain_spec R) (finalized (about_block st r)) l) with (validate_link cfg (rd_chain_spec R) (finalized st) l).
  rewrite E1. cbn [bind]. rewrite E2. cbn [bind]. rewrite same_committees, E3. cbn [bind]. rewrite same_group, E4. cbn [bind]. rewrite E5. cbn [bind].
  destruct (transition_about st l u r E6 Hlt) as [(Q1 & Q2 & Q3)|(Q1 & Q2 & Q3)]; rewrite Q3; cbn [map_err bind].
  - left. split; [exact Q1|]. unfold is_valid. now replace (epoch (finalized u) <? epoch (current_justified u)) with true by lia.
  - right. split; [exact Q1|]. split; [exact Q2|]. unfold is_valid. cbn [about_block finalized current_justified epoch].
    now replace (epoch (finalized u) <? epoch (current_justified u)) with true by lia.
Qed.
Lemma loop_about X cfg R st0 r gs : forall st u, fold_outcome (process_link X cfg R (finalized st)) gs st = Ok u ->
  epoch (finalized st) < epoch (current_justified st) -> checkpoint_eqb (finalized u) (finalized st) = false ->
  epoch (finalized st) < epoch (finalized u) /\
  fold_outcome (process_link X cfg (read_with R st0) (finalized (about_block st r))) gs (about_block st r) = Ok u.
Proof.
  induction gs as [|g gs IH]; intros st u E Hlt Hne.
  - injection E as <-. rewrite (proj2 (checkpoint_eqb_eq _ _) eq_refl) in Hne. discriminate.
  - cbn [fold_outcome] in *. apply bind_ok in E as (v & E1 & E).
    destruct (link_about X cfg R st0 r st g v E1 Hlt) as [(Q1 & Q2)|(Q1 & Q2 & Q3)].
    + rewrite Q2. cbn [bind]. destruct gs as [|[l' a'] gs].
      * injection E as <-. auto.
      * exfalso. cbn [fold_outcome] in E. apply bind_ok in E as (w & E2 & _). unfold process_link in E2. apply bind_ok in E2 as (x & E2 & _).
        apply (proj1 (ensure_ok _ _ _)) in E2. apply checkpoint_eqb_eq in E2. rewrite E2 in Q1. lia.
    + rewrite Q3. cbn [bind]. rewrite <- Q1 in E, Hne. destruct (IH v u E Q2 Hne) as [I1 I2]. rewrite Q1 in *. split; [exact I1|].
      assert (A : finalized (about_block v r) = finalized (about_block st r)) by (cbn [about_block finalized]; now rewrite Q1). now rewrite A in I2.
Qed.
Lemma verify_about X cfg R st0 r post slot : rd_consensus_state R = Ok st0 -> epoch (finalized st0) < epoch (current_justified st0) ->
  verify X cfg R = Ok (post, slot) -> verify X cfg (read_with R (about_block st0 r)) = Ok (post, slot).
Proof.
  intros Hs Hlt V. unfold verify in *. rewrite Hs in V. cbn [read_with rd_consensus_state rd_attestations rd_slot_for_block unwrap bind] in *.
  apply bind_ok in V as (atts & V1 & V). rewrite V1. cbn [bind]. apply bind_ok in V as (st & V2 & V). apply bind_ok in V as (y & V3 & V).
  apply (proj1 (ensure_ok _ _ _)) in V3. apply negb_true_iff in V3.
  destruct (loop_about X cfg R (about_block st0 r) r _ st0 st V2 Hlt V3) as [Q1 Q2].
  fold (read_with R (about_block st0 r)). rewrite Q2. cbn [bind].
  assert (Hn : checkpoint_eqb (finalized st) (finalized (about_block st0 r)) = false).
  { destruct (checkpoint_eqb (finalized st) (finalized (about_block st0 r))) eqn:C; [|reflexivity]. apply checkpoint_eqb_eq in C. rewrite C in Q1. cbn [about_block finalized epoch] in Q1. lia. }
  rewrite Hn. exact V.
Qed.
Lemma reader_about X cs gi r mp g : into_reader X cs gi = Ok g -> mp_verify (sha256 X) mp r = Ok tt -> mp_values mp = mp_values (gi_beacon_block gi) ->
  exists g', into_reader X cs (retold gi r mp) = Ok g' /\ guest_reader g' = read_with (guest_reader g) (about_block (gi_consensus_state gi) r).
Proof.
  intros E Hm Hv. unfold into_reader in *. cbn [retold gi_consensus_state gi_beacon_block gi_beacon_state gi_active_validators gi_public_keys gi_patches gi_attestations gi_block_slot_proofs about_block finalized current_justified epoch root] in *.
  rewrite Hm. cbn [map_err bind]. apply bind_ok in E as (x & _ & E).
  replace (extract_beacon_block_multiproof mp) with (extract_beacon_block_multiproof (gi_beacon_block gi)) by (unfold extract_beacon_block_multiproof; now rewrite Hv).
  apply bind_ok in E as (sr & E1 & E). rewrite E1. cbn [bind]. apply bind_ok in E as (y & E2 & E). rewrite E2. cbn [bind].
  apply bind_ok in E as (si & E3 & E). rewrite E3. cbn [bind]. apply bind_ok in E as (z & E4 & E). rewrite E4. cbn [bind].
  apply bind_ok in E as (vals & E5 & E). rewrite E5. cbn [bind]. apply bind_ok in E as (w & E6 & E). rewrite E6. cbn [bind].
  apply bind_ok in E as (vals' & E7 & E). rewrite E7. cbn [bind]. apply bind_ok in E as (q & E8 & E). rewrite E8. cbn [bind].
  apply bind_ok in E as (bs & E9 & E). rewrite E9. cbn [bind]. injection E as <-. eexists. split; reflexivity.
Qed.
