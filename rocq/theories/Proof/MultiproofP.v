From Coq Require Import List ZArith NArith Bool Lia Sorted.
From Coq Require Import ZifyBool ZifyNat ZifyN.
From Verif.Model Require Import Base Multiproof.
From Verif.Spec Require Import Merkle MultiproofSpec.
From Verif.Proof Require Import BaseLemmas MerkleP.
Import ListNotations.
Open Scope N_scope.

(** ** Root computation: soundness *)

(** The tree (if any) a stack entry stands for. *)
Inductive tok (H : bytes -> bytes) : TreeNode -> option mtree -> Prop :=
| tok_leaf c : length c = 32%nat -> tok H (NLeaf c) (Some (MLeaf c))
| tok_comp l r : wf_tree (MNode l r) -> tok H (NComputed (mroot H (MNode l r))) (Some (MNode l r))
| tok_int : tok H NInternal None.
Definition tok_descr (o : option mtree) : list bool :=
  match o with Some t => preorder t | None => [false] end.
Definition tok_chunks (o : option mtree) : list bytes :=
  match o with Some t => map snd (leaves t) | None => [] end.
Definition toks_descr (os : list (option mtree)) := concat (map tok_descr (rev os)).
Definition toks_chunks (os : list (option mtree)) := concat (map tok_chunks (rev os)).

Lemma toks_descr_cons o os : toks_descr (o :: os) = toks_descr os ++ tok_descr o.
Proof. unfold toks_descr. simpl. rewrite map_app, concat_app. simpl. now rewrite app_nil_r. Qed.
Lemma toks_chunks_cons o os : toks_chunks (o :: os) = toks_chunks os ++ tok_chunks o.
Proof. unfold toks_chunks. simpl. rewrite map_app, concat_app. simpl. now rewrite app_nil_r. Qed.

Lemma map_snd_leaves_node l r : map snd (leaves (MNode l r)) = map snd (leaves l) ++ map snd (leaves r).
Proof. cbn [leaves]. rewrite map_app, !map_map. reflexivity. Qed.

Lemma tok_value H n o v : tok H n o -> node_value n = Some v ->
  exists t, o = Some t /\ v = mroot H t /\ wf_tree t.
Proof. inversion 1; subst; simpl; intros E; inversion E; subst; eauto. Qed.

Lemma reduce_toks H : forall n below top ob os,
  (length below <= n)%nat -> tok H top ob -> Forall2 (tok H) below os ->
  exists os', Forall2 (tok H) (reduce H top below) os' /\
    toks_descr os' = toks_descr (ob :: os) /\ toks_chunks os' = toks_chunks (ob :: os).
Proof.
  induction n as [|n IH]; intros below top ob os Hn Ht Hb.
  - destruct below; [|simpl in Hn; lia]. inversion Hb; subst. exists [ob]. simpl. auto.
  - destruct below as [|lf below].
    { inversion Hb; subst. exists [ob]. simpl. auto. }
    inversion Hb as [|? ol ? os1 Hl Hb1]; subst.
    destruct below as [|i below].
    { simpl. inversion Hb1; subst. eexists; split; [|eauto]. constructor; auto. }
    inversion Hb1 as [|? oi ? os2 Hi Hb2]; subst.
    assert (Hdef : exists os', Forall2 (tok H) (top :: lf :: i :: below) os' /\
      toks_descr os' = toks_descr (ob :: ol :: oi :: os2) /\
      toks_chunks os' = toks_chunks (ob :: ol :: oi :: os2)) by (eexists; split; [|eauto]; auto).
    destruct i; simpl; try exact Hdef.
    destruct (node_value top) as [rv|] eqn:Er; [|exact Hdef].
    destruct (node_value lf) as [lv|] eqn:El; [|exact Hdef].
    destruct (tok_value _ _ _ _ Ht Er) as (tr & -> & -> & Wr).
    destruct (tok_value _ _ _ _ Hl El) as (tl & -> & -> & Wl).
    inversion Hi; subst.
    destruct (IH below (NComputed (H (mroot H tl ++ mroot H tr))) (Some (MNode tl tr)) os2) as (os' & F & D & C).
    + simpl in Hn; lia.
    + apply (tok_comp H tl tr). split; auto.
    + auto.
    + exists os'. split; auto. rewrite D, C, !toks_descr_cons, !toks_chunks_cons. cbn [tok_descr tok_chunks].
      rewrite map_snd_leaves_node. cbn [preorder]. rewrite <- !app_assoc. simpl. auto.
Qed.

Lemma root_loop_toks H data : forall descr i stack os st',
  Forall2 (tok H) stack os ->
  root_loop H data descr i stack = Ok st' ->
  exists os' cs, Forall2 (tok H) st' os' /\ toks_descr os' = toks_descr os ++ descr /\
    toks_chunks os' = toks_chunks os ++ cs /\
    (forall k c, nth_error cs k = Some c -> slice data ((i + k) * 32) 32 = Some c) /\
    Forall (fun c => length c = 32%nat) cs.
Proof.
  induction descr as [|[] d IH]; cbn [root_loop]; intros i stack os st' Hs H0.
  - inv_ok. exists os, []. rewrite !app_nil_r. repeat split; auto. intros [] ?; discriminate.
  - inv_ok. rename x into c.
    assert (Hc : slice data (i * CHUNK_SIZE) CHUNK_SIZE = Some c) by auto. clear H1.
    assert (Lc : length c = 32%nat) by (eapply slice_length; eauto).
    destruct (reduce_toks H _ stack (NLeaf c) _ os (le_n _) (tok_leaf H c Lc) Hs) as (os1 & F1 & D1 & C1).
    eapply IH in H0; eauto. destruct H0 as (os' & cs & F & D & C & N & L).
    exists os', (c :: cs). split; auto.
    rewrite D, D1, C, C1, toks_descr_cons, toks_chunks_cons. cbn [tok_descr tok_chunks leaves map snd preorder].
    rewrite <- !app_assoc. simpl. repeat split; auto.
    intros [|k] c'; simpl.
    + intros E; injection E; intros; subst. rewrite Nat.add_0_r. exact Hc.
    + intros E. apply N in E. rewrite <- E. f_equal. lia.
  - assert (Forall2 (tok H) (NInternal :: stack) (None :: os)) as Hs' by (constructor; auto; constructor).
    eapply IH in H0; eauto. destruct H0 as (os' & cs & F & D & C & N & L).
    exists os', cs. split; auto. rewrite D, C, toks_descr_cons, toks_chunks_cons. simpl.
    rewrite <- !app_assoc. repeat split; auto.
Qed.

Lemma slices_prefix (data : bytes) (cs : list bytes) :
  (forall k c, nth_error cs k = Some c -> slice data (k * 32) 32 = Some c) ->
  Forall (fun c => length c = 32%nat) cs ->
  exists rest, data = concat cs ++ rest.
Proof.
  revert data. induction cs as [|c cs IH]; intros data Hn Hl; simpl; [eauto|].
  inversion Hl; subst.
  pose proof (Hn 0%nat c eq_refl) as H0. apply slice_some in H0 as (H0 & H0').
  change (skipn (0 * 32) data) with data in H0'.
  destruct (IH (skipn 32 data)) as [rest Er]; auto.
  - intros k c' E. specialize (Hn (S k) c' E). apply slice_some in Hn as (Ha & Hb).
    unfold slice. rewrite skipn_length. destruct (Nat.leb_spec (k*32+32) (length data - 32)); [|lia].
    rewrite Hb. f_equal. rewrite skipn_skipn. repeat f_equal.
  - exists rest. rewrite <- app_assoc, <- Er. rewrite H0'. symmetry; apply firstn_skipn.
Qed.

(** ** Root computation: completeness *)
Definition node_of (H : bytes -> bytes) (t : mtree) : TreeNode :=
  match t with MLeaf c => NLeaf c | MNode _ _ => NComputed (mroot H t) end.
Lemma node_of_value H t : node_value (node_of H t) = Some (mroot H t).
Proof. destruct t; reflexivity. Qed.
Lemma reduce_below_internal H n stack : reduce H n (NInternal :: stack) = n :: NInternal :: stack.
Proof. simpl. destruct stack as [|[] ?]; auto. destruct (node_value n); auto. Qed.
Lemma reduce_pair H l r stack :
  reduce H (node_of H r) (node_of H l :: NInternal :: stack) = reduce H (node_of H (MNode l r)) stack.
Proof. cbn [reduce]. rewrite !node_of_value. reflexivity. Qed.

Lemma root_loop_tree H data : forall t d i stack,
  (forall k c, nth_error (map snd (leaves t)) k = Some c -> slice data ((i + k) * 32) 32 = Some c) ->
  root_loop H data (preorder t ++ d) i stack
    = root_loop H data d (i + length (leaves t)) (reduce H (node_of H t) stack).
Proof.
  induction t as [c|l IHl rt IHr]; intros d i stack Hn.
  - cbn [preorder app root_loop leaves length]. specialize (Hn 0%nat c eq_refl).
    rewrite Nat.add_0_r in Hn. unfold CHUNK_SIZE. rewrite Hn. simpl. now rewrite Nat.add_1_r.
  - cbn [preorder app root_loop]. rewrite <- app_assoc. rewrite map_snd_leaves_node in Hn.
    assert (length (leaves (MNode l rt)) = length (leaves l) + length (leaves rt))%nat as HL
      by (cbn [leaves]; now rewrite app_length, !map_length).
    rewrite IHl.
    2:{ intros k c E. apply Hn. rewrite nth_error_app1; auto. apply nth_error_Some. congruence. }
    rewrite reduce_below_internal. rewrite IHr.
    2:{ intros k c E. rewrite <- Nat.add_assoc. apply Hn.
        rewrite nth_error_app2 by (rewrite map_length; lia). rewrite <- E. f_equal. rewrite map_length. lia. }
    rewrite reduce_pair, HL. f_equal. lia.
Qed.

Lemma slice_concat_nth (cs : list bytes) (rest : bytes) k c :
  Forall (fun c => length c = 32%nat) cs -> nth_error cs k = Some c ->
  slice (concat cs ++ rest) (k * 32) 32 = Some c.
Proof.
  revert k. induction cs as [|a cs IH]; intros k Hl E; [destruct k; discriminate|].
  inversion Hl; subst. destruct k as [|k].
  - injection E; intros; subst. cbn [concat]. rewrite <- app_assoc.
    pose proof (slice_app [] c (concat cs ++ rest)) as S0. simpl in S0. rewrite H1 in S0. exact S0.
  - simpl in E. apply IH in E; auto. apply slice_some in E as (Ha & Hb).
    cbn [concat]. rewrite <- app_assoc. unfold slice. rewrite app_length, H1.
    destruct (Nat.leb_spec (S k * 32 + 32) (32 + length (concat cs ++ rest))); [|lia].
    rewrite Hb. f_equal. replace (S k * 32)%nat with (length a + k * 32)%nat by lia.
    rewrite skipn_app, skipn_all2 by lia.
    replace (length a + k * 32 - length a)%nat with (k * 32)%nat by lia. reflexivity.
Qed.

Theorem calculate_root_iff H mp rt :
  calculate_root H mp = Ok rt <-> exists t, encodes mp t /\ inner t /\ rt = mroot H t.
Proof.
  unfold calculate_root, calculate_compact_multi_merkle_root. split.
  - intros E. apply bind_ok in E as (st & E1 & E2).
    destruct (root_loop_toks H _ _ _ _ [] _ (Forall2_nil _) E1) as (os & cs & F & D & C & N & L).
    destruct st as [|n [|]]; try discriminate; [|destruct n; discriminate].
    inversion F as [|? o ? ? T0 F0]; subst. inversion F0; subst.
    inversion T0; subst; try discriminate. injection E2; intros; subst.
    exists (MNode l r). unfold toks_descr, toks_chunks in *. simpl rev in *. cbn [map concat app] in D, C.
    rewrite app_nil_r in D, C. cbn [tok_descr tok_chunks] in D, C.
    split; [|split; simpl; auto]. split; [auto|]. split; [auto|].
    rewrite C. apply slices_prefix; auto.
  - intros (t & (Hd & Hw & rest & Hdata) & Hi & ->). rewrite Hd.
    rewrite <- (app_nil_r (preorder t)).
    apply wf_tree_leaves in Hw.
    rewrite root_loop_tree.
    2:{ intros k c E. simpl. rewrite Hdata. apply slice_concat_nth; auto. now rewrite Forall_map. }
    destruct t; [easy|]. reflexivity.
Qed.

Lemma mp_verify_iff H mp rt :
  mp_verify H mp rt = Ok tt <-> exists t, encodes mp t /\ inner t /\ rt = mroot H t.
Proof.
  unfold mp_verify. rewrite <- calculate_root_iff. split; intros E.
  - inv_ok. destruct (bytes_eqb x rt) eqn:B; [|discriminate]. apply bytes_eqb_eq in B. now subst.
  - rewrite E. simpl. now rewrite (proj2 (bytes_eqb_eq rt rt) eq_refl).
Qed.

(** The encoding determines the tree. *)
Lemma preorder_prefix : forall t1 t2 d1 d2 c1 c2,
  preorder t1 ++ d1 = preorder t2 ++ d2 ->
  map snd (leaves t1) ++ c1 = map snd (leaves t2) ++ c2 ->
  t1 = t2 /\ d1 = d2 /\ c1 = c2.
Proof.
  induction t1 as [x|l1 IHl r1 IHr]; intros [y|l2 r2] d1 d2 c1 c2 Ed Ec.
  - simpl in *. injection Ed; injection Ec; intros; subst; auto.
  - discriminate.
  - discriminate.
  - rewrite !map_snd_leaves_node in Ec. cbn [preorder app] in Ed. injection Ed; clear Ed; intros Ed.
    rewrite <- !app_assoc in Ed, Ec.
    destruct (IHl _ _ _ _ _ Ed Ec) as (-> & Ed' & Ec').
    destruct (IHr _ _ _ _ _ Ed' Ec') as (-> & -> & ->). auto.
Qed.
Lemma preorder_leaf_count : forall t1 t2 d1 d2,
  preorder t1 ++ d1 = preorder t2 ++ d2 -> length (leaves t1) = length (leaves t2) /\ d1 = d2.
Proof.
  induction t1 as [x|l1 IHl r1 IHr]; intros [y|l2 r2] d1 d2 Ed; simpl in Ed; try discriminate.
  - injection Ed; auto.
  - injection Ed; clear Ed; intros Ed. rewrite <- !app_assoc in Ed.
    destruct (IHl _ _ _ Ed) as (L1 & Ed'). destruct (IHr _ _ _ Ed') as (L2 & ->).
    cbn [leaves]. rewrite !app_length, !map_length. auto.
Qed.
Lemma concat32_inj : forall (a b : list bytes) ra rb, length a = length b ->
  Forall (fun c => length c = 32%nat) a -> Forall (fun c => length c = 32%nat) b ->
  concat a ++ ra = concat b ++ rb -> a = b /\ ra = rb.
Proof.
  induction a as [|x a IH]; intros [|y b] ra rb L Fa Fb E; try discriminate; [auto|].
  inversion Fa; inversion Fb; subst. cbn [concat] in E. rewrite <- !app_assoc in E.
  apply app_inj_length in E as [-> E]; [|congruence]. destruct (IH b ra rb) as [-> ->]; auto.
Qed.
Lemma encodes_unique mp t t' : encodes mp t -> encodes mp t' -> t = t'.
Proof.
  intros (D & W & rest & E) (D' & W' & rest' & E').
  assert (preorder t ++ [] = preorder t' ++ []) as P by (rewrite !app_nil_r; congruence).
  destruct (preorder_leaf_count _ _ _ _ P) as (L & _).
  assert (map snd (leaves t) = map snd (leaves t')) as M.
  { apply wf_tree_leaves in W, W'.
    destruct (concat32_inj (map snd (leaves t)) (map snd (leaves t')) rest rest') as [? _]; auto.
    - now rewrite !map_length. - now rewrite Forall_map. - now rewrite Forall_map. - congruence. }
  apply (preorder_prefix t t' [] [] [] []); rewrite ?app_nil_r; auto; congruence.
Qed.

(** ** Generalized indices *)
Lemma wrap64_lt x : wrap64 x < two64.
Proof. unfold wrap64. apply N.mod_lt. discriminate. Qed.
Lemma wrap64_small x : x < two64 -> wrap64 x = x.
Proof. unfold wrap64. apply N.mod_small. Qed.
Lemma wrap64_wrap64 x : wrap64 (wrap64 x) = wrap64 x.
Proof. apply wrap64_small, wrap64_lt. Qed.
Lemma wrap64_double x : wrap64 (wrap64 x * 2) = wrap64 (x * 2).
Proof. unfold wrap64. rewrite N.mul_mod_idemp_l by discriminate. auto. Qed.
Lemma wrap64_succ x : wrap64 (wrap64 x + 1) = wrap64 (x + 1).
Proof. unfold wrap64. rewrite N.add_mod_idemp_l by discriminate. auto. Qed.

Definition gstep (g : N) (p : path) : N := fold_left gindex_step p g.

Lemma gindex_iter_tree : forall t d g s st,
  gindex_iter (preorder t ++ d) (wrap64 g) (s :: st) =
  map (fun p => wrap64 (gstep g p)) (map fst (leaves t)) ++
  gindex_iter d (wrap64 (wrap64 (s * 2) + 1)) st.
Proof.
  induction t as [c|l IHl rt IHr]; intros d g s st.
  - simpl. reflexivity.
  - cbn [preorder app gindex_iter leaves]. rewrite <- app_assoc.
    rewrite wrap64_double. rewrite IHl. rewrite wrap64_double, wrap64_succ. rewrite IHr.
    rewrite !map_app, !map_map. cbn [fst]. rewrite <- app_assoc. f_equal; [|f_equal].
    + apply map_ext. intros [p c]. cbn [fst gstep fold_left]. unfold gstep. cbn [fold_left gindex_step].
      repeat f_equal. unfold gindex_step. lia.
    + apply map_ext. intros [p c]. unfold gstep. cbn [fst fold_left]. repeat f_equal.
      unfold gindex_step. lia.
Qed.

Theorem gindices_tree t : gindices (preorder t) = map (fun p => wrap64 (gindex_of p)) (map fst (leaves t)).
Proof.
  unfold gindices. rewrite <- (app_nil_r (preorder t)).
  change 1 with (wrap64 1) at 1. rewrite gindex_iter_tree. simpl. now rewrite app_nil_r.
Qed.
Theorem gindices_tree_small t : (depth t < 64)%nat ->
  gindices (preorder t) = map gindex_of (map fst (leaves t)).
Proof.
  intros. rewrite gindices_tree, !map_map. apply map_ext_in. intros [p c] Hin. simpl.
  apply wrap64_small, gindex_of_lt64. apply leaves_depth in Hin. lia.
Qed.

Lemma chunks_exact_aux_app : forall (cs : list bytes) (rest : bytes) fuel,
  Forall (fun c => length c = 32%nat) cs -> (length cs <= fuel)%nat ->
  exists tl, chunks_exact_aux fuel (concat cs ++ rest) = cs ++ tl.
Proof.
  induction cs as [|c cs IH]; intros rest fuel Hl Hf; simpl; [eauto|].
  destruct fuel; [simpl in Hf; lia|]. inversion Hl; subst. cbn [chunks_exact_aux]. rewrite <- app_assoc.
  pose proof (slice_app [] c (concat cs ++ rest)) as S0. simpl in S0. rewrite H1 in S0.
  unfold CHUNK_SIZE. rewrite S0.
  assert (skipn 32 (c ++ concat cs ++ rest) = concat cs ++ rest) as ->.
  { rewrite skipn_app, skipn_all2, H1 by lia. reflexivity. }
  destruct (IH rest fuel) as [tl E]; auto; [simpl in Hf; lia|]. rewrite E.
  exists tl. reflexivity.
Qed.
Lemma concat32_length cs : Forall (fun c : bytes => length c = 32%nat) cs -> (length (concat cs) = 32 * length cs)%nat.
Proof. induction 1; cbn [concat length]; auto. rewrite app_length. lia. Qed.
Lemma chunks_exact_app (cs : list bytes) (rest : bytes) : Forall (fun c => length c = 32%nat) cs ->
  exists tl, chunks_exact (concat cs ++ rest) = cs ++ tl.
Proof.
  intros. apply chunks_exact_aux_app; auto. rewrite app_length, concat32_length by auto. lia.
Qed.
Lemma combine_app_l {A B} (a : list A) (b b' : list B) : length a = length b ->
  combine a (b ++ b') = combine a b.
Proof.
  revert b. induction a; intros [|y b] L; try discriminate; simpl; auto. f_equal; auto.
Qed.
Lemma combine_map_fst_snd {A B C} (f : A -> C) (l : list (A * B)) :
  combine (map f (map fst l)) (map snd l) = map (fun x => (f (fst x), snd x)) l.
Proof. induction l; simpl; auto. f_equal; auto. Qed.

(** What [nodes] yields for a proof tree, without any depth assumption. *)
Theorem mp_nodes_tree mp t : encodes mp t ->
  mp_nodes mp = map (fun x => (wrap64 (gindex_of (fst x)), snd x)) (leaves t).
Proof.
  intros (D & W & rest & E). unfold mp_nodes. rewrite D, E, gindices_tree.
  apply wf_tree_leaves in W.
  destruct (chunks_exact_app (map snd (leaves t)) rest) as [tl ->]; [now rewrite Forall_map|].
  rewrite combine_app_l by (now rewrite !map_length). now rewrite combine_map_fst_snd.
Qed.
Theorem mp_nodes_tree_small mp t : encodes mp t -> (depth t < 64)%nat ->
  mp_nodes mp = map (fun x => (gindex_of (fst x), snd x)) (leaves t).
Proof.
  intros He Hd. rewrite (mp_nodes_tree _ _ He). apply map_ext_in. intros [p c] Hin. simpl.
  f_equal. apply wrap64_small, gindex_of_lt64. apply leaves_depth in Hin. lia.
Qed.

Lemma mp_values_in mp x : In x (mp_values mp) -> In x (mp_nodes mp).
Proof.
  unfold mp_values. intros Hin. apply in_map_iff in Hin as ([y b] & <- & Hin).
  apply filter_In in Hin as [Hin _]. now apply in_combine_l in Hin.
Qed.

Theorem multiproof_binding H mp T t g v p x :
  hash32 H -> wf_tree T -> mp_verify H mp (mroot H T) = Ok tt -> encodes mp t -> (depth t < 64)%nat ->
  injective_on H (hash_inputs H T ++ hash_inputs H t) ->
  In (g, v) (mp_nodes mp) -> gindex_of p = g -> node_at H T p = Some x -> x = v.
Proof.
  intros Hh HT Hv He Hd Hinj Hin Hg Hx.
  apply mp_verify_iff in Hv as (t' & He' & _ & Hr). rewrite (encodes_unique _ _ _ He' He) in Hr.
  rewrite (mp_nodes_tree_small _ _ He Hd) in Hin. apply in_map_iff in Hin as ([q c] & E & Hin).
  simpl in E. injection E; intros; subst. apply gindex_of_inj in H1. subst q.
  apply subtree_leaves in Hin.
  eapply (merkle_binding H T t p); eauto. - apply He. - unfold node_at. now rewrite Hin.
Qed.
