(** Consequences of the index wrap-around in the multiproof iterator. *)
From Coq Require Import List ZArith NArith Bool Lia Sorted.
From Coq Require Import ZifyBool ZifyNat ZifyN.
From Verif.Model Require Import Base Multiproof.
From Verif.Spec Require Import Merkle MultiproofSpec.
From Verif.Proof Require Import BaseLemmas MerkleP MultiproofP.
Import ListNotations.
Open Scope N_scope.

(** Trees whose leaves also carry the value-mask bit. *)
Inductive ktree := KLeaf (c : bytes) (b : bool) | KNode (l r : ktree).
Fixpoint k_tree (k : ktree) : mtree :=
  match k with KLeaf c _ => MLeaf c | KNode l r => MNode (k_tree l) (k_tree r) end.
Fixpoint k_mask (k : ktree) : list bool :=
  match k with KLeaf _ b => [b] | KNode l r => k_mask l ++ k_mask r end.
(** Values below a node with (unwrapped) index [g]. *)
Fixpoint k_vals (g : N) (k : ktree) : list (N * bytes) :=
  match k with
  | KLeaf c b => if b then [(wrap64 g, c)] else []
  | KNode l r => k_vals (2 * g) l ++ k_vals (2 * g + 1) r
  end.
Definition k_mp (k : ktree) : Multiproof :=
  mkMultiproof (concat (map snd (leaves (k_tree k)))) (k_mask k) (preorder (k_tree k)) 0.

Lemma k_mask_length k : length (k_mask k) = length (leaves (k_tree k)).
Proof. induction k; cbn [k_mask k_tree leaves]; auto. rewrite !app_length, !map_length. rewrite IHk1, IHk2. reflexivity. Qed.
Lemma combine_app2 {A B} (a a' : list A) (b b' : list B) : length a = length b ->
  combine (a ++ a') (b ++ b') = combine a b ++ combine a' b'.
Proof. revert b. induction a; intros [|y b] L; try discriminate; simpl; auto. f_equal; auto. Qed.

Lemma k_vals_spec : forall k g,
  map fst (filter (fun x => snd x)
    (combine (map (fun x => (wrap64 (gstep g (fst x)), snd x)) (leaves (k_tree k))) (k_mask k))) = k_vals g k.
Proof.
  induction k as [c b|l IHl r IHr]; intros g.
  - simpl. destruct b; reflexivity.
  - cbn [k_tree leaves k_mask k_vals]. rewrite map_app, !map_map. cbn [fst snd].
    rewrite combine_app2 by (now rewrite map_length, k_mask_length).
    rewrite filter_app, map_app. rewrite <- IHl, <- IHr. f_equal; do 3 f_equal; apply map_ext; intros [p c];
      unfold gstep; cbn [fst snd fold_left gindex_step]; repeat f_equal; unfold gindex_step; lia.
Qed.
Lemma k_mp_values k : wf_tree (k_tree k) -> mp_values (k_mp k) = k_vals 1 k.
Proof.
  intros Hw. unfold mp_values.
  assert (encodes (k_mp k) (k_tree k)) as He.
  { split; auto. split; auto. exists []. simpl. now rewrite app_nil_r. }
  rewrite (mp_nodes_tree _ _ He). apply k_vals_spec.
Qed.

Definition zchunk : bytes := zero_bytes 32.

(** A comb: the chunk [v] below the given path, with zero chunks beside it. *)
Fixpoint comb (q : path) (v : bytes) : ktree :=
  match q with
  | [] => KLeaf v true
  | true :: q' => KNode (KLeaf zchunk false) (comb q' v)
  | false :: q' => KNode (comb q' v) (KLeaf zchunk false)
  end.
Lemma comb_vals q v g : k_vals g (comb q v) = [(wrap64 (gstep g q), v)].
Proof.
  revert g. induction q as [|[] q IH]; intros g; cbn [comb k_vals app].
  - reflexivity.
  - rewrite IH. reflexivity.
  - rewrite IH. cbn [app]. unfold gstep. cbn [fold_left gindex_step]. repeat f_equal. unfold gindex_step. lia.
Qed.
Lemma comb_wf q v : length v = 32%nat -> wf_tree (k_tree (comb q v)).
Proof. intros. induction q as [|[] q IH]; simpl; auto. Qed.

(** The [k] low bits of [g], most significant first. *)
Fixpoint low_bits (k : nat) (g : N) : path :=
  match k with O => [] | S k' => low_bits k' (g / 2) ++ [N.odd g] end.
Lemma low_bits_length k g : length (low_bits k g) = k.
Proof. revert g. induction k; simpl; auto. intros. rewrite app_length, IHk. simpl; lia. Qed.
Lemma low_bits_val k g : fold_left gindex_step (low_bits k g) 0 = g mod 2 ^ N.of_nat k.
Proof.
  revert g. induction k; intros g.
  - simpl. now rewrite N.mod_1_r.
  - cbn [low_bits]. rewrite fold_left_app. cbn [fold_left]. rewrite IHk. unfold gindex_step.
    rewrite Nat2N.inj_succ, N.pow_succ_r'. rewrite N.mod_mul_r by (try apply N.pow_nonzero; discriminate).
    rewrite <- (N.bit0_mod g). rewrite N.bit0_odd. destruct (N.odd g); simpl N.b2n; lia.
Qed.
Lemma gstep_low64 g0 g : g < two64 -> wrap64 (gstep g0 (low_bits 64 g)) = g.
Proof.
  intros Hg. unfold gstep. rewrite fold_gindex_linear, low_bits_val, low_bits_length.
  change (2 ^ N.of_nat 64) with two64. rewrite N.mod_small by auto.
  unfold wrap64. rewrite N.add_comm, N.mod_add by discriminate. now apply N.mod_small.
Qed.

(** A forged subtree: reports exactly [vals], wherever it is attached. *)
Fixpoint forged (vals : list (N * bytes)) : ktree :=
  match vals with
  | [] => KNode (KLeaf zchunk false) (KLeaf zchunk false)
  | (g, v) :: rest => KNode (comb (low_bits 64 g) v) (forged rest)
  end.
Lemma forged_cons g v rest : forged ((g, v) :: rest) = KNode (comb (low_bits 64 g) v) (forged rest).
Proof. reflexivity. Qed.
Lemma k_vals_node g l r : k_vals g (KNode l r) = k_vals (2 * g) l ++ k_vals (2 * g + 1) r.
Proof. reflexivity. Qed.
Lemma k_tree_wf_node l r : wf_tree (k_tree (KNode l r)) <-> wf_tree (k_tree l) /\ wf_tree (k_tree r).
Proof. reflexivity. Qed.
Lemma forged_vals vals g : Forall (fun x => fst x < two64) vals -> k_vals g (forged vals) = vals.
Proof.
  intros F. revert g. induction F as [|[g' v] vals Hg F IH]; intros g; [reflexivity|].
  rewrite forged_cons, k_vals_node, comb_vals, IH, gstep_low64 by exact Hg. reflexivity.
Qed.
Lemma forged_wf vals : Forall (fun x => length (snd x) = 32%nat) vals -> wf_tree (k_tree (forged vals)).
Proof.
  induction 1 as [|[g v] vals Hv F IH]; [simpl; auto|]. rewrite forged_cons. apply k_tree_wf_node. split; auto.
  apply comb_wf. exact Hv.
Qed.
Definition forged_chunk (H : bytes -> bytes) (vals : list (N * bytes)) : bytes := mroot H (k_tree (forged vals)).

(** Attach [a] at position [p]; everything else is a helper. *)
Fixpoint k_helper (T : mtree) : ktree :=
  match T with MLeaf c => KLeaf c false | MNode l r => KNode (k_helper l) (k_helper r) end.
Fixpoint attach (T : mtree) (p : path) (a : ktree) {struct p} : ktree :=
  match p, T with
  | [], _ => a
  | true :: q, MNode l r => KNode (k_helper l) (attach r q a)
  | false :: q, MNode l r => KNode (attach l q a) (k_helper r)
  | _ :: _, MLeaf c => KLeaf c false
  end.
Lemma k_helper_tree T : k_tree (k_helper T) = T.
Proof. induction T; simpl; congruence. Qed.
Lemma k_helper_vals T g : k_vals g (k_helper T) = [].
Proof. revert g. induction T; intros g; simpl; auto. now rewrite IHT1, IHT2. Qed.
Lemma attach_root H p : forall T a, subtree T p = Some (MLeaf (mroot H (k_tree a))) ->
  mroot H (k_tree (attach T p a)) = mroot H T.
Proof.
  induction p as [|[] p IH]; intros T a Hs.
  - simpl in *. injection Hs; intros ->. reflexivity.
  - destruct T as [|l r]; [discriminate|]. simpl in Hs. cbn [attach k_tree mroot].
    rewrite k_helper_tree, (IH r a Hs). reflexivity.
  - destruct T as [|l r]; [discriminate|]. simpl in Hs. cbn [attach k_tree mroot].
    rewrite k_helper_tree, (IH l a Hs). reflexivity.
Qed.
Lemma attach_wf p : forall T a, wf_tree T -> wf_tree (k_tree a) -> wf_tree (k_tree (attach T p a)).
Proof.
  induction p as [|[] p IH]; intros T a HT Ha; auto; destruct T as [|l r]; auto; destruct HT;
    cbn [attach k_tree wf_tree]; rewrite k_helper_tree; auto.
Qed.
Lemma attach_vals p : forall T a g c, subtree T p = Some c ->
  (forall g', k_vals g' a = k_vals 0 a) -> k_vals g (attach T p a) = k_vals 0 a.
Proof.
  induction p as [|[] p IH]; intros T a g c Hs Hc; [apply Hc| |];
    (destruct T as [|l r]; [discriminate|]); cbn [attach k_vals]; rewrite k_helper_vals; simpl in Hs.
  - rewrite (IH r a _ c); auto.
  - rewrite (IH l a _ c); auto. now rewrite app_nil_r.
Qed.

Theorem forgery H T p vals : hash32 H -> wf_tree T ->
  Forall (fun x => fst x < two64 /\ length (snd x) = 32%nat) vals ->
  subtree T p = Some (MLeaf (forged_chunk H vals)) ->
  exists mp, mp_verify H mp (mroot H T) = Ok tt /\ mp_values mp = vals.
Proof.
  intros Hh HT F Hs.
  assert (Forall (fun x : N * bytes => fst x < two64) vals) as F1 by (eapply Forall_impl; [|exact F]; simpl; tauto).
  assert (Forall (fun x : N * bytes => length (snd x) = 32%nat) vals) as F2 by (eapply Forall_impl; [|exact F]; simpl; tauto).
  pose proof (forged_wf vals F2) as Wf.
  exists (k_mp (attach T p (forged vals))).
  assert (wf_tree (k_tree (attach T p (forged vals)))) as W by (apply attach_wf; auto).
  split.
  - apply mp_verify_iff. exists (k_tree (attach T p (forged vals))). repeat split; auto.
    + exists []. simpl. now rewrite app_nil_r.
    + destruct p as [|b p]; [destruct vals as [|[g v] vals]; exact I|].
      destruct T as [|l r]; [destruct b; discriminate|]. destruct b; exact I.
    + symmetry. now apply attach_root.
  - rewrite k_mp_values by auto. rewrite (attach_vals p T _ 1 _ Hs).
    + now apply forged_vals.
    + intros g'. rewrite !forged_vals; auto.
Qed.
