From Coq Require Import List ZArith NArith Bool Lia Sorted.
From Coq Require Import ZifyBool ZifyNat ZifyN.
From Verif.Model Require Import Base.
From Verif.Spec Require Import Merkle.
From Verif.Proof Require Import BaseLemmas.
Import ListNotations.
Open Scope N_scope.

Lemma mroot_length H t : hash32 H -> wf_tree t -> length (mroot H t) = 32%nat.
Proof. intros Hh. destruct t; simpl; auto. Qed.

Lemma leaves_nonempty t : leaves t <> [].
Proof.
  induction t; simpl; [discriminate|]. intros E. apply app_eq_nil in E as [E _].
  apply map_eq_nil in E. auto.
Qed.
Lemma wf_tree_leaves t : wf_tree t <-> Forall (fun x => length (snd x) = 32%nat) (leaves t).
Proof.
  induction t as [c|l IHl rt IHr]; cbn [wf_tree leaves].
  - split; intros. + constructor; auto. + now inversion H.
  - rewrite IHl, IHr, Forall_app, !Forall_map. simpl. tauto.
Qed.

(** Paths and generalized indices. *)
Lemma gindex_of_snoc p b : gindex_of (p ++ [b]) = 2 * gindex_of p + (if b then 1 else 0).
Proof. unfold gindex_of. rewrite fold_left_app. reflexivity. Qed.
Lemma gindex_of_nil : gindex_of [] = 1. Proof. reflexivity. Qed.
Lemma gindex_of_pos p : 1 <= gindex_of p.
Proof.
  induction p using rev_ind; [rewrite gindex_of_nil; lia|].
  rewrite gindex_of_snoc. destruct x; lia.
Qed.
Lemma fold_gindex_linear p g : fold_left gindex_step p g
  = g * 2 ^ N.of_nat (length p) + fold_left gindex_step p 0.
Proof.
  revert g. induction p as [|b p IH]; intros; [simpl; lia|].
  cbn [fold_left length]. rewrite IH. rewrite (IH (gindex_step 0 b)). unfold gindex_step.
  rewrite Nat2N.inj_succ, N.pow_succ_r'. destruct b; nia.
Qed.
Lemma fold_gindex0_bound p : fold_left gindex_step p 0 < 2 ^ N.of_nat (length p).
Proof.
  induction p as [|b p IH]; [simpl; lia|].
  cbn [fold_left length]. rewrite fold_gindex_linear. unfold gindex_step at 1.
  rewrite Nat2N.inj_succ, N.pow_succ_r'. destruct b; lia.
Qed.
Lemma gindex_of_range p : 2 ^ N.of_nat (length p) <= gindex_of p < 2 ^ (N.of_nat (length p) + 1).
Proof.
  unfold gindex_of. rewrite fold_gindex_linear. pose proof (fold_gindex0_bound p).
  rewrite N.add_1_r, N.pow_succ_r'. lia.
Qed.
Lemma gindex_of_inj p q : gindex_of p = gindex_of q -> p = q.
Proof.
  revert q. induction p as [|b p IH] using rev_ind; intros q E.
  - destruct q as [|c q _] using rev_ind; auto.
    rewrite gindex_of_snoc, gindex_of_nil in E. pose proof (gindex_of_pos q). destruct c; lia.
  - destruct q as [|c q _] using rev_ind.
    + rewrite gindex_of_snoc, gindex_of_nil in E. pose proof (gindex_of_pos p). destruct b; lia.
    + rewrite !gindex_of_snoc in E.
      assert (gindex_of p = gindex_of q) as E1 by (destruct b, c; lia).
      apply IH in E1. subst. f_equal. f_equal. destruct b, c; auto; lia.
Qed.
Lemma gindex_of_lt64 p : (length p < 64)%nat -> gindex_of p < two64.
Proof.
  intros. pose proof (gindex_of_range p) as [_ Hr]. eapply N.lt_le_trans; [exact Hr|].
  change two64 with (2^64). apply N.pow_le_mono_r; lia.
Qed.

Lemma gindex_of_path_of g : 1 <= g -> gindex_of (path_of g) = g.
Proof.
  destruct g as [|p]; [lia|intros _]. simpl.
  induction p; simpl; rewrite ?gindex_of_snoc, ?IHp; reflexivity || lia.
Qed.
Lemma path_of_gindex_of p : path_of (gindex_of p) = p.
Proof. apply gindex_of_inj. apply gindex_of_path_of. apply gindex_of_pos. Qed.

(** Subtrees. *)
Lemma subtree_app t p q : subtree t (p ++ q) =
  match subtree t p with Some s => subtree s q | None => None end.
Proof.
  revert t. induction p; simpl; intros; auto. destruct t; auto.
Qed.
Lemma subtree_leaves t p c : In (p, c) (leaves t) <-> subtree t p = Some (MLeaf c).
Proof.
  revert p. induction t as [c0|l IHl rt IHr]; intros p; cbn [leaves].
  - split.
    + intros [E|[]]. injection E; intros; subst. reflexivity.
    + destruct p; simpl; [|discriminate]. intros E; injection E; intros; subst; auto.
  - rewrite in_app_iff, !in_map_iff. split.
    + intros [([p' c'] & E & Hin)|([p' c'] & E & Hin)]; simpl in E; injection E; intros; subst;
        simpl; [now apply IHl|now apply IHr].
    + destruct p as [|[] p]; simpl; [discriminate| |]; intros E.
      * right. exists (p, c). split; auto. now apply IHr.
      * left. exists (p, c). split; auto. now apply IHl.
Qed.
Lemma leaves_depth t p c : In (p, c) (leaves t) -> (length p <= depth t)%nat.
Proof.
  revert p. induction t; cbn [leaves depth]; intros p Hin.
  - destruct Hin as [E|[]]. injection E; intros; subst; simpl; lia.
  - apply in_app_iff in Hin as [Hin|Hin]; apply in_map_iff in Hin as ([p' c'] & E & Hin);
      simpl in E; injection E; intros; subst.
    + apply IHt1 in Hin. simpl; lia.
    + apply IHt2 in Hin. simpl; lia.
Qed.

(** Order of positions. *)
Lemma path_compare_refl p : path_compare p p = Eq.
Proof. induction p as [|[]]; simpl; auto. Qed.
Lemma path_compare_eq p q : path_compare p q = Eq <-> p = q.
Proof.
  split; [|intros ->; apply path_compare_refl].
  revert q. induction p as [|[] p IH]; destruct q as [|[] q]; simpl; intros; try discriminate; auto;
    f_equal; auto.
Qed.
Lemma path_compare_antisym p q : path_compare q p = CompOpp (path_compare p q).
Proof. revert q. induction p as [|[] p IH]; destruct q as [|[] q]; simpl; auto. Qed.
Lemma path_lt_irrefl p : ~ path_lt p p.
Proof. unfold path_lt. rewrite path_compare_refl. discriminate. Qed.
Lemma path_lt_trans p q s : path_lt p q -> path_lt q s -> path_lt p s.
Proof.
  unfold path_lt. revert q s. induction p as [|[] p IH]; intros q s; destruct q as [|[] q]; destruct s as [|[] s];
    simpl; try discriminate; auto; eauto.
Qed.
Lemma leaves_sorted t : StronglySorted path_lt (map fst (leaves t)).
Proof.
  induction t as [c|l IHl rt IHr]; cbn [leaves map]; [repeat constructor|].
  rewrite map_app, !map_map. simpl.
  assert (forall b ps, StronglySorted path_lt ps -> StronglySorted path_lt (map (cons b) ps)) as Hc.
  { induction 1; simpl; constructor; auto. apply Forall_map.
    eapply Forall_impl; [|exact H0]. unfold path_lt. simpl. destruct b; auto. }
  assert (forall ps qs, StronglySorted path_lt ps -> StronglySorted path_lt qs ->
     (forall p q, In p ps -> In q qs -> path_lt p q) -> StronglySorted path_lt (ps ++ qs)) as Happ.
  { induction 1; simpl; intros Hq Hpq; auto. constructor.
    - apply IHStronglySorted; auto.
    - apply Forall_app; split; auto. apply Forall_forall. intros; apply Hpq; auto. }
  apply Happ.
  - rewrite <- (map_map fst (cons false)). now apply Hc.
  - rewrite <- (map_map fst (cons true)). now apply Hc.
  - intros p q Hp Hq. apply in_map_iff in Hp as (? & <- & _). apply in_map_iff in Hq as (? & <- & _).
    reflexivity.
Qed.
Lemma StronglySorted_NoDup ps : StronglySorted path_lt ps -> NoDup ps.
Proof.
  induction 1; constructor; auto. intros Hin. rewrite Forall_forall in H0.
  apply H0 in Hin. now apply path_lt_irrefl in Hin.
Qed.

(** Binding: two trees with the same root agree at common positions. *)
Lemma injective_on_incl H l l' : injective_on H l -> incl l' l -> injective_on H l'.
Proof. unfold injective_on, incl. eauto. Qed.

Lemma merkle_binding H T t p v x :
  hash32 H -> wf_tree T -> wf_tree t ->
  injective_on H (hash_inputs H T ++ hash_inputs H t) ->
  mroot H T = mroot H t ->
  node_at H t p = Some v -> node_at H T p = Some x -> x = v.
Proof.
  intros Hh. revert T t. induction p as [|b p IH]; intros T t HT Ht Hinj Heq Hv Hx.
  - unfold node_at in *. simpl in *. congruence.
  - destruct T as [|L R]; [discriminate|]. destruct t as [|l rt]; [discriminate|].
    simpl in HT, Ht. destruct HT as [HL HR], Ht as [Hl Hr].
    cbn [mroot] in Heq.
    assert (mroot H L ++ mroot H R = mroot H l ++ mroot H rt) as E.
    { apply Hinj; auto; apply in_app_iff; simpl; auto. }
    apply app_inj_length in E as [E1 E2]; [|rewrite !mroot_length; auto].
    assert (incl (hash_inputs H L ++ hash_inputs H l) (hash_inputs H (MNode L R) ++ hash_inputs H (MNode l rt))) as I1.
    { intros a. cbn [hash_inputs]. rewrite !in_app_iff. cbn [In]. rewrite !in_app_iff. tauto. }
    assert (incl (hash_inputs H R ++ hash_inputs H rt) (hash_inputs H (MNode L R) ++ hash_inputs H (MNode l rt))) as I2.
    { intros a. cbn [hash_inputs]. rewrite !in_app_iff. cbn [In]. rewrite !in_app_iff. tauto. }
    unfold node_at in Hv, Hx. simpl in Hv, Hx.
    destruct b.
    + eapply (IH R rt); eauto. eapply injective_on_incl; eauto.
    + eapply (IH L l); eauto. eapply injective_on_incl; eauto.
Qed.
