(** The stack of the verification of a multiproof. *)
From Coq Require Import List Arith NArith Bool Lia ZifyBool ZifyNat ZifyN.
From Verif.Model Require Import Base Multiproof Builder StackUse.
From Verif.Spec Require Import Merkle MultiproofSpec StackSpec.
From Verif.Proof Require Import BaseLemmas MerkleP MultiproofP.
Import ListNotations.
Open Scope N_scope.

(** ** The use does not influence the result *)
Lemma reduce_use_fst H : forall n top below u, (length below <= n)%nat -> fst (reduce_use H top below u) = reduce H top below.
Proof.
  induction n as [|n IH]; intros top below u Hl.
  - destruct below; [reflexivity|cbn in Hl; lia].
  - destruct below as [|l [|[c|c|] rest]]; cbn [reduce_use reduce]; try reflexivity.
    destruct (node_value top), (node_value l); try reflexivity. apply IH. cbn in Hl. lia.
Qed.
Definition drop_use {E A} (o : outcome E (A * Use)) : outcome E A :=
  match o with Ok (x, _) => Ok x | Err e => Err e | Panic => Panic end.
Lemma root_loop_erase H data : forall d i st u, drop_use (root_loop_use H data d i st u) = root_loop H data d i st.
Proof.
  induction d as [|[] d IH]; intros i st u; cbn [root_loop_use root_loop]; [reflexivity| |apply IH].
  destruct (expect _) as [c|e|]; cbn [bind]; [|reflexivity|reflexivity].
  pose proof (reduce_use_fst H _ (NLeaf c) st (push_use u (length st)) (le_n _)) as E.
  destruct (reduce_use _ _ _ _) as [st' u']. cbn [fst] in E. subst. apply IH.
Qed.
Lemma root_use_erase H hint data d : drop_use (root_use H hint data d) = calculate_compact_multi_merkle_root H data d.
Proof.
  unfold root_use, calculate_compact_multi_merkle_root. rewrite <- (root_loop_erase H data d 0 [] (mkUse hint 0 0)).
  destruct (root_loop_use _ _ _ _ _ _) as [[st u]|e|]; cbn [bind drop_use]; try reflexivity.
  destruct st as [|[] [|]]; reflexivity.
Qed.

(** ** The use along a tree *)
Definition covers (n : N) (u : Use) : Prop := n <= u_cap u /\ n <= u_peak u.
Lemma push_covered u n : covers (N.of_nat n + 1) u -> push_use u n = u.
Proof.
  intros [H1 H2]. unfold push_use. destruct u as [c g p]. cbn [u_cap u_grown u_peak] in *.
  destruct (N.leb_spec c (N.of_nat n)); [lia|]. f_equal. lia.
Qed.
Lemma push_covers u n : covers (N.of_nat n) u -> covers (N.of_nat n + 1) (push_use u n).
Proof.
  unfold covers, push_use. cbn [u_cap u_peak]. intros [H1 H2]. destruct (N.leb_spec (u_cap u) (N.of_nat n)); lia.
Qed.
Lemma covers_le n m u : covers m u -> n <= m -> covers n u.
Proof. unfold covers. lia. Qed.
Lemma reduce_use_covered H : forall n top below u, (length below <= n)%nat -> covers (N.of_nat (length below) + 1) u ->
  reduce_use H top below u = (reduce H top below, u).
Proof.
  induction n as [|n IH]; intros top below u Hl Hc.
  - destruct below; [reflexivity|cbn in Hl; lia].
  - destruct below as [|l [|[c|c|] rest]]; cbn [reduce_use reduce]; try reflexivity.
    cbn [length] in *. destruct (node_value top), (node_value l); try reflexivity.
    rewrite push_covered by (eapply covers_le; [exact Hc|lia]). apply IH; [lia|]. eapply covers_le; [exact Hc|lia].
Qed.
Fixpoint grow (t : mtree) (n : nat) (u : Use) : Use :=
  match t with
  | MLeaf _ => push_use u n
  | MNode l r => grow r (S (S n)) (grow l (S n) (push_use u n))
  end.
Lemma grow_covers t : forall n u, covers (N.of_nat n) u -> covers (N.of_nat n + 1) (grow t n u).
Proof.
  induction t as [c|l IHl r IHr]; intros n u Hc; cbn [grow]; [now apply push_covers|].
  assert (covers (N.of_nat (S (S n))) (grow l (S n) (push_use u n))) as H1.
  { eapply covers_le; [apply IHl; eapply covers_le; [apply push_covers, Hc|lia]|lia]. }
  eapply covers_le; [apply IHr, H1|lia].
Qed.
Lemma root_loop_use_tree H data : forall t d i stack u, covers (N.of_nat (length stack)) u ->
  (forall k c, nth_error (map snd (leaves t)) k = Some c -> slice data ((i + k) * 32) 32 = Some c) ->
  root_loop_use H data (preorder t ++ d) i stack u
    = root_loop_use H data d (i + length (leaves t)) (reduce H (node_of H t) stack) (grow t (length stack) u).
Proof.
  induction t as [c|l IHl rt IHr]; intros d i stack u Hc Hn.
  - cbn [preorder app root_loop_use leaves length grow]. specialize (Hn 0%nat c eq_refl).
    rewrite Nat.add_0_r in Hn. unfold CHUNK_SIZE. rewrite Hn. cbn [expect bind].
    rewrite (reduce_use_covered H _ _ stack _ (le_n _) (push_covers _ _ Hc)). now rewrite Nat.add_1_r.
  - cbn [preorder app root_loop_use grow]. rewrite <- app_assoc. rewrite map_snd_leaves_node in Hn.
    assert (length (leaves (MNode l rt)) = length (leaves l) + length (leaves rt))%nat as HL
      by (cbn [leaves]; now rewrite app_length, !map_length).
    assert (covers (N.of_nat (S (length stack))) (push_use u (length stack))) as C1 by (eapply covers_le; [apply push_covers, Hc|lia]).
    rewrite IHl; [|exact C1|].
    2:{ intros k c E. apply Hn. rewrite nth_error_app1; auto. apply nth_error_Some. congruence. }
    rewrite reduce_below_internal. cbn [length]. rewrite IHr.
    2:{ cbn [length]. eapply covers_le; [apply grow_covers, C1|lia]. }
    2:{ intros k c E. rewrite <- Nat.add_assoc. apply Hn.
        rewrite nth_error_app2 by (rewrite map_length; lia). rewrite <- E. f_equal. rewrite map_length. lia. }
    rewrite reduce_pair, HL. cbn [length]. f_equal. lia.
Qed.
Lemma root_use_tree H hint mp t : encodes mp t -> inner t ->
  root_use H hint (mp_data mp) (mp_descriptor mp) = Ok (mroot H t, grow t 0 (mkUse hint 0 0)).
Proof.
  intros (Hd & Hw & rest & Hdata) Hi. unfold root_use. rewrite Hd, <- (app_nil_r (preorder t)). apply wf_tree_leaves in Hw.
  rewrite root_loop_use_tree.
  - cbn [root_loop_use bind]. destruct t; [easy|]. reflexivity.
  - unfold covers. cbn. lia.
  - intros k c E. simpl. rewrite Hdata. apply slice_concat_nth; auto. now rewrite Forall_map.
Qed.

(** ** Peak and growth *)
Lemma need_pos t : 1 <= need t. Proof. destruct t; cbn [need]; lia. Qed.
Lemma grow_peak t : forall n u, u_peak (grow t n u) = N.max (u_peak u) (N.of_nat n + need t).
Proof.
  induction t as [c|l IHl r IHr]; intros n u; cbn [grow need]; [reflexivity|].
  rewrite IHr, IHl. cbn [u_peak push_use]. pose proof (need_pos l). lia.
Qed.
Lemma grow_fits t : forall n u, N.of_nat n + need t <= u_cap u ->
  u_cap (grow t n u) = u_cap u /\ u_grown (grow t n u) = u_grown u.
Proof.
  induction t as [c|l IHl r IHr]; intros n u Hf; cbn [grow need] in *.
  - unfold push_use. cbn [u_cap u_grown]. destruct (N.leb_spec (u_cap u) (N.of_nat n)); lia.
  - pose proof (need_pos l). pose proof (need_pos r).
    assert (u_cap (push_use u n) = u_cap u /\ u_grown (push_use u n) = u_grown u) as [E1 E2].
    { unfold push_use. cbn [u_cap u_grown]. destruct (N.leb_spec (u_cap u) (N.of_nat n)); lia. }
    destruct (IHl (S n) (push_use u n)) as [E3 E4]; [lia|].
    destruct (IHr (S (S n)) (grow l (S n) (push_use u n))) as [E5 E6]; [lia|]. split; congruence.
Qed.
Definition next_cap (c : N) : N := N.max (N.max (2 * c) (c + 1)) 4.
Lemma grow_once t : forall n u, N.of_nat n <= u_cap u -> u_cap u < N.of_nat n + need t <= next_cap (u_cap u) ->
  u_cap (grow t n u) = next_cap (u_cap u) /\ u_grown (grow t n u) = u_grown u + 1.
Proof.
  induction t as [c|l IHl r IHr]; intros n u Hn Hf; cbn [grow need] in *.
  - unfold push_use. cbn [u_cap u_grown]. destruct (N.leb_spec (u_cap u) (N.of_nat n)); [split; reflexivity|lia].
  - pose proof (need_pos l). pose proof (need_pos r).
    destruct (N.leb_spec (u_cap u) (N.of_nat n)) as [Hle|Hlt].
    + assert (u_cap (push_use u n) = next_cap (u_cap u) /\ u_grown (push_use u n) = u_grown u + 1) as [E1 E2].
      { unfold push_use. cbn [u_cap u_grown]. destruct (N.leb_spec (u_cap u) (N.of_nat n)); [split; reflexivity|lia]. }
      destruct (grow_fits l (S n) (push_use u n)) as [E3 E4]; [lia|].
      destruct (grow_fits r (S (S n)) (grow l (S n) (push_use u n))) as [E5 E6]; [lia|]. split; congruence.
    + assert (u_cap (push_use u n) = u_cap u /\ u_grown (push_use u n) = u_grown u) as [E1 E2].
      { unfold push_use. cbn [u_cap u_grown]. destruct (N.leb_spec (u_cap u) (N.of_nat n)); lia. }
      destruct (N.leb_spec (N.of_nat (S n) + need l) (u_cap u)) as [Hl|Hl].
      * destruct (grow_fits l (S n) (push_use u n)) as [E3 E4]; [lia|].
        destruct (IHr (S (S n)) (grow l (S n) (push_use u n))) as [E5 E6]; [lia|rewrite E3, E1; lia|]. split; congruence.
      * destruct (IHl (S n) (push_use u n)) as [E3 E4]; [lia|rewrite E1; lia|].
        destruct (grow_fits r (S (S n)) (grow l (S n) (push_use u n))) as [E5 E6]; [rewrite E3, E1; lia|]. split; congruence.
Qed.
(** Any vector of entries takes at most as many as there are bits. *)
Lemma reduce_use_bound H : forall n top below u, (length below <= n)%nat -> covers (N.of_nat (length below) + 1) u ->
  u_peak (snd (reduce_use H top below u)) = u_peak u /\ (length (fst (reduce_use H top below u)) <= S (length below))%nat.
Proof.
  intros n top below u Hl Hc. rewrite (reduce_use_covered H n) by auto. cbn [fst snd]. split; auto.
  clear. revert top. induction below as [below IH] using (well_founded_induction (Wf_nat.well_founded_ltof _ (@length TreeNode))). intros top.
  destruct below as [|l [|[c|c|] rest]]; cbn [reduce]; cbn [length]; try lia.
  destruct (node_value top), (node_value l); cbn [length]; try lia.
  etransitivity; [apply IH; unfold Wf_nat.ltof; cbn; lia|lia].
Qed.
Lemma root_loop_use_bound H data : forall d i st u st' u', covers (N.of_nat (length st)) u ->
  root_loop_use H data d i st u = Ok (st', u') -> u_peak u' <= N.max (u_peak u) (N.of_nat (length st + length d)).
Proof.
  induction d as [|[] d IH]; intros i st u st' u' Hc E; cbn [root_loop_use] in E.
  - injection E as <- <-. lia.
  - destruct (expect _) as [c|e|]; cbn [bind] in E; try discriminate. pose proof (push_covers _ _ Hc) as Hp.
    pose proof (reduce_use_bound H _ (NLeaf c) st _ (le_n _) Hp) as [B1 B2].
    rewrite (reduce_use_covered H _ _ st _ (le_n _) Hp) in E, B1, B2. cbn [fst snd] in *.
    apply IH in E; [cbn [length]; unfold push_use in E; cbn [u_peak] in E; lia|]. eapply covers_le; [exact Hp|lia].
  - apply IH in E; [cbn [length] in *; unfold push_use in E; cbn [u_peak] in E; lia|]. cbn [length]. eapply covers_le; [apply push_covers, Hc|lia].
Qed.

(** ** The recorded depth *)
(** Greatest stack length right after the marker of an inner node. *)
Fixpoint marks (t : mtree) (n : N) : N :=
  match t with MLeaf _ => 0 | MNode l r => N.max (n + 1) (N.max (marks l (n + 1)) (marks r (n + 2))) end.
Lemma depth_reduce_fst : forall k stack mx mx', (length stack <= k)%nat -> fst (depth_reduce true stack mx) = fst (depth_reduce true stack mx').
Proof.
  induction k as [|k IH]; intros stack mx mx' Hl.
  - destruct stack; [reflexivity|cbn in Hl; lia].
  - destruct stack as [|[] [|[] rest]]; cbn [depth_reduce]; try reflexivity. apply IH. cbn in Hl. lia.
Qed.
(** The markers on the stack have been counted. *)
Definition counted (stack : list bool) (mx : N) : Prop := forall a s, stack = a ++ false :: s -> N.of_nat (S (length s)) <= mx.
Lemma counted_tail a s mx : counted (a ++ s) mx -> counted s mx.
Proof. intros H b s' ->. apply (H (a ++ b) s'). now rewrite <- app_assoc. Qed.
Lemma counted_push_false s mx : counted s mx -> counted (false :: s) (N.max mx (N.of_nat (S (length s)))).
Proof.
  intros H [|x a] s' E; cbn in E.
  - injection E as ->. lia.
  - injection E as _ E. specialize (H _ _ E). lia.
Qed.
Lemma counted_push_true s mx : counted s mx -> counted (true :: s) mx.
Proof. intros H [|x a] s' E; cbn in E; [discriminate|]. injection E as _ E. exact (H _ _ E). Qed.
Lemma counted_mono s mx mx' : counted s mx -> mx <= mx' -> counted s mx'.
Proof. intros H L a s' E. specialize (H _ _ E). lia. Qed.
Lemma depth_reduce_counted : forall k stack mx, (length stack <= k)%nat -> counted stack mx -> snd (depth_reduce true stack mx) = mx.
Proof.
  induction k as [|k IH]; intros stack mx Hl Hc.
  - destruct stack; [reflexivity|cbn in Hl; lia].
  - destruct stack as [|[] [|[] rest]]; cbn [depth_reduce]; try reflexivity.
    cbn [length] in *. rewrite N.max_l by (specialize (Hc [true] rest eq_refl); lia). apply IH; [lia|]. now apply (counted_tail [true; false]).
Qed.
Lemma depth_loop_marks : forall t d stack mx, counted stack mx ->
  depth_loop (preorder t ++ d) stack mx =
  depth_loop d (fst (depth_reduce true stack 0)) (N.max mx (marks t (N.of_nat (length stack)))).
Proof.
  induction t as [c|l IHl r IHr]; intros d stack mx Hc.
  - cbn [preorder app depth_loop marks]. pose proof (depth_reduce_counted _ stack mx (le_n _) Hc) as E1.
    pose proof (depth_reduce_fst _ stack mx 0 (le_n _)) as E2. destruct (depth_reduce true stack mx) as [st m]. cbn [fst snd] in *. subst. now rewrite N.max_0_r.
  - cbn [preorder app depth_loop marks]. rewrite <- app_assoc. pose proof (counted_push_false _ _ Hc) as H1. rewrite IHl by exact H1.
    assert (fst (depth_reduce true (false :: stack) 0) = true :: false :: stack) as -> by (destruct stack as [|[] ?]; reflexivity).
    rewrite IHr by (apply counted_push_true; eapply counted_mono; [exact H1|lia]).
    cbn [depth_reduce]. rewrite (depth_reduce_fst _ stack _ 0 (le_n _)). f_equal. cbn [length].
    replace (N.of_nat (S (length stack))) with (N.of_nat (length stack) + 1) by lia.
    replace (N.of_nat (S (S (length stack)))) with (N.of_nat (length stack) + 2) by lia. lia.
Qed.
Lemma marks_need t : forall n, inner t -> marks t n + 2 = n + need t.
Proof.
  induction t as [c|l IHl r IHr]; intros n Hi; [destruct Hi|]. cbn [marks need].
  assert (forall t n, (inner t -> marks t n + 2 = n + need t) -> n + need t <= N.max (marks t n + 2) (n + 1)) as A.
  { intros [c|a b] m H; cbn [need]; [lia|]. specialize (H I). cbn [need] in H. lia. }
  assert (forall t n, (inner t -> marks t n + 2 = n + need t) -> marks t n + 2 <= N.max 2 (n + need t)) as B.
  { intros [c|a b] m H; [cbn [marks]; lia|]. specialize (H I). lia. }
  pose proof (A l (n + 1) (IHl (n + 1))). pose proof (A r (n + 2) (IHr (n + 2))).
  pose proof (B l (n + 1) (IHl (n + 1))). pose proof (B r (n + 2) (IHr (n + 2))).
  pose proof (need_pos l). pose proof (need_pos r). lia.
Qed.
Lemma max_stack_depth_tree {E} t : @calculate_max_stack_depth E (preorder t) = Ok (marks t 0).
Proof.
  unfold calculate_max_stack_depth. rewrite <- (app_nil_r (preorder t)). rewrite depth_loop_marks.
  - cbn [depth_loop length depth_reduce fst Nat.eqb assert_ bind N.of_nat]. now rewrite N.max_0_l.
  - intros a s E0. now destruct a.
Qed.
Lemma need_depth t : need t <= 2 * N.of_nat (depth t) + 1 /\ N.of_nat (depth t) + 1 <= need t.
Proof. induction t as [c|l IHl r IHr]; cbn [need depth]; lia. Qed.
Lemma need_inner t : inner t -> N.of_nat (depth t) + 2 <= need t.
Proof.
  destruct t as [c|l r]; [intros []|]. intros _. cbn [need depth]. revert r. induction l as [c|a IHa b IHb]; intros r.
  - cbn [need depth]. pose proof (need_depth r). lia.
  - specialize (IHa b). pose proof (need_depth r). cbn [need depth] in *. lia.
Qed.
