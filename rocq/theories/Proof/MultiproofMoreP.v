From Coq Require Import List ZArith NArith Bool Lia Sorted.
From Coq Require Import ZifyBool ZifyNat ZifyN.
From Verif.Model Require Import Base Multiproof Builder.
From Verif.Spec Require Import Merkle MultiproofSpec.
From Verif.Proof Require Import BaseLemmas MerkleP MultiproofP BuilderP.
Import ListNotations.
Open Scope N_scope.

(** Leaves of a tree are pairwise non-nested. *)
Lemma leaves_antichain t : antichain (map fst (leaves t)).
Proof.
  intros p q Hp Hq (s & E). apply in_map_iff in Hp as ([p' c] & E1 & Hp). apply in_map_iff in Hq as ([q' c'] & E2 & Hq).
  simpl in *. subst. apply subtree_leaves in Hp, Hq. rewrite subtree_app, Hp in Hq.
  destruct s; [now rewrite app_nil_r|discriminate].
Qed.

Lemma mp_values_filter mp t : encodes mp t -> (depth t < 64)%nat -> length (mp_value_mask mp) = length (leaves t) ->
  forall g v, In (g, v) (mp_values mp) <->
  exists k p, nth_error (leaves t) k = Some (p, v) /\ g = gindex_of p /\ nth_error (mp_value_mask mp) k = Some true.
Proof.
  intros He Hd Hl g v. unfold mp_values. rewrite (mp_nodes_tree_small _ _ He Hd).
  revert Hl. generalize (mp_value_mask mp). generalize (leaves t). clear.
  induction l as [|[p c] l IH]; intros [|b m] L; try discriminate.
  - simpl. split; [easy|]. intros ([|] & p & E & _); discriminate.
  - simpl in L. injection L; intros L'. cbn [map combine filter fst snd].
    specialize (IH m L'). destruct b; cbn [map fst In].
    + rewrite IH. split.
      * intros [E|(k & q & E1 & E2 & E3)].
        -- injection E; intros; subst. exists 0%nat, p. auto.
        -- exists (S k), q. auto.
      * intros ([|k] & q & E1 & E2 & E3); simpl in *.
        -- left. injection E1; intros; subst; auto.
        -- right. exists k, q. auto.
    + rewrite IH. split.
      * intros (k & q & E1 & E2 & E3). exists (S k), q. auto.
      * intros ([|k] & q & E1 & E2 & E3); simpl in *; [discriminate|]. exists k, q. auto.
Qed.

Lemma leaves_NoDup_gindex t : NoDup (map (fun x => gindex_of (fst x)) (leaves t)).
Proof.
  rewrite <- (map_map fst gindex_of). apply FinFun.Injective_map_NoDup; [red; apply gindex_of_inj|].
  apply StronglySorted_NoDup, leaves_sorted.
Qed.
Lemma NoDup_map_unique {A B} (f : A -> B) l x y : NoDup (map f l) -> In x l -> In y l -> f x = f y -> x = y.
Proof.
  induction l as [|a l IH]; simpl; [easy|]. intros Hn Hx Hy E. inversion Hn; subst.
  destruct Hx as [->|Hx], Hy as [->|Hy]; auto.
  - exfalso. apply H1. rewrite E. now apply in_map.
  - exfalso. apply H1. rewrite <- E. now apply in_map.
Qed.
Lemma mp_get_in mp t g v : encodes mp t -> (depth t < 64)%nat ->
  (mp_get mp g = Some v <-> In (g, v) (mp_values mp)).
Proof.
  intros He Hd. unfold mp_get. split.
  - destruct (find (fun x => fst x =? g) (mp_values mp)) as [[g' c]|] eqn:F; [|discriminate].
    apply find_some in F as [F E]. simpl in *. apply N.eqb_eq in E. intros X; injection X; intros; subst. auto.
  - intros Hin. destruct (find (fun x => fst x =? g) (mp_values mp)) as [[g' c]|] eqn:F.
    + apply find_some in F as [F E]. simpl in *. apply N.eqb_eq in E. subst g'. f_equal.
      apply mp_values_in in F, Hin. rewrite (mp_nodes_tree_small _ _ He Hd) in F, Hin.
      assert (NoDup (map fst (map (fun x : path * bytes => (gindex_of (fst x), snd x)) (leaves t)))) as Hn.
      { rewrite map_map. cbn [fst]. apply leaves_NoDup_gindex. }
      pose proof (NoDup_map_unique fst _ _ _ Hn F Hin eq_refl) as E. congruence.
    + exfalso. eapply find_none in F; [|exact Hin]. simpl in F. now rewrite N.eqb_refl in F.
Qed.

Lemma read_all_iff vals gs vs rest :
  read_all vals gs = Ok (vs, rest) <-> length gs = length vs /\ vals = combine gs vs ++ rest.
Proof.
  revert vals vs rest. induction gs as [|g gs IH]; intros vals vs rest.
  - simpl. split.
    + intros E; injection E; intros; subst; auto.
    + intros [L ->]. destruct vs; [reflexivity|discriminate].
  - cbn [read_all]. unfold next_assert_gindex. split.
    + destruct vals as [|[g' c] vals]; [discriminate|].
      destruct (N.eqb_spec g' g); [subst|discriminate].
      destruct (read_all vals gs) as [[vs' r']| |] eqn:E; try discriminate.
      intros X; injection X; intros; subst. apply IH in E as [L ->]. split; simpl; auto.
    + intros [L ->]. destruct vs as [|v vs]; [discriminate|]. simpl. rewrite N.eqb_refl.
      assert (read_all (combine gs vs ++ rest) gs = Ok (vs, rest)) as ->; auto.
      apply IH. split; auto.
Qed.
Lemma read_all_never_panics vals gs : read_all vals gs <> Panic.
Proof.
  revert vals. induction gs as [|g gs IH]; intros vals; simpl; [discriminate|].
  unfold next_assert_gindex. destruct vals as [|[g' c] vals]; [discriminate|]. destruct (g' =? g); [|discriminate].
  specialize (IH vals). destruct (read_all vals gs) as [[]| |]; congruence.
Qed.

Lemma pos_bits_path p : pos_bits p = true :: pos_path p.
Proof. induction p; simpl; rewrite ?IHp; auto. Qed.
Lemma bits_of_path g : 1 <= g -> bits_of g = true :: path_of g.
Proof. destruct g; [lia|]. intros. apply pos_bits_path. Qed.
Lemma path_of_length g : 1 <= g -> g < two64 -> (length (path_of g) < 64)%nat.
Proof.
  intros H1 H2. pose proof (gindex_of_range (path_of g)) as [H3 _]. rewrite gindex_of_path_of in H3 by auto.
  assert (2 ^ N.of_nat (length (path_of g)) < 2 ^ 64) as H4 by (eapply N.le_lt_trans; [exact H3|exact H2]).
  apply N.pow_lt_mono_r_iff in H4; lia.
Qed.
Lemma cmp_lex_bits a b : a < two64 -> b < two64 ->
  cmp_binary_lexicographically a b = path_compare (bits_of a) (bits_of b).
Proof.
  intros Ha Hb. destruct (N.eq_dec a 0) as [->|Na]; destruct (N.eq_dec b 0) as [->|Nb].
  - reflexivity.
  - unfold cmp_binary_lexicographically. rewrite (bits_of_path b) by lia. destruct (N.eqb_spec b 0); [lia|]. reflexivity.
  - unfold cmp_binary_lexicographically. rewrite (bits_of_path a) by lia. destruct (N.eqb_spec a 0); [lia|]. reflexivity.
  - rewrite (bits_of_path a), (bits_of_path b) by lia. cbn [path_compare].
    rewrite <- (cmp_lex_path (path_of a) (path_of b)) by (apply path_of_length; lia).
    rewrite !gindex_of_path_of by lia. reflexivity.
Qed.

(** Builder misuse. *)
Lemma build_empty {E} (f : N -> outcome E bytes) : build f [] = Panic.
Proof. reflexivity. Qed.
Lemma build_root {E} (f : N -> outcome E bytes) mp H rt : (forall x c, f x = Ok c -> length c = 32%nat) ->
  build f [1] = Ok mp -> mp_verify H mp rt = Err UnusedLeaves.
Proof.
  intros Hf. unfold build. cbn [compute_proof_indices_and_value_mask]. intros Eb.
  change (compute_proof_indices_and_value_mask [1]) with [(1, true)] in Eb. simpl in Eb.
  destruct (f 1) as [c| |] eqn:F; simpl in Eb; try discriminate. apply Hf in F.
  injection Eb; intros; subst. unfold mp_verify, calculate_root, calculate_compact_multi_merkle_root.
  cbn [mp_data mp_descriptor root_loop]. unfold CHUNK_SIZE. rewrite app_nil_r.
  pose proof (slice_app [] c []) as S0. simpl in S0. rewrite app_nil_r, F in S0. simpl Nat.mul. rewrite S0. reflexivity.
Qed.
