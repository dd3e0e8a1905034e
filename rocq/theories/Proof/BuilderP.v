From Coq Require Import List ZArith NArith Bool Lia Sorted Permutation.
From Coq Require Import ZifyBool ZifyNat ZifyN.
From Verif.Model Require Import Base Multiproof Builder.
From Verif.Spec Require Import Merkle MultiproofSpec.
From Verif.Proof Require Import BaseLemmas MerkleP MultiproofP.
Import ListNotations.
Open Scope N_scope.

(** ** Comparison *)
Fixpoint frac (k : nat) (p : path) : N :=
  match k, p with
  | S k', b :: q => (if b then 2 ^ N.of_nat k' else 0) + frac k' q
  | _, _ => 0
  end.
Lemma frac_bound k p : frac k p < 2 ^ N.of_nat k.
Proof.
  revert p. induction k; intros [|b p]; cbn [frac]; try (apply N.neq_0_lt_0, N.pow_nonzero; discriminate).
  rewrite Nat2N.inj_succ, N.pow_succ_r'. specialize (IHk p). destruct b; lia.
Qed.
Lemma frac_nil k : frac k [] = 0. Proof. destruct k; auto. Qed.
Lemma frac_fold k p : (length p <= k)%nat ->
  frac k p = fold_left gindex_step p 0 * 2 ^ N.of_nat (k - length p).
Proof.
  revert p. induction k; intros [|b p]; cbn [frac length]; intros L; try (simpl; lia).
  cbn [fold_left]. rewrite fold_gindex_linear, IHk by lia.
  assert (2 ^ N.of_nat k = 2 ^ N.of_nat (length p) * 2 ^ N.of_nat (k - length p)) as Ek
    by (rewrite <- N.pow_add_r; f_equal; lia).
  rewrite Ek. cbn [Nat.sub]. unfold gindex_step at 2. destruct b; lia.
Qed.
Lemma frac_gindex k p : (length p <= k)%nat ->
  gindex_of p * 2 ^ N.of_nat (k - length p) = 2 ^ N.of_nat k + frac k p.
Proof.
  intros L. unfold gindex_of. rewrite fold_gindex_linear, frac_fold by auto.
  assert (2 ^ N.of_nat k = 2 ^ N.of_nat (length p) * 2 ^ N.of_nat (k - length p)) as Ek
    by (rewrite <- N.pow_add_r; f_equal; lia).
  rewrite Ek. lia.
Qed.
Lemma path_compare_frac : forall k p q, (length p <= k)%nat -> (length q <= k)%nat ->
  path_compare p q = match frac k p ?= frac k q with
                     | Eq => N.of_nat (length p) ?= N.of_nat (length q) | o => o end.
Proof.
  induction k; intros [|a p] [|b q] Lp Lq; try (simpl in *; lia).
  - reflexivity.
  - reflexivity.
  - rewrite frac_nil. cbn [path_compare length].
    destruct (N.compare_spec 0 (frac (S k) (b :: q))); auto; try lia;
    symmetry; apply N.compare_lt_iff; lia.
  - rewrite frac_nil. cbn [path_compare length].
    assert ((frac (S k) (a :: p) ?= 0) = Lt -> False) as NL by (rewrite N.compare_lt_iff; lia).
    destruct (N.compare_spec (frac (S k) (a :: p)) 0); destruct a; auto; try lia;
      symmetry; apply N.compare_gt_iff; lia.
  - cbn [length] in *. cbn [path_compare frac].
    assert (forall x y z, (x + y ?= x + z) = (y ?= z)) as Hadd.
    { intros. destruct (N.compare_spec y z);
        [apply N.compare_eq_iff|apply N.compare_lt_iff|apply N.compare_gt_iff]; lia. }
    assert ((N.of_nat (S (length p)) ?= N.of_nat (S (length q))) = (N.of_nat (length p) ?= N.of_nat (length q))) as Hl.
    { rewrite !Nat2N.inj_succ, <- !N.add_1_l. apply Hadd. }
    rewrite Hl. pose proof (frac_bound k p). pose proof (frac_bound k q).
    destruct a, b; rewrite ?Hadd; try (apply IHk; lia).
    + assert ((2 ^ N.of_nat k + frac k p ?= 0 + frac k q) = Gt) as -> by (apply N.compare_gt_iff; lia); auto.
    + assert ((0 + frac k p ?= 2 ^ N.of_nat k + frac k q) = Lt) as -> by (apply N.compare_lt_iff; lia); auto.
Qed.
Lemma gindex_size p : N.size (gindex_of p) = N.of_nat (length p) + 1.
Proof.
  pose proof (gindex_of_range p) as [H1 H2]. pose proof (gindex_of_pos p).
  rewrite N.size_log2 by lia. rewrite (N.log2_unique _ (N.of_nat (length p))); lia.
Qed.
Theorem cmp_lex_path p q : (length p < 64)%nat -> (length q < 64)%nat ->
  cmp_binary_lexicographically (gindex_of p) (gindex_of q) = path_compare p q.
Proof.
  intros Lp Lq. unfold cmp_binary_lexicographically.
  pose proof (gindex_of_pos p). pose proof (gindex_of_pos q).
  destruct (N.eqb_spec (gindex_of p) 0); [lia|]. destruct (N.eqb_spec (gindex_of q) 0); [lia|]. simpl andb. cbv iota.
  rewrite !gindex_size.
  assert (forall p, (length p < 64)%nat ->
    wrap64 (N.shiftl (gindex_of p) (64 - (N.of_nat (length p) + 1))) = 2 ^ N.of_nat 63 + frac 63 p) as Hs.
  { intros x Lx. rewrite N.shiftl_mul_pow2. rewrite <- frac_gindex by lia.
    replace (64 - (N.of_nat (length x) + 1)) with (N.of_nat (63 - length x)) by lia.
    apply wrap64_small. rewrite frac_gindex by lia. pose proof (frac_bound 63 x).
    change two64 with (2 ^ N.of_nat 63 + 2 ^ N.of_nat 63). lia. }
  rewrite !Hs by auto. rewrite (path_compare_frac 63) by lia.
  assert (forall x y z, (x + y ?= x + z) = (y ?= z)) as Hadd.
  { intros. destruct (N.compare_spec y z);
      [apply N.compare_eq_iff|apply N.compare_lt_iff|apply N.compare_gt_iff]; lia. }
  rewrite Hadd. destruct (frac 63 p ?= frac 63 q); auto. rewrite (N.add_comm _ 1), (N.add_comm (N.of_nat (length q)) 1).
  apply Hadd.
Qed.

(** ** Path and branch indices *)
Lemma parent_snoc p b : parent (gindex_of (p ++ [b])) = gindex_of p.
Proof. unfold parent. rewrite gindex_of_snoc. destruct b; lia. Qed.
Lemma sibling_snoc p b : sibling (gindex_of (p ++ [b])) = gindex_of (p ++ [negb b]).
Proof.
  unfold sibling. rewrite !gindex_of_snoc. destruct b; simpl negb; cbv iota.
  - pose proof (gindex_of_pos p). destruct (gindex_of p); [lia|]. reflexivity.
  - pose proof (gindex_of_pos p). destruct (gindex_of p); [lia|]. reflexivity.
Qed.

(** Proper prefixes, longest first. *)
Fixpoint rprefixes (rp : list bool) : list path :=  (* rp is the reversed path *)
  match rp with [] => [] | _ :: q => rev q :: rprefixes q end.
Lemma path_up_spec : forall rp fuel, (length rp <= fuel)%nat ->
  path_up fuel (gindex_of (rev rp)) = map gindex_of (rprefixes rp).
Proof.
  induction rp as [|b rp IH]; intros fuel L.
  - destruct fuel; reflexivity.
  - destruct fuel; simpl in L; [lia|]. cbn [path_up rev rprefixes map].
    assert (1 <? gindex_of (rev rp ++ [b]) = true) as ->.
    { apply N.ltb_lt. rewrite gindex_of_snoc. pose proof (gindex_of_pos (rev rp)). destruct b; lia. }
    rewrite parent_snoc. f_equal. apply IH. lia.
Qed.
Lemma get_path_indices_spec rp :
  get_path_indices (gindex_of (rev rp)) = removelast (map gindex_of (rev rp :: rprefixes rp)).
Proof.
  unfold get_path_indices. rewrite path_up_spec; auto.
  rewrite gindex_size, rev_length. lia.
Qed.
Lemma removelast_prefixes rp : rp <> [] ->
  removelast (rev rp :: rprefixes rp) = rev rp :: removelast (rprefixes rp).
Proof. destruct rp; [easy|reflexivity]. Qed.
Lemma removelast_map {A B} (f : A -> B) l : removelast (map f l) = map f (removelast l).
Proof. induction l as [|a [|b l] IH]; auto. simpl in *. now rewrite IH. Qed.
Lemma in_nonroot_prefixes rp q :
  In q (removelast (rev rp :: rprefixes rp)) <-> q <> [] /\ ancestor q (rev rp).
Proof.
  induction rp as [|b rp IH].
  - simpl. split; [easy|]. intros [Hq (s & E)]. symmetry in E. apply app_eq_nil in E as [-> _]. easy.
  - cbn [rprefixes]. change (removelast (rev (b :: rp) :: rev rp :: rprefixes rp))
      with (rev (b :: rp) :: removelast (rev rp :: rprefixes rp)).
    cbn [In]. rewrite IH. simpl rev. split.
    + intros [<-|[Hq (s & E)]].
      * split; [now destruct (rev rp)|]. exists []. now rewrite app_nil_r.
      * split; auto. exists (s ++ [b]). rewrite E. now rewrite app_assoc.
    + intros [Hq (s & E)]. destruct s as [|c s _] using rev_ind.
      * left. rewrite app_nil_r in E. auto.
      * right. rewrite app_assoc in E. apply app_inj_tail in E as [E _]. split; auto. now exists s.
Qed.
Lemma in_get_path_indices p x :
  In x (get_path_indices (gindex_of p)) <-> exists q, x = gindex_of q /\ q <> [] /\ ancestor q p.
Proof.
  rewrite <- (rev_involutive p). rewrite get_path_indices_spec, removelast_map, in_map_iff.
  split; intros (q & H1 & H2); exists q.
  - apply in_nonroot_prefixes in H2. split; auto; tauto.
  - split; [auto|]. apply in_nonroot_prefixes. tauto.
Qed.

(** Siblings along the path: what the loop collects, including a last 0. *)
Fixpoint rsiblings (rp : list bool) : list N :=
  match rp with [] => [0] | b :: q => gindex_of (rev q ++ [negb b]) :: rsiblings q end.
Lemma branch_up_spec : forall rp b fuel, (S (length rp) <= fuel)%nat ->
  branch_up fuel (gindex_of (rev rp ++ [b])) = rsiblings rp.
Proof.
  induction rp as [|c rp IH]; intros b fuel L; (destruct fuel; [simpl in L; lia|]); cbn [branch_up].
  - assert (1 <? gindex_of (rev [] ++ [b]) = true) as ->.
    { apply N.ltb_lt. rewrite gindex_of_snoc. simpl. destruct b; reflexivity. }
    rewrite parent_snoc. simpl. destruct fuel; reflexivity.
  - assert (1 <? gindex_of (rev (c :: rp) ++ [b]) = true) as ->.
    { apply N.ltb_lt. rewrite gindex_of_snoc. pose proof (gindex_of_pos (rev (c :: rp))). destruct b; lia. }
    rewrite parent_snoc. cbn [rev rsiblings]. rewrite sibling_snoc. f_equal. apply IH. simpl in L; lia.
Qed.
Lemma get_branch_indices_spec rp :
  get_branch_indices (gindex_of (rev rp)) = removelast (rsiblings rp).
Proof.
  unfold get_branch_indices. destruct rp as [|b rp]; [reflexivity|].
  cbn [rev rsiblings]. rewrite sibling_snoc, branch_up_spec; auto.
  rewrite gindex_size, app_length, rev_length. simpl. lia.
Qed.
Lemma in_rsiblings rp x : In x (removelast (rsiblings rp)) <->
  exists q b, x = gindex_of (q ++ [negb b]) /\ ancestor (q ++ [b]) (rev rp).
Proof.
  induction rp as [|c rp IH].
  - simpl. split; [easy|]. intros (q & b & _ & s & E). symmetry in E.
    apply app_eq_nil in E as [E _]. now destruct q.
  - assert (removelast (rsiblings (c :: rp)) = gindex_of (rev rp ++ [negb c]) :: removelast (rsiblings rp)) as ->.
    { cbn [rsiblings]. destruct rp; reflexivity. }
    cbn [In rev]. rewrite IH. split.
    + intros [<-|(q & b & -> & s & E)].
      * exists (rev rp), c. split; auto. exists []. now rewrite app_nil_r.
      * exists q, b. split; auto. exists (s ++ [c]). rewrite E. now rewrite app_assoc.
    + intros (q & b & -> & s & E). destruct s as [|d s _] using rev_ind.
      * left. rewrite app_nil_r in E. apply app_inj_tail in E as [-> ->]. auto.
      * right. rewrite app_assoc in E. apply app_inj_tail in E as [E _]. exists q, b. split; auto. now exists s.
Qed.
Lemma in_get_branch_indices p x :
  In x (get_branch_indices (gindex_of p)) <->
  exists q b, x = gindex_of (q ++ [negb b]) /\ ancestor (q ++ [b]) p.
Proof. rewrite <- (rev_involutive p), get_branch_indices_spec. apply in_rsiblings. Qed.

(** ** The pruned proof tree *)
Definition tails (b : bool) (S : list path) : list path :=
  flat_map (fun p => match p with c :: q => if Bool.eqb b c then [q] else [] | [] => [] end) S.
Lemma in_tails b S q : In q (tails b S) <-> In (b :: q) S.
Proof.
  unfold tails. rewrite in_flat_map. split.
  - intros ([|c p] & Hin & Hq); [easy|]. destruct (Bool.eqb_spec b c); [|easy].
    destruct Hq as [<-|[]]. now subst.
  - intros Hin. exists (b :: q). split; auto. rewrite Bool.eqb_reflx. simpl; auto.
Qed.
Definition stop (S : list path) : bool :=
  match S with [] => true | _ => existsb (fun p => match p with [] => true | _ => false end) S end.
Fixpoint prune (H : bytes -> bytes) (T : mtree) (S : list path) : mtree :=
  match T with
  | MLeaf c => MLeaf c
  | MNode l r => if stop S then MLeaf (mroot H T)
                 else MNode (prune H l (tails false S)) (prune H r (tails true S))
  end.
Lemma prune_root H T S : mroot H (prune H T S) = mroot H T.
Proof. revert S. induction T; intros S; simpl; auto. destruct (stop S); simpl; congruence. Qed.
Lemma prune_wf H T S : hash32 H -> wf_tree T -> wf_tree (prune H T S).
Proof.
  intros Hh. revert S. induction T; intros S; simpl; auto. intros [? ?].
  destruct (stop S); simpl; auto.
Qed.
Lemma stop_true S : stop S = true <-> S = [] \/ In [] S.
Proof.
  destruct S as [|p S]; [simpl; tauto|]. unfold stop. rewrite existsb_exists. split.
  - intros ([|] & Hin & E); [auto|discriminate].
  - intros [|Hin]; [discriminate|]. exists []. auto.
Qed.
Lemma present_leaf c p : present (MLeaf c) p -> p = [].
Proof. unfold present. destruct p; simpl; congruence. Qed.
Lemma present_tails T0 T1 b S : (forall p, In p S -> present (MNode T0 T1) p) ->
  forall p, In p (tails b S) -> present (if b then T1 else T0) p.
Proof. intros Hp p Hin. apply in_tails in Hin. apply Hp in Hin. exact Hin. Qed.
Lemma antichain_tails b S : antichain S -> antichain (tails b S).
Proof.
  intros Ha p q Hp Hq (s & E). apply in_tails in Hp, Hq.
  specialize (Ha _ _ Hp Hq). assert (b :: p = b :: q) as E'.
  { apply Ha. exists s. now rewrite E. } congruence.
Qed.
Lemma antichain_root S : antichain S -> In [] S -> forall p, In p S -> p = [].
Proof. intros Ha H0 p Hp. symmetry. apply Ha; auto. now exists p. Qed.

Lemma ancestor_cons b p q : ancestor (b :: p) (b :: q) <-> ancestor p q.
Proof. split; intros (s & E); exists s; simpl in *; congruence. Qed.
Lemma ancestor_nil p : ancestor [] p. Proof. now exists p. Qed.
Lemma ancestor_nil_r p : ancestor p [] -> p = [].
Proof. intros (s & E). symmetry in E. now apply app_eq_nil in E as [-> _]. Qed.
Lemma ancestor_refl p : ancestor p p. Proof. exists []. now rewrite app_nil_r. Qed.

(** On the path of some requested position / helper of some requested position. *)
Definition on_path (S : list path) (p : path) : Prop := exists s, In s S /\ ancestor p s.
Definition helper (S : list path) (p : path) : Prop :=
  ~ on_path S p /\ exists q b, p = q ++ [negb b] /\ on_path S (q ++ [b]).
Lemma on_path_tails b S p : on_path (tails b S) p <-> on_path S (b :: p).
Proof.
  split.
  - intros (s & Hin & Ha). apply in_tails in Hin. exists (b :: s). split; auto. now apply ancestor_cons.
  - intros (s & Hin & Ha). destruct s as [|c s]; [apply ancestor_nil_r in Ha; discriminate|].
    assert (c = b) by (destruct Ha as (? & E); simpl in E; congruence). subst.
    exists s. split; [now apply in_tails|]. exact (proj1 (ancestor_cons b p s) Ha).
Qed.
Lemma on_path_nil S : on_path S [] <-> S <> [].
Proof.
  split; [intros (s & Hin & _) ->; easy|]. destruct S as [|p S]; [easy|].
  intros _. exists p. split; [left; auto|apply ancestor_nil].
Qed.
Lemma helper_tails b S p : tails b S <> [] -> (helper (tails b S) p <-> helper S (b :: p) ).
Proof.
  intros Hne. unfold helper. rewrite on_path_tails. split.
  - intros [Hn (q & c & -> & Ho)]. split; auto. exists (b :: q), c. split; auto. now apply on_path_tails.
  - intros [Hn (q & c & E & Ho)]. split; auto.
    destruct q as [|d q].
    + simpl in E. injection E; intros; subst. exfalso. apply Hn. apply on_path_tails, on_path_nil; auto.
    + simpl in E. injection E; intros; subst. exists q, c. split; auto. now apply on_path_tails.
Qed.

Lemma prune_leaf_paths H T S p : antichain S -> (forall p, In p S -> present T p) -> S <> [] ->
  (In p (map fst (leaves (prune H T S))) <-> In p S \/ helper S p).
Proof.
  revert S p. induction T as [c|l IHl rt IHr]; intros S p Ha Hp Hne.
  - assert (forall q, In q S -> q = []) as Hr by (intros q Hq; apply Hp in Hq; eapply present_leaf; eauto).
    assert (In [] S) as H0 by (destruct S as [|q S]; [easy|]; left; apply Hr; left; auto).
    simpl. split.
    + intros [<-|[]]. auto.
    + intros [Hin|[_ (q & b & -> & s & Hin & Hs)]]; [apply Hr in Hin; auto|].
      apply Hr in Hin. subst. apply ancestor_nil_r in Hs. now destruct q.
  - cbn [prune]. destruct (stop S) eqn:Es.
    + apply stop_true in Es as [->|H0]; [easy|]. pose proof (antichain_root S Ha H0) as Hr.
      simpl. split.
      * intros [<-|[]]. auto.
      * intros [Hin|[_ (q & b & -> & s & Hin & Hs)]]; [apply Hr in Hin; auto|].
        apply Hr in Hin. subst. apply ancestor_nil_r in Hs. now destruct q.
    + assert (~ (S = [] \/ In [] S)) as Hns by (intros E; apply stop_true in E; congruence).
      cbn [leaves]. rewrite map_app, !map_map. cbn [fst].
      rewrite in_app_iff.
      assert (forall b t, 
        In p (map (fun x : path * bytes => b :: fst x) (leaves t)) <-> exists q, p = b :: q /\ In q (map fst (leaves t))) as Hm.
      { intros. rewrite in_map_iff. split.
        - intros (x & <- & Hin). exists (fst x). split; auto. now apply in_map.
        - intros (q & -> & Hin). apply in_map_iff in Hin as (x & <- & Hin). exists x. auto. }
      rewrite !Hm.
      assert (HT : forall b t, (forall S p, antichain S -> (forall p, In p S -> present t p) -> S <> [] ->
            In p (map fst (leaves (prune H t S))) <-> In p S \/ helper S p) ->
          (forall p, In p (tails b S) -> present t p) ->
          forall q, In q (map fst (leaves (prune H t (tails b S)))) <-> In (b :: q) S \/ helper S (b :: q)).
      { intros b t IH Hpt q. destruct (tails b S) as [|x X] eqn:Et.
        - assert (forall y, ~ In (b :: y) S) as Hno by (intros y Hy; apply in_tails in Hy; rewrite Et in Hy; easy).
          assert (map fst (leaves (prune H t [])) = [[]]) as -> by (destruct t; reflexivity).
          assert (~ on_path S [b]) as Hnb.
          { intros Ho. change [b] with (b :: []) in Ho. apply on_path_tails, on_path_nil in Ho. congruence. }
          split.
          + intros [<-|[]]. right. split; [exact Hnb|]. exists [], (negb b). rewrite negb_involutive. split; auto.
            destruct S as [|s S]; [easy|]. destruct s as [|c s]; [exfalso; apply Hns; simpl; auto|].
            exists (c :: s). split; [simpl; auto|]. exists s.
            destruct (Bool.bool_dec c b); [subst; exfalso; apply (Hno s); simpl; auto|].
            simpl. f_equal. destruct c, b; auto; congruence.
          + intros [Hy|[_ (q' & c & E & Ho)]]; [now apply Hno in Hy|].
            destruct q' as [|d q']; simpl in E; injection E; intros; subst; [simpl; auto|].
            exfalso. apply Hnb. destruct Ho as (s & Hin & (u & ->)). exists ((d :: q' ++ [c]) ++ u). split; auto.
            exists ((q' ++ [c]) ++ u). reflexivity.
        - rewrite <- Et in *. assert (tails b S <> []) as Hnt by congruence.
          rewrite (IH _ q (antichain_tails b S Ha) Hpt Hnt), in_tails, helper_tails by auto. tauto. }
      split.
      * intros [(q & -> & Hin)|(q & -> & Hin)].
        -- apply (HT false l IHl (present_tails l rt false S Hp)); auto.
        -- apply (HT true rt IHr (present_tails l rt true S Hp)); auto.
      * intros Hin. assert (p <> []) as Hpn.
        { intros ->. destruct Hin as [Hin|[_ (q & b & E & _)]]; [apply Hns; auto|now destruct q]. }
        destruct p as [|[] q]; [easy| |].
        -- right. exists q. split; auto. apply (HT true rt IHr (present_tails l rt true S Hp)); auto.
        -- left. exists q. split; auto. apply (HT false l IHl (present_tails l rt false S Hp)); auto.
Qed.

Lemma prune_leaf_value H T S p c : In (p, c) (leaves (prune H T S)) -> node_at H T p = Some c.
Proof.
  revert S p. induction T as [c0|l IHl rt IHr]; intros S p; cbn [prune].
  - intros [E|[]]. injection E; intros; subst; reflexivity.
  - destruct (stop S).
    + intros [E|[]]. injection E; intros; subst; reflexivity.
    + cbn [leaves]. rewrite in_app_iff, !in_map_iff.
      intros [([q c'] & E & Hin)|([q c'] & E & Hin)]; simpl in E; injection E; intros; subst.
      * apply IHl in Hin. exact Hin.
      * apply IHr in Hin. exact Hin.
Qed.

(** ** Descriptor *)
Fixpoint all_false (p : path) : bool := match p with [] => true | b :: q => negb b && all_false q end.
Fixpoint tzp (p : path) : nat :=  (* trailing left steps *)
  match p with [] => 0 | false :: q => if all_false q then S (tzp q) else tzp q | true :: q => tzp q end.
Lemma all_false_tzp p : all_false p = true -> tzp p = length p.
Proof. induction p as [|[] p IH]; simpl; auto; [discriminate|]. intros E. rewrite E. auto. Qed.
Lemma all_false_snoc p b : all_false (p ++ [b]) = all_false p && negb b.
Proof. induction p; simpl; [now rewrite andb_true_r|]. rewrite IHp. now destruct a. Qed.
Lemma tzp_snoc p b : tzp (p ++ [b]) = if b then 0%nat else S (tzp p).
Proof.
  induction p as [|[] p IH]; simpl.
  - now destruct b.
  - auto.
  - rewrite all_false_snoc, IH. destruct b; simpl; [now rewrite andb_false_r|]. rewrite andb_true_r.
    destruct (all_false p); auto.
Qed.
Lemma trailing_zeros_tzp p : trailing_zeros (gindex_of p) = tzp p.
Proof.
  induction p as [|b p IH] using rev_ind; [reflexivity|].
  rewrite tzp_snoc, gindex_of_snoc. pose proof (gindex_of_pos p). rewrite <- IH.
  destruct (gindex_of p); [lia|]. destruct b; reflexivity.
Qed.
Definition descr_of (ps : list path) : list bool := flat_map (fun p => repeat false (tzp p) ++ [true]) ps.
Lemma compute_proof_descriptor_paths ps : compute_proof_descriptor (map gindex_of ps) = descr_of ps.
Proof.
  unfold compute_proof_descriptor, descr_of. rewrite !flat_map_concat_map, map_map. f_equal.
  apply map_ext. intros p. now rewrite trailing_zeros_tzp.
Qed.
(** The first leaf is the leftmost; no other leaf has an all-left path. *)
Lemma leaves_first t : exists c rest, leaves t = (repeat false (length (fst (hd ([], c) (leaves t)))), c) :: rest /\
  Forall (fun x => all_false (fst x) = false) rest.
Proof.
  induction t as [c|l IHl rt IHr].
  - exists c, []. split; auto.
  - destruct IHl as (c & rest & E & F). cbn [leaves]. 
    assert (exists k, leaves l = (repeat false k, c) :: rest) as [k E'] by eauto.
    rewrite E'. exists c. simpl. eexists. rewrite repeat_length. split; [reflexivity|].
    apply Forall_app. split.
    + rewrite Forall_map. eapply Forall_impl; [|exact F]. simpl. auto.
    + rewrite Forall_map. apply Forall_forall. simpl. auto.
Qed.
Lemma descr_false_cons ps k : Forall (fun p => all_false p = false) ps ->
  descr_of (map (cons false) (repeat false k :: ps)) = false :: descr_of (repeat false k :: ps).
Proof.
  intros F. cbn [map descr_of flat_map]. 
  assert (all_false (repeat false k) = true) as E by (induction k; auto).
  cbn [tzp]. rewrite E. simpl. f_equal. f_equal.
  unfold descr_of. rewrite !flat_map_concat_map, map_map. f_equal.
  apply map_ext_in. intros p Hin. rewrite Forall_forall in F. simpl. now rewrite (F p Hin).
Qed.
Lemma descr_true_cons ps : descr_of (map (cons true) ps) = descr_of ps.
Proof. unfold descr_of. rewrite !flat_map_concat_map, map_map. reflexivity. Qed.
Theorem descr_of_leaves t : descr_of (map fst (leaves t)) = preorder t.
Proof.
  induction t as [c|l IHl rt IHr]; [reflexivity|].
  cbn [leaves preorder]. rewrite map_app.
  assert (forall a b, descr_of (a ++ b) = descr_of a ++ descr_of b) as Happ
    by (intros; apply flat_map_app).
  rewrite Happ.
  assert (forall b (x : list (path * bytes)),
    map fst (map (fun x => (b :: fst x, snd x)) x) = map (cons b) (map fst x)) as Hm
    by (intros; now rewrite !map_map).
  rewrite !Hm.
  rewrite descr_true_cons, IHr.
  rewrite <- IHl. rewrite app_comm_cons. f_equal.
  destruct (leaves_first l) as (c & rest & E & F). revert E.
  generalize (length (fst (hd ([], c) (leaves l)))). intros k E. rewrite E. cbn [map fst].
  apply (descr_false_cons (map fst rest) k). now rewrite Forall_map.
Qed.

(** Stack depth computation does not panic on a tree. *)
Lemma depth_loop_tree : forall t d stack mx, exists mx',
  depth_loop (preorder t ++ d) stack mx =
  depth_loop d (fst (depth_reduce true stack mx')) (snd (depth_reduce true stack mx')).
Proof.
  induction t as [c|l IHl rt IHr]; intros d stack mx.
  - exists mx. cbn [preorder app depth_loop]. now destruct (depth_reduce true stack mx).
  - cbn [preorder app depth_loop]. rewrite <- app_assoc.
    destruct (IHl (preorder rt ++ d) (false :: stack) (N.max mx (N.of_nat (S (length stack))))) as (m1 & ->).
    assert (depth_reduce true (false :: stack) m1 = (true :: false :: stack, m1)) as ->.
    { simpl. destruct stack as [|[] ?]; auto. }
    cbn [fst snd]. destruct (IHr d (true :: false :: stack) m1) as (m2 & ->).
    cbn [depth_reduce]. eexists. reflexivity.
Qed.
Lemma calculate_max_stack_depth_tree {E} t : exists m, @calculate_max_stack_depth E (preorder t) = Ok m.
Proof.
  unfold calculate_max_stack_depth. rewrite <- (app_nil_r (preorder t)).
  destruct (depth_loop_tree t [] [] 0) as (m & ->). simpl. eauto.
Qed.

(** ** Sorting *)
Section Sorting.
  Context {V : Type}.
  Definition small (x : N * V) : Prop := exists p, fst x = gindex_of p /\ (length p < 64)%nat.
  Definition lexlt (x y : N * V) : Prop := path_lt (path_of (fst x)) (path_of (fst y)).
  Lemma lex_le_path p q : (length p < 64)%nat -> (length q < 64)%nat ->
    (lex_le (gindex_of p) (gindex_of q) = true <-> path_lt p q \/ p = q).
  Proof.
    intros Lp Lq. unfold lex_le, path_lt. rewrite cmp_lex_path by auto.
    destruct (path_compare p q) eqn:E; split; intros X; auto; try discriminate.
    - right. now apply path_compare_eq.
    - destruct X as [X| ->]; [discriminate|]. rewrite path_compare_refl in E. discriminate.
  Qed.
  Lemma insert_sorted_in x (l : list (N * V)) y : In y (insert_sorted x l) <-> y = x \/ In y l.
  Proof.
    induction l as [|a l IH]; simpl; [firstorder|]. destruct (lex_le (fst x) (fst a)); simpl; [firstorder|].
    rewrite IH. tauto.
  Qed.
  Lemma sort_lex_in (l : list (N * V)) y : In y (sort_lex l) <-> In y l.
  Proof. induction l; simpl; [tauto|]. rewrite insert_sorted_in, IHl. intuition. Qed.
  Lemma insert_sorted_sorted x (l : list (N * V)) : small x -> Forall small l -> ~ In (fst x) (map fst l) ->
    StronglySorted lexlt l -> StronglySorted lexlt (insert_sorted x l).
  Proof.
    intros (px & Ex & Lx) Hs Hn Hl. induction Hl as [|a l Hl IH Ha]; simpl; [repeat constructor|].
    inversion Hs as [|? ? (pa & Ea & La) Hs']; subst.
    destruct (lex_le (fst x) (fst a)) eqn:E.
    - rewrite Ex, Ea in E. apply lex_le_path in E; auto.
      destruct E as [E|E]; [|exfalso; apply Hn; left; congruence].
      assert (lexlt x a) as Hxa by (unfold lexlt; rewrite Ex, Ea, !path_of_gindex_of; auto).
      constructor; [constructor; auto|]. constructor; auto.
      eapply Forall_impl; [|exact Ha]. intros b Hb. eapply path_lt_trans; eauto.
    - constructor.
      + apply IH; auto. simpl in Hn. tauto.
      + apply Forall_forall. intros y Hy. apply insert_sorted_in in Hy as [->|Hy].
        * unfold lexlt. rewrite Ex, Ea, !path_of_gindex_of. unfold path_lt.
          rewrite path_compare_antisym. rewrite Ex, Ea in E. unfold lex_le in E.
          rewrite cmp_lex_path in E by auto. now destruct (path_compare px pa).
        * rewrite Forall_forall in Ha. auto.
  Qed.
  Lemma sort_lex_sorted (l : list (N * V)) : Forall small l -> NoDup (map fst l) ->
    StronglySorted lexlt (sort_lex l).
  Proof.
    induction l as [|a l IH]; simpl; intros Hs Hn; [constructor|].
    inversion Hs; inversion Hn; subst. apply insert_sorted_sorted; auto.
    - apply Forall_forall. intros y Hy. apply (proj1 (sort_lex_in l y)) in Hy. rewrite Forall_forall in H2. auto.
    - intros Hin. apply H5. apply in_map_iff in Hin as (y & E & Hy). apply (proj1 (sort_lex_in l y)) in Hy.
      rewrite <- E. now apply in_map.
  Qed.
  Lemma lexlt_irrefl x : ~ lexlt x x. Proof. apply path_lt_irrefl. Qed.
  Lemma sorted_unique (l l' : list (N * V)) : StronglySorted lexlt l -> StronglySorted lexlt l' ->
    (forall x, In x l <-> In x l') -> l = l'.
  Proof.
    revert l'. induction l as [|a l IH]; intros l' S S' E.
    - destruct l' as [|b l']; auto. exfalso. apply (E b). left; auto.
    - destruct l' as [|b l']; [exfalso; apply (E a); left; auto|].
      inversion S as [|? ? Sl Fl]; inversion S' as [|? ? Sl' Fl']; subst.
      rewrite Forall_forall in Fl, Fl'.
      assert (a = b) as ->.
      { assert (In a (b :: l')) as Ia by (apply E; left; auto).
        assert (In b (a :: l)) as Ib by (apply E; left; auto).
        destruct Ia as [|Ia]; auto. destruct Ib as [|Ib]; auto.
        exfalso. apply (lexlt_irrefl a). eapply path_lt_trans; [apply Fl, Ib|apply Fl', Ia]. }
      f_equal. apply IH; auto. intros x. split; intros Hx.
      + assert (In x (b :: l')) as I by (apply E; right; auto). destruct I as [->|]; auto.
        exfalso. apply (lexlt_irrefl x). now apply Fl.
      + assert (In x (b :: l)) as I by (apply E; right; auto). destruct I as [->|]; auto.
        exfalso. apply (lexlt_irrefl x). now apply Fl'.
  Qed.
End Sorting.

(** ** The builder *)
Definition memb (S : list path) (p : path) : bool := existsb (fun q => if list_eq_dec Bool.bool_dec p q then true else false) S.
Lemma memb_In S p : memb S p = true <-> In p S.
Proof.
  unfold memb. rewrite existsb_exists. split.
  - intros (q & Hin & E). destruct (list_eq_dec Bool.bool_dec p q); [now subst|discriminate].
  - intros Hin. exists p. split; auto. destruct (list_eq_dec Bool.bool_dec p p); auto.
Qed.

Lemma in_set_difference a b x : In x (set_difference a b) <-> In x a /\ ~ In x b.
Proof.
  unfold set_difference. rewrite nodup_In, filter_In, negb_true_iff. split; intros [H1 H2]; split; auto.
  - intros Hin. rewrite (proj2 (existsb_exists (N.eqb x) b)) in H2; [discriminate|]. exists x. split; auto. apply N.eqb_refl.
  - destruct (existsb (N.eqb x) b) eqn:E; auto. apply existsb_exists in E as (y & Hy & E). apply N.eqb_eq in E. subst. easy.
Qed.

Definition helpers_of (S : list path) : list N :=
  set_difference (flat_map get_branch_indices (map gindex_of S)) (flat_map get_path_indices (map gindex_of S)).

Lemma in_helpers_of S x : In x (helpers_of S) <-> exists p, x = gindex_of p /\ helper S p.
Proof.
  unfold helpers_of. rewrite in_set_difference. rewrite !in_flat_map. split.
  - intros [(g & Hg & Hb) Hn]. apply in_map_iff in Hg as (s & <- & Hs).
    apply in_get_branch_indices in Hb as (q & b & -> & Ha). exists (q ++ [negb b]). split; auto. split.
    + intros (s' & Hs' & Ha'). apply Hn. exists (gindex_of s'). split; [now apply in_map|].
      apply in_get_path_indices. exists (q ++ [negb b]). split; auto. split; auto. now destruct q.
    + exists q, b. split; auto. exists s. auto.
  - intros (p & -> & Hn & q & b & -> & s & Hs & Ha). split.
    + exists (gindex_of s). split; [now apply in_map|]. apply in_get_branch_indices. eauto.
    + intros (g & Hg & Hp). apply in_map_iff in Hg as (s' & <- & Hs').
      apply in_get_path_indices in Hp as (q' & E & _ & Ha'). apply gindex_of_inj in E. subst.
      apply Hn. exists s'. auto.
Qed.

Lemma proof_indices_tree H T S : antichain S -> NoDup S -> (forall p, In p S -> present T p) -> S <> [] ->
  (forall p, In p S -> (length p < 64)%nat) ->
  compute_proof_indices_and_value_mask (map gindex_of S) =
  map (fun p => (gindex_of p, memb S p)) (map fst (leaves (prune H T S))).
Proof.
  intros Ha Hnd Hp Hne HL. unfold compute_proof_indices_and_value_mask. fold (helpers_of S).
  assert (Hlen : forall p, helper S p -> (length p < 64)%nat).
  { intros p (_ & q & b & -> & s & Hs & (u & E)). apply HL in Hs. rewrite E in Hs.
    rewrite !app_length in *. simpl in *. lia. }
  apply sorted_unique.
  - apply sort_lex_sorted.
    + apply Forall_app. rewrite !Forall_map. split; apply Forall_forall; intros x Hx; red; cbn [fst].
      * apply in_helpers_of in Hx as (p & -> & Hh). exists p. split; auto.
      * exists x; auto.
    + rewrite map_app, !map_map. cbn [fst]. rewrite !map_id. apply NoDup_app_intro.
      * apply NoDup_nodup.
      * apply FinFun.Injective_map_NoDup; auto. red; apply gindex_of_inj.
      * intros x Hx Hy. apply in_helpers_of in Hx as (p & -> & Hn & _). apply in_map_iff in Hy as (q & E & Hq).
        apply gindex_of_inj in E. subst. apply Hn. exists p. split; auto. apply ancestor_refl.
  - pose proof (leaves_sorted (prune H T S)) as Hs. induction Hs; simpl; constructor; auto.
    rewrite Forall_map. eapply Forall_impl; [|exact H0]. intros q. unfold lexlt. cbn [fst].
    now rewrite !path_of_gindex_of.
  - intros [g b]. rewrite sort_lex_in, in_app_iff, !in_map_iff. split.
    + intros [(x & E & Hx)|(x & E & Hx)]; injection E; intros; subst.
      * apply in_helpers_of in Hx as (p & -> & Hh). exists p. split.
        -- f_equal. destruct (memb S p) eqn:M; auto. exfalso. apply memb_In in M.
           apply (proj1 Hh). exists p. split; auto. apply ancestor_refl.
        -- apply prune_leaf_paths; auto.
      * apply in_map_iff in Hx as (p & <- & Hin). exists p. split.
        -- f_equal. now apply memb_In.
        -- apply prune_leaf_paths; auto.
    + intros (p & E & Hin). injection E; intros; subst. apply prune_leaf_paths in Hin; auto.
      destruct (memb S p) eqn:M.
      * right. exists (gindex_of p). split; auto. apply in_map. now apply memb_In.
      * left. exists (gindex_of p). split; auto. apply in_helpers_of. exists p. split; auto.
        destruct Hin as [Hin|]; auto. apply memb_In in Hin. congruence.
Qed.


Lemma map_outcome_all {E A B} (f : A -> outcome E B) (g : A -> B) l :
  (forall a, In a l -> f a = Ok (g a)) -> map_outcome f l = Ok (map g l).
Proof.
  induction l; simpl; intros Hf; auto. rewrite (Hf a) by auto. cbn [bind]. rewrite IHl by auto. reflexivity.
Qed.

Theorem build_correct {E} (e : E) H T S : hash32 H -> wf_tree T ->
  antichain S -> NoDup S -> (forall p, In p S -> present T p /\ (length p < 64)%nat) -> S <> [] ->
  exists mp, build (tree_oracle e H T) (map gindex_of S) = Ok mp /\
    mp_descriptor mp = preorder (prune H T S) /\
    mp_data mp = concat (map snd (leaves (prune H T S))) /\
    mp_value_mask mp = map (memb S) (map fst (leaves (prune H T S))).
Proof.
  intros Hh HT Ha Hnd Hp Hne. unfold build.
  rewrite (proof_indices_tree H T S) by (auto; intros; apply Hp; auto).
  rewrite !map_map. cbn [fst snd].
  assert (map_outcome (tree_oracle e H T) (map (fun x : path * bytes => gindex_of (fst x)) (leaves (prune H T S)))
          = Ok (map snd (leaves (prune H T S)))) as ->.
  { rewrite <- (map_map fst gindex_of).
    assert (forall l, (forall x, In x l -> In x (leaves (prune H T S))) ->
       map_outcome (tree_oracle e H T) (map gindex_of (map fst l)) = Ok (map snd l)) as Hg.
    { induction l as [|[p c] l IH]; intros Hin; simpl; auto.
      unfold tree_oracle at 1. rewrite path_of_gindex_of.
      rewrite (prune_leaf_value H T S p c) by (apply Hin; left; auto). cbn [bind].
      rewrite IH by (intros; apply Hin; right; auto). reflexivity. }
    now apply Hg. }
  cbn [bind]. rewrite <- (map_map fst gindex_of), compute_proof_descriptor_paths, descr_of_leaves.
  destruct (calculate_max_stack_depth_tree (E:=E) (prune H T S)) as (m & ->). cbn [bind].
  eexists. split; [reflexivity|]. simpl. rewrite ?map_map. auto.
Qed.

Lemma combine_mask_filter {A} (f : A -> bool) (l : list A) :
  map fst (filter (fun x => snd x) (combine l (map f l))) = filter f l.
Proof. induction l as [|a l IH]; simpl; auto. destruct (f a); simpl; rewrite IH; auto. Qed.
Lemma combine_map2 {A B C} (f : A -> B) (g : A -> C) l :
  combine (map f l) (map g l) = map (fun x => (f x, g x)) l.
Proof. induction l; simpl; auto. f_equal; auto. Qed.
Lemma filter_map {A B} (f : B -> bool) (g : A -> B) l : filter f (map g l) = map g (filter (fun x => f (g x)) l).
Proof. induction l as [|a l IH]; simpl; auto. destruct (f (g a)); simpl; congruence. Qed.

Lemma prune_depth H T S : (forall p, In p S -> (length p < 64)%nat) -> (depth (prune H T S) < 64)%nat.
Proof.
  assert (forall k T S, (forall p, In p S -> (length p <= k)%nat) -> (depth (prune H T S) <= k)%nat) as G.
  { intros k T0. revert k. induction T0 as [c|l IHl rt IHr]; intros k S0 Hk; cbn [prune depth]; [lia|].
    destruct (stop S0) eqn:Es; cbn [depth]; [lia|].
    destruct k as [|k].
    - exfalso. assert (stop S0 = true); [|congruence]. apply stop_true.
      destruct S0 as [|p S0]; auto. right. assert (length p <= 0)%nat as L by (apply Hk; left; auto).
      destruct p; [left; auto|simpl in L; lia].
    - assert (forall b p, In p (tails b S0) -> (length p <= k)%nat) as Ht.
      { intros b p Hin. apply in_tails in Hin. apply Hk in Hin. simpl in Hin. lia. }
      pose proof (IHl k _ (Ht false)). pose proof (IHr k _ (Ht true)). lia. }
  intros Hk. apply Nat.lt_succ_r. apply (G 63%nat). intros p Hp. apply Hk in Hp. lia.
Qed.

Lemma prune_inner H T S : S <> [] -> ~ In [] S -> (forall p, In p S -> present T p) -> inner (prune H T S).
Proof.
  intros Hne Hr Hp. destruct T as [c|l rt].
  - destruct S as [|p S]; [easy|]. exfalso. apply Hr. left. apply (present_leaf c). apply Hp. left; auto.
  - simpl. destruct (stop S) eqn:Es; [|exact I]. apply stop_true in Es as [->|]; easy.
Qed.

Theorem build_verifies {E} (e : E) H T S : hash32 H -> wf_tree T ->
  antichain S -> NoDup S -> (forall p, In p S -> present T p /\ (length p < 64)%nat) -> S <> [] -> ~ In [] S ->
  exists mp, build (tree_oracle e H T) (map gindex_of S) = Ok mp /\
    mp_verify H mp (mroot H T) = Ok tt /\
    exists vals, mp_values mp = map (fun x => (gindex_of (fst x), snd x)) vals /\
      StronglySorted path_lt (map fst vals) /\
      (forall p c, In (p, c) vals <-> In p S /\ node_at H T p = Some c).
Proof.
  intros Hh HT Ha Hnd Hp Hne Hr.
  destruct (build_correct e H T S) as (mp & Hb & Hd & Hda & Hm); auto.
  exists mp. split; auto. set (t := prune H T S) in *.
  assert (encodes mp t) as He.
  { split; auto. split; [now apply prune_wf|]. exists []. now rewrite app_nil_r. }
  split.
  - apply mp_verify_iff. exists t. split; auto. split; [apply prune_inner; auto; intros; apply Hp; auto|].
    symmetry. apply prune_root.
  - assert (depth t < 64)%nat as Hdt by (apply prune_depth; intros; apply Hp; auto).
    exists (filter (fun x => memb S (fst x)) (leaves t)).
    unfold mp_values. rewrite (mp_nodes_tree_small _ _ He Hdt), Hm, map_map, combine_map2, filter_map, map_map.
    cbn [fst snd]. split; [reflexivity|]. split.
    + pose proof (leaves_sorted t) as Hs. clear -Hs. induction (leaves t) as [|x l IH]; simpl in *; [constructor|].
      inversion Hs; subst. destruct (memb S (fst x)); simpl; auto. constructor; auto.
      rewrite Forall_forall in *. intros q Hq. apply H3. apply in_map_iff in Hq as (y & <- & Hy).
      apply filter_In in Hy as [Hy _]. now apply in_map.
    + intros p c. rewrite filter_In. cbn [fst]. rewrite memb_In. split.
      * intros [Hin Hs]. split; auto. eapply prune_leaf_value; eauto.
      * intros [Hs Hc]. split; auto. assert (In p (map fst (leaves t))) as Hin.
        { apply prune_leaf_paths; auto. intros; apply Hp; auto. }
        apply in_map_iff in Hin as ([p' c'] & E1 & Hin). simpl in E1. subst.
        pose proof (prune_leaf_value H T S p c' Hin) as E2. congruence.
Qed.
