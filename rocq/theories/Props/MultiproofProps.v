(** C20-C27: SSZ multiproofs. *)
From Coq Require Import List ZArith NArith Bool Lia Sorted.
From Coq.Init Require Import Byte.
From Verif.Model Require Import Base Multiproof Builder.
From Verif.Spec Require Import Merkle MultiproofSpec.
From Verif.Proof Require Import BaseLemmas MerkleP MultiproofP BuilderP ForgeryP MultiproofMoreP.
Import ListNotations.
Open Scope N_scope.

(** A computable toy hash and a small tree, for the concrete cases. *)
Definition toyH (x : bytes) : bytes := le_bytes 32 (7 * be_val x + 3 * le_val x + 1).
Definition ch (b : byte) : bytes := repeat b 32.
Definition toyT : mtree := MNode (MNode (MLeaf (ch x01)) (MLeaf (ch x02))) (MNode (MLeaf (ch x03)) (MLeaf (ch x04))).
Definition toy_mp : Multiproof :=
  match build (tree_oracle RootMismatch toyH toyT) [4; 7] with Ok mp => mp | _ => mkMultiproof [] [] [] 0 end.
Definition toy_t : mtree := toyT.
Definition inj_check (H : bytes -> bytes) (l : list bytes) : bool :=
  forallb (fun a => forallb (fun b => implb (bytes_eqb (H a) (H b)) (bytes_eqb a b)) l) l.
Lemma inj_check_sound H l : inj_check H l = true -> injective_on H l.
Proof.
  unfold inj_check, injective_on. intros E a b Ha Hb Hab. rewrite forallb_forall in E. specialize (E a Ha).
  rewrite forallb_forall in E. specialize (E b Hb). rewrite (proj2 (bytes_eqb_eq _ _) Hab) in E. simpl in E.
  now apply bytes_eqb_eq.
Qed.
Lemma toyH32 : hash32 toyH. Proof. intros x. apply le_bytes_length. Qed.

(** *** C20 *)
Theorem C20_root_computed_iff_tree : forall H mp rt,
  calculate_root H mp = Ok rt <-> exists t, encodes mp t /\ inner t /\ rt = mroot H t.
Proof. exact calculate_root_iff. Qed.
Theorem C20_verify_iff_tree : forall H mp rt,
  mp_verify H mp rt = Ok tt <-> exists t, encodes mp t /\ inner t /\ rt = mroot H t.
Proof. exact mp_verify_iff. Qed.
Theorem C20_tree_is_unique : forall mp t t', encodes mp t -> encodes mp t' -> t = t'.
Proof. exact encodes_unique. Qed.
Example C20_nonvacuous : calculate_root toyH toy_mp = Ok (mroot toyH toyT) /\ encodes toy_mp toy_t /\ inner toy_t /\
  calculate_root toyH (mkMultiproof (ch x01 ++ ch x02) [] [false; true] 0) = Panic /\
  calculate_root toyH (mkMultiproof (ch x01) [] [false; true; true] 0) = Panic /\
  calculate_root toyH (mkMultiproof (ch x01 ++ ch x02 ++ [x09]) [] [false; true; true] 0) = Ok (toyH (ch x01 ++ ch x02)).
Proof.
  split; [vm_compute; reflexivity|]. split.
  { split; [vm_compute; reflexivity|]. split; [vm_compute; auto|]. exists []. vm_compute; reflexivity. }
  repeat split; vm_compute; reflexivity.
Qed.

(** *** C21 *)
Theorem C21_indices_are_leaf_positions : forall t, (depth t < 64)%nat ->
  gindices (preorder t) = map gindex_of (map fst (leaves t)).
Proof. exact gindices_tree_small. Qed.
Theorem C21_indices_distinct_and_ordered : forall t,
  StronglySorted path_lt (map fst (leaves t)) /\ antichain (map fst (leaves t)) /\
  NoDup (map gindex_of (map fst (leaves t))).
Proof.
  intros t. split; [apply leaves_sorted|]. split; [apply leaves_antichain|].
  rewrite map_map. apply leaves_NoDup_gindex.
Qed.
(** Beyond depth 63 the reported index is the position's index modulo 2^64. *)
Theorem C21_indices_wrap : forall t,
  gindices (preorder t) = map (fun p => gindex_of p mod 2 ^ 64) (map fst (leaves t)).
Proof. exact gindices_tree. Qed.
Example C21_nonvacuous : (depth toyT < 64)%nat /\ gindices (preorder toyT) = [4; 5; 6; 7] /\
  gindices [false; true; false; true; false; true; true] = [2; 6; 14; 15].
Proof. split; [vm_compute; lia|]. split; reflexivity. Qed.

(** *** C22 *)
Theorem C22_multiproof_binding : forall H mp T,
  hash32 H -> wf_tree T -> mp_verify H mp (mroot H T) = Ok tt ->
  exists t, encodes mp t /\
    ((depth t < 64)%nat -> injective_on H (hash_inputs H T ++ hash_inputs H t) ->
     forall g v, In (g, v) (mp_nodes mp) \/ In (g, v) (mp_values mp) \/ mp_get mp g = Some v ->
     forall p x, gindex_of p = g -> node_at H T p = Some x -> x = v).
Proof.
  intros H mp T Hh HT Hv. pose proof Hv as Hv'. apply mp_verify_iff in Hv' as (t & He & _ & _).
  exists t. split; auto. intros Hd Hi g v Hin p x Hg Hx.
  eapply multiproof_binding; eauto. destruct Hin as [|[|Hin]]; auto; apply mp_values_in; auto.
  eapply mp_get_in; eauto.
Qed.
Example C22_nonvacuous :
  mp_verify toyH toy_mp (mroot toyH toyT) = Ok tt /\ encodes toy_mp toy_t /\ (depth toy_t < 64)%nat /\
  injective_on toyH (hash_inputs toyH toyT ++ hash_inputs toyH toy_t) /\
  mp_values toy_mp = [(4, ch x01); (7, ch x04)] /\ mp_get toy_mp 7 = Some (ch x04) /\
  node_at toyH toyT [true; true] = Some (ch x04).
Proof.
  split; [vm_compute; reflexivity|]. split; [apply C20_nonvacuous|]. split; [vm_compute; lia|].
  split; [apply inj_check_sound; vm_compute; reflexivity|].
  repeat split; vm_compute; reflexivity.
Qed.

(** *** C23: the same claim without the depth bound is false. Whoever can put one chosen 32-byte
    chunk anywhere in the tree can prove any list of (index, value) pairs. *)
Theorem C23_forgery : forall H vals, hash32 H ->
  Forall (fun x => fst x < 2 ^ 64 /\ length (snd x) = 32%nat) vals ->
  exists chunk, length chunk = 32%nat /\
    forall T p, wf_tree T -> subtree T p = Some (MLeaf chunk) ->
    exists mp, mp_verify H mp (mroot H T) = Ok tt /\ mp_values mp = vals.
Proof.
  intros H vals Hh F. exists (forged_chunk H vals). split.
  - apply mroot_length; auto. apply forged_wf. eapply Forall_impl; [|exact F]. simpl; tauto.
  - intros T p HT Hs. eapply forgery; eauto.
Qed.
Theorem C23_multiproof_binding_unbounded_refuted : forall H, hash32 H ->
  exists mp T g v p x, wf_tree T /\ mp_verify H mp (mroot H T) = Ok tt /\
    In (g, v) (mp_values mp) /\ mp_get mp g = Some v /\ gindex_of p = g /\ node_at H T p = Some x /\ x <> v.
Proof.
  intros H Hh.
  destruct (C23_forgery H [(3, ch x01)] Hh) as (chunk & Hl & Hf).
  { constructor; [split; [reflexivity|reflexivity]|constructor]. }
  destruct (Hf (MNode (MLeaf chunk) (MLeaf (ch x00))) [false]) as (mp & Hv & E).
  { simpl. auto. } { reflexivity. }
  exists mp, (MNode (MLeaf chunk) (MLeaf (ch x00))), 3, (ch x01), [true], (ch x00).
  split; [simpl; auto|]. split; [exact Hv|]. rewrite E. split; [left; auto|].
  split; [unfold mp_get; rewrite E; reflexivity|].
  repeat split. discriminate.
Qed.
(** For the toy hash the forged proof is computed and checked directly. *)
Example C23_concrete :
  let c := forged_chunk toyH [(3, ch x01)] in
  let T := MNode (MLeaf c) (MLeaf (ch x00)) in
  let mp := k_mp (attach T [false] (forged [(3, ch x01)])) in
  mp_verify toyH mp (mroot toyH T) = Ok tt /\ mp_values mp = [(3, ch x01)] /\ length (mp_descriptor mp) = 135%nat.
Proof. vm_compute. auto. Qed.

(** *** C24 *)
Theorem C24_built_proof_verifies : forall E (e : E) H T S,
  hash32 H -> wf_tree T ->
  S <> [] -> NoDup S -> antichain S -> ~ In [] S ->
  (forall p, In p S -> present T p /\ gindex_of p < 2 ^ 64) ->
  exists mp, build (tree_oracle e H T) (map gindex_of S) = Ok mp /\
    mp_verify H mp (mroot H T) = Ok tt /\
    exists vals, mp_values mp = map (fun x => (gindex_of (fst x), snd x)) vals /\
      StronglySorted path_lt (map fst vals) /\
      (forall p c, In (p, c) vals <-> In p S /\ node_at H T p = Some c).
Proof.
  intros E e H T S Hh HT Hne Hnd Ha Hr Hp. apply build_verifies; auto.
  intros p Hin. destruct (Hp p Hin) as [H1 H2]. split; auto.
  rewrite <- (path_of_gindex_of p). apply path_of_length; auto. apply gindex_of_pos.
Qed.
Example C24_nonvacuous :
  let S := [[false; false]; [true; true]] in
  map gindex_of S = [4; 7] /\ S <> [] /\ NoDup S /\ antichain S /\ ~ In [] S /\
  (forall p, In p S -> present toyT p /\ gindex_of p < 2 ^ 64) /\
  mp_descriptor toy_mp = [false; false; true; true; false; true; true] /\
  mp_value_mask toy_mp = [true; false; false; true] /\
  build (tree_oracle RootMismatch toyH toyT) [2; 7] =
    Ok (mkMultiproof (mroot toyH (MNode (MLeaf (ch x01)) (MLeaf (ch x02))) ++ ch x03 ++ ch x04)
                     [true; false; true] [false; true; false; true; true] 3).
Proof.
  cbv zeta. split; [reflexivity|]. split; [discriminate|].
  split; [repeat constructor; simpl; intuition discriminate|].
  split. { intros p q [<-|[<-|[]]] [<-|[<-|[]]] (s & X); auto; discriminate. }
  split; [simpl; intuition discriminate|].
  split. { intros p [<-|[<-|[]]]; split; vm_compute; congruence. }
  repeat split; vm_compute; reflexivity.
Qed.

(** Indices are registered one at a time or several at once, in any order and any number of times:
    what is registered is the set of them, and the proof depends on that set alone. *)
Inductive registration := One (g : N) | Many (gs : list N).
Definition registers (r : registration) : list N := match r with One g => [g] | Many gs => gs end.
Definition register (b : list N) (r : registration) : list N :=
  match r with One g => with_gindex b g | Many gs => with_gindices b gs end.
Lemma register_spec rs : forall b, bs_sorted b ->
  bs_sorted (fold_left register rs b) /\
  (forall g, In g (fold_left register rs b) <-> In g b \/ In g (concat (map registers rs))).
Proof.
  induction rs as [|r rs IH]; intros b Hb; cbn [fold_left map concat]; [split; [exact Hb|intros g; cbn; tauto]|].
  assert (Hs : bs_sorted (register b r)) by (destruct r; [now apply bs_insert_sorted|now apply bs_extend_sorted]).
  destruct (IH _ Hs) as [S I]. split; [exact S|]. intros g. rewrite I, in_app_iff.
  assert (Hr : In g (register b r) <-> In g b \/ In g (registers r)).
  { destruct r; cbn [register registers]; unfold with_gindex, with_gindices;
      [rewrite bs_insert_In; cbn [In]; intuition|apply bs_extend_In]. }
  rewrite Hr. tauto.
Qed.
Theorem C24_registered : forall rs,
  StronglySorted N.lt (fold_left register rs builder_new) /\
  (forall g, In g (fold_left register rs builder_new) <-> In g (concat (map registers rs))).
Proof.
  intros rs. destruct (register_spec rs builder_new) as [S I]; [constructor|]. split; [exact S|].
  intros g. rewrite I. cbn. intuition.
Qed.
Theorem C24_registration_order_is_irrelevant : forall rs rs',
  (forall g, In g (concat (map registers rs)) <-> In g (concat (map registers rs'))) ->
  fold_left register rs builder_new = fold_left register rs' builder_new.
Proof.
  intros rs rs' H. destruct (C24_registered rs) as [S I], (C24_registered rs') as [S' I'].
  apply bs_sorted_ext; auto. intros g. now rewrite I, I'.
Qed.
Lemma incl_paths (b : list N) (S : list path) : (forall g, In g b -> exists p, In p S /\ gindex_of p = g) ->
  exists S', map gindex_of S' = b /\ incl S' S.
Proof.
  induction b as [|g b IH]; intros H; [exists []; split; [auto|intros x []]|].
  destruct (H g) as (p & Hp & <-); [now left|]. destruct IH as (S' & <- & Hi); [intros g' Hg; apply H; now right|].
  exists (p :: S'). split; [auto|]. intros x [<-|Hx]; auto.
Qed.
Theorem C24_registered_paths_are_proved : forall E (e : E) H T S rs,
  hash32 H -> wf_tree T ->
  S <> [] -> antichain S -> ~ In [] S ->
  (forall p, In p S -> present T p /\ gindex_of p < 2 ^ 64) ->
  (forall g, In g (concat (map registers rs)) <-> In g (map gindex_of S)) ->
  exists mp, build (tree_oracle e H T) (fold_left register rs builder_new) = Ok mp /\
    mp_verify H mp (mroot H T) = Ok tt /\
    forall g c, In (g, c) (mp_values mp) <-> exists p, In p S /\ gindex_of p = g /\ node_at H T p = Some c.
Proof.
  intros E e H T S rs Hh HT Hne Ha Hr Hp Hrs. destruct (C24_registered rs) as [Ss Si].
  destruct (incl_paths (fold_left register rs builder_new) S) as (S' & E' & Hi).
  { intros g Hg. apply Si, Hrs, in_map_iff in Hg as (p & <- & Hg). eauto. }
  assert (Hi' : incl S S').
  { intros p Hin. assert (Hg : In (gindex_of p) (fold_left register rs builder_new)) by (apply Si, Hrs, in_map, Hin).
    rewrite <- E' in Hg. apply in_map_iff in Hg as (q & Eq & Hq).
    now rewrite <- (path_of_gindex_of p), <- Eq, path_of_gindex_of. }
  destruct (C24_built_proof_verifies E e H T S') as (mp & Hb & Hv & vals & Evals & _ & Hvals); auto.
  - intros ->. destruct S as [|p S0]; [auto|]. now destruct (Hi' p (or_introl eq_refl)).
  - apply (NoDup_map_inv gindex_of). rewrite E'. now apply bs_sorted_NoDup.
  - intros p q Hx Hy. apply Ha; auto.
  - exists mp. rewrite <- E'. split; [exact Hb|]. split; [exact Hv|]. intros g c. rewrite Evals, in_map_iff. split.
    + intros ((p & c') & [= <- <-] & Hin). apply Hvals in Hin as [Hin Hc]. eauto.
    + intros (p & Hin & <- & Hc). exists (p, c). split; [reflexivity|]. apply Hvals. auto.
Qed.
Example C24_registered_nonvacuous :
  fold_left register [Many [7; 4]; One 4; Many []; One 7] builder_new = [4; 7] /\
  (forall g, In g (concat (map registers [Many [7; 4]; One 4; Many []; One 7])) <->
             In g (map gindex_of [[false; false]; [true; true]])) /\
  exists mp, build (tree_oracle RootMismatch toyH toyT) (fold_left register [Many [7; 4]; One 4] builder_new) = Ok mp /\
    mp_values mp = [(4, ch x01); (7, ch x04)].
Proof.
  split; [reflexivity|]. split; [intros g; vm_compute; intuition|]. eexists. split; vm_compute; reflexivity.
Qed.

(** *** C25 *)
Theorem C25_index_order_is_lexicographic : forall a b, a < 2 ^ 64 -> b < 2 ^ 64 ->
  cmp_binary_lexicographically a b = path_compare (bits_of a) (bits_of b).
Proof. exact cmp_lex_bits. Qed.
Example C25_nonvacuous :
  bits_of 10 = [true; false; true; false] /\
  cmp_binary_lexicographically 10 5 = Gt /\ cmp_binary_lexicographically 9 5 = Lt /\
  cmp_binary_lexicographically (2^64 - 1) (2^63 - 1) = Gt.
Proof. repeat split; vm_compute; reflexivity. Qed.

(** *** C26 *)
(** No proof of depth below 64 reports a position together with one of its ancestors, so none can
    answer a nested request. *)
Theorem C26_no_nested_values : forall mp t g v g' v' p p',
  encodes mp t -> (depth t < 64)%nat ->
  In (g, v) (mp_values mp) -> In (g', v') (mp_values mp) ->
  gindex_of p = g -> gindex_of p' = g' -> ancestor p p' -> p = p' /\ v = v'.
Proof.
  intros mp t g v g' v' p p' He Hd H1 H2 E1 E2 Ha. apply mp_values_in in H1, H2.
  rewrite (mp_nodes_tree_small _ _ He Hd) in H1, H2.
  apply in_map_iff in H1 as ([q c] & X1 & I1), H2 as ([q' c'] & X2 & I2). simpl in *.
  injection X1 as Y1 ->. injection X2 as Y2 ->. rewrite <- E1 in Y1. rewrite <- E2 in Y2.
  apply gindex_of_inj in Y1, Y2. subst q q'.
  assert (p = p') as <-.
  { apply (leaves_antichain t); auto; [apply (in_map fst) in I1|apply (in_map fst) in I2]; auto. }
  split; auto. apply subtree_leaves in I1, I2. congruence.
Qed.
(** Nothing requested: the builder panics. Only the root requested: verification always fails. *)
Theorem C26_empty_or_root_request : forall E (e : E) H T mp rt, hash32 H -> wf_tree T ->
  build (tree_oracle e H T) [] = Panic /\
  (build (tree_oracle e H T) [1] = Ok mp -> mp_verify H mp rt = Err UnusedLeaves).
Proof.
  intros E e H T mp rt Hh HT. split; [apply build_empty|]. apply build_root.
  intros x c. unfold tree_oracle, node_at. destruct (subtree T (path_of x)) as [s|] eqn:Es; [|discriminate].
  simpl. intros X; injection X; intros; subst. apply mroot_length; auto.
  clear X. revert T HT Es. induction (path_of x) as [|b q IH]; simpl; intros T HT Es.
  - injection Es; intros; subst; auto.
  - destruct T; [discriminate|]. destruct HT. destruct b; eauto.
Qed.
(** A nested request is built without complaint, but index 4 is reported as 12 and the proof does
    not verify; {3, 6} makes the builder panic. *)
Example C26_nested_witness : exists mp,
  build (tree_oracle RootMismatch toyH toyT) [2; 4] = Ok mp /\
  map fst (mp_values mp) = [2; 12] /\ mp_verify toyH mp (mroot toyH toyT) = Err RootMismatch /\
  build (tree_oracle RootMismatch toyH toyT) [3; 6] = Panic.
Proof. eexists. split; [vm_compute; reflexivity|]. repeat split; vm_compute; reflexivity. Qed.

(** *** C27 *)
Theorem C27_values_are_masked_leaves : forall mp t,
  encodes mp t -> (depth t < 64)%nat -> length (mp_value_mask mp) = length (leaves t) ->
  forall g v, (In (g, v) (mp_values mp) <->
    exists k p, nth_error (leaves t) k = Some (p, v) /\ g = gindex_of p /\ nth_error (mp_value_mask mp) k = Some true).
Proof. exact mp_values_filter. Qed.
Theorem C27_get_is_unique_lookup : forall mp t g v,
  encodes mp t -> (depth t < 64)%nat -> (mp_get mp g = Some v <-> In (g, v) (mp_values mp)).
Proof. exact mp_get_in. Qed.
Theorem C27_sequential_reads : forall vals gs vs rest,
  (read_all vals gs = Ok (vs, rest) <-> length gs = length vs /\ vals = combine gs vs ++ rest) /\
  read_all vals gs <> Panic.
Proof. intros. split; [apply read_all_iff|apply read_all_never_panics]. Qed.
Example C27_nonvacuous :
  length (mp_value_mask toy_mp) = length (leaves toy_t) /\
  read_all (mp_values toy_mp) [4; 7] = Ok ([ch x01; ch x04], []) /\
  read_all (mp_values toy_mp) [7] = Err (GIndexMismatch 7 4) /\
  read_all (mp_values toy_mp) [4; 7; 9] = Err MissingValue.
Proof. repeat split; vm_compute; reflexivity. Qed.

Print Assumptions C20_root_computed_iff_tree.
Print Assumptions C20_verify_iff_tree.
Print Assumptions C20_tree_is_unique.
Print Assumptions C21_indices_are_leaf_positions.
Print Assumptions C21_indices_distinct_and_ordered.
Print Assumptions C21_indices_wrap.
Print Assumptions C22_multiproof_binding.
Print Assumptions C23_forgery.
Print Assumptions C23_multiproof_binding_unbounded_refuted.
Print Assumptions C24_built_proof_verifies.
Print Assumptions C24_registered.
Print Assumptions C24_registration_order_is_irrelevant.
Print Assumptions C24_registered_paths_are_proved.
Print Assumptions C25_index_order_is_lexicographic.
Print Assumptions C26_no_nested_values.
Print Assumptions C26_empty_or_root_request.
Print Assumptions C27_values_are_masked_leaves.
Print Assumptions C27_get_is_unique_lookup.
Print Assumptions C27_sequential_reads.
