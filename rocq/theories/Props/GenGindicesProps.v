(** C66: the program that generates the guest's tree positions. *)
From Coq Require Import String List NArith Lia ZifyBool ZifyNat ZifyN.
From Verif.Model Require Import Base Gindices GenGindices.
From Verif.Spec Require Import Beacon.
From Verif.Proof Require Import BaseLemmas MultiproofP BeaconP.
Import ListNotations.
Open Scope string_scope.
Open Scope N_scope.

(** ** Specification: the contents of the committed file, function by function *)
Definition committed : list Emitted :=
  [("slot_gindex", fun _ => slot_gindex);
   ("finalized_checkpoint_epoch_gindex", fun _ => finalized_checkpoint_epoch_gindex);
   ("genesis_validators_root_gindex", fun _ => genesis_validators_root_gindex);
   ("fork_previous_version_gindex", fun _ => fork_previous_version_gindex);
   ("fork_current_version_gindex", fun _ => fork_current_version_gindex);
   ("fork_epoch_gindex", fun _ => fork_epoch_gindex);
   ("validators_gindex", fun _ => validators_gindex);
   ("earliest_exit_epoch_gindex", fun _ => earliest_exit_epoch_gindex);
   ("earliest_consolidation_epoch_gindex", fun _ => earliest_consolidation_epoch_gindex);
   ("state_root_gindex", fun _ => state_root_gindex);
   ("block_slot_gindex", fun _ => block_slot_gindex);
   ("public_key_0_gindex", public_key_0_gindex);
   ("public_key_1_gindex", public_key_1_gindex);
   ("effective_balance_gindex", effective_balance_gindex);
   ("activation_eligibility_epoch_gindex", activation_eligibility_epoch_gindex);
   ("activation_epoch_gindex", activation_epoch_gindex);
   ("exit_epoch_gindex", exit_epoch_gindex);
   ("slashed_gindex", slashed_gindex)].
(** Two files that define the same functions in the same order. *)
Definition same_functions (a b : list Emitted) : Prop :=
  Forall2 (fun x y => fst x = fst y /\ forall i, snd x i = snd y i) a b.

(** Regenerating the file from the Electra state, or from the Fulu state, reproduces the committed file. *)
Theorem C66_regenerates : forall (E : Type) T, T = T_electra_state \/ T = T_fulu_state ->
  exists l, @generate E T = Ok l /\ same_functions l committed.
Proof.
  intros E T HT. unfold generate.
  assert (E1 : @gen_each E T beacon_paths = Ok [("slot", 66); ("finalized_checkpoint_epoch", 168); ("genesis_validators_root", 65);
    ("fork_previous_version", 268); ("fork_current_version", 269); ("fork_epoch", 270); ("validators", 75);
    ("earliest_exit_epoch", 95); ("earliest_consolidation_epoch", 97)]) by (destruct HT as [-> | ->]; reflexivity).
  assert (E2 : @gen_each E T_header block_paths = Ok [("state_root", 11); ("block_slot", 8)]) by reflexivity.
  assert (E3 : @gen_each E T_validator validator_paths = Ok [("public_key_0", 16); ("public_key_1", 17); ("effective_balance", 10);
    ("activation_eligibility_epoch", 12); ("activation_epoch", 13); ("exit_epoch", 14); ("slashed", 11)]) by reflexivity.
  assert (E4 : generalized_index (TList T_validator (2 ^ 40)) [Index 0] 1 = Some 2199023255552) by reflexivity.
  rewrite E1, E2. unfold validators_gindices, element_gindices. rewrite E3, E4. cbn [bind expect].
  eexists. split; [reflexivity|]. unfold same_functions, committed, gen_guest_gindices_impl. cbn [map List.app fst snd].
  change (chunk_count T_validator) with 8.
  repeat (constructor; [split; [reflexivity|intros i; cbn [snd]; reflexivity]|]). constructor.
Qed.

(** ** Positions inside a type are linear in the position of the value *)
Lemma find_field_pos fs name : forall k pos t, find_field fs name k = Some (pos, t) -> pos < k + N.of_nat (List.length fs).
Proof.
  induction fs as [|[n u] fs IH]; intros k pos t H; cbn [find_field] in H; [discriminate|].
  cbn [List.length]. destruct (String.eqb n name).
  - injection H as <- _. lia.
  - apply IH in H. lia.
Qed.
Lemma ceil_ge n : n <= power_of_two_ceil n.
Proof.
  unfold power_of_two_ceil. destruct (N.le_gt_cases n 1) as [H|H].
  - enough (2 ^ N.log2_up n <> 0) by lia. apply N.pow_nonzero. lia.
  - destruct (N.log2_up_spec n H). lia.
Qed.
Lemma item_pos t x pos t' : item t x = Some (pos, t') -> pos < power_of_two_ceil (chunk_count t).
Proof.
  intros H. eapply N.lt_le_trans; [|apply ceil_ge].
  destruct t, x; cbn [item] in H; try discriminate.
  - destruct (N.ltb_spec i n); [|discriminate]. injection H as <- _. cbn [chunk_count].
    apply N.div_lt_upper_bound; [lia|]. pose proof (N.div_mod (n + 31) 32 ltac:(lia)).
    pose proof (N.mod_lt (n + 31) 32 ltac:(lia)). lia.
  - apply find_field_pos in H. cbn [chunk_count]. lia.
  - destruct (N.ltb_spec i limit); [|discriminate]. injection H as <- _. exact H0.
Qed.
Lemma ceil_pow n : exists k, power_of_two_ceil n = 2 ^ k.
Proof. now exists (N.log2_up n). Qed.
Lemma gindex_linear p : forall t, (forall r, generalized_index t p r = None) \/
  exists d off, off < 2 ^ d /\ forall r, generalized_index t p r = Some (r * 2 ^ d + off).
Proof.
  induction p as [|x p IH]; intros t.
  - right. exists 0, 0. split; [reflexivity|]. intros r. cbn [generalized_index]. f_equal. lia.
  - destruct (match x with Length => true | _ => false end) eqn:Ex.
    + destruct x; try discriminate. destruct t; try (left; reflexivity).
      destruct (IH TUint64) as [Hn|(d & off & Ho & Hs)]; [left; intros r; apply Hn|right].
      exists (1 + d), (2 ^ d + off). rewrite N.pow_add_r. change (2 ^ 1) with 2. split; [lia|].
      intros r. cbn [generalized_index]. rewrite Hs. f_equal. nia.
    + assert (U : forall r, generalized_index t (x :: p) r = match item t x with Some (pos, t') =>
        generalized_index t' p (r * (match t with TList _ _ => 2 | _ => 1 end) * power_of_two_ceil (chunk_count t) + pos) | None => None end).
      { intros r. destruct x; try discriminate; reflexivity. }
      destruct (item t x) as [[pos t']|] eqn:Ei; [|left; exact U].
      destruct (IH t') as [Hn|(d & off & Ho & Hs)]; [left; intros r; rewrite U; apply Hn|right].
      apply item_pos in Ei. destruct (ceil_pow (chunk_count t)) as [k Hk]. rewrite Hk in *.
      destruct (match t with TList _ _ => true | _ => false end) eqn:Et.
      * exists (1 + k + d), (pos * 2 ^ d + off). rewrite !N.pow_add_r. change (2 ^ 1) with 2. split; [nia|].
        intros r. rewrite U, Hs. destruct t; try discriminate. f_equal. nia.
      * exists (k + d), (pos * 2 ^ d + off). rewrite !N.pow_add_r. split; [nia|].
        intros r. rewrite U, Hs. destruct t; try discriminate; f_equal; nia.
Qed.
(** The number of leaves at the level of position [g], and the rank of [g] in it. *)
Definition level_width (g : N) : N := 2 ^ N.log2 g.
Definition rank (g : N) : N := g - level_width g.
Lemma log2_lin d off : off < 2 ^ d -> N.log2 (2 ^ d + off) = d.
Proof. intros H. apply N.log2_unique; [lia|]. rewrite N.pow_succ_r by lia. lia. Qed.
Lemma gindex_from t p g : generalized_index t p 1 = Some g ->
  forall r, generalized_index t p r = Some (r * level_width g + rank g).
Proof.
  intros H r. destruct (gindex_linear p t) as [Hn|(d & off & Ho & Hs)]; [rewrite Hn in H; discriminate|].
  rewrite Hs, N.mul_1_l in H. injection H as <-. rewrite Hs. unfold rank, level_width. rewrite log2_lin by exact Ho. f_equal. lia.
Qed.
Lemma gindex_pos t p g : generalized_index t p 1 = Some g -> 1 <= g.
Proof.
  intros H. destruct (gindex_linear p t) as [Hn|(d & off & Ho & Hs)]; [rewrite Hn in H; discriminate|].
  rewrite Hs, N.mul_1_l in H. injection H as <-. pose proof (N.pow_nonzero 2 d ltac:(lia)). lia.
Qed.

(** What the emitted function for a path returns: nothing else than [indexed_body] of the path's position. *)
Lemma gen_each_in {E} T paths l : @gen_each E T paths = Ok l ->
  Forall2 (fun np nv => fst nv = fst np /\ generalized_index T (snd np) 1 = Some (snd nv)) paths l.
Proof.
  revert l. induction paths as [|[n p] paths IH]; intros l H; cbn [gen_each] in H; [injection H as <-; constructor|].
  unfold gen_gindices in H at 1. cbn [fst snd] in H.
  destruct (generalized_index T p 1) as [g|] eqn:Eg; [|discriminate]. cbn [expect bind] in H.
  destruct (@gen_each E T paths) as [r| |] eqn:Er; try discriminate. cbn [bind] in H. injection H as <-.
  constructor; [split; [reflexivity|exact Eg]|]. now apply IH.
Qed.

(** ** When the generator is right *)
(** The emitted function for path [p] inside an element of a list is right if at every index it is the
    position the SSZ specification gives to that path in that element. *)
Definition right (T : ssz_type) (limit : N) (p : list path_elem) (f : N -> N) : Prop :=
  forall i, i < limit -> generalized_index (TList T limit) (Index i :: p) 1 = Some (f i).

Lemma body_le b c v : c <> 0 -> b * c * (v / c) + v mod c <= (b + 1) * v.
Proof. intros Hc. pose proof (N.div_mod v c Hc). pose proof (N.mod_le v c Hc). nia. Qed.

Lemma element_index T limit p g i : generalized_index T p 1 = Some g -> i < limit ->
  generalized_index (TList T limit) (Index i :: p) 1 = Some ((2 * power_of_two_ceil limit + i) * level_width g + rank g).
Proof.
  intros Hg Hi. cbn [generalized_index item chunk_count]. rewrite (proj2 (N.ltb_lt _ _) Hi).
  rewrite (gindex_from _ _ _ Hg). f_equal; lia.
Qed.
Lemma width_le g : 1 <= g -> level_width g <= g < 2 * level_width g.
Proof. intros H. unfold level_width. destruct (N.log2_spec g ltac:(lia)). rewrite N.pow_succ_r in * by lia. lia. Qed.

(** The generator is right about a path exactly if the element's chunk count is a power of two, the path
    leads to a position no higher than the element's chunks, and that position is among the first
    [chunk count] of its level. For every element type, list limit, name and path: *)
Theorem C66_exact : forall (E : Type) T limit name p g l,
  2 <= limit -> chunk_count T <> 0 ->
  generalized_index T p 1 = Some g -> (2 * power_of_two_ceil limit + limit) * g < 2 ^ 64 ->
  @element_gindices E T limit [(name, p)] = Ok l ->
  exists f, l = [(name ++ "_gindex", f)] /\
    (right T limit p f <->
     exists k j, chunk_count T = 2 ^ k /\ level_width g = 2 ^ j /\ k <= j /\ rank g < chunk_count T).
Proof.
  intros E T limit name p g l Hl Hc Hg Hb He. unfold element_gindices in He.
  assert (E0 : generalized_index (TList T limit) [Index 0] 1 = Some (2 * power_of_two_ceil limit)).
  { cbn [generalized_index item chunk_count]. rewrite (proj2 (N.ltb_lt 0 limit)) by lia. f_equal; lia. }
  rewrite E0 in He. cbn [expect bind gen_each] in He. unfold gen_gindices in He. cbn [fst snd] in He. rewrite Hg in He.
  cbn [expect bind map fst snd] in He. injection He as <-. eexists. split; [reflexivity|].
  pose proof (gindex_pos _ _ _ Hg) as G1. pose proof (width_le g G1) as [W1 W2].
  assert (Hbody : forall i, i < limit -> indexed_body (2 * power_of_two_ceil limit) (chunk_count T) g i =
    (2 * power_of_two_ceil limit + i) * chunk_count T * (g / chunk_count T) + g mod chunk_count T).
  { intros i Hi. unfold indexed_body. apply wrap64_small. change two64 with (2 ^ 64).
    pose proof (body_le (2 * power_of_two_ceil limit + i) (chunk_count T) g Hc). nia. }
  set (c := chunk_count T) in *. set (b := 2 * power_of_two_ceil limit) in *.
  assert (Hiff : right T limit p (indexed_body b c g) <-> c * (g / c) = level_width g).
  { unfold right. split.
    - intros R. pose proof (R 0 ltac:(lia)) as R0. pose proof (R 1 ltac:(lia)) as R1.
      rewrite (element_index _ _ _ _ 0 Hg) in R0 by lia. rewrite (element_index _ _ _ _ 1 Hg) in R1 by lia.
      rewrite Hbody in R0 by lia. rewrite Hbody in R1 by lia.
      fold b in R0, R1. injection R0 as R0. injection R1 as R1. nia.
    - intros Ew i Hi. rewrite (element_index _ _ _ _ _ Hg) by exact Hi. rewrite Hbody by exact Hi. fold b. f_equal.
      pose proof (N.div_mod g c Hc). unfold rank. nia. }
  etransitivity; [exact Hiff|]. clear Hiff. pose proof (N.div_mod g c Hc) as Dg. pose proof (N.mod_lt g c Hc) as Mg. split.
  - intros Ew. exists (N.log2 c), (N.log2 g).
    assert (Hd : (c | 2 ^ N.log2 g)) by (exists (g / c); fold (level_width g); lia).
    assert (Hp : c = 2 ^ N.log2 c).
    { clear - Hd Hc. clearbody c. revert Hd. generalize (N.log2 g). intros n. revert c Hc. induction n as [|n IH] using N.peano_ind; intros c Hc [q Hq].
      - symmetry in Hq. apply N.eq_mul_1 in Hq. destruct Hq as [_ ->]. reflexivity.
      - rewrite N.pow_succ_r in Hq by lia. destruct (N.even c) eqn:Ec.
        + apply N.even_spec in Ec. destruct Ec as [m ->]. assert (Hm : m <> 0) by lia.
          rewrite N.log2_double by lia. rewrite N.pow_succ_r by lia. rewrite <- IH; [reflexivity|lia|].
          exists q. nia.
        + destruct (N.even q) eqn:Eq.
          * apply N.even_spec in Eq. destruct Eq as [m ->]. apply IH; [exact Hc|]. exists m. nia.
          * exfalso. assert (X : N.even (q * c) = true) by (rewrite <- Hq; rewrite N.even_mul; reflexivity).
            rewrite N.even_mul, Ec, Eq in X. discriminate. }
    split; [exact Hp|]. split; [reflexivity|]. unfold rank. split; [|lia].
    apply N.log2_le_mono. assert (g / c <> 0) by (intros Z; rewrite Z in Ew; lia). nia.
  - intros (k & j & Hk & Hj & Hkj & Hr). unfold rank in Hr.
    assert (Hm : exists m, level_width g = m * c).
    { exists (2 ^ (j - k)). rewrite Hj, Hk, <- N.pow_add_r. f_equal. lia. }
    destruct Hm as [m Hm]. assert (g / c = m); [|nia].
    symmetry. apply (N.div_unique g c m (g - level_width g)); nia.
Qed.

(** Every path into a validator, not only the seven that are generated: the emitted function is right at
    every index of the registry. *)
Lemma validator_path_rank p g : generalized_index T_validator p 1 = Some g -> p <> [] ->
  exists j, level_width g = 2 ^ j /\ 3 <= j <= 4 /\ rank g < 8.
Proof.
  intros H Hp. destruct p as [|x p]; [easy|]. clear Hp.
  assert (Hx : exists pos t', item T_validator x = Some (pos, t') /\ generalized_index t' p (8 + pos) = Some g).
  { destruct x; try discriminate; cbn [generalized_index] in H.
    - destruct (item T_validator (Field name)) as [[pos t']|]; [|discriminate]. exists pos, t'. split; [reflexivity|].
      rewrite <- H. reflexivity. }
  clear H. destruct Hx as (pos & t' & Hi & H). destruct x; try discriminate. unfold T_validator in Hi.
  cbn [item find_field] in Hi.
  repeat match type of Hi with context [if ?b then _ else _] => destruct b eqn:?; [injection Hi as <- <-|] end;
    try discriminate; clear - H;
    (destruct p as [|x p]; [injection H as <-; exists 3; repeat split; try reflexivity; easy|]);
    (destruct x; try discriminate); cbn [generalized_index item] in H;
    (match type of H with context [if ?b then _ else _] => destruct b eqn:Hb; [|discriminate] end);
    apply N.ltb_lt in Hb; cbn [chunk_count] in H;
    (assert (Hp : p = []) by (destruct p as [|[]]; [reflexivity|discriminate..])); subst p; cbn [generalized_index] in H; injection H as <-.
  - assert (i / 32 < 2) as Hd by (apply N.div_lt_upper_bound; lia). change (power_of_two_ceil ((48 + 31) / 32)) with 2.
    exists 4. assert (i / 32 = 0 \/ i / 32 = 1) as [-> | ->] by lia; repeat split; try reflexivity; easy.
  - assert (i / 32 = 0) as -> by (apply N.div_small; lia). exists 3. repeat split; try reflexivity; easy.
Qed.
Theorem C66_every_validator_path : forall (E : Type) name p g, p <> [] -> generalized_index T_validator p 1 = Some g ->
  exists f, @element_gindices E T_validator (2 ^ 40) [(name, p)] = Ok [(name ++ "_gindex", f)] /\
    right T_validator (2 ^ 40) p f.
Proof.
  intros E name p g Hp Hg. destruct (validator_path_rank p g Hg Hp) as (j & Hw & Hj & Hr).
  assert (G1 := gindex_pos _ _ _ Hg). destruct (width_le g G1) as [W1 W2].
  assert (Hg32 : g < 32).
  { rewrite Hw in W2. assert (2 ^ j <= 2 ^ 4) by (apply N.pow_le_mono_r; lia). change (2 ^ 4) with 16 in *. lia. }
  destruct (@element_gindices E T_validator (2 ^ 40) [(name, p)]) as [l| |] eqn:El.
  - destruct (C66_exact E T_validator (2 ^ 40) name p g l) as (f & -> & Hf); auto.
    + discriminate.
    + discriminate.
    + change (power_of_two_ceil (2 ^ 40)) with (2 ^ 40). change (2 ^ 40) with 1099511627776.
      change (2 ^ 64) with 18446744073709551616. lia.
    + exists f. split; [reflexivity|]. apply Hf. exists 3, j. repeat split; [exact Hw|lia|exact Hr].
  - exfalso. unfold element_gindices in El. cbn [gen_each] in El. unfold gen_gindices in El. cbn [fst snd] in El. rewrite Hg in El.
    change (generalized_index (TList T_validator (2 ^ 40)) [Index 0] 1) with (Some 2199023255552) in El. discriminate.
  - exfalso. unfold element_gindices in El. cbn [gen_each] in El. unfold gen_gindices in El. cbn [fst snd] in El. rewrite Hg in El.
    change (generalized_index (TList T_validator (2 ^ 40)) [Index 0] 1) with (Some 2199023255552) in El. discriminate.
Qed.

(** A path the type does not have stops the program before it emits anything. *)
Theorem C66_unknown_path : forall (E : Type) T limit paths,
  (exists np, In np paths /\ generalized_index T (snd np) 1 = None) -> @element_gindices E T limit paths = Panic.
Proof.
  intros E T limit paths (np & Hin & Hn). unfold element_gindices.
  destruct (generalized_index (TList T limit) [Index 0] 1) as [b|]; [|reflexivity]. cbn [expect bind].
  enough (@gen_each E T paths = Panic) as -> by reflexivity.
  induction paths as [|x r IH]; [destruct Hin|]. cbn [gen_each]. destruct Hin as [->|Hin].
  - unfold gen_gindices. rewrite Hn. reflexivity.
  - unfold gen_gindices. destruct (generalized_index T (snd x) 1); [|reflexivity]. cbn [expect bind]. rewrite IH by exact Hin. reflexivity.
Qed.

(** The functions emitted for the state and block are constants equal to the specification's positions, for
    every container type and every list of names and paths it has. *)
Theorem C66_constants : forall (E : Type) T paths l, @gen_each E T paths = Ok l ->
  Forall2 (fun np e => fst e = fst np ++ "_gindex" /\ forall i, generalized_index T (snd np) 1 = Some (snd e i))
    paths (gen_guest_gindices_impl l).
Proof.
  intros E T paths l H. apply gen_each_in in H. induction H as [|np nv paths l [Hn Hv] _ IH]; [constructor|].
  cbn [gen_guest_gindices_impl map]. constructor; [|exact IH]. cbn [fst snd]. rewrite Hn. split; [reflexivity|]. intros i. exact Hv.
Qed.

(** *** Non-vacuity *)
Example C66_nonvacuous : exists l, @generate unit T_electra_state = Ok l /\ List.length l = 18%nat /\
  nth_error (map fst l) 16 = Some "exit_epoch_gindex" /\
  option_map (fun e => snd e 1099511627775) (nth_error l 16) = Some 26388279066622.
Proof.
  destruct (C66_regenerates unit T_electra_state (or_introl eq_refl)) as (l & El & Hl). exists l. split; [exact El|].
  unfold same_functions, committed in Hl.
  repeat match goal with H : Forall2 _ _ (_ :: _) |- _ => inversion H; clear H; subst end.
  repeat match goal with H : Forall2 _ _ _ |- _ => inversion H; clear H; subst end.
  repeat match goal with H : _ /\ _ |- _ => destruct H end. cbn [fst snd] in *.
  split; [reflexivity|]. cbn [nth_error map option_map]. split; [congruence|]. f_equal.
  match goal with H : forall i, _ = exit_epoch_gindex i |- _ => rewrite H end. reflexivity.
Qed.
(** The generator is not right in general: a container whose second field takes two chunks. *)
Definition T_swapped : ssz_type := TContainer [("flag", TBool); ("public_key", TBytes 48)].
Example C66_other_types : exists f, @element_gindices unit T_swapped 16 [("public_key_1", [Field "public_key"; Index 47])] = Ok [("public_key_1_gindex", f)] /\
  ~ right T_swapped 16 [Field "public_key"; Index 47] f.
Proof.
  destruct (C66_exact unit T_swapped 16 "public_key_1" [Field "public_key"; Index 47] 7 _ ltac:(discriminate) ltac:(discriminate) eq_refl ltac:(reflexivity) eq_refl)
    as (f & El & Hf).
  injection El as <-. eexists. split; [reflexivity|]. rewrite Hf. intros (k & j & _ & _ & _ & Hr). vm_compute in Hr. discriminate.
Qed.
Example C66_unknown_path_nonvacuous : @element_gindices unit T_validator (2 ^ 40) [("balance", [Field "balance"])] = Panic.
Proof. apply C66_unknown_path. exists ("balance", [Field "balance"]). split; [left; reflexivity|reflexivity]. Qed.

Print Assumptions C66_regenerates.
Print Assumptions C66_exact.
Print Assumptions C66_every_validator_path.
Print Assumptions C66_unknown_path.
Print Assumptions C66_constants.
