(** Proofs about the host's construction of guest inputs. *)
From Coq Require Import List Arith ZArith NArith Bool Lia Sorted String.
From Coq Require Import ZifyBool ZifyNat ZifyN.
From Coq.Init Require Import Byte.
From Verif.Model Require Import Base Types ConsensusState Multiproof Builder Gindices Committee Verify GuestReader HostChain HostStore HostInput.
From Verif.Spec Require Import Merkle MultiproofSpec Ssz Beacon GuestSpec HostInputSpec.
From Verif.Proof Require Import BaseLemmas MerkleP MultiproofP BuilderP MultiproofMoreP VerifyP BeaconP GuestP.
Import ListNotations.
Open Scope string_scope.
Open Scope list_scope.
Open Scope N_scope.

(** ** Positions strictly to the left of one another *)
Definition left_of (p q : path) : Prop := exists c p' q', p = c ++ false :: p' /\ q = c ++ true :: q'.
Lemma left_of_lt p q : left_of p q -> path_lt p q.
Proof.
  intros (c & p' & q' & -> & ->). unfold path_lt. induction c as [|b c IH]; simpl; auto. now destruct b.
Qed.
Lemma left_of_anc p q : left_of p q -> ~ ancestor p q /\ ~ ancestor q p.
Proof.
  intros (c & p' & q' & -> & ->). split; intros [s Hs]; rewrite <- app_assoc in Hs; simpl in Hs;
    apply app_inv_head in Hs; discriminate.
Qed.
Lemma left_of_prefix c p q : left_of p q -> left_of (c ++ p) (c ++ q).
Proof.
  intros (d & p' & q' & -> & ->). exists (c ++ d), p', q'. now rewrite !app_assoc.
Qed.
Lemma left_of_ext p q s t : left_of p q -> left_of (p ++ s) (q ++ t).
Proof.
  intros (d & p' & q' & -> & ->). exists d, (p' ++ s), (q' ++ t). now rewrite <- !app_assoc.
Qed.
Lemma left_of_bits d : forall i j, i < j -> j < 2 ^ N.of_nat d -> left_of (bits d i) (bits d j).
Proof.
  induction d as [|d IH]; intros i j Hij Hj.
  - change (2 ^ N.of_nat 0) with 1 in Hj. lia.
  - assert (E : 2 ^ N.of_nat (S d) = 2 * 2 ^ N.of_nat d) by (rewrite Nat2N.inj_succ, N.pow_succ_r'; reflexivity).
    rewrite E in Hj. cbn [bits].
    destruct (N.leb_spec (2 ^ N.of_nat d) i), (N.leb_spec (2 ^ N.of_nat d) j); try lia.
    + apply (left_of_prefix [true]). apply IH; lia.
    + exists [], (bits d i), (bits d (j - 2 ^ N.of_nat d)). auto.
    + apply (left_of_prefix [false]). apply IH; lia.
Qed.
Lemma left_sorted_antichain P : StronglySorted left_of P -> antichain P.
Proof.
  intros HS p q Hp Hq Ha. induction HS as [|x P HS IH HF]; [easy|].
  rewrite Forall_forall in HF. destruct Hp as [->|Hp], Hq as [->|Hq]; auto.
  - apply HF in Hq. apply left_of_anc in Hq. tauto.
  - apply HF in Hp. apply left_of_anc in Hp. tauto.
Qed.
Lemma SS_impl {A} (R R' : A -> A -> Prop) l : (forall x y, R x y -> R' x y) -> StronglySorted R l -> StronglySorted R' l.
Proof. intros Hi. induction 1; constructor; auto. eapply Forall_impl; [|eassumption]; simpl; auto. Qed.
Lemma SS_app {A} (R : A -> A -> Prop) l1 l2 : StronglySorted R l1 -> StronglySorted R l2 ->
  (forall x y, In x l1 -> In y l2 -> R x y) -> StronglySorted R (l1 ++ l2).
Proof.
  induction 1 as [|a l1 HS IH HF]; simpl; intros S2 Hc; auto. constructor.
  - apply IH; auto.
  - apply Forall_app. split; auto. apply Forall_forall. auto.
Qed.
Lemma SS_map {A B} (f : A -> B) (R : B -> B -> Prop) l : StronglySorted (fun x y => R (f x) (f y)) l ->
  StronglySorted R (map f l).
Proof. induction 1; simpl; constructor; auto. apply Forall_map. auto. Qed.

Lemma NoDup_map_in {A B} (f : A -> B) l : (forall x y, In x l -> In y l -> f x = f y -> x = y) -> NoDup l -> NoDup (map f l).
Proof.
  intros Hi. induction 1 as [|a l Ha Hn IH]; simpl; constructor.
  - rewrite in_map_iff. intros (x & Ex & Hx). apply Ha. rewrite <- (Hi x a); simpl; auto.
  - apply IH. intros; apply Hi; simpl; auto.
Qed.
Lemma sorted_pairs_unique (l l' : list (path * bytes)) :
  StronglySorted path_lt (map fst l) -> StronglySorted path_lt (map fst l') ->
  (forall x, In x l <-> In x l') -> l = l'.
Proof.
  revert l'. induction l as [|a l IH]; intros l' HS HS' Heq.
  - destruct l' as [|x l']; auto. exfalso. apply (Heq x). now left.
  - destruct l' as [|x l']; [exfalso; apply (Heq a); now left|].
    simpl in HS, HS'. apply StronglySorted_inv in HS as [HS HF], HS' as [HS' HF'].
    rewrite Forall_forall in HF, HF'.
    assert (a = x) as <-.
    { destruct (proj1 (Heq a) (or_introl eq_refl)) as [|Ha]; auto.
      destruct (proj2 (Heq x) (or_introl eq_refl)) as [|Hx]; auto.
      exfalso. apply (path_lt_irrefl (fst a)). eapply path_lt_trans.
      - apply HF. apply in_map. exact Hx.
      - apply HF'. apply in_map. exact Ha. }
    f_equal. apply IH; auto. intros y. split; intros Hy.
    + destruct (proj1 (Heq y) (or_intror Hy)) as [<-|]; auto. exfalso. apply (path_lt_irrefl (fst a)). apply HF. now apply in_map.
    + destruct (proj2 (Heq y) (or_intror Hy)) as [<-|]; auto. exfalso. apply (path_lt_irrefl (fst a)). apply HF'. now apply in_map.
Qed.

(** A proof built for the indices of [gv], given there from left to right, verifies and contains
    exactly [gv]. *)
Lemma build_values {E} (e : E) H T (gv : list (N * bytes)) b :
  hash32 H -> wf_tree T -> gv <> [] ->
  StronglySorted left_of (map (fun x => path_of (fst x)) gv) ->
  Forall (fun x => 1 < fst x < 2 ^ 64 /\ node_at H T (path_of (fst x)) = Some (snd x)) gv ->
  NoDup b -> (forall g, In g b <-> In g (map fst gv)) ->
  exists mp, build (tree_oracle e H T) b = Ok mp /\ mp_verify H mp (mroot H T) = Ok tt /\ mp_values mp = gv.
Proof.
  intros Hh HT Hne HS HF Hnd Hb. rewrite Forall_forall in HF.
  assert (Hpos : forall g, In g b -> 1 < g < 2 ^ 64).
  { intros g Hg. apply Hb, in_map_iff in Hg as (x & <- & Hx). apply HF in Hx. tauto. }
  assert (EQ : map gindex_of (map path_of b) = b).
  { rewrite map_map. rewrite <- (map_id b) at 2. apply map_ext_in. intros g Hg. apply gindex_of_path_of. apply Hpos in Hg. lia. }
  assert (Inb : forall p, In p (map path_of b) <-> In p (map (fun x => path_of (fst x)) gv)).
  { intros p. rewrite !in_map_iff. split.
    - intros (g & <- & Hg). apply Hb, in_map_iff in Hg as (x & <- & Hx). eauto.
    - intros (x & <- & Hx). exists (fst x). split; auto. apply Hb. now apply in_map. }
  assert (AC : antichain (map path_of b)).
  { intros p q Hp Hq. apply (left_sorted_antichain _ HS); now apply Inb. }
  destruct (build_verifies e H T (map path_of b)) as (mp & E1 & E2 & vals & E3 & SV & HV); auto.
  - apply NoDup_map_in; auto. intros x y Hx Hy Exy.
    apply Hpos in Hx, Hy. rewrite <- (gindex_of_path_of x), <- (gindex_of_path_of y), Exy by lia. auto.
  - intros p Hp. assert (Hp' := Hp). apply in_map_iff in Hp' as (g & <- & Hg). split.
    + apply Inb, in_map_iff in Hp as (x & Ex & Hx). apply HF in Hx as [_ Hx]. rewrite Ex in Hx.
      unfold node_at, present in *. intros Hn. rewrite Hn in Hx. discriminate.
    + apply Hpos in Hg. apply path_of_length; unfold two64; lia.
  - destruct b as [|g b]; [|discriminate]. destruct gv as [|x gv]; [easy|]. exfalso. apply (Hb (fst x)). now left.
  - intros Hin. apply in_map_iff in Hin as (g & Eg & Hg). apply Hpos in Hg.
    assert (gindex_of (path_of g) = g) by (apply gindex_of_path_of; lia). rewrite Eg in *. rewrite gindex_of_nil in *. lia.
  - rewrite EQ in E1. exists mp. split; auto. split; auto. rewrite E3.
    assert (vals = map (fun x => (path_of (fst x), snd x)) gv) as ->.
    { apply sorted_pairs_unique; auto.
      - rewrite map_map. simpl. eapply SS_impl; [|exact HS]. apply left_of_lt.
      - intros [p c]. rewrite HV, Inb, !in_map_iff. split.
        + intros ((x & Ex & Hx) & Hn). exists x. split; auto. subst p. apply HF in Hx as [_ Hx]. rewrite Hn in Hx. now injection Hx as <-.
        + intros (x & Ex & Hx). injection Ex as <- <-. split; [eauto|]. apply HF in Hx. tauto. }
    rewrite map_map. simpl. rewrite <- (map_id gv) at 2. apply map_ext_in. intros [g c] Hx. simpl.
    apply HF in Hx as [Hx _]. simpl in Hx. rewrite gindex_of_path_of by lia. auto.
Qed.

(** ** The requested registry fields *)
Lemma path_of_field g d i : 1 <= g -> i < 2 ^ N.of_nat d -> path_of (g * 2 ^ N.of_nat d + i) = path_of g ++ bits d i.
Proof.
  intros Hg Hi. apply gindex_of_inj. rewrite gindex_of_path_of by nia. rewrite gindex_of_app, gindex_of_path_of by lia.
  symmetry. now apply bits_fold.
Qed.
Lemma field_gindex_path c i : c < 24 -> 8 <= c -> i < 2 ^ 40 ->
  path_of (validator_field_gindex c i) =
    false :: bits 40 i ++ (if c <? 16 then bits 3 (c - 8) else bits 4 (c - 16)).
Proof.
  intros Hc Hc8 Hi. rewrite validator_field_gindex_small by (auto; lia).
  assert (V : path_of (2 * 2 ^ 40 + i) = false :: bits 40 i).
  { change (false :: bits 40 i) with (path_of 2 ++ bits 40 i). apply (path_of_field 2 40 i); [lia|exact Hi]. }
  assert (G : 1 <= 2 * 2 ^ 40 + i) by lia.
  set (g := 2 * 2 ^ 40 + i) in *. clearbody g.
  change (false :: bits 40 i ++ ?x) with ((false :: bits 40 i) ++ x). rewrite <- V.
  destruct (N.ltb_spec c 16).
  - replace (g * 8 * (c / 8) + c mod 8) with (g * 2 ^ N.of_nat 3 + (c - 8)).
    + apply path_of_field; auto. change (2 ^ N.of_nat 3) with 8. lia.
    + change (2 ^ N.of_nat 3) with 8. assert (c / 8 = 1) as -> by (symmetry; apply (N.div_unique c 8 1 (c - 8)); lia).
      rewrite (N.mod_eq c 8) by lia. assert (c / 8 = 1) as -> by (symmetry; apply (N.div_unique c 8 1 (c - 8)); lia). lia.
  - replace (g * 8 * (c / 8) + c mod 8) with (g * 2 ^ N.of_nat 4 + (c - 16)).
    + apply path_of_field; auto. change (2 ^ N.of_nat 4) with 16. lia.
    + change (2 ^ N.of_nat 4) with 16. assert (c / 8 = 2) as -> by (symmetry; apply (N.div_unique c 8 2 (c - 16)); lia).
      rewrite (N.mod_eq c 8) by lia. assert (c / 8 = 2) as -> by (symmetry; apply (N.div_unique c 8 2 (c - 16)); lia). lia.
Qed.

Definition field_values (i : N) (v : Validator) : list (N * bytes) :=
  [(public_key_0_gindex i, firstn 32 (v_pubkey v)); (public_key_1_gindex i, chunk 16 (skipn 32 (v_pubkey v)));
   (effective_balance_gindex i, ssz_u64 (v_effective_balance v));
   (slashed_gindex i, chunk 1 [if v_slashed v then x01 else x00]);
   (activation_eligibility_epoch_gindex i, ssz_u64 (v_activation_eligibility_epoch v));
   (activation_epoch_gindex i, ssz_u64 (v_activation_epoch v));
   (exit_epoch_gindex i, ssz_u64 (v_exit_epoch v))].
Definition validator_values (cur : Epoch) (i : N) (v : Validator) : list (N * bytes) :=
  if v_exit_epoch v <=? cur then [(exit_epoch_gindex i, ssz_u64 (v_exit_epoch v))] else field_values i v.
Fixpoint registry_values (cur : Epoch) (i : N) (vs : list Validator) : list (N * bytes) :=
  match vs with [] => [] | v :: r => validator_values cur i v ++ registry_values cur (i + 1) r end.

Lemma validator_values_sub cur i v x : In x (validator_values cur i v) -> In x (field_values i v).
Proof. unfold validator_values. destruct (_ <=? _); auto. unfold field_values. simpl. intuition. Qed.
Lemma field_values_paths i v : i < 2 ^ 40 ->
  map (fun x => path_of (fst x)) (field_values i v) =
  map (fun s => (false :: bits 40 i) ++ s)
    [[false;false;false;false]; [false;false;false;true]; [false;true;false]; [false;true;true];
     [true;false;false]; [true;false;true]; [true;true;false]].
Proof.
  intros Hi. unfold field_values, public_key_0_gindex, public_key_1_gindex, effective_balance_gindex, slashed_gindex,
    activation_eligibility_epoch_gindex, activation_epoch_gindex, exit_epoch_gindex.
  cbn [map fst]. rewrite !field_gindex_path by (auto; lia). reflexivity.
Qed.
Lemma field_values_path_in i v x : i < 2 ^ 40 -> In x (field_values i v) -> exists s, path_of (fst x) = (false :: bits 40 i) ++ s.
Proof.
  intros Hi Hx. apply (in_map (fun x => path_of (fst x))) in Hx. rewrite (field_values_paths i v Hi) in Hx.
  apply in_map_iff in Hx as (s & <- & _). eauto.
Qed.
Lemma field_values_sorted i v : i < 2 ^ 40 -> StronglySorted left_of (map (fun x => path_of (fst x)) (field_values i v)).
Proof.
  intros Hi. rewrite (field_values_paths i v Hi). apply SS_map. set (c := false :: bits 40 i). clearbody c.
  assert (L : forall a p q, left_of (c ++ a ++ false :: p) (c ++ a ++ true :: q)).
  { intros. apply left_of_prefix. exists a, p, q. auto. }
  repeat (constructor; [|repeat (constructor; [first
    [ apply (L []) | apply (L [false]) | apply (L [true]) | apply (L [false; false]) | apply (L [false; true])
    | apply (L [true; false]) | apply (L [true; true]) | apply (L [false; false; false]) ]|]); constructor]).
  constructor.
Qed.
Lemma validator_values_sorted cur i v : i < 2 ^ 40 -> StronglySorted left_of (map (fun x => path_of (fst x)) (validator_values cur i v)).
Proof.
  intros Hi. unfold validator_values. destruct (_ <=? _); [repeat constructor|now apply field_values_sorted].
Qed.
Lemma registry_values_in cur vs : forall i x, In x (registry_values cur i vs) ->
  exists k v, nth_error vs k = Some v /\ In x (validator_values cur (i + N.of_nat k) v).
Proof.
  induction vs as [|v vs IH]; intros i x Hx; [easy|]. cbn [registry_values] in Hx. apply in_app_or in Hx as [Hx|Hx].
  - exists 0%nat, v. replace (i + N.of_nat 0) with i by lia. auto.
  - apply IH in Hx as (k & w & Hk & Hx). exists (S k), w. split; auto.
    replace (i + N.of_nat (S k)) with (i + 1 + N.of_nat k) by lia. auto.
Qed.
Lemma registry_values_sorted cur vs : forall i, i + N.of_nat (length vs) <= 2 ^ 40 ->
  StronglySorted left_of (map (fun x => path_of (fst x)) (registry_values cur i vs)).
Proof.
  induction vs as [|v vs IH]; intros i Hi; [constructor|]. cbn [registry_values List.length] in *. rewrite map_app. apply SS_app.
  - apply validator_values_sorted. lia.
  - apply IH. lia.
  - intros p q Hp Hq. apply in_map_iff in Hp as (x & <- & Hx), Hq as (y & <- & Hy).
    apply validator_values_sub in Hx. apply field_values_path_in in Hx as (s & ->); [|lia].
    apply registry_values_in in Hy as (k & w & Hk & Hy). apply validator_values_sub in Hy.
    assert (k < length vs)%nat by (apply nth_error_Some; congruence).
    apply field_values_path_in in Hy as (t & ->); [|lia].
    apply left_of_ext. apply (left_of_prefix [false]). apply left_of_bits; [lia|].
    change (2 ^ N.of_nat 40) with (2 ^ 40). lia.
Qed.
Lemma field_gindex_bound c i : 8 <= c < 24 -> i < 2 ^ 40 -> 3 < validator_field_gindex c i < 2 ^ 64.
Proof.
  intros Hc Hi. split.
  - rewrite validator_field_gindex_small by (auto; lia).
    assert (1 <= c / 8) by (apply N.div_le_lower_bound; lia).
    change (2 * 2 ^ 40) with 2199023255552. nia.
  - unfold validator_field_gindex, wrap64. apply N.mod_lt. discriminate.
Qed.
Lemma field_values_bound i v x : i < 2 ^ 40 -> In x (field_values i v) -> 3 < fst x < 2 ^ 64.
Proof.
  intros Hi. unfold field_values, public_key_0_gindex, public_key_1_gindex, effective_balance_gindex, slashed_gindex,
    activation_eligibility_epoch_gindex, activation_epoch_gindex, exit_epoch_gindex.
  intros Hx. repeat (destruct Hx as [<-|Hx]; [cbn [fst]; apply field_gindex_bound; auto; lia|]). easy.
Qed.
Lemma field_values_node H vs i v x : nth_error vs (N.to_nat i) = Some v -> i < 2 ^ 40 -> length (v_pubkey v) = 48%nat ->
  In x (field_values i v) -> node_at H (registry_tree H vs) (path_of (fst x)) = Some (snd x).
Proof.
  intros Hv Hi Hp Hx. destruct (node_at_validator H vs i v Hv Hi Hp) as (N1 & N2 & N3 & N4 & N5 & N6 & N7).
  repeat (destruct Hx as [<-|Hx]; [cbn [fst snd]; assumption|]). easy.
Qed.

Definition all_values (cur : Epoch) (vs : list Validator) : list (N * bytes) :=
  registry_values cur 0 vs ++ [(3, ssz_u64 (N.of_nat (length vs)))].
Lemma all_values_sorted cur vs : N.of_nat (length vs) <= 2 ^ 40 ->
  StronglySorted left_of (map (fun x => path_of (fst x)) (all_values cur vs)).
Proof.
  intros Hl. unfold all_values. rewrite map_app. apply SS_app.
  - apply registry_values_sorted. lia.
  - repeat constructor.
  - intros p q Hp Hq. apply in_map_iff in Hp as (x & <- & Hx). destruct Hq as [<-|[]].
    apply registry_values_in in Hx as (k & w & Hk & Hx). apply validator_values_sub in Hx.
    assert (k < length vs)%nat by (apply nth_error_Some; congruence).
    apply field_values_path_in in Hx as (s & ->); [|lia].
    generalize (bits 40 (0 + N.of_nat k)). intros b. exists [], (b ++ s), []. split; reflexivity.
Qed.
Lemma all_values_nodes H cur vs : wf_registry vs ->
  Forall (fun x => 1 < fst x < 2 ^ 64 /\ node_at H (registry_tree H vs) (path_of (fst x)) = Some (snd x)) (all_values cur vs).
Proof.
  intros [Hw Hl]. apply Forall_forall. intros x Hx. unfold all_values in Hx. apply in_app_or in Hx as [Hx|[<-|[]]].
  - apply registry_values_in in Hx as (k & w & Hk & Hx). apply validator_values_sub in Hx.
    assert (k < length vs)%nat by (apply nth_error_Some; congruence).
    replace (0 + N.of_nat k) with (N.of_nat k) in Hx by lia. split.
    + apply field_values_bound in Hx; lia.
    + apply field_values_node with (i := N.of_nat k) (v := w); auto; [rewrite Nat2N.id; auto|lia|].
      rewrite Forall_forall in Hw. apply nth_error_In in Hk. apply Hw in Hk. apply Hk.
  - cbn [fst snd]. split; [lia|]. apply node_at_registry_length.
Qed.

(** ** Requesting the registry's nodes *)
Lemma with_path_ok {E} T b p g : generalized_index T p 1 = Some g -> @with_path E T b p = Ok (bs_insert b g).
Proof. unfold with_path. intros ->. reflexivity. Qed.
Lemma with_paths_cons {E} T b p ps g : generalized_index T p 1 = Some g ->
  @with_paths E T b (p :: ps) = with_paths T (bs_insert b g) ps.
Proof. intros Hg. unfold with_paths. cbn [fold_outcome]. rewrite (with_path_ok T b p g Hg). reflexivity. Qed.
Lemma with_paths_ok {E} T ps gs : Forall2 (fun p g => generalized_index T p 1 = Some g) ps gs ->
  forall b, bs_sorted b -> exists b', @with_paths E T b ps = Ok b' /\ bs_sorted b' /\ (forall g, In g b' <-> In g b \/ In g gs).
Proof.
  induction 1 as [|p g ps gs Hg _ IH]; intros b Hb.
  - exists b. split; [reflexivity|]. split; [auto|]. simpl. tauto.
  - rewrite (with_paths_cons T b p ps g Hg). destruct (IH (bs_insert b g)) as (b' & E' & S' & I'); [now apply bs_insert_sorted|].
    exists b'. split; [auto|]. split; [auto|]. intros h. rewrite I', bs_insert_In. simpl. intuition auto.
Qed.
Lemma validator_paths_ok i v : i < 2 ^ 40 ->
  Forall2 (fun p g => generalized_index T_validators p 1 = Some g) (validator_paths i) (map fst (field_values i v)).
Proof.
  intros Hi. destruct (validator_indices i Hi) as (G1 & G2 & G3 & G4 & G5 & G6 & G7 & _). cbv zeta in *.
  unfold validator_paths, field_values. cbn [map fst]. repeat (constructor; [assumption|]). constructor.
Qed.
Definition live (cur : Epoch) (v : Validator) : bool := cur <? v_exit_epoch v.
Definition key_of (X : Externals) (v : Validator) (pk : PublicKey) : Prop := pk_serialize X pk = v_pubkey v.

Section Registry.
  Variable X : Externals.
  Variable pk_deserialize : bytes -> option PublicKey.
  (** What is known about the keys; keys taken from the active set may come from another state. *)
  Variable K : Validator -> PublicKey -> Prop.
  Hypothesis HK : forall v pk, K v pk -> key_of X v pk.
  Hypothesis Hround : forall v pk, pk_deserialize (v_pubkey v) = Some pk -> K v pk.

  Lemma next_key_ok i v active : (exists pk, pk_deserialize (v_pubkey v) = Some pk) ->
    (forall vi, In (i, vi) active -> K v (pubkey vi)) ->
    exists pk active', next_key pk_deserialize i v active = Ok (pk, active') /\ K v pk /\ incl active' active.
  Proof.
    intros (pk & Hpk) Ha. unfold next_key. destruct active as [|[j vi] rest].
    - rewrite Hpk. exists pk, []. split; [reflexivity|]. split; [now apply Hround|apply incl_refl].
    - destruct (N.eqb_spec j i) as [-> |Hn].
      + exists (pubkey vi), rest. split; [reflexivity|]. split; [apply Ha; now left|]. apply incl_tl, incl_refl.
      + rewrite Hpk. exists pk, ((j, vi) :: rest). split; [reflexivity|]. split; [now apply Hround|apply incl_refl].
  Qed.

  Lemma request_validators_ok cur r : forall i active b keys,
    i + N.of_nat (length r) <= 2 ^ 40 ->
    (forall v, In v r -> live cur v = true -> exists pk, pk_deserialize (v_pubkey v) = Some pk) ->
    (forall k v vi, nth_error r k = Some v -> In (i + N.of_nat k, vi) active -> K v (pubkey vi)) ->
    bs_sorted b ->
    exists b' keys', request_validators pk_deserialize cur i r active b keys = Ok (b', keys ++ keys') /\ bs_sorted b' /\
      (forall g, In g b' <-> In g b \/ In g (map fst (registry_values cur i r))) /\
      Forall2 K (filter (live cur) r) keys'.
  Proof.
    induction r as [|v r IH]; intros i active b keys Hi Hd Ha Hb.
    - exists b, []. rewrite app_nil_r. split; [reflexivity|]. split; [auto|]. split; [simpl; tauto|constructor].
    - cbn [request_validators registry_values filter List.length] in *. change (live cur v) with (cur <? v_exit_epoch v). unfold validator_values.
      assert (Hi' : i < 2 ^ 40) by lia.
      assert (Ha' : forall act', incl act' active -> forall k w vi, nth_error r k = Some w ->
                In (i + 1 + N.of_nat k, vi) act' -> K w (pubkey vi)).
      { intros act' Hin k w vi Hk Hx. apply (Ha (S k) w vi Hk). apply Hin.
        replace (i + N.of_nat (S k)) with (i + 1 + N.of_nat k) by lia. exact Hx. }
      assert (Hd' : forall w, In w r -> live cur w = true -> exists pk, pk_deserialize (v_pubkey w) = Some pk).
      { intros w Hw. apply Hd. now right. }
      destruct (N.leb_spec (v_exit_epoch v) cur) as [Hle|Hgt].
      + destruct (validator_indices i Hi') as (_ & _ & _ & _ & _ & _ & G7 & _). cbv zeta in G7.
        rewrite (with_path_ok _ b _ _ G7). cbn [bind].
        destruct (IH (i + 1) active (bs_insert b (exit_epoch_gindex i)) keys) as (b' & keys' & E & S' & I' & F');
          [lia|exact Hd'|apply Ha', incl_refl|now apply bs_insert_sorted|].
        rewrite E. exists b', keys'. split; [reflexivity|]. split; [exact S'|]. split.
        * intros g. rewrite I', bs_insert_In, map_app, in_app_iff. cbn [map fst In]. intuition auto.
        * replace (cur <? v_exit_epoch v) with false by (symmetry; apply N.ltb_ge; lia). exact F'.
      + destruct (@with_paths_ok HIError T_validators _ _ (validator_paths_ok i v Hi') b Hb) as (b1 & E1 & S1 & I1). rewrite E1. cbn [bind].
        destruct (next_key_ok i v active) as (pk & act' & En & Kn & In').
        { apply Hd; [now left|]. apply N.ltb_lt. exact Hgt. }
        { intros vi Hx. apply (Ha 0%nat v vi eq_refl). replace (i + N.of_nat 0) with i by lia. exact Hx. }
        rewrite En. cbn [bind].
        destruct (IH (i + 1) act' b1 (keys ++ [pk])) as (b' & keys' & E & S' & I' & F');
          [lia|exact Hd'|apply Ha', In'|exact S1|].
        rewrite E. exists b', (pk :: keys'). rewrite <- app_assoc. split; [reflexivity|]. split; [exact S'|]. split.
        * intros g. rewrite I', I1, map_app, in_app_iff. tauto.
        * replace (cur <? v_exit_epoch v) with true by (symmetry; apply N.ltb_lt; lia). constructor; auto.
  Qed.

  Lemma extract_one_values i v pk pks rest : pk48 X -> wf_validator v -> key_of X v pk ->
    extract_one X (field_values i v ++ rest) (pk :: pks) i = Ok (record_of v pk, rest, pks).
  Proof.
    intros Hk (W1 & W2 & W3 & W4 & W5 & W6 & W7) Kp. unfold extract_one, field_values. cbn [app].
    assert (NC : forall g c l, next_checked ((g, c) :: l) g = Ok (c, l)) by (intros; now apply next_checked_ok).
    rewrite NC. cbn [bind]. rewrite NC. cbn [bind].
    rewrite (proj2 (has_compressed_iff X pk (v_pubkey v) W1 (Hk pk)) Kp). cbn [bind assert_].
    rewrite NC. cbn [bind]. rewrite NC. cbn [bind].
    rewrite bool_from_ssz. cbn [bind]. rewrite NC. cbn [bind]. rewrite NC. cbn [bind]. rewrite NC. cbn [bind].
    rewrite !u64_from_ssz by assumption. reflexivity.
  Qed.
  Lemma exit_gindex_neq i : i < 2 ^ 40 -> public_key_0_gindex i <> exit_epoch_gindex i.
  Proof.
    intros Hi E. apply (f_equal path_of) in E. unfold public_key_0_gindex, exit_epoch_gindex in E.
    rewrite !field_gindex_path in E by (auto; lia). revert E. generalize (bits 40 i). intros l E.
    injection E as E. apply app_inv_head in E. discriminate.
  Qed.
  Lemma gindex_not_3 i v x l : i < 2 ^ 40 -> field_values i v = x :: l \/ x = (exit_epoch_gindex i, ssz_u64 (v_exit_epoch v)) ->
    (fst x =? 3) = false.
  Proof.
    intros Hi Hx. assert (In x (field_values i v)).
    { destruct Hx as [Hx|Hx]; [rewrite Hx; now left|rewrite Hx; unfold field_values; simpl; tauto]. }
    apply field_values_bound in H; auto. apply N.eqb_neq. lia.
  Qed.
  Lemma extract_values cur r : pk48 X -> forall i keys cache fuel,
    Forall wf_validator r -> i + N.of_nat (length r) <= 2 ^ 40 ->
    Forall2 K (filter (live cur) r) keys ->
    bm_sorted cache -> (forall j, i <= j -> bm_get cache j = None) ->
    (length (registry_values cur i r) + 1 < fuel)%nat ->
    exists out, extract_loop X fuel cur (registry_values cur i r ++ [(3, ssz_u64 (i + N.of_nat (length r)))]) keys i cache = Ok out /\
      bm_sorted out /\ (forall j, j < i -> bm_get out j = bm_get cache j) /\
      (forall j, i <= j -> match nth_error r (N.to_nat (j - i)), bm_get out j with
         | Some v, Some vi => cur < v_exit_epoch v /\ exists pk, K v pk /\ vi = record_of v pk
         | Some v, None => v_exit_epoch v <= cur
         | None, Some _ => False
         | None, None => True
         end).
  Proof.
    intros Hk. induction r as [|v r IH]; intros i keys cache fuel Hw Hi Fk Hs Hc Hf.
    - destruct fuel as [|fuel]; [cbn in Hf; lia|]. cbn [registry_values app extract_loop List.length].
      cbn [N.of_nat]. change (3 =? 3) with true. cbn iota.
      rewrite u64_from_ssz.
      2:{ change (2 ^ 40) with 1099511627776 in Hi. change (2 ^ 64) with 18446744073709551616. cbn [List.length] in Hi. lia. }
      rewrite N.add_0_r, N.eqb_refl. exists cache. split; [reflexivity|]. split; [exact Hs|]. split; [auto|].
      intros j Hj. rewrite (Hc j Hj). destruct (N.to_nat (j - i)); exact I.
    - inversion Hw as [|? ? Wv Wr]; subst. cbn [List.length] in Hi.
      assert (Hi' : i < 2 ^ 40) by lia.
      replace (i + N.of_nat (length (v :: r))) with (i + 1 + N.of_nat (length r)) by (cbn [List.length]; lia).
      assert (Fin : forall out vi_opt,
        (forall j, j < i + 1 -> bm_get out j = (if j =? i then vi_opt else bm_get cache j)) ->
        (forall j, i + 1 <= j -> match nth_error r (N.to_nat (j - (i + 1))), bm_get out j with
         | Some v, Some vi => cur < v_exit_epoch v /\ exists pk, K v pk /\ vi = record_of v pk
         | Some v, None => v_exit_epoch v <= cur
         | None, Some _ => False
         | None, None => True
         end) ->
        match vi_opt with Some vi => cur < v_exit_epoch v /\ exists pk, K v pk /\ vi = record_of v pk | None => v_exit_epoch v <= cur end ->
        (forall j, j < i -> bm_get out j = bm_get cache j) /\
        (forall j, i <= j -> match nth_error (v :: r) (N.to_nat (j - i)), bm_get out j with
         | Some v, Some vi => cur < v_exit_epoch v /\ exists pk, K v pk /\ vi = record_of v pk
         | Some v, None => v_exit_epoch v <= cur
         | None, Some _ => False
         | None, None => True
         end)).
      { intros out vi_opt P1 P2 P3. split.
        - intros j Hj. rewrite P1 by lia. destruct (N.eqb_spec j i); [lia|reflexivity].
        - intros j Hj. destruct (N.eq_dec j i) as [-> |Hn].
          + replace (N.to_nat (i - i)) with 0%nat by lia. cbn [nth_error]. rewrite P1, N.eqb_refl by lia.
            destruct vi_opt; exact P3.
          + replace (N.to_nat (j - i)) with (S (N.to_nat (j - (i + 1)))) by lia. cbn [nth_error]. apply P2. lia. }
      cbn [registry_values filter] in *. change (live cur v) with (cur <? v_exit_epoch v) in Fk. unfold validator_values in *.
      destruct (N.leb_spec (v_exit_epoch v) cur) as [Hle|Hgt].
      + replace (cur <? v_exit_epoch v) with false in Fk by (symmetry; apply N.ltb_ge; lia).
        destruct fuel as [|fuel]; [cbn in Hf; lia|]. cbn [app List.length] in Hf.
        cbn [app extract_loop]. pose proof (gindex_not_3 i v _ [] Hi' (or_intror eq_refl)) as G3. cbn [fst] in G3.
        rewrite G3, N.eqb_refl. destruct Wv as (W1 & W2 & W3 & W4 & W5 & W6 & W7). rewrite u64_from_ssz by assumption.
        rewrite (proj2 (N.leb_le _ _) Hle). cbn [assert_ bind].
        destruct (IH (i + 1) keys cache fuel) as (out & E & So & P1 & P2); auto; [lia| |lia|].
        { intros j Hj. apply Hc. lia. }
        rewrite E. exists out. split; [reflexivity|]. split; [exact So|].
        apply (Fin out None); auto. intros j Hj. rewrite P1 by lia. destruct (N.eqb_spec j i); [subst; apply Hc; lia|reflexivity].
      + replace (cur <? v_exit_epoch v) with true in Fk by (symmetry; apply N.ltb_lt; lia).
        inversion Fk as [|? pk ? keys' Kp Fk' E1 E2]; subst keys.
        destruct fuel as [|fuel]; [cbn in Hf; lia|]. rewrite app_length in Hf.
        pose proof (extract_one_values i v pk keys' (registry_values cur (i + 1) r ++ [(3, ssz_u64 (i + 1 + N.of_nat (length r)))]) Hk Wv (HK _ _ Kp)) as Eo.
        rewrite <- app_assoc. set (rest := registry_values cur (i + 1) r ++ _) in *.
        cbn [extract_loop].
        destruct (field_values i v ++ rest) as [|[g c] tl] eqn:Ev; [discriminate|].
        assert (g = public_key_0_gindex i /\ exists x, field_values i v = (g, c) :: x) as (-> & fx & Ex).
        { unfold field_values in Ev. cbn [app] in Ev. injection Ev as <- <- _. split; [reflexivity|]. eexists. reflexivity. }
        pose proof (gindex_not_3 i v _ _ Hi' (or_introl Ex)) as G3. cbn [fst] in G3. rewrite G3.
        rewrite (proj2 (N.eqb_neq _ _) (exit_gindex_neq i Hi')). rewrite Eo. cbn [bind].
        destruct (IH (i + 1) keys' (bm_insert cache i (record_of v pk)) fuel) as (out & E & So & P1 & P2); auto; [lia|now apply bm_insert_sorted| |cbn [List.length field_values] in Hf; lia|].
        { intros j Hj. rewrite bm_get_insert by auto. destruct (N.eqb_spec j i); [lia|]. apply Hc. lia. }
        subst rest. rewrite E. exists out. split; [reflexivity|]. split; [exact So|].
        apply (Fin out (Some (record_of v pk))); auto.
        { intros j Hj. rewrite P1 by lia. rewrite bm_get_insert by auto. reflexivity. }
        split; [exact Hgt|]. eauto.
  Qed.

  (** The registry proof the host builds is accepted, and the guest reads the registry back from it. *)
  Lemma validators_multiproof_ok cur vs active : hash32 (sha256 X) -> pk48 X -> wf_registry vs ->
    (forall v, In v vs -> cur < v_exit_epoch v -> exists pk, pk_deserialize (v_pubkey v) = Some pk) ->
    (forall i v vi, nth_error vs (N.to_nat i) = Some v -> In (i, vi) active -> K v (pubkey vi)) ->
    exists mp keys out, validators_multiproof X pk_deserialize cur vs active = Ok (mp, keys) /\
      mp_verify (sha256 X) mp (mroot (sha256 X) (registry_tree (sha256 X) vs)) = Ok tt /\
      extract_validators_multiproof X mp keys cur = Ok out /\ bm_sorted out /\
      Forall2 K (filter (live cur) vs) keys /\
      forall i, match nth_error vs (N.to_nat i), bm_get out i with
         | Some v, Some vi => cur < v_exit_epoch v /\ exists pk, K v pk /\ vi = record_of v pk
         | Some v, None => v_exit_epoch v <= cur
         | None, Some _ => False
         | None, None => True
         end.
  Proof.
    intros Hh Hk Hw Hd Ha. pose proof Hw as [Hwv Hl]. unfold validators_multiproof.
    assert (G3 : generalized_index T_validators [Length] 1 = Some 3) by reflexivity.
    rewrite (with_path_ok _ builder_new _ _ G3). cbn [bind].
    destruct (request_validators_ok cur vs 0 active (bs_insert builder_new 3) []) as (b & keys & Er & Sb & Ib & Fk).
    { lia. }
    { intros v Hv Hlv. apply Hd; auto. apply N.ltb_lt. exact Hlv. }
    { intros k v vi Hv Hin. apply (Ha (N.of_nat k) v vi); [now rewrite Nat2N.id|]. replace (N.of_nat k) with (0 + N.of_nat k) by lia. exact Hin. }
    { apply bs_insert_sorted. constructor. }
    rewrite Er. cbn [bind app]. unfold build_proof.
    destruct (@build_values HIError HI_Build (sha256 X) (registry_tree (sha256 X) vs) (all_values cur vs) b) as (mp & Eb & Ev & Em).
    { exact Hh. }
    { now apply registry_tree_wf. }
    { unfold all_values. intros E. apply app_eq_nil in E as [_ E]. discriminate. }
    { now apply all_values_sorted. }
    { now apply all_values_nodes. }
    { now apply bs_sorted_NoDup. }
    { intros g. rewrite Ib. unfold all_values. rewrite map_app, in_app_iff, bs_insert_In. cbn. intuition auto. }
    rewrite Eb. cbn [bind].
    destruct (extract_values cur vs Hk 0 keys [] (S (length (all_values cur vs)))) as (out & Ex & So & _ & Po); auto.
    { constructor. }
    { unfold all_values. rewrite app_length. cbn. lia. }
    exists mp, keys, out. split; [reflexivity|]. split; [exact Ev|]. split.
    { unfold extract_validators_multiproof. rewrite Em. exact Ex. }
    split; [exact So|]. split; [exact Fk|]. intros i. specialize (Po i). rewrite N.sub_0_r in Po. apply Po. lia.
  Qed.
End Registry.

(** ** Block, state and slot proofs *)
Definition state_values (H : bytes -> bytes) (s : State) : list (N * bytes) :=
  [(genesis_validators_root_gindex, st_genesis_validators_root s); (slot_gindex, ssz_u64 (st_slot s));
   (fork_previous_version_gindex, chunk 4 (previous_version (st_fork s)));
   (fork_current_version_gindex, chunk 4 (current_version (st_fork s)));
   (fork_epoch_gindex, ssz_u64 (fork_epoch (st_fork s)));
   (validators_gindex, mroot H (registry_tree H (st_validators s)));
   (finalized_checkpoint_epoch_gindex, ssz_u64 (epoch (st_finalized s)));
   (earliest_exit_epoch_gindex, ssz_u64 (st_earliest_exit_epoch s));
   (earliest_consolidation_epoch_gindex, ssz_u64 (st_earliest_consolidation_epoch s))].
Definition state_gindices : list N :=
  [genesis_validators_root_gindex; slot_gindex; fork_previous_version_gindex; fork_current_version_gindex;
   fork_epoch_gindex; validators_gindex; finalized_checkpoint_epoch_gindex; earliest_exit_epoch_gindex;
   earliest_consolidation_epoch_gindex].
Lemma state_paths_ok (fulu : bool) :
  Forall2 (fun p g => generalized_index (if fulu then T_fulu_state else T_electra_state) p 1 = Some g) state_paths state_gindices.
Proof. destruct fulu; unfold state_paths, state_gindices; repeat (constructor; [reflexivity|]); constructor. Qed.
Fixpoint left_ofb (p q : path) : bool :=
  match p, q with
  | false :: _, true :: _ => true
  | a :: p', b :: q' => Bool.eqb a b && left_ofb p' q'
  | _, _ => false
  end.
Lemma left_ofb_ok p : forall q, left_ofb p q = true -> left_of p q.
Proof.
  assert (C : forall a p q, left_of p q -> left_of (a :: p) (a :: q)).
  { intros a p' q' (c & x & y & -> & ->). exists (a :: c), x, y. auto. }
  induction p as [|a p IH]; intros q E; [discriminate|]. destruct q as [|b q]; [destruct a; discriminate|].
  destruct a, b; cbn in E; try discriminate.
  - now apply C, IH.
  - exists [], p, q. auto.
  - now apply C, IH.
Qed.
Lemma state_values_sorted H s : StronglySorted left_of (map (fun x => path_of (fst x)) (state_values H s)).
Proof.
  rewrite <- (map_map fst path_of). change (map fst (state_values H s)) with state_gindices.
  repeat (constructor; [|repeat (constructor; [now apply left_ofb_ok|]); constructor]). constructor.
Qed.
Lemma state_values_nodes H s :
  Forall (fun x => 1 < fst x < 2 ^ 64 /\ node_at H (state_tree H s) (path_of (fst x)) = Some (snd x)) (state_values H s).
Proof.
  destruct (node_at_state H s) as (N1 & N2 & N3 & N4 & N5 & N6 & N7 & N8 & N9). cbv beta in *.
  unfold state_values. repeat (constructor; [split; [split; reflexivity|assumption]|]). constructor.
Qed.
Lemma state_multiproof_ok X s : hash32 (sha256 X) -> wf_state s ->
  exists mp, build_state_multiproof X s = Ok mp /\ mp_verify (sha256 X) mp (mroot (sha256 X) (state_tree (sha256 X) s)) = Ok tt /\
    mp_values mp = state_values (sha256 X) s.
Proof.
  intros Hh Hw. unfold build_state_multiproof.
  destruct (@with_paths_ok HIError _ _ _ (state_paths_ok (st_fulu s)) builder_new) as (b & Eb & Sb & Ib); [constructor|].
  rewrite Eb. cbn [bind]. unfold build_proof.
  apply (@build_values HIError HI_Build (sha256 X) (state_tree (sha256 X) s) (state_values (sha256 X) s) b).
  - exact Hh.
  - now apply state_tree_wf.
  - discriminate.
  - apply state_values_sorted.
  - apply state_values_nodes.
  - now apply bs_sorted_NoDup.
  - intros g. rewrite Ib. change (map fst (state_values (sha256 X) s)) with state_gindices. unfold builder_new. cbn [In]. tauto.
Qed.
Definition state_info (H : bytes -> bytes) (s : State) : StateInfo :=
  mkStateInfo (st_genesis_validators_root s) (st_slot s) (st_fork s)
    (mroot H (registry_tree H (st_validators s))) (epoch (st_finalized s))
    (st_earliest_exit_epoch s) (st_earliest_consolidation_epoch s).
Lemma extract_state_values H s mp : wf_state s -> mp_values mp = state_values H s ->
  extract_beacon_state_multiproof mp = Ok (state_info H s).
Proof.
  intros (W1 & W2 & (W3 & W4 & W5) & _ & W6 & _ & W7 & W8 & _) E. unfold extract_beacon_state_multiproof. rewrite E.
  assert (NC : forall g c l, next_assert_gindex ((g, c) :: l) g = Ok (c, l)) by (intros; now apply next_assert_ok).
  unfold state_values, state_info. generalize (mroot H (registry_tree H (st_validators s))). intros vr.
  do 9 (rewrite NC; cbn [bind]). cbn [assert_ bind].
  rewrite !u64_from_ssz by assumption. rewrite !chunk_firstn by assumption. destruct (st_fork s); reflexivity.
Qed.
Lemma header_field_multiproof X h p g c : hash32 (sha256 X) -> wf_header h ->
  generalized_index T_header [p] 1 = Some g -> 1 < g < 2 ^ 64 ->
  node_at (sha256 X) (header_tree (sha256 X) h) (path_of g) = Some c ->
  exists mp, (b <- with_path T_header builder_new [p] ;; build_proof X (header_tree (sha256 X) h) b) = Ok mp /\
    mp_verify (sha256 X) mp (mroot (sha256 X) (header_tree (sha256 X) h)) = Ok tt /\ mp_values mp = [(g, c)].
Proof.
  intros Hh Hw Hg Hb Hn. rewrite (with_path_ok _ _ _ _ Hg). cbn [bind]. unfold build_proof.
  apply (@build_values HIError HI_Build (sha256 X) (header_tree (sha256 X) h) [(g, c)]).
  - exact Hh.
  - now apply header_tree_wf.
  - discriminate.
  - repeat constructor.
  - constructor; [cbn; auto|constructor].
  - cbn. constructor; [easy|constructor].
  - intros x. cbn. tauto.
Qed.
Lemma block_multiproof_ok X h : hash32 (sha256 X) -> wf_header h ->
  exists mp, block_multiproof X h = Ok mp /\
    mp_verify (sha256 X) mp (mroot (sha256 X) (header_tree (sha256 X) h)) = Ok tt /\
    extract_beacon_block_multiproof mp = Ok (hd_state_root h).
Proof.
  intros Hh Hw.
  destruct (header_field_multiproof X h (Field "state_root") state_root_gindex (hd_state_root h) Hh Hw) as (mp & E & V & M).
  { reflexivity. } { split; reflexivity. } { apply node_at_header_state. }
  exists mp. split; [exact E|]. split; [exact V|]. unfold extract_beacon_block_multiproof. rewrite M.
  unfold next_assert_gindex. rewrite N.eqb_refl. reflexivity.
Qed.
Lemma block_slot_proof_ok X headers r h : hash32 (sha256 X) -> wf_header h -> headers r = Ok (Some h) ->
  r = mroot (sha256 X) (header_tree (sha256 X) h) ->
  exists mp, block_slot_proof X headers r = Ok mp /\ calculate_root (sha256 X) mp = Ok r /\
    mp_values mp = [(block_slot_gindex, ssz_u64 (hd_slot h))].
Proof.
  intros Hh Hw Hr Er.
  destruct (header_field_multiproof X h (Field "slot") block_slot_gindex (ssz_u64 (hd_slot h)) Hh Hw) as (mp & E & V & M).
  { reflexivity. } { split; reflexivity. } { apply node_at_header_slot. }
  exists mp. unfold block_slot_proof. rewrite Hr. cbn [map_err bind ok_or].
  apply bind_ok in E as (b & E1 & E2). rewrite E1. cbn [bind]. rewrite E2. cbn [bind]. rewrite Er, V. cbn [map_err bind].
  split; [reflexivity|]. split; [|exact M]. apply mp_verify_iff in V. now apply calculate_root_iff.
Qed.

(** ** Patches *)
Lemma existsb_eqb i l : existsb (N.eqb i) l = true <-> In i l.
Proof.
  rewrite existsb_exists. split.
  - intros (x & Hx & E). apply N.eqb_eq in E. now subst.
  - intros Hi. exists i. split; auto. apply N.eqb_refl.
Qed.
Lemma diff_fold xs : forall ys i m, bm_sorted m -> (forall j, i <= j -> bm_get m j = None) ->
  let m' := fold_left diff_step (enumerate i (combine xs ys)) m in
  bm_sorted m' /\ forall j, bm_get m' j =
    if j <? i then bm_get m j else
    match nth_error xs (N.to_nat (j - i)), nth_error ys (N.to_nat (j - i)) with
    | Some a, Some b => if v_exit_epoch a =? v_exit_epoch b then None else Some (v_exit_epoch a)
    | _, _ => None
    end.
Proof.
  induction xs as [|a xs IH]; intros ys i m Hs Hm; cbn zeta.
  - cbn. split; [auto|]. intros j. destruct (N.ltb_spec j i); [reflexivity|]. rewrite Hm by lia. destruct (N.to_nat (j - i)); reflexivity.
  - destruct ys as [|b ys].
    + cbn. split; [auto|]. intros j. destruct (N.ltb_spec j i); [reflexivity|]. rewrite Hm by lia.
      destruct (N.to_nat (j - i)); cbn [nth_error]; [reflexivity|]. now destruct (nth_error xs n).
    + cbn [combine enumerate fold_left]. set (m1 := diff_step m (i, (a, b))).
      assert (S1 : bm_sorted m1) by (unfold m1, diff_step; destruct (_ =? _); [auto|now apply bm_insert_sorted]).
      assert (G1 : forall j, bm_get m1 j = if j =? i then (if v_exit_epoch a =? v_exit_epoch b then None else Some (v_exit_epoch a)) else bm_get m j).
      { intros j. unfold m1, diff_step. destruct (v_exit_epoch a =? v_exit_epoch b).
        - destruct (N.eqb_spec j i) as [-> |]; [apply Hm; lia|reflexivity].
        - rewrite bm_get_insert by auto. reflexivity. }
      destruct (IH ys (i + 1) m1 S1) as [S2 G2].
      { intros j Hj. rewrite G1. destruct (N.eqb_spec j i); [lia|]. apply Hm. lia. }
      split; [exact S2|]. intros j. rewrite G2, G1. destruct (N.ltb_spec j (i + 1)), (N.ltb_spec j i); try lia.
      * destruct (N.eqb_spec j i); [lia|reflexivity].
      * assert (j = i) as -> by lia. rewrite N.eqb_refl. replace (N.to_nat (i - i)) with 0%nat by lia. reflexivity.
      * replace (N.to_nat (j - i)) with (S (N.to_nat (j - (i + 1)))) by lia. reflexivity.
Qed.
Lemma mixes_fold idxs : forall p p', fold_outcome patch_randao_mix idxs p = Ok p' -> bm_sorted (randao_mixes (snd p)) ->
  fst p' = fst p /\ validator_exits (snd p') = validator_exits (snd p) /\ bm_sorted (randao_mixes (snd p')) /\
  (forall i, In i idxs -> nth_error (hs_randao_mixes (fst p)) (N.to_nat i) <> None) /\
  forall i, bm_get (randao_mixes (snd p')) i =
    if existsb (N.eqb i) idxs then nth_error (hs_randao_mixes (fst p)) (N.to_nat i) else bm_get (randao_mixes (snd p)) i.
Proof.
  induction idxs as [|k idxs IH]; intros p p' E Hs; cbn [fold_outcome] in E.
  - injection E as <-. repeat split; auto; easy.
  - apply bind_ok in E as (p1 & E1 & E). unfold patch_randao_mix in E1. apply bind_ok in E1 as (x & E1 & E2).
    apply ok_or_ok in E1. injection E2 as <-. destruct (IH _ _ E) as (F1 & F2 & F3 & F4 & F5); cbn [fst snd randao_mixes validator_exits] in *.
    { now apply bm_insert_sorted. }
    split; [exact F1|]. split; [exact F2|]. split; [exact F3|]. split.
    + intros i [<-|Hi]; [congruence|auto].
    + intros i. rewrite F5. cbn [existsb]. destruct (existsb (N.eqb i) idxs); [now rewrite orb_true_r|]. rewrite orb_false_r.
      rewrite bm_get_insert by auto. destruct (N.eqb_spec i k) as [-> |]; [now rewrite E1|reflexivity].
Qed.
Lemma mixes_fold_ok idxs : forall p, (forall i, In i idxs -> nth_error (hs_randao_mixes (fst p)) (N.to_nat i) <> None) ->
  exists p', fold_outcome patch_randao_mix idxs p = Ok p'.
Proof.
  induction idxs as [|k idxs IH]; intros p Hp; [eexists; reflexivity|]. cbn [fold_outcome]. unfold patch_randao_mix at 1.
  destruct (nth_error (hs_randao_mixes (fst p)) (N.to_nat k)) as [x|] eqn:Ex; [|exfalso; apply (Hp k); [now left|auto]].
  cbn [ok_or bind]. apply IH. intros i Hi. cbn [fst]. apply Hp. now right.
Qed.

Section Patches.
  Variable cs : ChainSpec.
  Variable states : Slot -> answer HState.
  Notation at_epoch e st := (states (start_slot cs e) = Ok st).

  Lemma patch_entry_ok m e p : patch_entry cs states m e = Ok p ->
    exists st, at_epoch e st /\ p = match bm_get m e with Some q => q | None => (st, EMPTY_STATE_PATCH) end.
  Proof.
    unfold patch_entry, patch_builder. intros E. apply bind_ok in E as (q & E1 & E). apply bind_ok in E1 as (st & E1 & E2).
    apply map_err_ok in E1. injection E2 as <-. injection E as <-. exists st. auto.
  Qed.
  Lemma mix_steps l : forall m m', NoDup (map fst l) -> (forall e, In e (map fst l) -> bm_get m e = None) -> bm_sorted m ->
    fold_outcome (mix_step cs states) l m = Ok m' ->
    bm_sorted m' /\ (forall e, ~ In e (map fst l) -> bm_get m' e = bm_get m e) /\
    (forall e idxs, In (e, idxs) l -> exists st p, at_epoch e st /\ bm_get m' e = Some (st, p) /\
       mixes_read (hs_randao_mixes st) idxs (randao_mixes p) /\ validator_exits p = [] /\
       (forall i, In i idxs -> nth_error (hs_randao_mixes st) (N.to_nat i) <> None)).
  Proof.
    induction l as [|[e idxs] l IH]; intros m m' Hn Hm Hs E; cbn [fold_outcome] in E.
    - injection E as <-. repeat split; auto; easy.
    - inversion Hn as [|? ? Hn1 Hn2]; subst. cbn [map fst] in *.
      apply bind_ok in E as (m1 & E1 & E). unfold mix_step in E1. cbn [fst snd] in E1.
      apply bind_ok in E1 as (p & E2 & E1). apply bind_ok in E1 as (p' & E3 & E1). injection E1 as <-.
      apply patch_entry_ok in E2 as (st & Hst & ->). rewrite (Hm e) in E3 by now left.
      apply mixes_fold in E3 as (F1 & F2 & F3 & F4 & F5); [|constructor]. cbn [fst snd] in *.
      destruct (IH (bm_insert m e p') m' Hn2) as (G1 & G2 & G3); auto.
      { intros e' He'. rewrite bm_get_insert by auto. destruct (N.eqb_spec e' e) as [-> |]; [easy|]. apply Hm. now right. }
      { now apply bm_insert_sorted. }
      split; [exact G1|]. split.
      + intros e' He'. rewrite G2 by (intros ?; apply He'; now right). rewrite bm_get_insert by auto. destruct (N.eqb_spec e' e) as [-> |]; [|reflexivity].
        exfalso. apply He'. now left.
      + intros e' idxs' [E'|Hin]; [|now apply G3]. injection E' as <- <-. exists st, (snd p').
        split; [exact Hst|]. split.
        { rewrite G2 by auto. rewrite bm_get_insert, N.eqb_refl by auto. rewrite <- F1. now destruct p'. }
        split; [|split; [exact F2|exact F4]]. split; [exact (proj1 (bm_sorted_keys _) F3)|exact F5].
  Qed.
  Lemma exit_steps t vs l : forall m m', NoDup l -> bm_sorted m ->
    (forall e q, bm_get m e = Some q -> validator_exits (snd q) = [] \/ ~ In e l) ->
    (forall e q, bm_get m e = Some q -> at_epoch e (fst q)) ->
    fold_outcome (exit_step cs states t vs) l m = Ok m' ->
    bm_sorted m' /\ (forall e, ~ In e l \/ e = t -> bm_get m' e = bm_get m e) /\
    (forall e, In e l -> e <> t -> exists st p, at_epoch e st /\ bm_get m' e = Some (st, p) /\
       randao_mixes p = match bm_get m e with Some q => randao_mixes (snd q) | None => [] end /\
       exit_changes (st_validators (hs_state st)) vs (validator_exits p)).
  Proof.
    induction l as [|e l IH]; intros m m' Hn Hs Hm Hq E; cbn [fold_outcome] in E.
    - injection E as <-. repeat split; auto; easy.
    - inversion Hn as [|? ? Hn1 Hn2]; subst. apply bind_ok in E as (m1 & E1 & E). unfold exit_step in E1.
      destruct (N.eqb_spec e t) as [-> |Hne].
      + injection E1 as <-. destruct (IH m m' Hn2) as (G1 & G2 & G3); auto.
        { intros e q Hg. destruct (Hm e q Hg) as [?|Hx]; [auto|]. right. intros ?. apply Hx. now right. }
        split; [exact G1|]. split.
        * intros e' [He'|He']; apply G2; [left; intros ?; apply He'; now right|now right].
        * intros e' [<-|He'] Hne'; [easy|]. now apply G3.
      + apply bind_ok in E1 as (p & E2 & E1). injection E1 as <-. apply patch_entry_ok in E2 as (st & Hst & Hp).
        assert (Hp1 : fst p = st /\ validator_exits (snd p) = [] /\
                      randao_mixes (snd p) = match bm_get m e with Some q => randao_mixes (snd q) | None => [] end).
        { subst p. destruct (bm_get m e) as [q|] eqn:Eg.
          - pose proof (Hq e q Eg) as H1. destruct (Hm e q Eg) as [H2|H2]; [|exfalso; apply H2; now left].
            split; [congruence|]. auto.
          - repeat split. }
        destruct Hp1 as (P1 & P2 & P3).
        destruct (IH (bm_insert m e (patch_validator_diff p vs)) m' Hn2) as (G1 & G2 & G3); auto.
        { now apply bm_insert_sorted. }
        { intros e' q Hg. rewrite bm_get_insert in Hg by auto. destruct (N.eqb_spec e' e) as [-> |]; [now right|].
          destruct (Hm e' q Hg) as [?|Hx]; [auto|]. right. intros ?. apply Hx. now right. }
        { intros e' q Hg. rewrite bm_get_insert in Hg by auto. destruct (N.eqb_spec e' e) as [-> |]; [|now apply Hq].
          injection Hg as <-. cbn [patch_validator_diff fst]. now rewrite P1. }
        split; [exact G1|]. split.
        * intros e' He'. destruct (N.eqb_spec e' e) as [-> |Hd].
          { exfalso. destruct He' as [He'|He']; [apply He'; now left|auto]. }
          rewrite G2 by (destruct He' as [He'|He']; [left; intros ?; apply He'; now right|now right]).
          rewrite bm_get_insert by auto. destruct (N.eqb_spec e' e); [easy|reflexivity].
        * intros e' [<-|He'] Hne'.
          -- exists st, (snd (patch_validator_diff p vs)). split; [exact Hst|]. split.
             { rewrite G2 by now left. rewrite bm_get_insert, N.eqb_refl by auto. f_equal. rewrite <- P1. reflexivity. }
             cbn [patch_validator_diff snd randao_mixes validator_exits]. split; [exact P3|].
             rewrite P2. destruct (diff_fold (st_validators (hs_state (fst p))) vs 0 []) as [D1 D2]; [constructor|reflexivity|].
             rewrite P1 in *. split; [exact (proj1 (bm_sorted_keys _) D1)|]. intros i. rewrite D2. rewrite N.sub_0_r. destruct (N.ltb_spec i 0); [lia|reflexivity].
          -- destruct (G3 e' He' Hne') as (st' & p' & A & B & C & D). exists st', p'. split; [exact A|]. split; [exact B|]. split; [|exact D].
             rewrite C, bm_get_insert by auto. destruct (N.eqb_spec e' e) as [-> |]; [easy|reflexivity].
  Qed.

  Definition reads_wf (reads : Reads) : Prop := bm_sorted (rs_mix_epochs reads) /\ bs_sorted (rs_validator_epochs reads).
  Definition patch_of (t : Epoch) (vs : list Validator) (reads : Reads) (e : Epoch) (p : StatePatch) : Prop :=
    exists st, at_epoch e st /\
      mixes_read (hs_randao_mixes st) (match bm_get (rs_mix_epochs reads) e with Some l => l | None => [] end) (randao_mixes p) /\
      (In e (rs_validator_epochs reads) /\ e <> t /\ exit_changes (st_validators (hs_state st)) vs (validator_exits p) \/
       ~ (In e (rs_validator_epochs reads) /\ e <> t) /\ validator_exits p = []).
  Lemma state_patches_ok t vs reads patches : reads_wf reads -> state_patches cs states t vs reads = Ok patches ->
    bm_sorted patches /\ forall e,
      match bm_get patches e with
      | None => bm_get (rs_mix_epochs reads) e = None /\ (In e (rs_validator_epochs reads) -> e = t)
      | Some p => (bm_get (rs_mix_epochs reads) e <> None \/ In e (rs_validator_epochs reads) /\ e <> t) /\
                  patch_of t vs reads e p
      end.
  Proof.
    intros [Wm Wv] E. unfold state_patches in E. apply bind_ok in E as (m1 & E1 & E). apply bind_ok in E as (m2 & E2 & E).
    injection E as <-. set (mx := rs_mix_epochs reads) in *. set (ve := rs_validator_epochs reads) in *.
    destruct (mix_steps mx [] m1) as (A1 & A2 & A3); auto; [now apply bm_sorted_NoDup|constructor|].
    assert (Q : forall e q, bm_get m1 e = Some q -> exists idxs, In (e, idxs) mx).
    { intros e q Hg. destruct (in_dec N.eq_dec e (map fst mx)) as [Hi|Hi].
      - apply in_map_iff in Hi as ([e' idxs] & He & Hi). cbn in He. subst. eauto.
      - rewrite A2 in Hg by exact Hi. discriminate. }
    destruct (exit_steps t vs ve m1 m2) as (B1 & B2 & B3); auto.
    { now apply bs_sorted_NoDup. }
    { intros e q Hg. destruct (Q e q Hg) as (idxs & Hi). destruct (A3 e idxs Hi) as (st & p & _ & Hp & _ & Hx & _).
      rewrite Hg in Hp. injection Hp as ->. auto. }
    { intros e q Hg. destruct (Q e q Hg) as (idxs & Hi). destruct (A3 e idxs Hi) as (st & p & Hs & Hp & _).
      rewrite Hg in Hp. injection Hp as ->. exact Hs. }
    split.
    { apply bm_sorted_keys. rewrite map_map. cbn [fst]. now apply bm_sorted_keys. }
    intros e. rewrite (bm_get_map (fun _ (q : HState * StatePatch) => snd q) m2 e).
    assert (M1 : match bm_get mx e with
                 | Some idxs => exists st p, at_epoch e st /\ bm_get m1 e = Some (st, p) /\
                     mixes_read (hs_randao_mixes st) idxs (randao_mixes p) /\ validator_exits p = []
                 | None => bm_get m1 e = None end).
    { destruct (bm_get mx e) as [idxs|] eqn:Eg.
      - destruct (A3 e idxs (bm_get_in _ _ _ Eg)) as (st & p & H1 & H2 & H3 & H4 & _). exists st, p. auto.
      - apply A2. now apply bm_get_None. }
    destruct (in_dec N.eq_dec e ve) as [Hi|Hi]; [destruct (N.eq_dec e t) as [Et|Et]|].
    2:{ destruct (B3 e Hi Et) as (st & p & C1 & C2 & C3 & C4). rewrite C2. cbn [option_map snd]. split; [now right|].
        exists st. split; [exact C1|]. split; [|left; auto]. fold mx. rewrite C3. destruct (bm_get mx e) as [idxs|].
        - destruct M1 as (st' & p' & D1 & D2 & D3 & D4). rewrite D2. cbn [snd].
          assert (st' = st) as -> by congruence. exact D3.
        - rewrite M1. split; [constructor|reflexivity]. }
    1,2: rewrite B2 by auto.
    1,2: destruct (bm_get mx e) as [idxs|] eqn:Eg;
      [destruct M1 as (st & p & D1 & D2 & D3 & D4); rewrite D2; cbn [option_map snd];
       split; [left; discriminate|]; exists st; split; [exact D1|]; split; [fold mx; now rewrite Eg|]; right; split; [tauto|exact D4]
      |rewrite M1; cbn [option_map]; auto].
    split; [reflexivity|easy].
  Qed.
  Lemma state_patches_mixes t vs reads patches e idxs st i : reads_wf reads -> state_patches cs states t vs reads = Ok patches ->
    bm_get (rs_mix_epochs reads) e = Some idxs -> at_epoch e st -> In i idxs -> nth_error (hs_randao_mixes st) (N.to_nat i) <> None.
  Proof.
    intros [Wm Wv] E Hg Hs Hi. unfold state_patches in E. apply bind_ok in E as (m1 & E1 & E).
    destruct (mix_steps (rs_mix_epochs reads) [] m1) as (_ & _ & A3); auto; [now apply bm_sorted_NoDup|constructor|].
    destruct (A3 e idxs (bm_get_in _ _ _ Hg)) as (st' & p & H1 & _ & _ & _ & H5). rewrite Hs in H1. injection H1 as ->. now apply H5.
  Qed.
  Lemma state_patches_exist t vs reads : reads_wf reads ->
    (forall e, bm_get (rs_mix_epochs reads) e <> None \/ In e (rs_validator_epochs reads) -> exists st, at_epoch e st) ->
    (forall e idxs st i, bm_get (rs_mix_epochs reads) e = Some idxs -> at_epoch e st -> In i idxs ->
       nth_error (hs_randao_mixes st) (N.to_nat i) <> None) ->
    exists patches, state_patches cs states t vs reads = Ok patches.
  Proof.
    intros [Wm Wv] Hst Hmx. unfold state_patches.
    assert (PE : forall (m : bmap (HState * StatePatch)) e st, at_epoch e st ->
              patch_entry cs states m e = Ok (match bm_get m e with Some q => q | None => (st, EMPTY_STATE_PATCH) end)).
    { intros m e st Hs. unfold patch_entry, patch_builder. rewrite Hs. reflexivity. }
    assert (M : forall l m, bm_sorted m -> NoDup (map fst l) -> (forall e, In e (map fst l) -> bm_get m e = None) -> incl l (rs_mix_epochs reads) ->
              exists m', fold_outcome (mix_step cs states) l m = Ok m').
    { induction l as [|[e idxs] l IH]; intros m Hs Hn Hm Hl; [eexists; reflexivity|]. cbn [fold_outcome]. unfold mix_step at 1. cbn [fst snd].
      assert (Hg : bm_get (rs_mix_epochs reads) e = Some idxs) by (apply bm_in_get; auto; apply Hl; now left).
      inversion Hn as [|? ? Hn1 Hn2]; subst. cbn [map fst] in *.
      destruct (Hst e) as (st & Hs'); [left; congruence|]. rewrite (PE m e st Hs'), (Hm e (or_introl eq_refl)). cbn [bind].
      destruct (mixes_fold_ok idxs (st, EMPTY_STATE_PATCH)) as (p' & Ep).
      { intros i Hi. cbn [fst]. now apply (Hmx e idxs). }
      rewrite Ep. cbn [bind]. apply IH; auto.
      - now apply bm_insert_sorted.
      - intros e' He'. rewrite bm_get_insert by auto. destruct (N.eqb_spec e' e) as [-> |]; [easy|]. apply Hm. now right.
      - intros x Hx. apply Hl. now right. }
    assert (V : forall l m, incl l (rs_validator_epochs reads) -> exists m', fold_outcome (exit_step cs states t vs) l m = Ok m').
    { induction l as [|e l IH]; intros m Hl; [eexists; reflexivity|]. cbn [fold_outcome]. unfold exit_step at 1.
      assert (Hl' : incl l (rs_validator_epochs reads)) by (intros x Hx; apply Hl; now right).
      destruct (e =? t); cbn [bind]; [now apply IH|].
      destruct (Hst e) as (st & Hs'); [right; apply Hl; now left|]. rewrite (PE m e st Hs'). cbn [bind]. now apply IH. }
    destruct (M (rs_mix_epochs reads) []) as (m1 & E1); [constructor|now apply bm_sorted_NoDup|reflexivity|apply incl_refl|].
    rewrite E1. cbn [bind]. destruct (V (rs_validator_epochs reads) m1) as (m2 & E2); [apply incl_refl|]. rewrite E2. eexists. reflexivity.
  Qed.
End Patches.

(** ** The recorded reads *)
Lemma record_links X cs ls : forall r, reads_wf r ->
  (forall e, In e (rs_validator_epochs r) <-> bm_get (rs_mix_epochs r) e <> None) ->
  (forall e l, bm_get (rs_mix_epochs r) e = Some l -> l = [seed_mix_index X cs e]) ->
  let r' := fold_left (record_link X cs) ls r in
  reads_wf r' /\
  (forall e, In e (rs_validator_epochs r') <-> In e (rs_validator_epochs r) \/ In e (map (fun l => epoch (target l)) ls)) /\
  (forall e, In e (rs_validator_epochs r') <-> bm_get (rs_mix_epochs r') e <> None) /\
  (forall e l, bm_get (rs_mix_epochs r') e = Some l -> l = [seed_mix_index X cs e]).
Proof.
  induction ls as [|l ls IH]; intros r W H1 H2; cbn zeta.
  - cbn [fold_left map In]. split; [exact W|]. split; [tauto|]. split; [exact H1|exact H2].
  - cbn [fold_left]. set (te := epoch (target l)). destruct W as [Wm Wv].
    assert (G : forall e, bm_get (rs_mix_epochs (record_link X cs r l)) e =
              if e =? te then Some [seed_mix_index X cs te] else bm_get (rs_mix_epochs r) e).
    { intros e. cbn [record_link rs_mix_epochs]. fold te. rewrite bm_get_insert by auto. destruct (e =? te); [|reflexivity]. f_equal.
      destruct (bm_get (rs_mix_epochs r) te) as [s|] eqn:Es; [|reflexivity]. rewrite (H2 te s Es). cbn. now rewrite N.ltb_irrefl, N.eqb_refl. }
    assert (V : forall e, In e (rs_validator_epochs (record_link X cs r l)) <-> e = te \/ In e (rs_validator_epochs r)).
    { intros e. cbn [record_link rs_validator_epochs]. apply bs_insert_In. }
    destruct (IH (record_link X cs r l)) as (A & B & C & D).
    { split; cbn [record_link rs_mix_epochs rs_validator_epochs]; [now apply bm_insert_sorted|now apply bs_insert_sorted]. }
    { intros e. rewrite V, G, H1. destruct (N.eqb_spec e te) as [-> |]; split; try tauto; try discriminate; intros; auto. }
    { intros e s. rewrite G. destruct (N.eqb_spec e te) as [-> |]; [now intros [= <-]|]. apply H2. }
    split; [exact A|]. split; [|split; [exact C|exact D]].
    intros e. rewrite B, V. cbn [map In]. fold te. intuition auto.
Qed.
Lemma recorded_reads_ok X cs atts post :
  let r := recorded_reads X cs atts post in
  reads_wf r /\ rs_blocks r = [root (finalized post)] /\
  (forall e, In e (rs_validator_epochs r) <-> In e (target_epochs atts)) /\
  (forall e, bm_get (rs_mix_epochs r) e = if existsb (N.eqb e) (target_epochs atts) then Some [seed_mix_index X cs e] else None).
Proof.
  cbn zeta. unfold recorded_reads.
  destruct (record_links X cs (map fst (chunk_by_link atts)) (mkReads [] [] [])) as (A & B & C & D).
  { split; constructor. }
  { cbn. intros e. split; [easy|]. intros H. now apply H. }
  { discriminate. }
  set (r := fold_left _ _ _) in *. cbn [rs_blocks rs_validator_epochs rs_mix_epochs].
  assert (V : forall e, In e (rs_validator_epochs r) <-> In e (target_epochs atts)).
  { intros e. rewrite B. cbn [rs_validator_epochs In]. rewrite map_map. unfold target_epochs.
    assert (G : forall x, In x (map (fun g => epoch (target (fst g))) (chunk_by_link atts)) <-> In x (map (fun a => epoch (ad_target (att_data a))) atts)).
    { clear. induction atts as [|a atts IH]; intros x; [reflexivity|]. cbn [chunk_by_link map In]. rewrite <- IH.
      destruct (chunk_by_link atts) as [|[k g] gs]; [cbn; tauto|].
      destruct (link_eqb (att_link a) k) eqn:E; [|cbn; tauto]. cbn [map In fst].
      assert (epoch (target k) = epoch (ad_target (att_data a))) as ->.
      { apply link_eqb_eq in E. rewrite <- E. reflexivity. }
      tauto. }
    rewrite G. tauto. }
  split; [exact A|]. split; [reflexivity|]. split; [exact V|]. intros e.
  destruct (existsb (N.eqb e) (target_epochs atts)) eqn:E.
  - apply existsb_eqb in E. apply V in E. apply C in E. destruct (bm_get (rs_mix_epochs r) e) as [l|] eqn:El; [|easy].
    now rewrite (D e l El).
  - destruct (bm_get (rs_mix_epochs r) e) as [l|] eqn:El; [|reflexivity]. exfalso.
    assert (H : In e (rs_validator_epochs r)) by (apply C; congruence). apply V in H. apply existsb_eqb in H. congruence.
Qed.
