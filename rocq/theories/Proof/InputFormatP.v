From Coq Require Import String List Arith ZArith NArith Bool Lia Sorted.
From Coq Require Import ZifyBool ZifyNat ZifyN.
From Coq.Init Require Import Byte.
From Verif.Model Require Import Base Types ConsensusState Multiproof StateFile GuestReader InputCodec.
From Verif.Spec Require Import InputCodecSpec InputFormat.
From Verif.Proof Require Import BaseLemmas StateFileP VerifyP InputCodecP.
Import ListNotations.
Open Scope list_scope.
Open Scope N_scope.
Notation length := List.length.

Definition exactly {A} (p : parser A) (R : format A) : Prop :=
  forall b x r, p b = Some (x, r) <-> exists pre, b = pre ++ r /\ R x pre.
Lemma ex_conv {A} (p : parser A) (R R' : format A) : exactly p R -> (forall x b, R x b <-> R' x b) -> exactly p R'.
Proof. intros H K b x r. rewrite (H b x r). split; intros (pre & E & F); exists pre; split; auto; now apply K. Qed.
Lemma ex_bind {A B} (p : parser A) (f : A -> parser B) R Q : exactly p R -> (forall x, exactly (f x) (Q x)) ->
  exactly (pbind p f) (fun y b => exists x, (R x ;;; Q x y) b).
Proof.
  intros H K b y r. rewrite pbind_some. split.
  - intros (x & r' & E1 & E2). apply H in E1 as (p1 & -> & R1). apply K in E2 as (p2 & -> & Q1).
    exists (p1 ++ p2). split; [now rewrite <- app_assoc|]. exists x, p1, p2. auto.
  - intros (pre & -> & x & p1 & p2 & -> & R1 & Q1). exists x, (p2 ++ r). split.
    + apply H. exists p1. split; [now rewrite <- app_assoc|auto].
    + apply K. exists p2. auto.
Qed.
Lemma ex_ret {A} (x : A) : exactly (pret x) (fun y b => y = x /\ b = []).
Proof.
  intros b y r. unfold pret. split.
  - intros E. injection E as -> ->. exists []. auto.
  - intros (pre & -> & -> & ->). reflexivity.
Qed.
Lemma ex_fail {A} : exactly (@pfail A) (fun _ _ => False).
Proof. intros b y r. split; [discriminate|]. intros (_ & _ & []). Qed.
(** A parser followed by a check. *)
Lemma ex_check {A B} (p : parser A) (g : A -> option B) R : exactly p R ->
  exactly (pbind p (fun x => match g x with Some y => pret y | None => pfail end)) (fun y b => exists x, R x b /\ g x = Some y).
Proof.
  intros H b y r. rewrite pbind_some. split.
  - intros (x & r' & E1 & E2). destruct (g x) as [y'|] eqn:G; [|discriminate]. injection E2 as <- <-.
    apply H in E1 as (pre & -> & R1). exists pre. eauto.
  - intros (pre & -> & x & R1 & G). exists x, r. split; [apply H; eauto|]. rewrite G. reflexivity.
Qed.
Lemma ex_test {A} (p : parser A) (c : A -> bool) R : exactly p R ->
  exactly (pbind p (fun x => if c x then pret x else pfail)) (fun x b => R x b /\ c x = true).
Proof.
  intros H b y r. rewrite pbind_some. split.
  - intros (x & r' & E1 & E2). destruct (c x) eqn:G; [|discriminate]. injection E2 as -> ->.
    apply H in E1 as (pre & -> & R1). exists pre. eauto.
  - intros (pre & -> & R1 & G). exists y, r. split; [apply H; eauto|]. rewrite G. reflexivity.
Qed.
Lemma ex_take n : exactly (take n) (fun x b => b = x /\ blen b = n).
Proof.
  intros b x r. unfold take, blen. destruct (N.ltb_spec (N.of_nat (length b)) n) as [L|L].
  - split; [discriminate|]. intros (pre & -> & _ & E). rewrite app_length in L. lia.
  - split.
    + intros E. injection E as <- <-. exists (firstn (N.to_nat n) b). rewrite firstn_skipn, firstn_length. split; [auto|]. split; [auto|lia].
    + intros (pre & -> & -> & E). replace (N.to_nat n) with (length x) by lia.
      now rewrite firstn_app, skipn_app, firstn_all, skipn_all, Nat.sub_diag, app_nil_r.
Qed.
Lemma number_of_le b : number_of b = le_val b.
Proof. induction b as [|d b IH]; cbn [number_of le_val]; congruence. Qed.
Lemma ex_int k : exactly (p_int k) (number k (2 ^ (8 * N.of_nat k))).
Proof.
  eapply ex_conv; [apply ex_bind; [apply ex_take|intros; apply ex_ret]|]. cbv beta. intros x b. unfold number, then_. split.
  - intros (y & b1 & b2 & -> & [-> L] & -> & ->). rewrite app_nil_r, number_of_le. pose proof (le_val_bound y) as V. unfold blen in L.
    assert (length y = k) by lia. rewrite pow256 in V. subst k. auto.
  - intros (L & E & V). exists b, b, []. rewrite app_nil_r, <- number_of_le. unfold blen. repeat split; auto.
Qed.
Lemma ex_usize w : w <= 64 -> exactly (p_usize w) (word w).
Proof.
  intros Hw. eapply ex_conv; [apply ex_test, ex_int|]. cbv beta. intros x b. unfold word, number. pose proof (two_w w Hw).
  change (2 ^ (8 * N.of_nat 8)) with (2 ^ 64). rewrite N.ltb_lt. intuition lia.
Qed.
Lemma ex_bytes w : w <= 64 -> exactly (p_bytes w) (byte_string w).
Proof.
  intros Hw. eapply ex_conv; [apply ex_bind; [now apply ex_usize|intros; apply ex_take]|]. cbv beta. intros x b. unfold byte_string, then_. split.
  - intros (n & b1 & b2 & -> & H1 & -> & <-). exists b1, x. auto.
  - intros (b1 & b2 & -> & H & <-). exists (N.of_nat (length x)), b1, x. auto.
Qed.
Lemma ex_b256 w : w <= 64 -> exactly (p_b256 w) (hash_string w).
Proof.
  intros Hw. eapply ex_conv; [apply ex_test; now apply ex_bytes|]. cbv beta. intros x b. unfold hash_string, blen. rewrite N.eqb_eq. intuition lia.
Qed.
Definition solid {A} (R : format A) : Prop := forall x b, R x b -> (0 < length b)%nat.
Lemma ex_repeat {A} (p : parser A) R k : exactly p R ->
  exactly (p_repeat p k) (fun l b => length l = k /\ exists bs, b = concat bs /\ Forall2 R l bs).
Proof.
  intros H. induction k as [|k IH]; cbn [p_repeat].
  - eapply ex_conv; [apply ex_ret|]. cbv beta. intros l b. split.
    + intros [-> ->]. split; [auto|]. exists []. auto.
    + intros (E & bs & -> & F). destruct l; [|discriminate]. inversion F. auto.
  - eapply ex_conv; [apply ex_bind; [exact H|intros x; apply ex_bind; [exact IH|intros; apply ex_ret]]|]. cbv beta. intros l b. split.
    + intros (x & b1 & b2 & -> & Hx & l' & b3 & b4 & -> & (Hl & bs & -> & F) & -> & ->). split; [cbn [length]; lia|].
      exists (b1 :: bs). split; [cbn [concat]; now rewrite app_nil_r|auto].
    + intros (E & bs & -> & F). destruct l as [|x l]; [discriminate|]. inversion F as [|? b1 ? bs' F1 F2]; subst. exists x, b1, (concat bs').
      split; [reflexivity|]. split; [exact F1|]. exists l, (concat bs'), []. rewrite app_nil_r. split; [reflexivity|]. split; [|auto].
      split; [cbn [length] in E; lia|eauto].
Qed.
Lemma concat_solid {A} (R : format A) l bs : solid R -> Forall2 R l bs -> (length l <= length (concat bs))%nat.
Proof. intros H. induction 1 as [|x b l bs F _ IH]; cbn [length concat]; [lia|]. rewrite app_length. apply H in F. lia. Qed.
Lemma ex_seq {A} w (p : parser A) R : w <= 64 -> exactly p R -> solid R -> exactly (p_seq w p) (listed w R).
Proof.
  intros Hw H S b l r. unfold p_seq. rewrite pbind_some. split.
  - intros (n & r' & E1 & E2). apply (ex_usize w Hw) in E1 as (p1 & -> & E1). destruct (blen r' <? n); [discriminate|].
    apply (ex_repeat _ _ _ H) in E2 as (p2 & -> & L & bs & -> & F). exists (p1 ++ concat bs). split; [now rewrite <- app_assoc|].
    exists p1, (concat bs). split; [auto|]. split; [|eauto]. now rewrite L, N2Nat.id.
  - intros (pre & -> & p1 & p2 & -> & H1 & bs & -> & F). exists (N.of_nat (length l)), (concat bs ++ r). split.
    + apply (ex_usize w Hw). exists p1. split; [now rewrite <- app_assoc|exact H1].
    + pose proof (concat_solid R l bs S F) as L. unfold blen. rewrite app_length.
      replace (N.of_nat (length (concat bs) + length r) <? N.of_nat (length l)) with false by lia. rewrite Nat2N.id.
      apply (ex_repeat _ _ _ H). exists (concat bs). eauto.
Qed.
Lemma ex_pair {V} (p : parser N) (q : parser V) K R : exactly p K -> exactly q R -> exactly (p_pair p q) (map_entry K R).
Proof.
  intros H1 H2. eapply ex_conv; [apply ex_bind; [exact H1|intros; apply ex_bind; [exact H2|intros; apply ex_ret]]|]. cbv beta. intros [k v] b. unfold map_entry, then_. cbn [fst snd]. split.
  - intros (x & b1 & b2 & -> & Hx & y & b3 & b4 & -> & Hy & E & ->). injection E as <- <-. exists b1, b3. rewrite app_nil_r. auto.
  - intros (b1 & b2 & -> & Hx & Hy). exists k, b1, b2. split; [auto|]. split; [auto|]. exists v, b2, []. rewrite app_nil_r. auto.
Qed.
Lemma last_binding {V} (l : list (N * V)) k v : In (k, v) (bm_of_list l) <-> exists l1 l2, l = l1 ++ (k, v) :: l2 /\ forall v', ~ In (k, v') l2.
Proof.
  induction l as [|[k' v'] l IH] using rev_ind.
  - split; [intros []|]. intros ([|] & l2 & E & _); discriminate.
  - rewrite <- bm_get_iff by apply bm_of_list_sorted. rewrite bm_of_list_snoc, bm_get_insert by apply bm_of_list_sorted. cbn [fst snd]. destruct (N.eqb_spec k k') as [->|Hne].
    + split.
      * intros E. injection E as ->. exists l, []. split; [auto|]. intros ? [].
      * intros (l1 & l2 & E & F). destruct l2 as [|y l2 _] using rev_ind.
        -- apply app_inj_tail in E as [_ E]. congruence.
        -- rewrite app_comm_cons, app_assoc in E. apply app_inj_tail in E as [_ <-]. exfalso. eapply F, in_or_app. right. now left.
    + rewrite bm_get_iff, IH by apply bm_of_list_sorted. split.
      * intros (l1 & l2 & -> & F). exists l1, (l2 ++ [(k', v')]). split; [now rewrite <- app_assoc|]. intros y Hy.
        apply in_app_or in Hy as [Hy|[Hy|[]]]; [now apply F in Hy|congruence].
      * intros (l1 & l2 & E & F). destruct l2 as [|y l2 _] using rev_ind.
        -- apply app_inj_tail in E as [_ E]. congruence.
        -- rewrite app_comm_cons, app_assoc in E. apply app_inj_tail in E as [-> <-]. exists l1, l2. split; [auto|].
           intros z Hz. eapply F, in_or_app. left. exact Hz.
Qed.
Lemma solid_map_entry {V} K (R : format V) : solid K -> solid (map_entry K R).
Proof. intros H kv b (b1 & b2 & -> & H1 & _). apply H in H1. rewrite app_length. lia. Qed.
Lemma ex_map {V} w (p : parser N) (q : parser V) K R : w <= 64 -> exactly p K -> exactly q R -> solid K -> exactly (p_map w p q) (mapped w K R).
Proof.
  intros Hw H1 H2 S. eapply ex_conv; [apply ex_bind; [apply ex_seq; [exact Hw|apply ex_pair; eassumption|now apply solid_map_entry]|intros; apply ex_ret]|].
  cbv beta. intros m b. unfold mapped. split.
  - intros (l & b1 & b2 & -> & H & -> & ->). exists l. rewrite app_nil_r. split; [exact H|]. split; [apply bm_of_list_sorted|]. intros k v. apply last_binding.
  - intros (l & H & Hs & Hm). exists l, b, []. rewrite app_nil_r. split; [auto|]. split; [auto|]. split; [|auto].
    apply sorted_set_unique; [now apply bm_sorted_keys|apply bm_sorted_keys, bm_of_list_sorted|]. intros [k v]. now rewrite Hm, last_binding.
Qed.
Lemma solid_number k n : (0 < k)%nat -> solid (number k n).
Proof. intros H x b (L & _). lia. Qed.
Lemma solid_then P (Q : bytes -> Prop) b : (P ;;; Q) b -> (forall b1, P b1 -> (0 < length b1)%nat) -> (0 < length b)%nat.
Proof. intros (b1 & b2 & -> & H1 & _) H. apply H in H1. rewrite app_length. lia. Qed.
Lemma solid_bytes w : solid (byte_string w).
Proof. intros x b H. eapply solid_then; [exact H|]. intros b1 H1. eapply solid_number in H1; auto. lia. Qed.

(** ** Bits *)
Lemma bits_of_app a b : bits_of (a ++ b) = bits_of a + 2 ^ N.of_nat (length a) * bits_of b.
Proof.
  induction a as [|x a IH]; [cbn [app bits_of length]; change (N.of_nat 0) with 0; rewrite N.pow_0_r; lia|]. cbn [app bits_of length]. rewrite IH, Nat2N.inj_succ, N.pow_succ_r'. lia.
Qed.
Lemma bits_of_false k : bits_of (repeat false k) = 0.
Proof. induction k as [|k IH]; [reflexivity|]. cbn [repeat bits_of]. now rewrite IH. Qed.
Lemma bits_of_inj a : forall b, length a = length b -> bits_of a = bits_of b -> a = b.
Proof.
  induction a as [|x a IH]; intros [|y b] L E; try discriminate; [reflexivity|]. cbn [bits_of length] in *.
  assert (x = y /\ bits_of a = bits_of b) as [-> E'] by (destruct x, y; cbn [N.b2n] in E; split; auto; lia). f_equal. apply IH; [lia|exact E'].
Qed.
Lemma byte_number z : bits_of (byte_bits z) = Byte.to_N z.
Proof. destruct z; reflexivity. Qed.
Lemma bytes_number b : number_of b = bits_of (bytes_bits b).
Proof.
  induction b as [|z b IH]; [reflexivity|]. unfold bytes_bits in *. cbn [number_of flat_map]. rewrite bits_of_app, byte_number, IH.
  change (2 ^ N.of_nat (length (byte_bits z))) with 256. reflexivity.
Qed.
Lemma number_inj b b' : length b = length b' -> number_of b = number_of b' -> b = b'.
Proof. intros L V. rewrite (number_of_le b), (number_of_le b') in V. rewrite <- (le_bytes_le_val b), <- (le_bytes_le_val b'). congruence. Qed.
Lemma bits_inj b b' : bytes_bits b = bytes_bits b' -> b = b'.
Proof.
  intros E. assert (L : length b = length b') by (apply (f_equal (@length bool)) in E; rewrite !bytes_bits_length in E; lia).
  assert (V : le_val b = le_val b') by (rewrite <- !number_of_le, !bytes_number; congruence).
  rewrite <- (le_bytes_le_val b), <- (le_bytes_le_val b'). congruence.
Qed.
Lemma bits_of_testbit l : forall i, N.testbit (bits_of l) (N.of_nat i) = nth i l false.
Proof.
  assert (E : bits_of l = bits_val l) by (induction l as [|[|] l IH]; cbn [bits_of bits_val N.b2n]; congruence). rewrite E. apply testbit_bits_val.
Qed.
Lemma nth_skipn {A} (l : list A) i j d : nth i (skipn j l) d = nth (j + i) l d.
Proof. revert l. induction j as [|j IH]; intros l; [reflexivity|]. destruct l; cbn [skipn]; [destruct i; reflexivity|]. apply IH. Qed.
Lemma nth_firstn {A} (l : list A) i n d : (i < n)%nat -> nth i (firstn n l) d = nth i l d.
Proof. revert l i. induction n as [|n IH]; intros l i H; [lia|]. destruct l; [reflexivity|]. destruct i; [reflexivity|]. cbn [firstn nth]. apply IH. lia. Qed.
Lemma ex_if {A} (c : bool) (v : A) : exactly (if c then pret v else pfail) (fun y b => c = true /\ y = v /\ b = []).
Proof.
  destruct c; [eapply ex_conv; [apply ex_ret|]|eapply ex_conv; [apply ex_fail|]]; cbv beta; intros; intuition discriminate.
Qed.
Lemma ex_bits w : 32 <= w <= 64 -> exactly (p_bits w) (bit_vector w).
Proof.
  intros Hw. destruct (w_bounds w Hw) as (W1 & W2 & W3). eapply ex_conv.
  { do 6 (apply ex_bind; [first [apply ex_bytes; lia|apply ex_int|apply ex_usize; lia|apply ex_take]|intros ?]). apply ex_if. }
  cbv beta. intros l b. unfold bit_vector. split.
  - intros (o & b1 & t1 & -> & Ho & wd & b2 & t2 & -> & (L2 & E2 & _) & ix & b3 & t3 & -> & (L3 & E3 & _) & n & b4 & t4 & -> & H4 & k & b5 & t5 & -> & H5 & data & b6 & t6 & -> & [-> L6] & C & -> & ->).
    repeat (apply andb_true_iff in C as [C ?]). apply bytes_eqb_eq in C. subst o. rewrite N.eqb_eq in *. rewrite N.ltb_lt in *. rewrite N.leb_le in *. subst wd ix. rewrite app_nil_r.
    assert (Ln : length (firstn (N.to_nat n) (skipn (N.to_nat (number_of b3)) (bytes_bits data))) = N.to_nat n).
    { rewrite firstn_length, skipn_length, bytes_bits_length. unfold blen in L6. lia. }
    rewrite Ln, N2Nat.id. split; [lia|]. exists (number_of b3), k, data. split; [|split; [exact L6|split; [lia|]]].
    + exists b1, (b2 ++ b3 ++ b4 ++ b5 ++ data). split; [now rewrite <- ?app_assoc|]. split; [exact Ho|].
      exists b2, (b3 ++ b4 ++ b5 ++ data). split; [auto|]. split.
      { destruct b2 as [|z [|? ?]]; try discriminate. clear - H2. cbn [number_of] in H2. rewrite N.mul_0_r, N.add_0_r in H2. destruct z; try discriminate H2. reflexivity. }
      exists b3, (b4 ++ b5 ++ data). split; [auto|]. split; [split; auto|].
      exists b4, (b5 ++ data). split; [auto|]. split; [exact H4|]. exists b5, data. split; [auto|]. split; [exact H5|auto].
    + intros i Hi. rewrite nth_firstn, nth_skipn, (bytes_number data) by lia.
      replace (number_of b3 + N.of_nat i) with (N.of_nat (N.to_nat (number_of b3) + i)) by lia. now rewrite bits_of_testbit.
  - intros (Hl & ix & k & data & (b1 & t1 & -> & Ho & b2 & t2 & -> & <- & b3 & t3 & -> & H3 & b4 & t4 & -> & H4 & b5 & t5 & -> & H5 & <-) & L6 & Hn & Hb).
    exists (list_byte_of_string "bitvec::order::Lsb0"), b1, ([x20] ++ b3 ++ b4 ++ b5 ++ data). split; [auto|]. split; [exact Ho|].
    exists 32, [x20], (b3 ++ b4 ++ b5 ++ data). split; [auto|]. split; [repeat split; reflexivity|].
    exists ix, b3, (b4 ++ b5 ++ data). split; [auto|]. split; [destruct H3 as (? & ? & ?); repeat split; auto; change (2 ^ (8 * N.of_nat 1)) with 256; lia|].
    exists (N.of_nat (length l)), b4, (b5 ++ data). split; [auto|]. split; [exact H4|].
    exists k, b5, data. split; [auto|]. split; [exact H5|]. exists data, data, []. rewrite app_nil_r. split; [auto|]. split; [split; auto|].
    destruct H3 as (_ & _ & H3). split; [|split; [|auto]].
    + unfold order_name. rewrite bytes_eqb_refl. change (32 =? 32) with true. cbn [andb]. lia.
    + apply nth_ext with (d := false) (d' := false).
      * rewrite firstn_length, skipn_length, bytes_bits_length. lia.
      * intros i Hi. rewrite nth_firstn, nth_skipn, Hb, (bytes_number data) by lia.
        replace (ix + N.of_nat i) with (N.of_nat (N.to_nat ix + i)) by lia. now rewrite bits_of_testbit.
Qed.
Lemma ex_multiproof w : 32 <= w <= 64 -> exactly (p_multiproof w) (multiproof_format w).
Proof.
  intros Hw. eapply ex_conv.
  { apply ex_bind; [apply ex_bytes; lia|intros ?]. do 2 (apply ex_bind; [now apply ex_bits|intros ?]). apply ex_bind; [apply ex_usize; lia|intros ?]. apply ex_ret. }
  cbv beta. intros [d v s n] b. unfold multiproof_format. cbn [mp_data mp_value_mask mp_descriptor mp_max_stack_depth]. split.
  - intros (? & b1 & ? & -> & H1 & ? & b2 & ? & -> & H2 & ? & b3 & ? & -> & H3 & ? & b4 & ? & -> & H4 & E & ->). injection E as <- <- <- <-. rewrite app_nil_r.
    repeat (eexists; eexists; split; [reflexivity|]; split; [eassumption|]). eassumption.
  - intros (b1 & ? & -> & H1 & b2 & ? & -> & H2 & b3 & b4 & -> & H3 & H4).
    exists d; eexists; eexists; split; [reflexivity|]; split; [exact H1|]. exists v; eexists; eexists; split; [reflexivity|]; split; [exact H2|].
    exists s; eexists; eexists; split; [reflexivity|]; split; [exact H3|]. exists n, b4, []. rewrite app_nil_r. auto.
Qed.
Lemma solid_multiproof w : solid (multiproof_format w).
Proof. intros x b H. eapply solid_then; [exact H|]. intros b1. apply solid_bytes. Qed.
Lemma ex_key C : exactly (p_key C) (key_format C).
Proof.
  eapply ex_conv; [apply (ex_check (take 96) (pk_parse C)), ex_take|]. cbv beta. intros k b. unfold key_format, blen. split.
  - intros (x & [-> L] & E). split; [lia|auto].
  - intros [L E]. exists b. repeat split; auto. lia.
Qed.
Lemma solid_key C : solid (key_format C).
Proof. intros k b [L _]. lia. Qed.
(** Two parts of a record. *)
Lemma ex_two {A B D} (p : parser A) (q : parser B) (mk : A -> B -> D) (f : D -> A) (g : D -> B) R Q :
  (forall x y, f (mk x y) = x) -> (forall x y, g (mk x y) = y) -> (forall z, mk (f z) (g z) = z) -> exactly p R -> exactly q Q ->
  exactly (pbind p (fun x => pbind q (fun y => pret (mk x y)))) (fun z => R (f z) ;;; Q (g z)).
Proof.
  intros Hf Hg Hm Hp Hq. eapply ex_conv; [apply ex_bind; [exact Hp|intros ?; apply ex_bind; [exact Hq|intros ?; apply ex_ret]]|]. cbv beta. intros z b. split.
  - intros (x & b1 & ? & -> & H1 & y & b2 & ? & -> & H2 & -> & ->). rewrite Hf, Hg, app_nil_r. exists b1, b2. auto.
  - intros (b1 & b2 & -> & H1 & H2). exists (f z), b1, b2. split; [auto|]. split; [exact H1|]. exists (g z), b2, []. rewrite app_nil_r. auto.
Qed.
Lemma ex_patch w : 32 <= w <= 64 -> exactly (p_patch w) (patch_format w).
Proof.
  intros Hw. apply (ex_two _ _ mkStatePatch randao_mixes validator_exits); auto; try (now intros []).
  - apply ex_map; [lia|apply (ex_int 4)|apply ex_b256; lia|apply solid_number; lia].
  - apply ex_map; [lia|apply ex_usize; lia|apply (ex_int 8)|apply solid_number; lia].
Qed.
Lemma ex_checkpoint w : w <= 64 -> exactly (p_checkpoint w) (checkpoint_format w).
Proof. intros Hw. apply (ex_two _ _ mkCheckpoint epoch root); auto; [now intros []|apply (ex_int 8)|now apply ex_b256]. Qed.
Lemma ex_state w : w <= 64 -> exactly (p_state w) (consensus_format w).
Proof. intros Hw. apply (ex_two _ _ mkCS current_justified finalized); auto; [now intros []|now apply ex_checkpoint..]. Qed.

(** ** Attestations *)
Lemma strip_shape l : In true l -> exists k, l = repeat false k ++ true :: strip l.
Proof.
  induction l as [|[|] l IH]; intros H; [destruct H|now exists 0%nat|]. destruct H as [|H]; [discriminate|].
  destruct (IH H) as [k E]. exists (S k). cbn [repeat app strip]. now f_equal.
Qed.
Lemma bitlist_exact limit b l : unssz_bitlist limit b = Some l <-> bitlist_format limit l b.
Proof.
  assert (F : bitlist_format limit l b <-> N.of_nat (length l) <= limit /\ b = ssz_bitlist l).
  { pose proof (bytes_bits_bytes (l ++ [true])) as E. pose proof (bits_bytes_length (l ++ [true])) as Lb. rewrite app_length in *. cbn [length] in *.
    fold (ssz_bitlist l) in *. rewrite <- app_assoc in E. cbn [app] in E.
    assert (V : number_of (ssz_bitlist l) = bits_of l + 2 ^ N.of_nat (length l)).
    { rewrite bytes_number, E, bits_of_app. cbn [bits_of]. rewrite bits_of_false. cbn [N.b2n]. lia. }
    assert (D : (length (ssz_bitlist l) = length l / 8 + 1)%nat).
    { rewrite Lb. replace (length l + 1 + 7)%nat with (length l + 1 * 8)%nat by lia. rewrite Nat.div_add by lia. lia. }
    unfold bitlist_format. split.
    - intros (H1 & H2 & H3). split; [exact H1|]. apply number_inj; congruence.
    - intros [H ->]. auto. }
  rewrite F. split.
  - intros H. pose proof (unssz_bitlist_bound _ _ _ H) as Hb. split; [exact Hb|]. unfold unssz_bitlist in H.
    destruct (rev b) as [|z r] eqn:Er; [discriminate|]. destruct (byte_eqb z x00) eqn:Ez; [discriminate|].
    destruct (_ <=? limit); [|discriminate]. injection H as H.
    assert (Eb : b = rev r ++ [z]) by (rewrite <- (rev_involutive b), Er; reflexivity).
    assert (Eb' : rev (bytes_bits b) = rev (byte_bits z) ++ rev (bytes_bits (rev r))).
    { rewrite Eb. unfold bytes_bits. rewrite flat_map_app, rev_app_distr. cbn [flat_map]. now rewrite app_nil_r. }
    assert (Hz : exists k, rev (byte_bits z) = repeat false k ++ true :: strip (rev (byte_bits z))).
    { apply strip_shape. rewrite <- in_rev. destruct z; try discriminate Ez; cbv; tauto. }
    destruct Hz as [k Hz]. assert (Hk : (k < 8)%nat).
    { apply (f_equal (@length bool)) in Hz. rewrite rev_length, app_length, repeat_length in Hz. cbn [length] in Hz. change (length (byte_bits z)) with 8%nat in Hz. lia. }
    rewrite Hz, <- app_assoc in Eb'. cbn [app] in Eb'. rewrite Eb', strip_false in H.
    assert (Hl : bytes_bits b = l ++ true :: repeat false k).
    { rewrite <- (rev_involutive (bytes_bits b)), Eb', rev_app_distr. cbn [rev]. rewrite rev_repeat, H, <- app_assoc. reflexivity. }
    apply bits_inj. rewrite Hl. unfold ssz_bitlist. rewrite bytes_bits_bytes, <- app_assoc. cbn [app]. do 3 f_equal.
    apply (f_equal (@length bool)) in Hl. rewrite bytes_bits_length, app_length in Hl. cbn [length] in Hl. rewrite repeat_length in Hl.
    unfold pad8. rewrite app_length. cbn [length].
    assert (D : (length b = (length l + 1 + 7) / 8)%nat) by (apply Nat.div_unique with (7 - k)%nat; lia). rewrite <- D. lia.
  - intros [H ->]. now apply unssz_bitlist_ok.
Qed.
Lemma forallb_false l : forallb negb l = true <-> l = repeat false (length l).
Proof.
  induction l as [|x l IH]; [split; reflexivity|]. cbn [forallb length repeat]. rewrite andb_true_iff, IH. destruct x; cbn [negb]; split.
  - intros [? _]. discriminate.
  - intros E. discriminate.
  - intros [_ <-]. reflexivity.
  - intros E. split; [reflexivity|]. now injection E.
Qed.
Lemma bitfield_exact n b l : unssz_bitvector n b = Some l <-> bitfield_format n l b.
Proof.
  split.
  - intros H. pose proof (unssz_bitvector_length _ _ _ H) as Hl. unfold unssz_bitvector in H. destruct (_ && _) eqn:C; [|discriminate]. injection H as <-.
    apply andb_true_iff in C as [C1 C2]. apply N.eqb_eq in C1. unfold bitfield_format. split; [exact Hl|]. split; [exact C1|].
    rewrite bytes_number. rewrite <- (firstn_skipn (N.to_nat n) (bytes_bits b)) at 1. apply forallb_false in C2. rewrite C2, bits_of_app, bits_of_false. lia.
  - intros (H1 & H2 & H3). unfold unssz_bitvector, blen. rewrite H2, N.eqb_refl.
    assert (E : bytes_bits b = l ++ repeat false (8 * length b - length l)).
    { apply bits_of_inj.
      - rewrite bytes_bits_length, app_length, repeat_length. pose proof (N.div_mod (n + 7) 8 ltac:(lia)). pose proof (N.mod_lt (n + 7) 8 ltac:(lia)). lia.
      - rewrite <- bytes_number, bits_of_app, bits_of_false. lia. }
    rewrite E, <- H1, Nat2N.id, skipn_app, skipn_all, Nat.sub_diag, firstn_app, firstn_all, Nat.sub_diag. cbn [skipn firstn app andb]. rewrite app_nil_r.
    rewrite (proj2 (forallb_false _)); [reflexivity|]. now rewrite repeat_length.
Qed.
Lemma sub_split b i n : (i + n <= length b)%nat -> firstn i b ++ sub b i n ++ skipn (i + n) b = b.
Proof. intros H. unfold sub. rewrite <- (firstn_skipn i b) at 4. f_equal. rewrite <- (firstn_skipn n (skipn i b)) at 2. f_equal. now rewrite skipn_skipn, Nat.add_comm. Qed.
Lemma data_exact b d : blen b = 128 -> unssz_data b = d <-> data_format d b.
Proof.
  intros L. unfold blen in L. split.
  - intros <-. unfold data_format, unssz_data, ssz_checkpoint_format. cbn [ad_slot ad_index ad_beacon_block_root ad_source ad_target epoch root].
    assert (S : forall i n, (i + n <= 128)%nat -> skipn i b = sub b i n ++ skipn (i + n) b).
    { intros i n H. unfold sub. rewrite <- (firstn_skipn n (skipn i b)) at 1. f_equal. now rewrite skipn_skipn, Nat.add_comm. }
    assert (U : forall i, (i + 8 <= 128)%nat -> number 8 (2 ^ 64) (le_val (sub b i 8)) (sub b i 8)).
    { intros i H. split; [apply sub_length; lia|]. rewrite number_of_le. split; [auto|]. apply le8_bound, sub_length. lia. }
    assert (G : forall i, (i + 32 <= 128)%nat -> hash32 (sub b i 32) (sub b i 32)) by (intros i H; split; [auto|apply sub_length; lia]).
    exists (sub b 0 8), (skipn 8 b). split; [apply (S 0%nat 8%nat); lia|]. split; [apply U; lia|].
    exists (sub b 8 8), (skipn 16 b). split; [apply (S 8%nat 8%nat); lia|]. split; [apply U; lia|].
    exists (sub b 16 32), (skipn 48 b). split; [apply (S 16%nat 32%nat); lia|]. split; [apply G; lia|].
    exists (sub b 48 8 ++ sub b 56 32), (skipn 88 b). split; [rewrite <- app_assoc; transitivity (sub b 48 8 ++ skipn 56 b); [apply (S 48%nat 8%nat); lia|f_equal; apply (S 56%nat 32%nat); lia]|].
    split; [exists (sub b 48 8), (sub b 56 32); split; [auto|]; split; [apply U; lia|apply G; lia]|].
    exists (sub b 88 8), (sub b 96 32). split; [|split; [apply U; lia|apply G; lia]].
    rewrite (S 88%nat 8%nat) by lia. f_equal. unfold sub. change (88 + 8)%nat with 96%nat. rewrite firstn_all2; [reflexivity|]. rewrite skipn_length. lia.
  - intros H. assert (N8 : forall x c, number 8 (2 ^ 64) x c -> c = le_bytes 8 x /\ u64 x).
    { intros x c (H1 & H2 & H3). split; [|exact H3]. rewrite number_of_le in H2. now rewrite <- H2, <- H1, le_bytes_le_val. }
    destruct H as (b1 & ? & -> & H1 & b2 & ? & -> & H2 & b3 & ? & -> & [-> H3] & ? & ? & -> & (b4 & b5 & -> & H4 & [-> H5]) & b6 & b7 & -> & H6 & [-> H7]).
    apply N8 in H1 as [-> H1], H2 as [-> H2], H4 as [-> H4], H6 as [-> H6]. destruct (unssz_data_ok d) as [_ E]; [split; auto; split; auto|].
    exact E.
Qed.
Lemma number4 x c : number 4 (2 ^ 32) x c <-> c = le_bytes 4 x /\ x < 2 ^ 32.
Proof.
  unfold number. rewrite number_of_le. split.
  - intros (H1 & H2 & H3). split; [|exact H3]. now rewrite <- H2, <- H1, le_bytes_le_val.
  - intros [-> H]. rewrite le_bytes_length, le_val_le_bytes_small by exact H. auto.
Qed.
Lemma encode_att bits d sg (cb : list bytes) : blen d = 128 -> blen sg = 96 ->
  encode_container ([PVar bits; PFix d; PFix sg] ++ map PFix cb) =
  le_bytes 4 (4 + 128 + 96 + blen (concat cb)) ++ d ++ sg ++ concat cb ++ bits.
Proof.
  intros L1 L2. unfold encode_container.
  assert (P : forall off, places off (map PFix cb) = concat cb) by (intros; induction cb as [|c cb IH]; [reflexivity|]; cbn [map places concat]; now rewrite IH).
  assert (Q : contents (map PFix cb) = []) by (clear P; induction cb as [|c cb IH]; [reflexivity|]; cbn [map contents]; exact IH).
  assert (R : places_size (map PFix cb) = blen (concat cb)) by (clear P Q; induction cb as [|c cb IH]; [reflexivity|]; cbn [map places_size fold_right place_size concat]; unfold places_size in IH; now rewrite IH, blen_app).
  cbn [app places contents]. rewrite P, Q, app_nil_r. cbn [places_size fold_right place_size] in *. unfold places_size in R. rewrite R, L1, L2, <- !app_assoc.
  do 2 f_equal. lia.
Qed.
Lemma byte_is (s c : byte) : byte_eqb s c = true <-> s = c.
Proof. apply byte_eqb_eq. Qed.
Lemma attestation_exact C a s : sane_codec C -> unssz_attestation C s = Some a <-> attestation_format C a s.
Proof.
  intros [S1 S2 S3 _]. assert (M : (max_committees C + 7) / 8 < 2 ^ 27 + 1) by (apply N.div_lt_upper_bound; lia).
  assert (Q : forall e limit bits l, bitlist_format limit l bits -> limit < 2 ^ 30 -> blen bits + e < 2 ^ 28 + e).
  { intros e limit bits l (H1 & H2 & _) H. unfold blen. rewrite H2. assert (N.of_nat (length l / 8) < 2 ^ 27 + 1) by (rewrite Nat2N.inj_div; apply N.div_lt_upper_bound; lia). lia. }
  split.
  - unfold unssz_attestation. destruct s as [|z body]; [discriminate|]. destruct (byte_eqb z x00) eqn:E0; [|destruct (byte_eqb z x01) eqn:E1; [|discriminate]].
    + apply byte_is in E0. subst z. destruct (decode_container (att_shape C false) body) as [ps|] eqn:D; [|discriminate]. apply decode_sound in D as [F <-]. unfold fits, att_shape in F.
      destruct ps as [|[?|bits] [|[d|?] [|[sg|?] [|? ?]]]]; try discriminate. cbn [map part_size app] in F. injection F as F1 F2.
      destruct (unssz_bitlist (max_per_committee C) bits) as [l|] eqn:B; [|discriminate]. destruct (sig_ok C sg) eqn:G; [|discriminate].
      intros E. injection E as <-. apply bitlist_exact in B. unfold attestation_format. cbn [att_electra aggregation_bits committee_bits att_data att_signature]. split; [auto|].
      pose proof (encode_att bits d sg [] F1 F2) as X. cbn [map app concat] in X. change (blen []) with 0 in X. rewrite N.add_0_r in X. rewrite X.
      exists [x00]; eexists; split; [reflexivity|]; split; [reflexivity|]. eexists; eexists; split; [reflexivity|]; split; [apply number4; split; [reflexivity|lia]|].
      eexists; eexists; split; [reflexivity|]; split; [now apply data_exact|]. eexists; eexists; split; [reflexivity|]; split; [split; [auto|]; split; [unfold blen in F2; lia|auto]|]. exact B.
    + apply byte_is in E1. subst z. destruct (decode_container (att_shape C true) body) as [ps|] eqn:D; [|discriminate]. apply decode_sound in D as [F <-]. unfold fits, att_shape in F.
      destruct ps as [|[?|bits] [|[d|?] [|[sg|?] [|[cb|?] [|? ?]]]]]; try discriminate. cbn [map part_size app] in F. injection F as F1 F2 F3.
      destruct (unssz_bitlist (max_per_slot C) bits) as [l|] eqn:B; [|discriminate]. destruct (unssz_bitvector (max_committees C) cb) as [c|] eqn:V; [|discriminate].
      destruct (sig_ok C sg) eqn:G; [|discriminate].
      intros E. injection E as <-. apply bitlist_exact in B. apply bitfield_exact in V. unfold attestation_format. cbn [att_electra aggregation_bits committee_bits att_data att_signature].
      pose proof (encode_att bits d sg [cb] F1 F2) as X. cbn [map app concat] in X. rewrite app_nil_r, F3 in X. rewrite X.
      exists [x01]; eexists; split; [reflexivity|]; split; [reflexivity|]. eexists; eexists; split; [reflexivity|]; split; [apply number4; split; [reflexivity|lia]|].
      eexists; eexists; split; [reflexivity|]; split; [now apply data_exact|]. eexists; eexists; split; [reflexivity|]; split; [split; [auto|]; split; [unfold blen in F2; lia|auto]|].
      eexists; eexists; split; [reflexivity|]; split; [exact V|exact B].
  - assert (D128 : forall d c, data_format d c -> blen c = 128).
    { intros d c (b1 & ? & -> & (L1 & _) & b2 & ? & -> & (L2 & _) & b3 & ? & -> & [-> L3] & ? & ? & -> & (b4 & b5 & -> & (L4 & _) & [-> L5]) & b6 & b7 & -> & (L6 & _) & [-> L7]).
      unfold blen. rewrite !app_length. lia. }
    destruct a as [el bits0 cb0 d0 sg0]. unfold attestation_format. cbn [att_electra aggregation_bits committee_bits att_data att_signature]. destruct el.
    + intros (? & ? & -> & <- & off & ? & -> & Ho & d & ? & -> & Hd & sg & ? & -> & (-> & L2 & G) & cb & bits & -> & Hc & B).
      pose proof (D128 _ _ Hd) as F1. assert (F2 : blen sg0 = 96) by (unfold blen; lia). apply number4 in Ho as [-> _].
      assert (F3 : blen cb = (max_committees C + 7) / 8) by (destruct Hc as (_ & Hc & _); exact Hc).
      pose proof (encode_att bits d sg0 [cb] F1 F2) as X. cbn [map app concat] in X. rewrite app_nil_r, F3 in X. unfold unssz_attestation. cbn [app].
      change (byte_eqb x01 x00) with false. change (byte_eqb x01 x01) with true. cbv iota. rewrite <- X, decode_complete.
      * apply (Q 0) in B as Lb; [|exact S2]. apply bitlist_exact in B. apply bitfield_exact in Hc. apply data_exact in Hd; [|exact F1]. now rewrite B, Hc, G, Hd.
      * unfold fits, att_shape. cbn [map part_size app]. congruence.
      * rewrite X. unfold blen in *. rewrite !app_length, le_bytes_length. apply (Q 0) in B as Lb; [|exact S2]. lia.
    + intros (-> & ? & ? & -> & <- & off & ? & -> & Ho & d & ? & -> & Hd & sg & bits & -> & (-> & L2 & G) & B).
      pose proof (D128 _ _ Hd) as F1. assert (F2 : blen sg0 = 96) by (unfold blen; lia). apply number4 in Ho as [-> _].
      pose proof (encode_att bits d sg0 [] F1 F2) as X. cbn [map app concat] in X. change (blen []) with 0 in X. rewrite N.add_0_r in X. unfold unssz_attestation. cbn [app].
      change (byte_eqb x00 x00) with true. cbv iota. rewrite <- X, decode_complete.
      * apply bitlist_exact in B. apply data_exact in Hd; [|exact F1]. now rewrite B, G, Hd.
      * unfold fits, att_shape. cbn [map part_size app]. congruence.
      * rewrite X. unfold blen in *. rewrite !app_length, le_bytes_length. apply (Q 0) in B as Lb; [|exact S1]. lia.
Qed.
Lemma ex_attestation C w : sane_codec C -> w <= 64 ->
  exactly (p_attestation C w) (fun a b => exists s, attestation_format C a s /\ byte_string w s b).
Proof.
  intros S Hw. eapply ex_conv; [apply (ex_check (p_bytes w) (unssz_attestation C)); now apply ex_bytes|]. cbv beta. intros a b. split.
  - intros (s & H & E). exists s. split; [now apply attestation_exact|exact H].
  - intros (s & H & E). exists s. split; [exact E|now apply attestation_exact].
Qed.
Lemma ex_input C w : sane_codec C -> 32 <= w <= 64 -> exactly (p_input C w) (input_format C w).
Proof.
  intros S Hw. eapply ex_conv.
  { do 3 (apply ex_bind; [now apply ex_multiproof|intros ?]).
    apply ex_bind; [apply ex_seq; [lia|apply ex_key|apply solid_key]|intros ?].
    apply ex_bind; [apply ex_map; [lia|apply (ex_int 8)|now apply ex_patch|apply solid_number; lia]|intros ?].
    apply ex_bind; [apply ex_state; lia|intros ?].
    apply ex_bind; [apply ex_seq; [lia|apply ex_attestation; [exact S|lia]|intros a b (s & _ & H); eapply solid_bytes; exact H]|intros ?].
    apply ex_bind; [apply ex_seq; [lia|now apply ex_multiproof|apply solid_multiproof]|intros ?]. apply ex_ret. }
  cbv beta. change (2 ^ (8 * N.of_nat 8)) with (2 ^ 64). intros [v1 v2 v3 v4 v5 v6 v7 v8] b. unfold input_format.
  cbn [gi_beacon_block gi_beacon_state gi_active_validators gi_public_keys gi_patches gi_consensus_state gi_attestations gi_block_slot_proofs]. split.
  - intros (? & b1 & ? & -> & H1 & ? & b2 & ? & -> & H2 & ? & b3 & ? & -> & H3 & ? & b4 & ? & -> & H4 & ? & b5 & ? & -> & H5 & ? & b6 & ? & -> & H6 & ? & b7 & ? & -> & H7 & ? & b8 & ? & -> & H8 & E & ->).
    injection E as <- <- <- <- <- <- <- <-. rewrite app_nil_r. repeat (eexists; eexists; split; [reflexivity|]; split; [eassumption|]). eassumption.
  - intros (b1 & ? & -> & H1 & b2 & ? & -> & H2 & b3 & ? & -> & H3 & b4 & ? & -> & H4 & b5 & ? & -> & H5 & b6 & ? & -> & H6 & b7 & b8 & -> & H7 & H8).
    exists v1; eexists; eexists; split; [reflexivity|]; split; [exact H1|]. exists v2; eexists; eexists; split; [reflexivity|]; split; [exact H2|].
    exists v3; eexists; eexists; split; [reflexivity|]; split; [exact H3|]. exists v4; eexists; eexists; split; [reflexivity|]; split; [exact H4|].
    exists v5; eexists; eexists; split; [reflexivity|]; split; [exact H5|]. exists v6; eexists; eexists; split; [reflexivity|]; split; [exact H6|].
    exists v7; eexists; eexists; split; [reflexivity|]; split; [exact H7|]. exists v8, b8, []. rewrite app_nil_r. auto.
Qed.
