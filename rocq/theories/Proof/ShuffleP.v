(** The swap-or-not shuffle, position by position. *)
From Coq Require Import List ZArith NArith Arith Bool Lia Permutation.
From Coq Require Import ZifyBool ZifyNat ZifyN.
From Coq.Init Require Import Byte.
From Verif.Model Require Import Base Types Shuffle.
From Verif.Spec Require Import ShuffleSpec.
From Verif.Proof Require Import BaseLemmas.
Import ListNotations.
Open Scope N_scope.
Local Ltac Zify.zify_post_hook ::= Z.div_mod_to_equations.

Lemma upd_length {A} (l : list A) i x : length (upd l i x) = length l.
Proof. revert i. induction l; intros [|i]; cbn; auto. Qed.
Lemma upd_nth {A} (l : list A) i x k : (i < length l)%nat ->
  nth_error (upd l i x) k = if Nat.eqb k i then Some x else nth_error l k.
Proof.
  revert i k. induction l as [|a l IH]; intros i k Hi; [cbn in Hi; lia|].
  destruct i as [|i], k as [|k]; cbn [upd nth_error Nat.eqb]; auto. apply IH. cbn in Hi. lia.
Qed.
Lemma swap_length {A} (l : list A) i j : length (swap l i j) = length l.
Proof.
  unfold swap. destruct (nth_error l (N.to_nat i)); auto. destruct (nth_error l (N.to_nat j)); auto.
  now rewrite !upd_length.
Qed.
(** The transposition of two positions. *)
Definition tr (i j k : nat) : nat := if Nat.eqb k j then i else if Nat.eqb k i then j else k.
Lemma swap_nth {A} (l : list A) i j k : (N.to_nat i < length l)%nat -> (N.to_nat j < length l)%nat ->
  nth_error (swap l i j) k = nth_error l (tr (N.to_nat i) (N.to_nat j) k).
Proof.
  intros Hi Hj. unfold swap, tr.
  destruct (nth_error l (N.to_nat i)) as [a|] eqn:Ei; [|apply nth_error_None in Ei; lia].
  destruct (nth_error l (N.to_nat j)) as [b|] eqn:Ej; [|apply nth_error_None in Ej; lia].
  rewrite upd_nth by (now rewrite upd_length). rewrite upd_nth by auto.
  destruct (Nat.eqb k (N.to_nat j)); auto. destruct (Nat.eqb k (N.to_nat i)); auto.
Qed.
Lemma swap_permutes {A} (l : list A) i j : Permutation l (swap l i j).
Proof.
  destruct (Nat.ltb_spec (N.to_nat i) (length l)) as [Hi|Hi].
  - destruct (Nat.ltb_spec (N.to_nat j) (length l)) as [Hj|Hj].
    + apply Permutation_nth_error. split; [now rewrite swap_length|].
      exists (tr (N.to_nat i) (N.to_nat j)). split.
      * intros x y. unfold tr. intros E.
        destruct (Nat.eqb_spec x (N.to_nat j)), (Nat.eqb_spec y (N.to_nat j)),
                 (Nat.eqb_spec x (N.to_nat i)), (Nat.eqb_spec y (N.to_nat i)); lia.
      * intros k. now apply swap_nth.
    + unfold swap. destruct (nth_error l (N.to_nat i)); auto.
      rewrite (proj2 (nth_error_None l (N.to_nat j)) Hj). auto.
  - unfold swap. rewrite (proj2 (nth_error_None l (N.to_nat i)) Hi). auto.
Qed.

Lemma land255 j : N.land j 255 = j mod 256.
Proof. exact (N.land_ones j 8). Qed.
Lemma land7 j : N.land j 7 = j mod 8.
Proof. exact (N.land_ones j 3). Qed.
Lemma shiftr8 j : N.shiftr j 8 = j / 256.
Proof. exact (N.shiftr_div_pow2 j 8). Qed.
Lemma shiftr3 j : N.shiftr j 3 = j / 8.
Proof. exact (N.shiftr_div_pow2 j 3). Qed.
Lemma shiftr1 j : N.shiftr j 1 = j / 2.
Proof. exact (N.shiftr_div_pow2 j 1). Qed.
Local Opaque N.shiftr.

Section Rounds.
  Context {A : Type} (H : bytes -> bytes) (seed : bytes).

  (** The bit that decides about the pair whose upper position is [p]. *)
  Definition decides (r p : N) : bool :=
    N.testbit (Byte.to_N (source_byte (source_hash H seed r (p / 256)) p)) (p mod 8).

  Lemma inner_length r n : forall i j s b (l : list A), length (inner H seed r n i j s b l) = length l.
  Proof.
    induction n as [|n IH]; intros; cbn [inner]; auto. rewrite IH.
    destruct (N.testbit _ _); auto. apply swap_length.
  Qed.
  Lemma inner_permutes r n : forall i j s b (l : list A), Permutation l (inner H seed r n i j s b l).
  Proof.
    induction n as [|n IH]; intros; cbn [inner]; auto. eapply Permutation_trans; [|apply IH].
    destruct (N.testbit _ _); auto. apply swap_permutes.
  Qed.

  (** Where the element at [k] comes from after mirroring [n] pairs around the centre of [i] and [j]. *)
  Definition mirror (r i j n k : N) : N :=
    if ((i <=? k) && (k <? i + n)) || ((j <? k + n) && (k <=? j))
    then if decides r (N.max k (i + j - k)) then i + j - k else k
    else k.

  Lemma inner_nth r n : forall i j s b (l : list A) k,
    i + 2 * N.of_nat n <= j + 1 -> j < N.of_nat (length l) ->
    (j mod 256 = 255 \/ s = source_hash H seed r (j / 256)) ->
    (j mod 8 = 7 \/ b = source_byte (source_hash H seed r (j / 256)) j) ->
    nth_error (inner H seed r n i j s b l) (N.to_nat k) = nth_error l (N.to_nat (mirror r i j (N.of_nat n) k)).
  Proof.
    induction n as [|n IH]; intros i j s b l k Hij Hj Hs Hb.
    { cbn [inner]. unfold mirror. replace (((i <=? k) && (k <? i + N.of_nat 0)) || ((j <? k + N.of_nat 0) && (k <=? j))) with false by lia. reflexivity. }
    cbn [inner]. rewrite land255, land7, shiftr8.
    set (s' := if j mod 256 =? 255 then source_hash H seed r (j / 256) else s).
    assert (Es : s' = source_hash H seed r (j / 256)).
    { unfold s'. destruct (N.eqb_spec (j mod 256) 255); auto. destruct Hs; auto. contradiction. }
    set (b' := if j mod 8 =? 7 then source_byte s' j else b).
    assert (Eb : b' = source_byte (source_hash H seed r (j / 256)) j).
    { unfold b'. rewrite Es. destruct (N.eqb_spec (j mod 8) 7); auto. destruct Hb; auto. contradiction. }
    clearbody s' b'. subst s' b'.
    assert (Ed : N.testbit (Byte.to_N (source_byte (source_hash H seed r (j / 256)) j)) (j mod 8) = decides r j) by reflexivity.
    rewrite Ed.
    rewrite IH.
    2: lia.
    2: { destruct (decides r j); [rewrite swap_length|]; lia. }
    2: { destruct (N.eq_dec ((j - 1) mod 256) 255); auto. right. f_equal. lia. }
    2: { destruct (N.eq_dec ((j - 1) mod 8) 7); auto. right. unfold source_byte.
         rewrite !land255, !shiftr3. replace ((j - 1) / 256) with (j / 256) by lia.
         replace ((j - 1) mod 256 / 8) with (j mod 256 / 8) by lia. reflexivity. }
    assert (Es : i + 1 + (j - 1) = i + j) by lia.
    destruct (N.eq_dec k i) as [->|Hki].
    { assert (E1 : mirror r (i + 1) (j - 1) (N.of_nat n) i = i).
      { unfold mirror. replace (((i + 1 <=? i) && (i <? i + 1 + N.of_nat n)) || ((j - 1 <? i + N.of_nat n) && (i <=? j - 1))) with false by lia. auto. }
      assert (E2 : mirror r i j (N.of_nat (S n)) i = if decides r j then j else i).
      { unfold mirror. replace (((i <=? i) && (i <? i + N.of_nat (S n))) || ((j <? i + N.of_nat (S n)) && (i <=? j))) with true by lia.
        replace (i + j - i) with j by lia. replace (N.max i j) with j by lia. auto. }
      rewrite E1, E2. destruct (decides r j); auto. rewrite swap_nth by lia.
      unfold tr. destruct (Nat.eqb_spec (N.to_nat i) (N.to_nat j)); [f_equal; lia|].
      now rewrite Nat.eqb_refl. }
    destruct (N.eq_dec k j) as [->|Hkj].
    { assert (E1 : mirror r (i + 1) (j - 1) (N.of_nat n) j = j).
      { unfold mirror. replace (((i + 1 <=? j) && (j <? i + 1 + N.of_nat n)) || ((j - 1 <? j + N.of_nat n) && (j <=? j - 1))) with false by lia. auto. }
      assert (E2 : mirror r i j (N.of_nat (S n)) j = if decides r j then i else j).
      { unfold mirror. replace (((i <=? j) && (j <? i + N.of_nat (S n))) || ((j <? j + N.of_nat (S n)) && (j <=? j))) with true by lia.
        replace (i + j - j) with i by lia. replace (N.max j i) with j by lia. auto. }
      rewrite E1, E2. destruct (decides r j); auto. rewrite swap_nth by lia.
      unfold tr. now rewrite Nat.eqb_refl. }
    assert (E : mirror r (i + 1) (j - 1) (N.of_nat n) k = mirror r i j (N.of_nat (S n)) k).
    { unfold mirror. rewrite Es.
      replace (((i + 1 <=? k) && (k <? i + 1 + N.of_nat n)) || ((j - 1 <? k + N.of_nat n) && (k <=? j - 1)))
        with (((i <=? k) && (k <? i + N.of_nat (S n))) || ((j <? k + N.of_nat (S n)) && (k <=? j))) by lia.
      reflexivity. }
    rewrite <- E. set (q := mirror r (i + 1) (j - 1) (N.of_nat n) k).
    assert (Hq : q <> i /\ q <> j).
    { unfold q, mirror. rewrite Es.
      destruct (((i + 1 <=? k) && (k <? i + 1 + N.of_nat n)) || ((j - 1 <? k + N.of_nat n) && (k <=? j - 1))) eqn:B; [|lia].
      destruct (decides r (N.max k (i + j - k))); lia. }
    clearbody q. destruct (decides r j); auto. rewrite swap_nth by lia. f_equal. unfold tr.
    destruct (Nat.eqb_spec (N.to_nat q) (N.to_nat j)); [lia|].
    destruct (Nat.eqb_spec (N.to_nat q) (N.to_nat i)); lia.
  Qed.

  Lemma half_nth r i j n (l : list A) k : i + 2 * n <= j + 1 -> j < N.of_nat (length l) ->
    nth_error (half H seed r i j n l) (N.to_nat k) = nth_error l (N.to_nat (mirror r i j n k)).
  Proof.
    intros Hn Hj. unfold half. rewrite shiftr8. rewrite inner_nth; try rewrite N2Nat.id; auto.
  Qed.
  Lemma half_length r i j n (l : list A) : length (half H seed r i j n l) = length l.
  Proof. apply inner_length. Qed.
  Lemma half_permutes r i j n (l : list A) : Permutation l (half H seed r i j n l).
  Proof. apply inner_permutes. Qed.

  Lemma round_length bits r (l : list A) : length (round H seed bits r l) = length l.
  Proof. unfold round. now rewrite !half_length. Qed.
  Lemma round_permutes bits r (l : list A) : Permutation l (round H seed bits r l).
  Proof. unfold round. eapply Permutation_trans; apply half_permutes. Qed.
  Lemma rounds_length bits n : forall l : list A, length (rounds_down H seed bits n l) = length l.
  Proof. induction n as [|n IH]; intros; cbn [rounds_down]; auto. now rewrite IH, round_length. Qed.
  Lemma rounds_permutes bits n : forall l : list A, Permutation l (rounds_down H seed bits n l).
  Proof.
    induction n as [|n IH]; intros; cbn [rounds_down]; auto.
    eapply Permutation_trans; [apply round_permutes|apply IH].
  Qed.

  (** The bit the specification reads. *)
  Lemma decides_spec r p :
    decides r p = negb (Byte.to_N (nth (N.to_nat (p mod 256 / 8)) (H (seed ++ le_bytes 1 r ++ le_bytes 4 (p / 256))) x00) / 2 ^ (p mod 8) mod 2 =? 0).
  Proof.
    unfold decides, source_byte, source_hash. rewrite land255, shiftr3. cbn [le_bytes].
    rewrite N.testbit_eqb. set (v := _ / 2 ^ (p mod 8)). clearbody v.
    pose proof (N.mod_lt v 2 ltac:(lia)). destruct (N.eqb_spec (v mod 2) 1), (N.eqb_spec (v mod 2) 0); try reflexivity; lia.
  Qed.
  Lemma raw_pivot_lt r : raw_pivot H seed r < 2 ^ 64.
  Proof.
    unfold raw_pivot. pose proof (le_val_bound (firstn 8 (H (seed ++ [byte_of_N r])))) as L.
    eapply N.lt_le_trans; [exact L|]. change (2 ^ 64) with (256 ^ 8). apply N.pow_le_mono_r; [lia|].
    pose proof (firstn_le_length 8 (H (seed ++ [byte_of_N r]))). lia.
  Qed.

  Lemma round_nth bits r (l : list A) k : 64 <= bits -> k < N.of_nat (length l) ->
    nth_error (round H seed bits r l) (N.to_nat k) =
    nth_error l (N.to_nat (shuffle_round H seed (N.of_nat (length l)) r k)) /\
    shuffle_round H seed (N.of_nat (length l)) r k < N.of_nat (length l).
  Proof.
    intros Hb Hk. set (n := N.of_nat (length l)) in *. unfold round. fold n.
    assert (Ep : (raw_pivot H seed r mod 2 ^ bits) mod n = raw_pivot H seed r mod n).
    { f_equal. apply N.mod_small. eapply N.lt_le_trans; [apply raw_pivot_lt|]. apply N.pow_le_mono_r; lia. }
    rewrite Ep. unfold shuffle_round.
    change (le_val (firstn 8 (H (seed ++ le_bytes 1 r)))) with (raw_pivot H seed r).
    assert (Hp : raw_pivot H seed r mod n < n) by (apply N.mod_lt; lia).
    set (p := raw_pivot H seed r mod n) in *. clearbody p. clear Ep. rewrite !shiftr1.
    assert (Ef : (p + n - k) mod n = if k <=? p then p - k else p + n - k).
    { destruct (N.leb_spec k p).
      - replace (p + n - k) with (p - k + 1 * n) by lia. rewrite N.mod_add by lia. apply N.mod_small. lia.
      - apply N.mod_small. lia. }
    rewrite Ef. set (f := if k <=? p then p - k else p + n - k).
    assert (Hf : f < n) by (unfold f; destruct (N.leb_spec k p); lia).
    pose proof (decides_spec r (N.max k f)) as Hd.
    match goal with |- context [if ?c =? 0 then k else f] => set (bit := c) in * end.
    assert (Eb : (if bit =? 0 then k else f) = if decides r (N.max k f) then f else k).
    { rewrite Hd. destruct (bit =? 0); reflexivity. }
    rewrite Eb. clear Eb Hd. clearbody bit. split; [|destruct (decides r (N.max k f)); lia].
    rewrite half_nth by (rewrite ?half_length; fold n; lia).
    rewrite half_nth by (fold n; lia).
    f_equal. f_equal. unfold f.
    destruct (N.leb_spec k p) as [Hkp|Hkp].
    - assert (E2 : mirror r (p + 1) (n - 1) ((p + n + 1) / 2 - (p + 1)) k = k).
      { unfold mirror. replace (((p + 1 <=? k) && (k <? p + 1 + ((p + n + 1) / 2 - (p + 1)))) || ((n - 1 <? k + ((p + n + 1) / 2 - (p + 1))) && (k <=? n - 1))) with false by lia. auto. }
      rewrite E2. unfold mirror. replace (0 + p - k) with (p - k) by lia.
      destruct (((0 <=? k) && (k <? 0 + (p + 1) / 2)) || ((p <? k + (p + 1) / 2) && (k <=? p))) eqn:B; auto.
      assert (k = p - k) by lia. destruct (decides r (N.max k (p - k))); lia.
    - assert (E2 : mirror r (p + 1) (n - 1) ((p + n + 1) / 2 - (p + 1)) k = if decides r (N.max k (p + n - k)) then p + n - k else k).
      { unfold mirror. replace (p + 1 + (n - 1) - k) with (p + n - k) by lia.
        destruct (((p + 1 <=? k) && (k <? p + 1 + ((p + n + 1) / 2 - (p + 1)))) || ((n - 1 <? k + ((p + n + 1) / 2 - (p + 1))) && (k <=? n - 1))) eqn:B; auto.
        assert (k = p + n - k) by lia. destruct (decides r (N.max k (p + n - k))); lia. }
      rewrite E2. set (q := if decides r (N.max k (p + n - k)) then p + n - k else k).
      assert (Hq : p < q) by (unfold q; destruct (decides r (N.max k (p + n - k))); lia). clearbody q.
      unfold mirror. replace (((0 <=? q) && (q <? 0 + (p + 1) / 2)) || ((p <? q + (p + 1) / 2) && (q <=? p))) with false by lia. auto.
  Qed.

  Lemma rounds_nth bits n : forall (l : list A) k, 64 <= bits -> k < N.of_nat (length l) ->
    nth_error (rounds_down H seed bits n l) (N.to_nat k) =
    nth_error l (N.to_nat (compute_shuffled_index H seed (N.of_nat (length l)) n k)) /\
    compute_shuffled_index H seed (N.of_nat (length l)) n k < N.of_nat (length l).
  Proof.
    induction n as [|n IH]; intros l k Hb Hk; cbn [rounds_down compute_shuffled_index]; auto.
    destruct (IH (round H seed bits (N.of_nat n) l) k Hb) as [E L]; [now rewrite round_length|].
    rewrite round_length in E, L. rewrite E. now apply round_nth.
  Qed.
End Rounds.
