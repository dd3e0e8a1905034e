From Coq Require Import String List Arith ZArith NArith Bool Lia Sorted.
From Coq Require Import ZifyBool ZifyNat ZifyN.
From Coq.Init Require Import Byte.
From Verif.Model Require Import Base Types ConsensusState Multiproof StateFile GuestReader InputCodec.
From Verif.Spec Require Import InputCodecSpec.
From Verif.Proof Require Import BaseLemmas StateFileP.
Import ListNotations.
Open Scope list_scope.
Open Scope N_scope.
Notation length := List.length.

(** ** Parsers *)
(** [p] reads [x] back from its encoding, whatever follows. *)
Definition rt {A} (p : parser A) (e : bytes) (x : A) : Prop := forall r, p (e ++ r) = Some (x, r).
(** [p] does not look behind what it reads. *)
Definition mono {A} (p : parser A) : Prop := forall b x r t, p b = Some (x, r) -> p (b ++ t) = Some (x, r ++ t).
(** Everything [p] returns satisfies [P]. *)
Definition gives {A} (p : parser A) (P : A -> Prop) : Prop := forall b x r, p b = Some (x, r) -> P x.
(** [q] reads what [p] reads. *)
Definition ext {A} (p q : parser A) : Prop := forall b x r, p b = Some (x, r) -> q b = Some (x, r).

Lemma pbind_some {A B} (p : parser A) (f : A -> parser B) b y r : pbind p f b = Some (y, r) <->
  exists x r', p b = Some (x, r') /\ f x r' = Some (y, r).
Proof.
  unfold pbind. split.
  - destruct (p b) as [[x r']|]; [eauto|discriminate].
  - intros (x & r' & -> & H). exact H.
Qed.
Lemma rt_bind {A B} (p : parser A) (f : A -> parser B) e e' x y : rt p e x -> rt (f x) e' y -> rt (pbind p f) (e ++ e') y.
Proof. intros H K r. unfold pbind. rewrite <- app_assoc, H. apply K. Qed.
Lemma rt_ret {A} (x : A) : rt (pret x) [] x.
Proof. intros r. reflexivity. Qed.
Lemma rt_bind_ret {A B} (p : parser A) (f : A -> parser B) e x y : rt p e x -> (forall r, f x r = Some (y, r)) -> rt (pbind p f) e y.
Proof. intros H K r. unfold pbind. rewrite H. apply K. Qed.
Lemma mono_bind {A B} (p : parser A) (f : A -> parser B) : mono p -> (forall x, mono (f x)) -> mono (pbind p f).
Proof. intros H K b y r t E. apply pbind_some in E as (x & r' & E1 & E2). apply pbind_some. exists x, (r' ++ t). split; [now apply H|now apply K]. Qed.
Lemma mono_ret {A} (x : A) : mono (pret x).
Proof. intros b y r t E. injection E as <- <-. reflexivity. Qed.
Lemma mono_fail {A} : mono (@pfail A).
Proof. intros b y r t E. discriminate. Qed.
Lemma mono_if {A} (c : bool) (p q : parser A) : mono p -> mono q -> mono (if c then p else q).
Proof. destruct c; auto. Qed.
Lemma gives_bind {A B} (p : parser A) (f : A -> parser B) P Q : gives p P -> (forall x, P x -> gives (f x) Q) -> gives (pbind p f) Q.
Proof. intros H K b y r E. apply pbind_some in E as (x & r' & E1 & E2). eapply K; [eapply H|]; eauto. Qed.
Lemma gives_ret {A} (x : A) (P : A -> Prop) : P x -> gives (pret x) P.
Proof. intros H b y r E. injection E as <- <-. exact H. Qed.
Lemma gives_fail {A} (P : A -> Prop) : gives pfail P.
Proof. intros b y r E. discriminate. Qed.
Lemma gives_if {A} (c : bool) (p q : parser A) P : (c = true -> gives p P) -> (c = false -> gives q P) -> gives (if c then p else q) P.
Proof. destruct c; auto. Qed.
Lemma gives_weaken {A} (p : parser A) (P Q : A -> Prop) : gives p P -> (forall x, P x -> Q x) -> gives p Q.
Proof. intros H K b x r E. eapply K, H, E. Qed.
Lemma ext_bind {A B} (p q : parser A) (f g : A -> parser B) : ext p q -> (forall x, ext (f x) (g x)) -> ext (pbind p f) (pbind q g).
Proof. intros H K b y r E. apply pbind_some in E as (x & r' & E1 & E2). apply pbind_some. exists x, r'. split; [now apply H|now apply K]. Qed.
Lemma ext_refl {A} (p : parser A) : ext p p.
Proof. intros b x r E. exact E. Qed.
Lemma ext_fail {A} (p : parser A) : ext pfail p.
Proof. intros b x r E. discriminate. Qed.

(** ** Primitives *)
Lemma rt_take n b : blen b = n -> rt (take n) b b.
Proof. intros <- r. unfold take. rewrite blen_app. replace (blen b + blen r <? blen b) with false by lia. now rewrite firstn_blen, skipn_blen. Qed.
Lemma mono_take n : mono (take n).
Proof.
  intros b x r t. unfold take. destruct (N.ltb_spec (blen b) n) as [|H]; [discriminate|]. intros E. injection E as <- <-.
  rewrite blen_app. replace (blen b + blen t <? n) with false by lia. unfold blen in H. rewrite firstn_app, skipn_app.
  replace (N.to_nat n - length b)%nat with 0%nat by lia. cbn [firstn skipn]. now rewrite app_nil_r.
Qed.
Lemma gives_take n : gives (take n) (fun b => blen b = n).
Proof. intros b x r. unfold take. destruct (N.ltb_spec (blen b) n) as [|H]; [discriminate|]. intros E. injection E as <- <-. now apply blen_firstn. Qed.
Lemma pow256 k : 256 ^ N.of_nat k = 2 ^ (8 * N.of_nat k).
Proof. change 256 with (2 ^ 8). now rewrite <- N.pow_mul_r. Qed.
Lemma blen_e_int k x : blen (e_int k x) = N.of_nat k.
Proof. unfold blen, e_int. now rewrite le_bytes_length. Qed.
Lemma rt_int k x : x < 2 ^ (8 * N.of_nat k) -> rt (p_int k) (e_int k x) x.
Proof.
  intros H. unfold p_int. eapply rt_bind_ret; [apply rt_take, blen_e_int|]. intros r. unfold pret, e_int.
  rewrite le_val_le_bytes_small by now rewrite pow256. reflexivity.
Qed.
Lemma mono_int k : mono (p_int k).
Proof. apply mono_bind; [apply mono_take|intros; apply mono_ret]. Qed.
Lemma gives_int k : gives (p_int k) (fun x => x < 2 ^ (8 * N.of_nat k)).
Proof.
  eapply gives_bind; [apply gives_take|]. intros b Hb. apply gives_ret. rewrite <- pow256. pose proof (le_val_bound b). unfold blen in Hb.
  assert (length b = k) by lia. congruence.
Qed.
Lemma two_w w : w <= 64 -> 2 ^ w <= 2 ^ 64.
Proof. intros. apply N.pow_le_mono_r; lia. Qed.
Lemma rt_usize w x : w <= 64 -> x < 2 ^ w -> rt (p_usize w) (e_int 8 x) x.
Proof.
  intros Hw H. unfold p_usize. eapply rt_bind_ret; [apply rt_int; pose proof (two_w w Hw); change (8 * N.of_nat 8) with 64; lia|].
  intros r. replace (x <? 2 ^ w) with true by lia. reflexivity.
Qed.
Lemma mono_usize w : mono (p_usize w).
Proof. apply mono_bind; [apply mono_int|]. intros. apply mono_if; [apply mono_ret|apply mono_fail]. Qed.
Lemma gives_usize w : gives (p_usize w) (fun x => x < 2 ^ w).
Proof. eapply gives_bind; [apply gives_int|]. intros x _. apply gives_if; intros; [apply gives_ret; lia|apply gives_fail]. Qed.
Lemma ext_usize w w' : w <= w' -> ext (p_usize w) (p_usize w').
Proof.
  intros H. apply ext_bind; [apply ext_refl|]. intros x b y r E. destruct (N.ltb_spec x (2 ^ w)); [|discriminate].
  assert (2 ^ w <= 2 ^ w') by (apply N.pow_le_mono_r; lia). now replace (x <? 2 ^ w') with true by lia.
Qed.
Lemma rt_bytes w b : w <= 64 -> blen b < 2 ^ w -> rt (p_bytes w) (e_bytes b) b.
Proof. intros Hw H. eapply rt_bind; [apply rt_usize; eauto|]. now apply rt_take. Qed.
Lemma mono_bytes w : mono (p_bytes w).
Proof. apply mono_bind; [apply mono_usize|intros; apply mono_take]. Qed.
Lemma gives_bytes w : gives (p_bytes w) (fun b => blen b < 2 ^ w).
Proof. eapply gives_bind; [apply gives_usize|]. cbv beta. intros n Hn. eapply gives_weaken; [apply gives_take|]. cbv beta. intros x ->. exact Hn. Qed.
Lemma ext_bytes w w' : w <= w' -> ext (p_bytes w) (p_bytes w').
Proof. intros. apply ext_bind; [now apply ext_usize|intros; apply ext_refl]. Qed.
Lemma rt_b256 w b : 5 < w <= 64 -> b32 b -> rt (p_b256 w) (e_b256 b) b.
Proof.
  intros Hw H. unfold b32 in H. assert (Hb : blen b = 32) by (unfold blen; lia).
  assert (64 <= 2 ^ w) by (change 64 with (2 ^ 6); apply N.pow_le_mono_r; lia). unfold p_b256. eapply rt_bind_ret; [apply rt_bytes; lia|].
  intros r. rewrite Hb. reflexivity.
Qed.
Lemma mono_b256 w : mono (p_b256 w).
Proof. apply mono_bind; [apply mono_bytes|]. intros. apply mono_if; [apply mono_ret|apply mono_fail]. Qed.
Lemma gives_b256 w : gives (p_b256 w) b32.
Proof. eapply gives_bind; [apply gives_bytes|]. intros b _. apply gives_if; intros; [apply gives_ret; unfold b32, blen in *; lia|apply gives_fail]. Qed.
Lemma ext_b256 w w' : w <= w' -> ext (p_b256 w) (p_b256 w').
Proof. intros. apply ext_bind; [now apply ext_bytes|intros; apply ext_refl]. Qed.

(** ** Sequences and maps *)
Lemma rt_repeat {A} (p : parser A) (e : A -> bytes) l : Forall (fun x => rt p (e x) x) l -> rt (p_repeat p (length l)) (flat_map e l) l.
Proof.
  induction 1 as [|x l H _ IH]; cbn [length p_repeat flat_map]; [apply rt_ret|].
  eapply rt_bind; [exact H|]. eapply rt_bind_ret; [exact IH|]. reflexivity.
Qed.
Lemma blen_flat_map {A} (e : A -> bytes) l : Forall (fun x => 0 < blen (e x)) l -> N.of_nat (length l) <= blen (flat_map e l).
Proof. induction 1 as [|x l H _ IH]; cbn [length flat_map]; [lia|]. rewrite blen_app. lia. Qed.
Lemma rt_seq {A} w (p : parser A) (e : A -> bytes) l : w <= 64 -> short w l -> Forall (fun x => rt p (e x) x /\ 0 < blen (e x)) l ->
  rt (p_seq w p) (e_seq e l) l.
Proof.
  intros Hw Hs H. eapply rt_bind; [apply rt_usize; eauto|]. intros r.
  assert (H1 : Forall (fun x => rt p (e x) x) l) by (eapply Forall_impl; [|exact H]; intros ? []; auto).
  assert (H2 : Forall (fun x => 0 < blen (e x)) l) by (eapply Forall_impl; [|exact H]; intros ? []; auto).
  apply blen_flat_map in H2. rewrite blen_app. replace (blen (flat_map e l) + blen r <? N.of_nat (length l)) with false by lia.
  rewrite Nat2N.id. now apply rt_repeat.
Qed.
Lemma mono_repeat {A} (p : parser A) k : mono p -> mono (p_repeat p k).
Proof. intros H. induction k as [|k IH]; cbn [p_repeat]; [apply mono_ret|]. apply mono_bind; [exact H|intros]. apply mono_bind; [exact IH|intros; apply mono_ret]. Qed.
Lemma mono_seq {A} w (p : parser A) : mono p -> mono (p_seq w p).
Proof.
  intros H. apply mono_bind; [apply mono_usize|]. intros n b x r t. destruct (N.ltb_spec (blen b) n) as [|L]; [discriminate|].
  intros E. rewrite blen_app. replace (blen b + blen t <? n) with false by lia. now apply mono_repeat.
Qed.
Lemma gives_repeat {A} (p : parser A) P k : gives p P -> gives (p_repeat p k) (fun l => length l = k /\ Forall P l).
Proof.
  intros H. induction k as [|k IH]; cbn [p_repeat]; [apply gives_ret; auto|]. eapply gives_bind; [exact H|]. intros x Hx.
  eapply gives_bind; [exact IH|]. intros l [Hl Hf]. apply gives_ret. split; [cbn [length]; lia|constructor; auto].
Qed.
Lemma gives_seq {A} w (p : parser A) P : gives p P -> gives (p_seq w p) (fun l => short w l /\ Forall P l).
Proof.
  intros H. eapply gives_bind; [apply gives_usize|]. intros n Hn b x r. destruct (N.ltb_spec (blen b) n); [discriminate|].
  intros E. apply (gives_repeat _ P) in E; [|exact H]. destruct E as [E1 E2]. split; [cbv beta in Hn; unfold short; lia|exact E2].
Qed.
Lemma ext_repeat {A} (p q : parser A) k : ext p q -> ext (p_repeat p k) (p_repeat q k).
Proof. intros H. induction k as [|k IH]; cbn [p_repeat]; [apply ext_refl|]. apply ext_bind; [exact H|intros]. apply ext_bind; [exact IH|intros; apply ext_refl]. Qed.
Lemma ext_seq {A} w w' (p q : parser A) : w <= w' -> ext p q -> ext (p_seq w p) (p_seq w' q).
Proof. intros Hw H. apply ext_bind; [now apply ext_usize|]. intros n b x r. destruct (blen b <? n); [discriminate|]. now apply ext_repeat. Qed.
Lemma bm_insert_length {V} (m : bmap V) k v : (length (bm_insert m k v) <= S (length m))%nat.
Proof. induction m as [|[k' v'] m IH]; cbn [bm_insert length]; [lia|]. destruct (k <? k'); [cbn [length]; lia|]. destruct (k =? k'); cbn [length]; lia. Qed.
Lemma bm_of_list_length {V} (l : list (N * V)) : (length (bm_of_list l) <= length l)%nat.
Proof.
  unfold bm_of_list. assert (H : forall m : bmap V, (length (fold_left (fun m kv => bm_insert m (fst kv) (snd kv)) l m) <= length m + length l)%nat).
  { induction l as [|x l IH]; intros m; cbn [fold_left length]; [lia|]. specialize (IH (bm_insert m (fst x) (snd x))). pose proof (bm_insert_length m (fst x) (snd x)). lia. }
  apply (H []).
Qed.
Lemma rt_map {V} w (p : parser N) (q : parser V) e f m : w <= 64 -> short w m -> is_map m ->
  Forall (fun kv => rt p (e (fst kv)) (fst kv) /\ rt q (f (snd kv)) (snd kv) /\ 0 < blen (e (fst kv))) m ->
  rt (p_map w p q) (e_map e f m) m.
Proof.
  intros Hw Hs Hm H. eapply rt_bind_ret.
  - apply rt_seq; [exact Hw|exact Hs|]. eapply Forall_impl; [|exact H]. intros [k v] (H1 & H2 & H3). cbn [fst snd] in *. split.
    + eapply rt_bind; [exact H1|]. eapply rt_bind_ret; [exact H2|]. reflexivity.
    + rewrite blen_app. lia.
  - intros r. unfold pret. now rewrite (bm_of_list_sorted_id m Hm).
Qed.
Lemma mono_map {V} w (p : parser N) (q : parser V) : mono p -> mono q -> mono (p_map w p q).
Proof.
  intros H K. apply mono_bind; [|intros; apply mono_ret]. apply mono_seq, mono_bind; [exact H|intros]. apply mono_bind; [exact K|intros; apply mono_ret].
Qed.
Lemma gives_map {V} w (p : parser N) (q : parser V) P Q : gives p P -> gives q Q ->
  gives (p_map w p q) (fun m => is_map m /\ short w m /\ Forall (fun kv => P (fst kv) /\ Q (snd kv)) m).
Proof.
  intros H K. eapply gives_bind.
  - apply gives_seq with (P := fun kv => P (fst kv) /\ Q (snd kv)). eapply gives_bind; [exact H|]. intros x Hx. eapply gives_bind; [exact K|]. intros y Hy. now apply gives_ret.
  - intros l [Hs Hf]. apply gives_ret. split; [apply bm_of_list_sorted|]. pose proof (bm_of_list_length l). split; [unfold short in *; lia|].
    rewrite Forall_forall in *. intros x Hx. apply Hf. now apply bm_of_list_in.
Qed.
Lemma ext_map {V} w w' (p p' : parser N) (q q' : parser V) : w <= w' -> ext p p' -> ext q q' -> ext (p_map w p q) (p_map w' p' q').
Proof. intros Hw H K. apply ext_bind; [|intros; apply ext_refl]. apply ext_seq; [exact Hw|]. apply ext_bind; [exact H|intros]. apply ext_bind; [exact K|intros; apply ext_refl]. Qed.

(** ** Bits *)
Lemma bits_val_bound l : bits_val l < 2 ^ N.of_nat (length l).
Proof.
  induction l as [|b l IH]; cbn [bits_val length]; [cbn; lia|]. rewrite Nat2N.inj_succ, N.pow_succ_r'. destruct b; lia.
Qed.
Lemma testbit_bits_val l : forall i, N.testbit (bits_val l) (N.of_nat i) = nth i l false.
Proof.
  induction l as [|b l IH]; intros i; cbn [bits_val nth]; [rewrite N.bits_0; now destruct i|].
  destruct i as [|i].
  - destruct b; [rewrite N.add_comm; apply N.testbit_odd_0|cbn [N.add]; apply N.testbit_even_0].
  - rewrite Nat2N.inj_succ. cbn [nth]. rewrite <- IH. destruct b.
    + rewrite N.add_comm. apply N.testbit_odd_succ. lia.
    + rewrite N.add_0_l. apply N.testbit_even_succ. lia.
Qed.
Lemma map_nth_seq {A} (d : A) l k : map (fun i => nth i l d) (seq 0 (length l + k)) = l ++ repeat d k.
Proof.
  rewrite seq_app, map_app. f_equal.
  - induction l as [|x l IH]; [reflexivity|]. cbn [length seq map nth]. f_equal. rewrite <- seq_shift, map_map. exact IH.
  - cbn [Nat.add]. assert (H : forall n, (length l <= n)%nat -> map (fun i => nth i l d) (seq n k) = repeat d k).
    { induction k as [|k IHk]; intros n Hn; cbn [seq map repeat]; [reflexivity|]. rewrite nth_overflow by exact Hn. f_equal. apply IHk. lia. }
    now apply H.
Qed.
Lemma byte_bits_of l : (length l <= 8)%nat -> byte_bits (byte_of_N (bits_val l)) = l ++ repeat false (8 - length l).
Proof.
  intros H. unfold byte_bits. rewrite byte_of_N_to_N. rewrite N.mod_small.
  2:{ pose proof (bits_val_bound l). assert (2 ^ N.of_nat (length l) <= 2 ^ 8) by (apply N.pow_le_mono_r; lia). change (2 ^ 8) with 256 in *. lia. }
  rewrite (map_ext _ (fun i => nth i l false)) by (intros; apply testbit_bits_val).
  rewrite <- map_nth_seq. repeat f_equal. lia.
Qed.
Definition pad8 (n : nat) : nat := (8 * ((n + 7) / 8) - n)%nat.
Lemma pad8_lt n : (pad8 n < 8)%nat.
Proof. unfold pad8. pose proof (Nat.div_mod (n + 7) 8 ltac:(lia)). pose proof (Nat.mod_upper_bound (n + 7) 8 ltac:(lia)). lia. Qed.
Lemma bytes_bits_aux fuel : forall l, (length l <= fuel)%nat ->
  bytes_bits (bits_bytes_aux fuel l) = l ++ repeat false (pad8 (length l)) /\
  length (bits_bytes_aux fuel l) = ((length l + 7) / 8)%nat.
Proof.
  induction fuel as [|fuel IH]; intros l Hl.
  - destruct l; [|cbn in Hl; lia]. split; reflexivity.
  - destruct l as [|x l]; [split; reflexivity|]. cbn [bits_bytes_aux]. set (y := x :: l) in *.
    assert (Hy : (0 < length y)%nat) by (cbn; lia).
    destruct (IH (skipn 8 y)) as [I1 I2]. { rewrite skipn_length. lia. }
    unfold bytes_bits in *. cbn [flat_map length]. rewrite I1, I2, skipn_length, byte_bits_of by (rewrite firstn_length; lia).
    rewrite firstn_length. destruct (Nat.le_gt_cases (length y) 8) as [C|C].
    + rewrite (firstn_all2 y) by lia. rewrite (skipn_all2 y) by lia.
      replace (length y - 8)%nat with 0%nat by lia. replace (Nat.min 8 (length y)) with (length y) by lia.
      replace ((length y + 7) / 8)%nat with 1%nat.
      2:{ apply Nat.div_unique with (length y - 1)%nat; lia. }
      split; [|reflexivity]. change (pad8 0) with 0%nat. cbn [repeat app]. rewrite app_nil_r. do 2 f_equal.
      unfold pad8. replace ((length y + 7) / 8)%nat with 1%nat; [reflexivity|]. apply Nat.div_unique with (length y - 1)%nat; lia.
    + replace (Nat.min 8 (length y)) with 8%nat by lia. cbn [Nat.sub repeat]. rewrite app_nil_r, app_assoc, firstn_skipn.
      assert (E : ((length y + 7) / 8 = S ((length y - 8 + 7) / 8))%nat).
      { replace (length y + 7)%nat with ((length y - 8 + 7) + 1 * 8)%nat by lia. rewrite Nat.div_add by lia. lia. }
      split; [|now rewrite E]. f_equal. f_equal. unfold pad8. rewrite E. lia.
Qed.
Lemma bytes_bits_bytes l : bytes_bits (bits_bytes l) = l ++ repeat false (pad8 (length l)).
Proof. now apply bytes_bits_aux. Qed.
Lemma bits_bytes_length l : length (bits_bytes l) = ((length l + 7) / 8)%nat.
Proof. now apply bytes_bits_aux. Qed.
Lemma bytes_bits_length b : length (bytes_bits b) = (8 * length b)%nat.
Proof. unfold bytes_bits. induction b as [|x b IH]; [reflexivity|]. cbn [flat_map length]. rewrite app_length, IH. unfold byte_bits. rewrite map_length, seq_length. lia. Qed.

(** Bit lists *)
Lemma strip_false k l : strip (repeat false k ++ true :: l) = l.
Proof. induction k; cbn; auto. Qed.
Lemma rev_repeat {A} (x : A) k : rev (repeat x k) = repeat x k.
Proof. induction k as [|k IH]; [reflexivity|]. cbn [repeat rev]. rewrite IH. clear IH. induction k as [|k IH]; [reflexivity|]. cbn [repeat app]. now rewrite IH. Qed.
Lemma unssz_bitlist_ok limit l : N.of_nat (length l) <= limit -> unssz_bitlist limit (ssz_bitlist l) = Some l.
Proof.
  intros H. unfold unssz_bitlist, ssz_bitlist. set (b := bits_bytes (l ++ [true])).
  assert (E : bytes_bits b = l ++ true :: repeat false (pad8 (length (l ++ [true])))).
  { unfold b. rewrite bytes_bits_bytes, <- app_assoc. reflexivity. }
  set (k := pad8 (length (l ++ [true]))) in *. assert (Hk : (k < 8)%nat) by apply pad8_lt.
  assert (R : rev (bytes_bits b) = repeat false k ++ true :: rev l).
  { rewrite E, rev_app_distr. cbn [rev]. now rewrite rev_repeat, <- app_assoc. }
  destruct (rev b) as [|z r] eqn:Eb.
  { exfalso. apply (f_equal (@rev byte)) in Eb. rewrite rev_involutive in Eb. cbn in Eb. rewrite Eb in E. destruct l; discriminate. }
  destruct (byte_eqb z x00) eqn:Ez.
  - exfalso. apply byte_eqb_eq in Ez. subst z. apply (f_equal (@rev byte)) in Eb. rewrite rev_involutive in Eb. cbn [rev] in Eb.
    rewrite Eb in R. unfold bytes_bits in R. rewrite flat_map_app, rev_app_distr in R. cbn [flat_map] in R. rewrite app_nil_r in R.
    apply (f_equal (fun y => nth k y false)) in R. rewrite (app_nth2 (repeat false k)) in R; rewrite repeat_length in *; [|lia].
    rewrite Nat.sub_diag in R. cbn [nth] in R.
    change (rev (byte_bits x00)) with (repeat false 8) in R. rewrite app_nth1 in R by (rewrite repeat_length; exact Hk).
    rewrite nth_repeat in R. discriminate.
  - rewrite R, strip_false, rev_involutive. replace (N.of_nat (length l) <=? limit) with true by lia. reflexivity.
Qed.
Lemma unssz_bitlist_bound limit b l : unssz_bitlist limit b = Some l -> N.of_nat (length l) <= limit.
Proof.
  unfold unssz_bitlist. destruct (rev b) as [|z r]; [discriminate|]. destruct (byte_eqb z x00); [discriminate|].
  destruct (N.leb_spec (N.of_nat (length (rev (strip (rev (bytes_bits b)))))) limit) as [L|]; [|discriminate]. intros E. injection E as <-. exact L.
Qed.
Lemma unssz_bitvector_ok n l : N.of_nat (length l) = n -> unssz_bitvector n (ssz_bitvector l) = Some l.
Proof.
  intros <-. unfold unssz_bitvector, ssz_bitvector, blen. rewrite bits_bytes_length, bytes_bits_bytes, Nat2N.id.
  replace (N.of_nat ((length l + 7) / 8) =? (N.of_nat (length l) + 7) / 8) with true.
  2:{ symmetry. apply N.eqb_eq. rewrite Nat2N.inj_div. f_equal. lia. }
  rewrite skipn_app, skipn_all, Nat.sub_diag, firstn_app, firstn_all, Nat.sub_diag. cbn [skipn firstn app andb]. rewrite app_nil_r.
  assert (F : forall k, forallb negb (repeat false k) = true) by (induction k; auto). now rewrite F.
Qed.
Lemma unssz_bitvector_length n b l : unssz_bitvector n b = Some l -> N.of_nat (length l) = n.
Proof.
  unfold unssz_bitvector, blen. intros E. destruct (_ && _) eqn:C; [|discriminate]. injection E as <-.
  apply andb_true_iff in C as [C _]. apply N.eqb_eq in C. rewrite firstn_length, bytes_bits_length.
  pose proof (N.div_mod (n + 7) 8 ltac:(lia)). pose proof (N.mod_lt (n + 7) 8 ltac:(lia)). lia.
Qed.

(** ** Bit vectors *)
Lemma words_ge l : (length l <= N.to_nat (32 * words l))%nat.
Proof. unfold words. pose proof (N.div_mod (N.of_nat (length l) + 31) 32 ltac:(lia)). pose proof (N.mod_lt (N.of_nat (length l) + 31) 32 ltac:(lia)). lia. Qed.
Lemma words_le l : 32 * words l <= N.of_nat (length l) + 31.
Proof. unfold words. pose proof (N.div_mod (N.of_nat (length l) + 31) 32 ltac:(lia)). lia. Qed.
Definition padded (l : list bool) : list bool := l ++ repeat false (N.to_nat (32 * words l) - length l).
Lemma padded_length l : length (padded l) = N.to_nat (32 * words l).
Proof. unfold padded. rewrite app_length, repeat_length. pose proof (words_ge l). lia. Qed.
Lemma padded_bytes l : blen (bits_bytes (padded l)) = 4 * words l /\ bytes_bits (bits_bytes (padded l)) = padded l.
Proof.
  assert (E : ((length (padded l) + 7) / 8)%nat = N.to_nat (4 * words l)).
  { rewrite padded_length. symmetry. apply Nat.div_unique with 7%nat; lia. }
  split.
  - unfold blen. rewrite bits_bytes_length, E. lia.
  - rewrite bytes_bits_bytes. unfold pad8. rewrite E, padded_length. replace (8 * N.to_nat (4 * words l) - N.to_nat (32 * words l))%nat with 0%nat by lia.
    cbn [repeat]. apply app_nil_r.
Qed.
Lemma w_bounds w : 32 <= w <= 64 -> 2 ^ 32 <= 2 ^ w /\ 2 ^ w <= 2 ^ 64 /\ 8 * 2 ^ (w - 3) = 2 ^ w.
Proof.
  intros H. split; [apply N.pow_le_mono_r; lia|]. split; [apply N.pow_le_mono_r; lia|].
  change 8 with (2 ^ 3). rewrite <- N.pow_add_r. f_equal. lia.
Qed.
Lemma rt_bits w l : 32 <= w <= 64 -> short (w - 3) l -> rt (p_bits w) (e_bits l) l.
Proof.
  intros Hw Hl. destruct (w_bounds w Hw) as (W1 & W2 & W3). unfold short in Hl. pose proof (words_le l) as Wl. pose proof (words_ge l) as Wg.
  destruct (padded_bytes l) as [P1 P2]. unfold e_bits. fold (padded l).
  eapply rt_bind; [apply rt_bytes; [lia|]; change (blen order_name) with 19; lia|].
  eapply rt_bind; [apply rt_int; reflexivity|]. eapply rt_bind; [apply rt_int; reflexivity|].
  eapply rt_bind; [apply rt_int; change (8 * N.of_nat 8) with 64; lia|].
  eapply rt_bind; [apply rt_usize; lia|]. eapply rt_bind_ret; [now apply rt_take|]. intros r.
  rewrite bytes_eqb_refl. replace (N.of_nat (length l) <? 2 ^ (w - 3)) with true by lia.
  replace (0 + N.of_nat (length l) <=? 32 * words l) with true by lia. cbn [andb N.eqb N.ltb N.compare Pos.eqb].
  change (32 =? 32) with true. change (0 <? 32) with true. cbn [andb]. unfold pret. rewrite P2, Nat2N.id. cbn [N.to_nat skipn].
  unfold padded. rewrite firstn_app, firstn_all, Nat.sub_diag. cbn [firstn]. now rewrite app_nil_r.
Qed.
Lemma mono_bits w : mono (p_bits w).
Proof.
  repeat (apply mono_bind; [first [apply mono_bytes|apply mono_int|apply mono_usize|apply mono_take]|intros ?]).
  apply mono_if; [apply mono_ret|apply mono_fail].
Qed.
Lemma gives_bits w : gives (p_bits w) (short (w - 3)).
Proof.
  unfold p_bits. do 6 (eapply gives_bind with (P := fun _ => True); [intros ? ? ? _; exact I|intros ? _]).
  apply gives_if; [|intros; apply gives_fail]. intros E. repeat (apply andb_true_iff in E as [E ?]). apply gives_ret. unfold short. rewrite firstn_length. lia.
Qed.
Lemma ext_bits w w' : w <= w' -> ext (p_bits w) (p_bits w').
Proof.
  intros H. assert (2 ^ (w - 3) <= 2 ^ (w' - 3)) by (apply N.pow_le_mono_r; lia).
  apply ext_bind; [now apply ext_bytes|intros o]. do 3 (apply ext_bind; [apply ext_refl|intros ?]). apply ext_bind; [now apply ext_usize|intros n].
  apply ext_bind; [apply ext_refl|intros d]. intros b y r.
  destruct (_ && _) eqn:E in |- *; [|discriminate]. repeat (apply andb_true_iff in E as [E ?]).
  destruct (_ && _) eqn:E' in |- *; [auto|]. exfalso. apply not_true_iff_false in E'. apply E'. repeat (apply andb_true_iff; split); auto. lia.
Qed.

(** ** Multiproofs *)
Lemma rt_multiproof w m : 32 <= w <= 64 -> wf_multiproof w m -> rt (p_multiproof w) (e_multiproof m) m.
Proof.
  intros Hw [H1 H2 H3 H4]. destruct m as [d v s n]. unfold e_multiproof. cbn [mp_data mp_value_mask mp_descriptor mp_max_stack_depth] in *.
  eapply rt_bind; [apply rt_bytes; [lia|exact H1]|]. eapply rt_bind; [apply rt_bits; eauto|]. eapply rt_bind; [apply rt_bits; eauto|].
  eapply rt_bind_ret; [apply rt_usize; [lia|exact H4]|]. reflexivity.
Qed.
Lemma mono_multiproof w : mono (p_multiproof w).
Proof. repeat (apply mono_bind; [first [apply mono_bytes|apply mono_bits|apply mono_usize]|intros ?]). apply mono_ret. Qed.
Lemma gives_multiproof w : gives (p_multiproof w) (wf_multiproof w).
Proof.
  eapply gives_bind; [apply gives_bytes|intros d Hd]. eapply gives_bind; [apply gives_bits|intros v Hv]. eapply gives_bind; [apply gives_bits|intros s Hs].
  eapply gives_bind; [apply gives_usize|intros n Hn]. apply gives_ret. constructor; auto.
Qed.
Lemma ext_multiproof w w' : w <= w' -> ext (p_multiproof w) (p_multiproof w').
Proof. intros H. repeat (apply ext_bind; [first [now apply ext_bytes|now apply ext_bits|now apply ext_usize]|intros ?]). apply ext_refl. Qed.
Lemma multiproof_nonempty m : 0 < blen (e_multiproof m).
Proof. unfold e_multiproof, e_bytes. rewrite !blen_app, blen_e_int. lia. Qed.

(** ** Keys *)
Lemma rt_key C k : wf_key C k -> rt (p_key C) (e_key C k) k.
Proof. intros [H1 H2]. eapply rt_bind_ret; [apply rt_take; unfold e_key, blen; lia|]. intros r. unfold e_key. rewrite H2. reflexivity. Qed.
Lemma mono_key C : mono (p_key C).
Proof. apply mono_bind; [apply mono_take|]. intros b. destruct (pk_parse C b); [apply mono_ret|apply mono_fail]. Qed.
Lemma gives_key C : sane_codec C -> gives (p_key C) (wf_key C).
Proof.
  intros S. eapply gives_bind; [apply gives_take|]. intros b Hb. destruct (pk_parse C b) as [k|] eqn:E; [|apply gives_fail].
  apply gives_ret. unfold blen in Hb. assert (Hl : length b = 96%nat) by lia. unfold wf_key. rewrite (sc_canonical C S b k Hl E). auto.
Qed.

(** ** Patches, checkpoints and states *)
Lemma rt_patch w p : 32 <= w <= 64 -> wf_patch w p -> rt (p_patch w) (e_patch p) p.
Proof.
  intros Hw [(M1 & M2 & M3) (X1 & X2 & X3)]. destruct p as [m x]. cbn [randao_mixes validator_exits] in *.
  eapply rt_bind; [|eapply rt_bind_ret]; [| |reflexivity].
  - apply rt_map; [lia|exact M2|exact M1|]. eapply Forall_impl; [|exact M3]. intros [k v] [K1 K2]. cbn [fst snd] in *.
    split; [now apply rt_int|]. split; [apply rt_b256; [lia|exact K2]|]. rewrite blen_e_int. lia.
  - apply rt_map; [lia|exact X2|exact X1|]. eapply Forall_impl; [|exact X3]. intros [k v] [K1 K2]. cbn [fst snd] in *.
    split; [apply rt_usize; [lia|exact K1]|]. split; [now apply rt_int|]. rewrite blen_e_int. lia.
Qed.
Lemma mono_patch w : mono (p_patch w).
Proof.
  apply mono_bind; [apply mono_map; [apply mono_int|apply mono_b256]|intros ?].
  apply mono_bind; [apply mono_map; [apply mono_usize|apply mono_int]|intros ?]. apply mono_ret.
Qed.
Lemma gives_patch w : gives (p_patch w) (wf_patch w).
Proof.
  eapply gives_bind; [apply gives_map; [apply gives_int|apply gives_b256]|intros m Hm].
  eapply gives_bind; [apply gives_map; [apply gives_usize|apply gives_int]|intros x Hx]. apply gives_ret. constructor; auto.
Qed.
Lemma ext_patch w w' : w <= w' -> ext (p_patch w) (p_patch w').
Proof.
  intros H. apply ext_bind; [apply ext_map; [exact H|apply ext_refl|now apply ext_b256]|intros ?].
  apply ext_bind; [apply ext_map; [exact H|now apply ext_usize|apply ext_refl]|intros ?]. apply ext_refl.
Qed.
Lemma rt_checkpoint w c : 32 <= w <= 64 -> wf_checkpoint c -> rt (p_checkpoint w) (e_checkpoint c) c.
Proof.
  intros Hw [H1 H2]. destruct c as [e r]. eapply rt_bind; [now apply rt_int|]. eapply rt_bind_ret; [apply rt_b256; [lia|exact H2]|]. reflexivity.
Qed.
Lemma mono_checkpoint w : mono (p_checkpoint w).
Proof. apply mono_bind; [apply mono_int|intros ?]. apply mono_bind; [apply mono_b256|intros ?]. apply mono_ret. Qed.
Lemma gives_checkpoint w : gives (p_checkpoint w) wf_checkpoint.
Proof. eapply gives_bind; [apply gives_int|intros e He]. eapply gives_bind; [apply gives_b256|intros r Hr]. apply gives_ret. split; auto. Qed.
Lemma ext_checkpoint w w' : w <= w' -> ext (p_checkpoint w) (p_checkpoint w').
Proof. intros H. apply ext_bind; [apply ext_refl|intros ?]. apply ext_bind; [now apply ext_b256|intros ?]. apply ext_refl. Qed.
Definition wf_cs (s : ConsensusState) : Prop := wf_checkpoint (current_justified s) /\ wf_checkpoint (finalized s).
Lemma rt_state w s : 32 <= w <= 64 -> wf_cs s -> rt (p_state w) (e_state s) s.
Proof.
  intros Hw [H1 H2]. destruct s as [j f]. eapply rt_bind; [now apply rt_checkpoint|]. eapply rt_bind_ret; [now apply rt_checkpoint|]. reflexivity.
Qed.
Lemma mono_state w : mono (p_state w).
Proof. do 2 (apply mono_bind; [apply mono_checkpoint|intros ?]). apply mono_ret. Qed.
Lemma gives_state w : gives (p_state w) wf_cs.
Proof. eapply gives_bind; [apply gives_checkpoint|intros j Hj]. eapply gives_bind; [apply gives_checkpoint|intros f Hf]. apply gives_ret. split; auto. Qed.
Lemma ext_state w w' : w <= w' -> ext (p_state w) (p_state w').
Proof. intros H. do 2 (apply ext_bind; [now apply ext_checkpoint|intros ?]). apply ext_refl. Qed.

(** ** Attestations *)
Lemma sub_at (a x c : bytes) i n : length a = i -> length x = n -> sub (a ++ x ++ c) i n = x.
Proof.
  intros Ha Hx. unfold sub. rewrite skipn_app, (skipn_all2 a) by lia. replace (i - length a)%nat with 0%nat by lia. cbn [skipn app].
  rewrite firstn_app, (firstn_all2 x) by lia. replace (n - length x)%nat with 0%nat by lia. cbn [firstn]. apply app_nil_r.
Qed.
Lemma le8 x : u64 x -> le_val (le_bytes 8 x) = x.
Proof. intros H. apply le_val_le_bytes_small. exact H. Qed.
Lemma blen8 x : blen (le_bytes 8 x) = 8.
Proof. unfold blen. now rewrite le_bytes_length. Qed.
Record wf_data (d : AttestationData) : Prop := {
  wd_slot : u64 (ad_slot d); wd_index : u64 (ad_index d); wd_root : b32 (ad_beacon_block_root d);
  wd_source : wf_checkpoint (ad_source d); wd_target : wf_checkpoint (ad_target d) }.
Lemma unssz_data_ok d : wf_data d -> blen (ssz_data d) = 128 /\ unssz_data (ssz_data d) = d.
Proof.
  intros [H1 H2 H3 [H4 H5] [H6 H7]]. destruct d as [s i r [se sr] [te tr]]. unfold b32 in *. cbn [ad_slot ad_index ad_beacon_block_root ad_source ad_target epoch root] in *.
  pose proof (blen8 s) as L1. pose proof (blen8 i) as L2. pose proof (blen8 se) as L3. pose proof (blen8 te) as L4. unfold blen in L1, L2, L3, L4.
  apply le8 in H1, H2, H4, H6. unfold ssz_data, ssz_checkpoint. cbn [ad_slot ad_index ad_beacon_block_root ad_source ad_target epoch root].
  set (S := le_bytes 8 s) in *. set (I := le_bytes 8 i) in *. set (A := le_bytes 8 se) in *. set (B := le_bytes 8 te) in *. clearbody S I A B.
  split; [unfold blen; rewrite !app_length; lia|]. unfold unssz_data. rewrite <- !app_assoc.
  assert (E6 : sub (S ++ I ++ r ++ A ++ sr ++ B ++ tr) 8 8 = I) by (apply sub_at; lia).
  assert (E0 : sub (S ++ I ++ r ++ A ++ sr ++ B ++ tr) 0 8 = S).
  { change (S ++ I ++ r ++ A ++ sr ++ B ++ tr) with ([] ++ S ++ I ++ r ++ A ++ sr ++ B ++ tr). apply sub_at; cbn [length]; lia. }
  assert (E1 : sub (S ++ I ++ r ++ A ++ sr ++ B ++ tr) 16 32 = r).
  { rewrite app_assoc. apply sub_at; rewrite ?app_length; lia. }
  assert (E2 : sub (S ++ I ++ r ++ A ++ sr ++ B ++ tr) 48 8 = A).
  { rewrite app_assoc, (app_assoc (S ++ I)). apply sub_at; rewrite ?app_length; lia. }
  assert (E3 : sub (S ++ I ++ r ++ A ++ sr ++ B ++ tr) 56 32 = sr).
  { rewrite app_assoc, (app_assoc (S ++ I)), (app_assoc (_ ++ r)). apply sub_at; rewrite ?app_length; lia. }
  assert (E4 : sub (S ++ I ++ r ++ A ++ sr ++ B ++ tr) 88 8 = B).
  { rewrite app_assoc, (app_assoc (S ++ I)), (app_assoc (_ ++ r)), (app_assoc (_ ++ A)). apply sub_at; rewrite ?app_length; lia. }
  assert (E5 : sub (S ++ I ++ r ++ A ++ sr ++ B ++ tr) 96 32 = tr).
  { rewrite app_assoc, (app_assoc (S ++ I)), (app_assoc (_ ++ r)), (app_assoc (_ ++ A)), (app_assoc (_ ++ sr)). rewrite <- (app_nil_r tr) at 1.
    apply sub_at; rewrite ?app_length; lia. }
  rewrite E0, E1, E2, E3, E4, E5, E6. now rewrite H1, H2, H4, H6.
Qed.
Lemma sub_length b i n : (i + n <= length b)%nat -> length (sub b i n) = n.
Proof. intros H. unfold sub. rewrite firstn_length, skipn_length. lia. Qed.
Lemma le8_bound b : length b = 8%nat -> u64 (le_val b).
Proof. intros H. unfold u64. pose proof (le_val_bound b) as L. rewrite H in L. exact L. Qed.
Lemma unssz_data_wf b : blen b = 128 -> wf_data (unssz_data b).
Proof.
  intros H. assert (L : length b = 128%nat) by (unfold blen in H; lia). unfold unssz_data. split; cbn [ad_slot ad_index ad_beacon_block_root ad_source ad_target];
    try (apply le8_bound; apply sub_length; lia); try (apply sub_length; lia); split; cbn [epoch root]; try (apply le8_bound; apply sub_length; lia); apply sub_length; lia.
Qed.
Lemma blen_bits l : blen (bits_bytes l) = (N.of_nat (length l) + 7) / 8.
Proof. unfold blen. rewrite bits_bytes_length, Nat2N.inj_div. f_equal. lia. Qed.
Lemma att_parts_fit C a : wf_attestation C a -> fits (att_shape C (att_electra a)) (att_parts a).
Proof.
  intros [H1 H2 H3 H4 H5 H6 H7 [H8 H9]]. destruct (unssz_data_ok (att_data a)) as [D _]; [split; auto|].
  unfold fits, att_shape, att_parts. assert (S : blen (att_signature a) = 96) by (unfold blen; lia).
  destruct (att_electra a); cbn [map app part_size]; rewrite D, S; auto. unfold ssz_bitvector. now rewrite blen_bits, H2.
Qed.
Lemma att_small C a : sane_codec C -> wf_attestation C a -> blen (encode_container (att_parts a)) < 2 ^ 31.
Proof.
  intros [S1 S2 S3 _] W. rewrite blen_encode, (fits_size _ _ (att_parts_fit C a W)). destruct W as [H1 H2 _ _ _ _ _ _].
  unfold content_size, att_parts, att_shape, ssz_bitlist.
  assert (B : blen (bits_bytes (aggregation_bits a ++ [true])) < 2 ^ 27 + 1).
  { rewrite blen_bits, app_length. cbn [length]. apply N.div_lt_upper_bound; [lia|]. destruct (att_electra a); lia. }
  assert (M : (max_committees C + 7) / 8 < 2 ^ 27 + 1) by (apply N.div_lt_upper_bound; lia).
  destruct (att_electra a); cbn [contents app shape_size fold_right]; rewrite ?app_nil_r; lia.
Qed.
Lemma unssz_attestation_ok C a : sane_codec C -> wf_attestation C a -> unssz_attestation C (ssz_attestation a) = Some a.
Proof.
  intros S W. pose proof (att_small C a S W) as L. pose proof (decode_complete _ _ (att_parts_fit C a W) ltac:(lia)) as D.
  destruct W as [H1 H2 H3 H4 H5 H6 H7 [H8 H9]]. destruct (unssz_data_ok (att_data a)) as [_ U]; [split; auto|].
  unfold unssz_attestation, ssz_attestation. destruct a as [e bits cb d sg]. cbn [att_electra aggregation_bits committee_bits att_data att_signature] in *.
  destruct e; rewrite D; unfold att_parts; cbn [att_electra aggregation_bits committee_bits att_data att_signature app]; rewrite unssz_bitlist_ok by exact H1.
  - rewrite unssz_bitvector_ok by exact H2. rewrite H9, U. change (byte_eqb x01 x00) with false. change (byte_eqb x01 x01) with true. reflexivity.
  - rewrite H9, U. change (byte_eqb x00 x00) with true. destruct cb; [reflexivity|]. cbn in H2. lia.
Qed.
Lemma unssz_attestation_wf C b a : unssz_attestation C b = Some a -> wf_attestation C a.
Proof.
  unfold unssz_attestation. destruct b as [|s body]; [discriminate|]. destruct (byte_eqb s x00); [|destruct (byte_eqb s x01); [|discriminate]].
  - destruct (decode_container (att_shape C false) body) as [ps|] eqn:D; [|discriminate]. apply decode_sound in D as [F _]. unfold fits, att_shape in F.
    destruct ps as [|[?|bits] [|[d|?] [|[sg|?] [|? ?]]]]; try discriminate. cbn [map part_size app] in F. injection F as F1 F2.
    destruct (unssz_bitlist (max_per_committee C) bits) as [l|] eqn:B; [|discriminate]. destruct (sig_ok C sg) eqn:G; [|discriminate].
    intros E. injection E as <-. apply unssz_bitlist_bound in B. destruct (unssz_data_wf d F1). unfold blen in F2.
    split; cbn [att_electra aggregation_bits committee_bits att_data att_signature]; auto. split; [lia|auto].
  - destruct (decode_container (att_shape C true) body) as [ps|] eqn:D; [|discriminate]. apply decode_sound in D as [F _]. unfold fits, att_shape in F.
    destruct ps as [|[?|bits] [|[d|?] [|[sg|?] [|[cb|?] [|? ?]]]]]; try discriminate. cbn [map part_size app] in F. injection F as F1 F2 F3.
    destruct (unssz_bitlist (max_per_slot C) bits) as [l|] eqn:B; [|discriminate]. destruct (unssz_bitvector (max_committees C) cb) as [c|] eqn:V; [|discriminate].
    destruct (sig_ok C sg) eqn:G; [|discriminate].
    intros E. injection E as <-. apply unssz_bitlist_bound in B. apply unssz_bitvector_length in V. destruct (unssz_data_wf d F1). unfold blen in F2.
    split; cbn [att_electra aggregation_bits committee_bits att_data att_signature]; auto. split; [lia|auto].
Qed.
Lemma rt_attestation C w a : sane_codec C -> 32 <= w <= 64 -> wf_attestation C a -> rt (p_attestation C w) (e_attestation a) a.
Proof.
  intros S Hw W. destruct (w_bounds w Hw) as (W1 & _). pose proof (att_small C a S W) as L.
  eapply rt_bind_ret; [apply rt_bytes; [lia|]|].
  - unfold ssz_attestation, blen in *. cbn [length]. lia.
  - intros r. rewrite unssz_attestation_ok by auto. reflexivity.
Qed.
Lemma mono_attestation C w : mono (p_attestation C w).
Proof. apply mono_bind; [apply mono_bytes|]. intros b. destruct (unssz_attestation C b); [apply mono_ret|apply mono_fail]. Qed.
Lemma gives_attestation C w : gives (p_attestation C w) (wf_attestation C).
Proof.
  eapply gives_bind; [apply gives_bytes|]. intros b _. destruct (unssz_attestation C b) as [a|] eqn:E; [|apply gives_fail].
  apply gives_ret. eapply unssz_attestation_wf; eauto.
Qed.
Lemma ext_attestation C w w' : w <= w' -> ext (p_attestation C w) (p_attestation C w').
Proof. intros H. apply ext_bind; [now apply ext_bytes|]. intros b. apply ext_refl. Qed.

(** ** The input *)
Lemma rt_input C w gi : sane_codec C -> 32 <= w <= 64 -> wf_input C w gi -> rt (p_input C w) (encode_input C gi) gi.
Proof.
  intros S Hw [H1 H2 H3 [H4 H4'] (H5 & H5' & H5'') H6 [H7 H7'] [H8 H8']]. unfold encode_input, p_input.
  do 3 (eapply rt_bind; [apply rt_multiproof; eauto|]).
  eapply rt_bind. { apply rt_seq; [lia|exact H4|]. eapply Forall_impl; [|exact H4']. intros k K. split; [now apply rt_key|]. destruct K as [K _]. unfold e_key, blen. lia. }
  eapply rt_bind. { apply rt_map; [lia|exact H5'|exact H5|]. eapply Forall_impl; [|exact H5'']. intros [k v] [K1 K2]. cbn [fst snd] in *.
    split; [now apply rt_int|]. split; [now apply rt_patch|]. rewrite blen_e_int. lia. }
  eapply rt_bind; [apply rt_state; eauto|].
  eapply rt_bind. { apply rt_seq; [lia|exact H7|]. eapply Forall_impl; [|exact H7']. intros a A. split; [now apply rt_attestation|].
    unfold e_attestation, e_bytes. rewrite blen_app, blen_e_int. lia. }
  eapply rt_bind_ret. { apply rt_seq; [lia|exact H8|]. eapply Forall_impl; [|exact H8']. intros m M. split; [now apply rt_multiproof|]. apply multiproof_nonempty. }
  intros r. destruct gi. reflexivity.
Qed.
Lemma mono_input C w : mono (p_input C w).
Proof.
  do 3 (apply mono_bind; [apply mono_multiproof|intros ?]). apply mono_bind; [apply mono_seq, mono_key|intros ?].
  apply mono_bind; [apply mono_map; [apply mono_int|apply mono_patch]|intros ?]. apply mono_bind; [apply mono_state|intros ?].
  apply mono_bind; [apply mono_seq, mono_attestation|intros ?]. apply mono_bind; [apply mono_seq, mono_multiproof|intros ?]. apply mono_ret.
Qed.
Lemma gives_input C w : sane_codec C -> gives (p_input C w) (wf_input C w).
Proof.
  intros S. eapply gives_bind; [apply gives_multiproof|intros bb H1]. eapply gives_bind; [apply gives_multiproof|intros bs H2].
  eapply gives_bind; [apply gives_multiproof|intros av H3]. eapply gives_bind; [apply gives_seq, gives_key, S|intros pk H4].
  eapply gives_bind; [apply gives_map; [apply gives_int|apply gives_patch]|intros pt H5]. eapply gives_bind; [apply gives_state|intros st H6].
  eapply gives_bind; [apply gives_seq, gives_attestation|intros al H7]. eapply gives_bind; [apply gives_seq, gives_multiproof|intros sp H8].
  apply gives_ret. constructor; auto.
Qed.
Lemma ext_input C w w' : w <= w' -> ext (p_input C w) (p_input C w').
Proof.
  intros H. do 3 (apply ext_bind; [now apply ext_multiproof|intros ?]). apply ext_bind; [apply ext_seq; [exact H|apply ext_refl]|intros ?].
  apply ext_bind; [apply ext_map; [exact H|apply ext_refl|now apply ext_patch]|intros ?]. apply ext_bind; [now apply ext_state|intros ?].
  apply ext_bind; [apply ext_seq; [exact H|now apply ext_attestation]|intros ?]. apply ext_bind; [apply ext_seq; [exact H|now apply ext_multiproof]|intros ?]. apply ext_refl.
Qed.
