From Coq Require Import List ZArith NArith Bool Lia Sorted Permutation.
From Coq Require Import ZifyBool ZifyNat ZifyN.
From Verif.Model Require Import Base Types Committee.
From Verif.Spec Require Import Committees.
From Verif.Proof Require Import BaseLemmas.
Import ListNotations.
Open Scope N_scope.

Lemma nth_error_firstn_lt {A} (l : list A) n j : (j < n)%nat -> nth_error (firstn n l) j = nth_error l j.
Proof. revert n j. induction l; intros [|n] [|j] L; simpl; auto; try lia. apply IHl. lia. Qed.
Lemma nth_error_skipn_add {A} (l : list A) n j : nth_error (skipn n l) j = nth_error l (n + j).
Proof. revert n. induction l; intros [|n]; simpl; auto. now destruct j. Qed.

(** ** Segments partition the list *)
Lemma bounds_mono n count k : 0 < count -> n * k / count <= n * (k + 1) / count.
Proof. intros. apply N.div_le_mono; lia. Qed.
Lemma bounds_le n count k : 0 < count -> k <= count -> n * k / count <= n.
Proof. intros. apply N.div_le_upper_bound; nia. Qed.

Lemma segments_prefix (sh : list N) count : 0 < count -> forall k, (N.of_nat k <= count) ->
  concat (map (fun i => segment sh count (N.of_nat i)) (seq 0 k)) =
  firstn (N.to_nat (N.of_nat (length sh) * N.of_nat k / count)) sh.
Proof.
  intros Hc. induction k; intros Hk.
  - cbn [seq map concat]. rewrite N.mul_0_r, N.div_0_l by lia. reflexivity.
  - rewrite seq_S, map_app, concat_app. cbn [map concat Nat.add]. rewrite app_nil_r, IHk by lia.
    unfold segment. set (n := N.of_nat (length sh)).
    replace (N.of_nat (S k)) with (N.of_nat k + 1) by lia.
    pose proof (bounds_mono n count (N.of_nat k) Hc) as Hm.
    set (a := n * N.of_nat k / count) in *. set (b := n * (N.of_nat k + 1) / count) in *.
    replace (N.to_nat b) with (N.to_nat a + N.to_nat (b - a))%nat by lia.
    transitivity (firstn (N.to_nat a + N.to_nat (b - a)) (firstn (N.to_nat a) sh ++ skipn (N.to_nat a) sh)); [|now rewrite firstn_skipn].
    rewrite firstn_app.
    assert (a <= n) as Ha by (apply bounds_le; lia).
    rewrite firstn_firstn, firstn_length.
    replace (Nat.min (N.to_nat a + N.to_nat (b - a)) (N.to_nat a)) with (N.to_nat a) by lia.
    replace (N.to_nat a + N.to_nat (b - a) - Nat.min (N.to_nat a) (length sh))%nat with (N.to_nat (b - a)) by lia.
    reflexivity.
Qed.
Lemma segments_concat (sh : list N) count : 0 < count ->
  concat (map (segment sh count) (N_seq count)) = sh.
Proof.
  intros Hc. unfold N_seq. rewrite map_map, segments_prefix by lia.
  rewrite N2Nat.id, N.div_mul, Nat2N.id by lia. apply firstn_all.
Qed.

(** ** Committee lookup *)
Lemma wrap_usize_small X x : x < 2 ^ usize_bits X -> wrap_usize X x = x.
Proof. intros. now apply N.mod_small. Qed.
Lemma mod_divide_mod a b c : b <> 0 -> N.divide b c -> c <> 0 -> (a mod c) mod b = a mod b.
Proof.
  intros Hb [k ->] Hc. rewrite (N.mul_comm k b), N.mod_mul_r by lia.
  rewrite N.add_mod by lia. rewrite N.mul_comm, N.mod_mul, N.add_0_r by lia.
  now rewrite !N.mod_mod by lia.
Qed.

Definition cache_ok (X : Externals) (cs : ChainSpec) (c : CommitteeCache) (e : Epoch) (sh : list N) (cps : N) : Prop :=
  initialized_epoch c = Some e /\ shuffling c = sh /\ committees_per_slot c = cps /\
  cc_slots_per_epoch c = slots_per_epoch cs /\
  fits_platform X (slots_per_epoch cs) cps (N.of_nat (length sh)).

Lemma index_in_epoch X cs cps slot idx n : fits_platform X (slots_per_epoch cs) cps n -> idx < cps ->
  compute_committee_index_in_epoch X slot (slots_per_epoch cs) cps idx
  = (slot mod slots_per_epoch cs) * cps + idx /\
  (slot mod slots_per_epoch cs) * cps + idx < cps * slots_per_epoch cs.
Proof.
  intros (H1 & H2 & H3 & H4 & H5) Hi. unfold compute_committee_index_in_epoch.
  assert (wrap_usize X slot mod slots_per_epoch cs = slot mod slots_per_epoch cs) as E.
  { unfold wrap_usize. apply mod_divide_mod; auto; [lia|]. apply N.pow_nonzero. lia. }
  rewrite E. pose proof (N.mod_lt slot (slots_per_epoch cs)) as Hm.
  assert ((slot mod slots_per_epoch cs) * cps + idx < cps * slots_per_epoch cs) as L by nia.
  split; auto. rewrite (wrap_usize_small X (_ * cps)) by lia. apply wrap_usize_small. lia.
Qed.

Lemma compute_committee_ok X cs c e sh cps k : cache_ok X cs c e sh cps -> k < cps * slots_per_epoch cs ->
  compute_committee X c k = Some (segment sh (cps * slots_per_epoch cs) k).
Proof.
  intros (He & Hs & Hc & Hp & (H1 & H2 & H3 & H4 & H5)) Hk. unfold compute_committee, compute_committee_range_in_epoch, epoch_committee_count.
  rewrite Hs, Hc, Hp. rewrite (wrap_usize_small X (cps * slots_per_epoch cs)) by auto.
  set (count := cps * slots_per_epoch cs) in *.
  destruct (N.eqb_spec count 0) as [|_]; [nia|]. destruct (N.leb_spec count k); [lia|]. cbn [orb].
  set (n := N.of_nat (length sh)) in *.
  assert (n * k <= n * count) by (apply N.mul_le_mono_l; lia).
  assert (n * (k + 1) <= n * count) by (apply N.mul_le_mono_l; lia).
  rewrite (wrap_usize_small X (n * k)), (wrap_usize_small X (n * (k + 1))) by lia.
  pose proof (bounds_mono n count k) as Hm.
  destruct (N.leb_spec (n * k / count) (n * (k + 1) / count)); [|lia].
  unfold segment. fold n. unfold slice.
  pose proof (bounds_le n count (k + 1)) as Hb.
  match goal with |- context [Nat.leb ?a ?b] => destruct (Nat.leb_spec a b) end; [reflexivity|lia].
Qed.

Theorem get_beacon_committee_ok X cs c e sh cps slot idx : cache_ok X cs c e sh cps ->
  epoch_of_slot cs slot = e -> idx < cps ->
  get_beacon_committee X cs c slot idx = Ok (committee_of sh (slots_per_epoch cs) cps slot idx).
Proof.
  intros Hok He Hi. unfold get_beacon_committee. destruct Hok as (H1 & H2 & H3 & H4 & H5).
  rewrite H1. cbn [bind ensure]. unfold is_initialized_at. rewrite H1, He, N.eqb_refl. cbn [ensure bind].
  rewrite H3. destruct (N.ltb_spec idx cps); [|lia]. cbn [ensure bind].
  destruct (index_in_epoch X cs cps slot idx (N.of_nat (length sh)) H5 Hi) as [E L].
  rewrite H4, E. rewrite (compute_committee_ok X cs c e sh cps); auto. repeat split; auto; apply H5.
Qed.
Theorem get_beacon_committee_err X cs c e slot idx : initialized_epoch c = Some e ->
  (epoch_of_slot cs slot <> e -> get_beacon_committee X cs c slot idx = Err (NotInitializedAtEpoch (epoch_of_slot cs slot))) /\
  (epoch_of_slot cs slot = e -> committees_per_slot c <= idx -> get_beacon_committee X cs c slot idx = Err (ShuffleIndexOutOfBounds idx)).
Proof.
  intros H1. unfold get_beacon_committee, is_initialized_at. rewrite H1. cbn [ensure bind]. split; intros.
  - destruct (N.eqb_spec (epoch_of_slot cs slot) e); [easy|]. reflexivity.
  - rewrite H, N.eqb_refl. cbn [ensure bind]. destruct (N.ltb_spec idx (committees_per_slot c)); [lia|]. reflexivity.
Qed.

(** ** Initialisation *)
Lemma list_set_length {A} (l : list A) i x l' : list_set l i x = Some l' -> length l' = length l.
Proof.
  revert i l'. induction l; intros [|i] l' E; simpl in E; try discriminate.
  - injection E; intros; subst; auto.
  - destruct (list_set l i x) eqn:F; [|discriminate]. injection E; intros; subst. simpl. f_equal. eauto.
Qed.
Lemma list_set_nth {A} (l : list A) i x l' j : list_set l i x = Some l' ->
  nth_error l' j = if Nat.eqb j i then Some x else nth_error l j.
Proof.
  revert i l' j. induction l; intros [|i] l' j E; simpl in E; try discriminate.
  - injection E; intros; subst; auto. destruct j; reflexivity.
  - destruct (list_set l i x) eqn:F; [|discriminate]. injection E; intros; subst. destruct j; simpl; auto.
Qed.
Lemma list_set_some {A} (l : list A) i x : (i < length l)%nat -> exists l', list_set l i x = Some l'.
Proof.
  revert i. induction l; intros [|i] L; simpl in *; try lia; eauto.
  destruct (IHl i) as [l' ->]; [lia|]. eauto.
Qed.
Lemma fill_positions_ok : forall sh i pos pos', fill_positions sh i pos = Ok pos' -> NoDup sh ->
  length pos' = length pos /\
  forall v, nth_error pos' (N.to_nat v) =
    match find (fun x => fst x =? v) (combine sh (map N.of_nat (seq 0 (length sh)))) with
    | Some (_, k) => Some (Some (i + k + 1))
    | None => nth_error pos (N.to_nat v)
    end.
Proof.
  induction sh as [|a sh IH]; intros i pos pos' E Hn.
  - simpl in *. inv_ok. auto.
  - cbn [fill_positions] in E. inv_ok. inversion Hn; subst.
    match goal with H : list_set _ _ _ = Some _ |- _ => rename H into Hset end.
    apply IH in E as [L P]; auto. split; [now rewrite L, (list_set_length _ _ _ _ Hset)|].
    intros v. rewrite P. cbn [length seq map combine find fst].
    assert (Hshift : forall (l : list N) s, find (fun x => fst x =? v) (combine l (map N.of_nat (seq (S s) (length l)))) =
      option_map (fun x => (fst x, snd x + 1)) (find (fun x => fst x =? v) (combine l (map N.of_nat (seq s (length l)))))).
    { clear. induction l as [|b l IHl]; intros s; simpl; auto. destruct (b =? v); simpl; [f_equal; f_equal; lia|]. apply IHl. }
    rewrite Hshift.
    destruct (find (fun x => fst x =? v) (combine sh (map N.of_nat (seq 0 (length sh))))) as [[b k]|] eqn:F; cbn [option_map fst snd].
    + apply find_some in F as [F F']. simpl in F'. apply N.eqb_eq in F'. subst b. apply in_combine_l in F.
      destruct (N.eqb_spec a v); [subst; easy|]. do 2 f_equal. lia.
    + rewrite (list_set_nth _ _ _ _ _ Hset). destruct (Nat.eqb_spec (N.to_nat v) (N.to_nat a)).
      * assert (a = v) by lia. subst. rewrite N.eqb_refl. do 2 f_equal. lia.
      * destruct (N.eqb_spec a v); [subst; easy|]. reflexivity.
Qed.
Lemma find_combine_seq (sh : list N) v : NoDup sh -> forall k,
  find (fun x => fst x =? v) (combine sh (map N.of_nat (seq 0 (length sh)))) = Some (v, k) <->
  nth_error sh (N.to_nat k) = Some v.
Proof.
  intros Hn k.
  assert (G : forall (sh : list N) s, NoDup sh -> forall k,
    find (fun x => fst x =? v) (combine sh (map N.of_nat (seq s (length sh)))) = Some (v, k) <->
    N.of_nat s <= k /\ nth_error sh (N.to_nat k - s) = Some v).
  { clear. induction sh as [|a sh IH]; intros s Hn k; simpl.
    - split; [discriminate|]. intros [_ E]. now destruct (N.to_nat k - s)%nat.
    - inversion Hn; subst. destruct (N.eqb_spec a v).
      + subst. split.
        * intros E. injection E; intros; subst. split; [lia|]. replace (N.to_nat (N.of_nat s) - s)%nat with 0%nat by lia. auto.
        * intros [L E]. destruct (N.to_nat k - s)%nat as [|d] eqn:D; [repeat f_equal; lia|].
          simpl in E. apply nth_error_In in E. easy.
      + rewrite IH by auto. split; intros [L E]; split; try lia.
        * replace (N.to_nat k - s)%nat with (S (N.to_nat k - S s)) by lia. auto.
        * destruct (N.to_nat k - s)%nat as [|d] eqn:D; [simpl in E; congruence|lia].
        * destruct (N.to_nat k - s)%nat as [|d] eqn:D; [simpl in E; congruence|].
          replace (N.to_nat k - S s)%nat with d by lia. auto. }
  rewrite (G sh 0%nat Hn k). rewrite Nat.sub_0_r. split; [tauto|]. intros; split; auto; lia.
Qed.

Lemma list_max_spec l m : list_max l = Some m -> In m l /\ forall x, In x l -> x <= m.
Proof.
  destruct l as [|a l]; [discriminate|]. simpl. intros E; injection E; clear E; intros E.
  revert a E. induction l as [|b l IH]; simpl; intros a E.
  - subst. split; auto. intros x [<-|[]]. lia.
  - apply IH in E as [E1 E2]. split.
    + destruct E1 as [E1|E1]; auto. destruct (N.max_spec a b) as [[_ X]|[_ X]]; rewrite X in E1; auto.
    + intros x [<-|[<-|Hx]]; [| |apply E2; auto].
      * etransitivity; [|apply E2; left; reflexivity]. lia.
      * etransitivity; [|apply E2; left; reflexivity]. lia.
Qed.

Lemma cc_initialized_inv X cs seed indices cps e c : cc_initialized X cs seed indices cps e = Ok c ->
  0 < cps /\ indices <> [] /\ exists sh, shuffle_list X indices (shuffle_round_count cs) seed = Some sh /\
  initialized_epoch c = Some e /\ shuffling c = sh /\ committees_per_slot c = cps /\
  cc_slots_per_epoch c = slots_per_epoch cs /\
  exists mx, list_max indices = Some mx /\ fill_positions sh 0 (repeat None (N.to_nat (mx + 1))) = Ok (shuffling_positions c).
Proof.
  unfold cc_initialized. intros E. inv_ok.
  match goal with H : (0 <? cps) = true |- _ => apply N.ltb_lt in H end.
  match goal with H : list_max indices = Some ?m |- _ => rename H into Hm end.
  split; auto. split; [destruct indices; [discriminate|easy]|].
  eexists. split; [eassumption|]. simpl. repeat split; auto. eauto.
Qed.
Lemma fill_positions_total : forall sh i pos, (forall v, In v sh -> (N.to_nat v < length pos)%nat) ->
  exists pos', fill_positions sh i pos = Ok pos'.
Proof.
  induction sh as [|a sh IH]; intros i pos Hb; simpl; [eauto|].
  destruct (list_set_some pos (N.to_nat a) (Some (i + 1))) as [p' Hp]; [apply Hb; left; auto|].
  rewrite Hp. simpl. apply IH. intros v Hv. rewrite (list_set_length _ _ _ _ Hp). apply Hb; right; auto.
Qed.
Lemma cc_initialized_total X cs seed indices cps e sh : 0 < cps -> indices <> [] ->
  shuffle_list X indices (shuffle_round_count cs) seed = Some sh -> (forall v, In v sh -> In v indices) ->
  (forall v, In v indices -> v < usize_max X) ->
  exists c, cc_initialized X cs seed indices cps e = Ok c.
Proof.
  intros Hc Hi Hs Hin Hb. unfold cc_initialized. destruct (N.ltb_spec 0 cps); [|lia]. cbn [ensure bind].
  destruct (list_max indices) as [mx|] eqn:M; [|destruct indices; [easy|discriminate]]. cbn [ok_or bind].
  rewrite Hs. cbn [ok_or bind]. apply list_max_spec in M as [M1 M2].
  destruct (N.ltb_spec mx (usize_max X)); [|specialize (Hb mx M1); lia]. cbn [ensure bind].
  destruct (fill_positions_total sh 0 (repeat None (N.to_nat (mx + 1)))) as [pos ->].
  { intros v Hv. rewrite repeat_length. apply Hin, M2 in Hv. lia. }
  simpl. eauto.
Qed.

Theorem shuffled_position_iff X cs seed indices cps e c : cc_initialized X cs seed indices cps e = Ok c ->
  NoDup (shuffling c) -> forall v p,
  shuffled_position c v = Some p <-> nth_error (shuffling c) (N.to_nat p) = Some v.
Proof.
  intros E Hn v p. apply cc_initialized_inv in E as (_ & _ & sh & _ & _ & Hsh & _ & _ & mx & _ & Hf).
  rewrite Hsh in *. destruct (fill_positions_ok _ _ _ _ Hf Hn) as [L P].
  unfold shuffled_position. rewrite P.
  destruct (find (fun x => fst x =? v) (combine sh (map N.of_nat (seq 0 (length sh))))) as [[b k]|] eqn:F.
  - pose proof F as F0. apply find_some in F0 as [_ F0]. simpl in F0. apply N.eqb_eq in F0. subst b.
    apply (find_combine_seq sh v Hn k) in F. split.
    + intros X0. assert (p = k) as -> by (injection X0; intros; lia). auto.
    + intros X0. f_equal. pose proof (proj1 (NoDup_nth_error _) Hn) as Hn'.
      assert (N.to_nat k = N.to_nat p) as Ek; [|lia]. apply Hn'; [|congruence]. apply nth_error_Some. congruence.
  - split.
    + destruct (nth_error (repeat None (N.to_nat (mx + 1))) (N.to_nat v)) as [[q|]|] eqn:G; try discriminate.
      apply nth_error_In in G. apply repeat_spec in G. discriminate.
    + intros X0. apply (find_combine_seq sh v Hn p) in X0. congruence.
Qed.

(** ** All committees of an epoch *)
Lemma slots_of_epoch_N cs e : slots_of_epoch cs e = map (fun i => e * slots_per_epoch cs + i) (N_seq (slots_per_epoch cs)).
Proof. unfold slots_of_epoch, N_seq. now rewrite map_map. Qed.
Lemma in_N_seq n x : In x (N_seq n) <-> x < n.
Proof.
  unfold N_seq. rewrite in_map_iff. split.
  - intros (k & <- & Hk). apply in_seq in Hk. lia.
  - intros L. exists (N.to_nat x). split; [lia|]. apply in_seq. lia.
Qed.
Lemma N_seq_length n : length (N_seq n) = N.to_nat n.
Proof. unfold N_seq. now rewrite map_length, seq_length. Qed.
Lemma map_outcome_all' {E A B} (f : A -> outcome E B) (g : A -> B) l :
  (forall a, In a l -> f a = Ok (g a)) -> map_outcome f l = Ok (map g l).
Proof.
  induction l; simpl; intros Hf; auto. rewrite (Hf a) by auto. cbn [bind]. rewrite IHl by auto. reflexivity.
Qed.
Lemma seq_shift_N s m z : map N.of_nat (seq (s + z) m) = map (fun x => N.of_nat s + N.of_nat x) (seq z m).
Proof.
  revert z. induction m as [|m IH]; intros z; simpl; auto. f_equal; [lia|]. rewrite <- IH. f_equal. f_equal. lia.
Qed.
Lemma N_seq_mul a b : N_seq (a * b) = flat_map (fun i => map (fun j => i * a + j) (N_seq a)) (N_seq b).
Proof.
  unfold N_seq. rewrite N2Nat.inj_mul. induction (N.to_nat b) as [|k IH].
  - rewrite Nat.mul_0_r. reflexivity.
  - rewrite seq_S, Nat.mul_succ_r, seq_app, !map_app, flat_map_app, IH. f_equal.
    cbn [map flat_map Nat.add]. rewrite app_nil_r, map_map.
    pose proof (fun s => seq_shift_N s (N.to_nat a) 0) as G.
    specialize (G (N.to_nat a * k)%nat). rewrite Nat.add_0_r in G. cbn [Nat.add]. rewrite G. apply map_ext. intros x. lia.
Qed.

Theorem epoch_committees X cs c e sh cps : cache_ok X cs c e sh cps ->
  exists css, map_outcome (get_beacon_committees_at_slot X cs c) (slots_of_epoch cs e) = Ok css /\
    length css = N.to_nat (slots_per_epoch cs) /\ Forall (fun x => length x = N.to_nat cps) css /\
    concat (concat css) = sh.
Proof.
  intros Hok. pose proof Hok as (H1 & H2 & H3 & H4 & (P1 & P2 & P3 & P4 & P5)). rewrite slots_of_epoch_N.
  set (spe := slots_per_epoch cs) in *.
  exists (map (fun s => map (committee_of sh spe cps s) (N_seq cps)) (map (fun i => e * spe + i) (N_seq spe))).
  split; [|split; [|split]].
  - apply map_outcome_all'. intros s Hs. unfold get_beacon_committees_at_slot. rewrite H1. cbn [ensure bind].
    rewrite H3. apply map_outcome_all'. intros i Hi. apply in_N_seq in Hi.
    eapply get_beacon_committee_ok; eauto. apply in_map_iff in Hs as (k & <- & Hk). apply in_N_seq in Hk.
    unfold epoch_of_slot. fold spe. fold spe in Hk. rewrite N.add_comm, N.div_add by lia. rewrite N.div_small; lia.
  - now rewrite !map_length, N_seq_length.
  - rewrite Forall_map. apply Forall_forall. intros. now rewrite map_length, N_seq_length.
  - transitivity (concat (map (segment sh (cps * spe)) (N_seq (cps * spe)))).
    2:{ apply segments_concat. nia. }
    f_equal. rewrite N_seq_mul, <- flat_map_concat_map.
    rewrite !flat_map_concat_map, concat_map, !map_map. f_equal. apply map_ext_in. intros i Hi.
    apply in_N_seq in Hi. rewrite map_map. apply map_ext. intros j. unfold committee_of. do 2 f_equal.
    rewrite N.add_comm, N.mod_add by lia. rewrite N.mod_small; auto.
Qed.

(** ** Attesting indices *)
Lemma bit_indices_spec bits i : bit_indices bits i = map (fun k => i + N.of_nat k) (filter (fun k => nth k bits false) (seq 0 (length bits))).
Proof.
  revert i. induction bits as [|b bits IH]; intros i; [reflexivity|].
  cbn [length seq]. rewrite <- seq_shift. cbn [bit_indices].
  assert (G : forall l, filter (fun k => nth k (b :: bits) false) (map S l) = map S (filter (fun k => nth k bits false) l)).
  { induction l as [|x l IHl]; auto. cbn [map filter]. rewrite IHl. change (nth (S x) (b :: bits) false) with (nth x bits false). destruct (nth x bits false); reflexivity. }
  cbn [filter nth]. rewrite G, IH. destruct b; cbn [map]; rewrite ?map_map; [f_equal; [lia|]|]; apply map_ext; intros; lia.
Qed.
Lemma bit_indices_set_positions bits : bit_indices bits 0 = set_positions bits.
Proof. rewrite bit_indices_spec. unfold set_positions. apply map_ext. intros; lia. Qed.

Lemma committee_attesters_ok : forall cm bits off vs,
  committee_attesters bits off cm = Ok vs <->
  (off + length cm <= length bits \/ cm = [])%nat /\ vs = select (firstn (length cm) (skipn off bits)) cm.
Proof.
  induction cm as [|a cm IH]; intros bits off vs.
  - simpl. split; [intros; inv_ok; auto|intros [_ ->]; auto].
  - cbn [committee_attesters length]. split.
    + intros E. inv_ok. match goal with H : nth_error _ _ = Some ?b |- _ => rename H into Hb; rename b into bb end.
      match goal with H : committee_attesters _ _ _ = Ok ?v |- _ => apply IH in H as [H1 ->] end.
      assert (off < length bits)%nat by (apply nth_error_Some; congruence).
      assert (skipn off bits = bb :: skipn (S off) bits) as ->.
      { clear -Hb. revert bits Hb. induction off; intros [|x bits] Hb; simpl in *; try discriminate; [congruence|]. auto. }
      cbn [firstn select]. split; [|reflexivity]. left. destruct H1 as [H1| ->]; simpl; lia.
    + intros [[H1|]%or_comm ->]; [discriminate|].
      assert (exists bb, nth_error bits off = Some bb) as [bb Hb].
      { destruct (nth_error bits off) eqn:N0; eauto. apply nth_error_None in N0. lia. }
      assert (skipn off bits = bb :: skipn (S off) bits) as ->.
      { clear -Hb. revert bits Hb. induction off; intros [|x bits] Hb; simpl in *; try discriminate; [congruence|]. auto. }
      rewrite Hb. cbn [expect bind firstn select].
      assert (committee_attesters bits (S off) cm = Ok (select (firstn (length cm) (skipn (S off) bits)) cm)) as ->.
      { apply IH. split; auto. left. lia. }
      reflexivity.
Qed.

Lemma split_bits_length bits cms parts : split_bits bits cms parts -> length bits = length (concat cms).
Proof. induction 1; simpl; auto. rewrite !app_length. congruence. Qed.
Lemma select_app b1 b2 m1 m2 : length b1 = length m1 -> select (b1 ++ b2) (m1 ++ m2) = select b1 m1 ++ select b2 m2.
Proof.
  revert m1. induction b1 as [|b b1 IH]; intros [|m m1] L; try discriminate; simpl; auto.
  destruct b; simpl; rewrite IH; auto.
Qed.
Lemma select_length b m : length b = length m -> length (select b m) = popcount b.
Proof. revert m. induction b as [|[] b IH]; intros [|x m] L; try discriminate; simpl; auto. unfold popcount in *. simpl. f_equal; auto. Qed.
Lemma select_incl b m x : In x (select b m) -> In x m.
Proof. revert m. induction b as [|[] b IH]; intros [|y m]; simpl; auto; try easy. intros [->|]; auto. Qed.
Lemma select_NoDup b m : NoDup m -> NoDup (select b m).
Proof.
  revert m. induction b as [|[] b IH]; intros [|y m] Hn; simpl; try constructor; inversion Hn; subst; auto.
  intros Hin. apply select_incl in Hin. easy.
Qed.

(** The declarative conditions of [get_attesting_indices]. *)
Definition attesting (X : Externals) (cs : ChainSpec) (c : CommitteeCache) (a : Attestation) (cms : list (list N)) (parts : list (list bool)) : Prop :=
  Forall (fun i => i < committees_per_slot c) (set_positions (committee_bits a)) /\
  Forall2 (fun i cm => get_beacon_committee X cs c (ad_slot (att_data a)) i = Ok cm) (set_positions (committee_bits a)) cms /\
  split_bits (aggregation_bits a) cms parts /\
  Forall (fun p => In true p) parts.

Lemma select_nonempty b m : length b = length m -> (In true b <-> select b m <> []).
Proof.
  revert m. induction b as [|[] b IH]; intros [|y m] L; try discriminate; simpl.
  - tauto. - split; [discriminate|auto].
  - rewrite <- IH by auto. split; [intros [|]; [discriminate|auto]|auto].
Qed.

Lemma attesting_loop_sound X cs c slot bits : forall cidx off acc acc' off',
  attesting_loop X cs c slot bits cidx off acc = Ok (acc', off') -> (off <= length bits)%nat ->
  exists cms parts,
    Forall (fun i => i < committees_per_slot c) cidx /\
    Forall2 (fun i cm => get_beacon_committee X cs c slot i = Ok cm) cidx cms /\
    split_bits (firstn (off' - off) (skipn off bits)) cms parts /\
    Forall (fun p => In true p) parts /\
    off' = (off + length (concat cms))%nat /\ (off' <= length bits)%nat /\
    acc' = fold_left bs_extend (map (fun x => select (fst x) (snd x)) (combine parts cms)) acc.
Proof.
  induction cidx as [|i cidx IH]; intros off acc acc' off' E L.
  - simpl in E. inv_ok. exists [], []. rewrite Nat.sub_diag. simpl. repeat split; auto; try constructor. 
  - cbn [attesting_loop] in E. inv_ok.
    match goal with H : (i <? _) = true |- _ => apply N.ltb_lt in H; rename H into Hi end.
    match goal with H : get_beacon_committee _ _ _ _ _ = Ok ?x |- _ => rename H into Hc; rename x into cm end.
    match goal with H : committee_attesters _ _ _ = Ok ?x |- _ => rename H into Ha; rename x into vs end.
    match goal with H : negb _ = true |- _ => rename H into Hne end.
    apply committee_attesters_ok in Ha as [Hl Hvs].
    assert (off + length cm <= length bits)%nat as L' by (destruct Hl as [|Hl]; [auto|rewrite Hl; simpl; lia]).
    apply IH in E; [|auto]. destruct E as (cms & parts & F1 & F2 & SP & FT & Eo & Lo & Eacc).
    exists (cm :: cms), (firstn (length cm) (skipn off bits) :: parts).
    assert (length (firstn (length cm) (skipn off bits)) = length cm) as Lb.
    { rewrite firstn_length, skipn_length. lia. }
    repeat split.
    + constructor; auto.
    + constructor; auto.
    + assert (firstn (off' - off) (skipn off bits) =
              firstn (length cm) (skipn off bits) ++ firstn (off' - (off + length cm)) (skipn (off + length cm) bits)) as ->.
      { rewrite <- (skipn_skipn (length cm) off).
        rewrite <- (firstn_skipn (length cm) (skipn off bits)) at 1. rewrite firstn_app, firstn_firstn, Lb.
        replace (Nat.min (off' - off) (length cm)) with (length cm) by lia.
        f_equal. f_equal. lia. }
      constructor; auto.
    + constructor; auto. apply (select_nonempty _ cm Lb). rewrite <- Hvs.
      destruct vs; [discriminate|easy].
    + cbn [concat]. rewrite app_length. lia.
    + auto.
    + cbn [combine map fold_left fst snd]. rewrite <- Hvs. exact Eacc.
Qed.

Lemma attesting_loop_complete X cs c slot bits : forall cidx cms parts pre off acc,
  Forall (fun i => i < committees_per_slot c) cidx ->
  Forall2 (fun i cm => get_beacon_committee X cs c slot i = Ok cm) cidx cms ->
  length pre = off -> bits = pre ++ concat parts ->
  split_bits (concat parts) cms parts -> Forall (fun p => In true p) parts ->
  attesting_loop X cs c slot bits cidx off acc =
    Ok (fold_left bs_extend (map (fun x => select (fst x) (snd x)) (combine parts cms)) acc, (off + length (concat cms))%nat).
Proof.
  induction cidx as [|i cidx IH]; intros cms parts pre off acc F1 F2 Lp Eb SP FT.
  - inversion F2; subst. inversion SP; subst. simpl. now rewrite Nat.add_0_r.
  - inversion F2 as [|? cm ? cms' Hc F2']; subst. inversion F1; subst.
    inversion SP as [|p0 bits' ? ? parts' Lb SP' E1 E2 E3]; subst.
    inversion FT; subst.
    cbn [attesting_loop]. destruct (N.ltb_spec i (committees_per_slot c)); [|lia]. cbn [assert_ bind].
    rewrite Hc. cbn [bind].
    cbn [concat] in *. apply app_inv_head in E1. subst bits'.
    assert (committee_attesters (pre ++ p0 ++ concat parts') (length pre) cm = Ok (select p0 cm)) as ->.
    { apply committee_attesters_ok. split.
      - left. rewrite !app_length. lia.
      - rewrite skipn_app, skipn_all, Nat.sub_diag. cbn [skipn app]. rewrite firstn_app, Lb, Nat.sub_diag.
        rewrite firstn_all2 by lia. cbn [firstn]. now rewrite app_nil_r. }
    cbn [bind].
    assert (select p0 cm <> []) as Hne by (apply select_nonempty; auto).
    destruct (select p0 cm) as [|s0 sr] eqn:Es; [easy|]. rewrite <- Es in *. 
    replace (negb (length (select p0 cm) =? 0)%nat) with true by (rewrite Es; reflexivity). cbn [assert_ bind].
    rewrite (IH cms' parts' (pre ++ p0)); auto.
    + cbn [combine map fold_left fst snd]. rewrite app_length. do 2 f_equal. lia.
    + rewrite app_length. lia.
    + now rewrite app_assoc.
Qed.
Lemma split_bits_concat bits cms parts : split_bits bits cms parts -> bits = concat parts.
Proof. induction 1; simpl; congruence. Qed.

Lemma fold_bs_extend_In vss acc x : In x (fold_left bs_extend vss acc) <-> In x acc \/ In x (concat vss).
Proof.
  revert acc. induction vss as [|v vss IH]; intros acc; simpl; [tauto|].
  rewrite IH, bs_extend_In, in_app_iff. tauto.
Qed.
Lemma fold_bs_extend_sorted vss acc : bs_sorted acc -> bs_sorted (fold_left bs_extend vss acc).
Proof. revert acc. induction vss; intros acc Ha; simpl; auto. apply IHvss. now apply bs_extend_sorted. Qed.
Lemma select_parts bits cms parts : split_bits bits cms parts ->
  concat (map (fun x => select (fst x) (snd x)) (combine parts cms)) = select bits (concat cms).
Proof. induction 1; simpl; auto. rewrite select_app by auto. congruence. Qed.

Theorem get_attesting_indices_iff X cs c a acc :
  get_attesting_indices X cs c a = Ok acc <->
  exists cms parts, attesting X cs c a cms parts /\ bs_sorted acc /\
    forall x, In x acc <-> In x (select (aggregation_bits a) (concat cms)).
Proof.
  unfold get_attesting_indices, attesting. rewrite bit_indices_set_positions. split.
  - intros E. inv_ok. match goal with H : attesting_loop _ _ _ _ _ _ _ _ = Ok ?p |- _ => rename H into Hl; destruct p as [acc0 off] end.
    inv_ok. match goal with H : (_ =? _)%nat = true |- _ => apply Nat.eqb_eq in H; rename H into Ho end.
    apply attesting_loop_sound in Hl; [|lia]. destruct Hl as (cms & parts & F1 & F2 & SP & FT & Eo & Lo & Ea).
    exists cms, parts. rewrite Nat.sub_0_r in SP. cbn [skipn] in SP. rewrite <- Ho, firstn_all in SP.
    pose proof (select_parts _ _ _ SP) as Es.
    repeat split; auto.
    + rewrite Ea. apply fold_bs_extend_sorted. constructor.
    + rewrite Ea. intros Hx. apply fold_bs_extend_In in Hx as [[]|Hx]. now rewrite Es in Hx.
    + rewrite Ea. intros Hx. apply fold_bs_extend_In. right. now rewrite Es.
  - intros (cms & parts & (F1 & F2 & SP & FT) & Hs & Hin).
    pose proof (split_bits_concat _ _ _ SP) as Eb.
    rewrite (attesting_loop_complete X cs c _ _ _ cms parts [] 0 []); auto.
    2:{ rewrite <- Eb. auto. }
    cbn [bind]. rewrite (split_bits_length _ _ _ SP). cbn [Nat.add]. rewrite Nat.eqb_refl. cbn [assert_ bind]. f_equal.
    apply bs_sorted_ext; auto.
    + apply fold_bs_extend_sorted. constructor.
    + intros x. pose proof (select_parts _ _ _ SP) as Es.
      rewrite fold_bs_extend_In, Es, Hin. simpl. tauto.
Qed.

Lemma bs_sorted_same_length acc (l : list N) : bs_sorted acc -> NoDup l -> (forall x, In x acc <-> In x l) -> length acc = length l.
Proof.
  intros Hs Hn Hin. apply Permutation_length. apply NoDup_Permutation; auto. now apply bs_sorted_NoDup.
Qed.

(** ** Each position lies in exactly one segment *)
Lemma segment_In (sh : list N) count k v : 0 < count -> k < count -> In v (segment sh count k) <->
  exists p, nth_error sh (N.to_nat p) = Some v /\
    N.of_nat (length sh) * k / count <= p < N.of_nat (length sh) * (k + 1) / count.
Proof.
  intros Hc Hk. unfold segment. set (n := N.of_nat (length sh)).
  pose proof (bounds_mono n count k Hc). pose proof (bounds_le n count (k + 1) Hc).
  set (a := n * k / count) in *. set (b := n * (k + 1) / count) in *. split.
  - intros Hin. apply In_nth_error in Hin as [j Hj].
    assert (j < N.to_nat (b - a))%nat as Lj.
    { assert (j < length (firstn (N.to_nat (b - a)) (skipn (N.to_nat a) sh)))%nat as G by (apply nth_error_Some; congruence).
      rewrite firstn_length in G. clearbody a b. lia. }
    exists (a + N.of_nat j). split; [|lia].
    rewrite nth_error_firstn_lt in Hj by auto.
    rewrite nth_error_skipn_add in Hj. replace (N.to_nat (a + N.of_nat j)) with (N.to_nat a + j)%nat by lia. auto.
  - intros (p & Hp & Lp). apply (nth_error_In _ (N.to_nat p - N.to_nat a)).
    rewrite nth_error_firstn_lt by lia. rewrite nth_error_skipn_add.
    replace (N.to_nat a + (N.to_nat p - N.to_nat a))%nat with (N.to_nat p) by lia. auto.
Qed.
Lemma segment_unique (sh : list N) count k k' v : 0 < count -> k < count -> k' < count -> NoDup sh ->
  In v (segment sh count k) -> In v (segment sh count k') -> k = k'.
Proof.
  intros Hc Hk Hk' Hn H1 H2. apply segment_In in H1 as (p & P1 & P2), H2 as (p' & P1' & P2'); auto.
  assert (p = p').
  { pose proof (proj1 (NoDup_nth_error _) Hn (N.to_nat p) (N.to_nat p')) as G.
    assert (N.to_nat p = N.to_nat p'); [|lia]. apply G; [apply nth_error_Some|]; congruence. }
  subst p'. destruct (N.lt_trichotomy k k') as [L|[|L]]; auto; exfalso.
  - assert (N.of_nat (length sh) * (k + 1) / count <= N.of_nat (length sh) * k' / count); [|lia].
    apply N.div_le_mono; [lia|]. apply N.mul_le_mono_l. lia.
  - assert (N.of_nat (length sh) * (k' + 1) / count <= N.of_nat (length sh) * k / count); [|lia].
    apply N.div_le_mono; [lia|]. apply N.mul_le_mono_l. lia.
Qed.

Lemma NoDup_app_remove_l {A} (l l' : list A) : NoDup (l ++ l') -> NoDup l'.
Proof. induction l; simpl; auto. intros Hn. inversion Hn; auto. Qed.
Lemma NoDup_app_remove_r {A} (l l' : list A) : NoDup (l ++ l') -> NoDup l.
Proof.
  induction l; simpl; [constructor|]. intros Hn. inversion Hn; subst. constructor; auto.
  intros Hin. apply H1. apply in_app_iff. auto.
Qed.
Lemma segment_NoDup sh count k : NoDup sh -> NoDup (segment sh count k).
Proof.
  intros Hn. unfold segment. rewrite <- (firstn_skipn (N.to_nat (N.of_nat (length sh) * k / count)) sh) in Hn.
  apply NoDup_app_remove_l in Hn.
  rewrite <- (firstn_skipn (N.to_nat (N.of_nat (length sh) * (k + 1) / count - N.of_nat (length sh) * k / count))
    (skipn (N.to_nat (N.of_nat (length sh) * k / count)) sh)) in Hn.
  now apply NoDup_app_remove_r in Hn.
Qed.
Lemma concat_segments_NoDup sh count ks : 0 < count -> NoDup sh -> NoDup ks -> Forall (fun k => k < count) ks ->
  NoDup (concat (map (segment sh count) ks)).
Proof.
  intros Hc Hn. induction ks as [|k ks IH]; intros Hk Hb; simpl; [constructor|].
  inversion Hk; inversion Hb; subst. apply NoDup_app_intro; auto.
  - now apply segment_NoDup.
  - intros v H1' H2'. apply in_concat in H2' as (sg & Hs & Hv). apply in_map_iff in Hs as (k' & <- & Hk').
    assert (k' < count) by (rewrite Forall_forall in *; auto).
    assert (k = k') by (eapply (segment_unique sh count k k' v); eauto). subst. easy.
Qed.
Lemma set_positions_NoDup bits : NoDup (set_positions bits).
Proof.
  unfold set_positions. apply FinFun.Injective_map_NoDup; [intros ? ?; lia|]. apply NoDup_filter, seq_NoDup.
Qed.
Lemma map_committee_of sh spe cps slot ks :
  map (committee_of sh spe cps slot) ks = map (segment sh (cps * spe)) (map (fun i => slot mod spe * cps + i) ks).
Proof. now rewrite map_map. Qed.
Lemma committees_NoDup sh spe cps slot ks : 0 < spe -> 0 < cps -> NoDup sh -> NoDup ks -> Forall (fun k => k < cps) ks ->
  NoDup (concat (map (committee_of sh spe cps slot) ks)).
Proof.
  intros. rewrite map_committee_of. apply concat_segments_NoDup; auto; [nia| |].
  - apply FinFun.Injective_map_NoDup; auto. intros ? ?; lia.
  - rewrite Forall_map. eapply Forall_impl; [|eassumption]. simpl. intros i Hi.
    pose proof (N.mod_lt slot spe). nia.
Qed.
Lemma attesting_iff X cs c e sh cps a : cache_ok X cs c e sh cps ->
  epoch_of_slot cs (ad_slot (att_data a)) = e ->
  (exists cms parts, attesting X cs c a cms parts /\ cms = map (committee_of sh (slots_per_epoch cs) cps (ad_slot (att_data a))) (set_positions (committee_bits a)))
  <-> bits_well_formed sh (slots_per_epoch cs) cps a.
Proof.
  intros Hok He. unfold attesting, bits_well_formed. pose proof Hok as (_ & _ & Hc & _). rewrite Hc. split.
  - intros (cms & parts & (H1 & H2 & H3 & H4) & ->). eauto.
  - intros (H1 & parts & H3 & H4). exists (map (committee_of sh (slots_per_epoch cs) cps (ad_slot (att_data a))) (set_positions (committee_bits a))), parts. repeat split; auto.
    clear H3 H4. induction H1; simpl; constructor; auto. eapply get_beacon_committee_ok; eauto.
Qed.
Lemma attesting_cms X cs c e sh cps a cms parts : cache_ok X cs c e sh cps ->
  epoch_of_slot cs (ad_slot (att_data a)) = e -> attesting X cs c a cms parts ->
  cms = map (committee_of sh (slots_per_epoch cs) cps (ad_slot (att_data a))) (set_positions (committee_bits a)).
Proof.
  intros Hok He (H1 & H2 & _). pose proof Hok as (_ & _ & Hc & _). rewrite Hc in H1. clear -Hok He H1 H2.
  induction H2; simpl; auto. inversion H1; subst. f_equal; auto.
  erewrite get_beacon_committee_ok in H by eauto. congruence.
Qed.
Theorem get_attesting_indices_spec X cs c e sh cps a acc : cache_ok X cs c e sh cps ->
  epoch_of_slot cs (ad_slot (att_data a)) = e ->
  get_attesting_indices X cs c a = Ok acc <->
  bits_well_formed sh (slots_per_epoch cs) cps a /\ bs_sorted acc /\
  forall x, In x acc <-> In x (attesters_of sh (slots_per_epoch cs) cps a).
Proof.
  intros Hok He. rewrite get_attesting_indices_iff, <- (attesting_iff X cs c e sh cps a) by auto. split.
  - intros (cms & parts & Ha & Hs & Hi). pose proof (attesting_cms _ _ _ _ _ _ _ _ _ Hok He Ha) as ->. eauto 6.
  - intros ((cms & parts & Ha & ->) & Hs & Hi). eauto 6.
Qed.

(** ** Unique committee of a validator *)
Lemma epoch_slot_decomp spe slot : 0 < spe -> slot = (slot / spe) * spe + slot mod spe.
Proof. intros. rewrite N.mul_comm. apply N.div_mod. lia. Qed.
Lemma mixed_radix a b c d cps : b < cps -> d < cps -> a * cps + b = c * cps + d -> a = c /\ b = d.
Proof. intros. assert (a = c) by nia. split; auto. subst. lia. Qed.
Theorem unique_committee X cs c e sh cps : cache_ok X cs c e sh cps -> NoDup sh -> forall v, In v sh ->
  exists slot idx cm, epoch_of_slot cs slot = e /\ get_beacon_committee X cs c slot idx = Ok cm /\ In v cm /\
    forall slot' idx' cm', get_beacon_committee X cs c slot' idx' = Ok cm' -> In v cm' -> slot' = slot /\ idx' = idx.
Proof.
  intros Hok Hn v Hv. pose proof Hok as (H1 & H2 & H3 & H4 & (P1 & P2 & P3 & P4 & P5)).
  set (spe := slots_per_epoch cs) in *.
  assert (0 < cps * spe) as Hc by nia.
  rewrite <- (segments_concat sh (cps * spe) Hc) in Hv. apply in_concat in Hv as (sg & Hs & Hv).
  apply in_map_iff in Hs as (k & <- & Hk). apply in_N_seq in Hk.
  assert (k / cps < spe) as Hd by (apply N.div_lt_upper_bound; lia).
  assert (k mod cps < cps) as Hm by (apply N.mod_lt; lia).
  assert (k = k / cps * cps + k mod cps) as Ek by (apply epoch_slot_decomp; auto).
  exists (e * spe + k / cps), (k mod cps), (segment sh (cps * spe) k).
  assert (epoch_of_slot cs (e * spe + k / cps) = e) as He.
  { unfold epoch_of_slot. fold spe. rewrite N.add_comm, N.div_add, N.div_small by lia. lia. }
  assert ((e * spe + k / cps) mod spe = k / cps) as Em.
  { rewrite N.add_comm, N.mod_add by lia. now apply N.mod_small. }
  split; [auto|]. split; [|split; [auto|]].
  - erewrite get_beacon_committee_ok by eauto. unfold committee_of. fold spe. rewrite Em, <- Ek. reflexivity.
  - intros slot' idx' cm' G Hin.
    destruct (get_beacon_committee_err X cs c e slot' idx' H1) as [E1 E2].
    destruct (N.eq_dec (epoch_of_slot cs slot') e) as [He'|]; [|rewrite E1 in G by auto; discriminate].
    destruct (N.lt_ge_cases idx' cps) as [Hi'|]; [|rewrite E2 in G by lia; discriminate].
    erewrite get_beacon_committee_ok in G by eauto. injection G as <-. unfold committee_of in Hin. fold spe in Hin.
    pose proof (N.mod_lt slot' spe) as Ms.
    assert (slot' mod spe * cps + idx' < cps * spe) by nia.
    pose proof (segment_unique sh (cps * spe) _ _ v Hc Hk H Hn Hv Hin) as Eq.
    rewrite Ek in Eq. apply mixed_radix in Eq as [Q1 Q2]; auto. split; auto.
    rewrite (epoch_slot_decomp spe slot' P1). unfold epoch_of_slot in He'. fold spe in He'. rewrite He', <- Q1. auto.
Qed.
