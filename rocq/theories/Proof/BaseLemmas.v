(** Lemmas about the modelling vocabulary. *)
From Coq Require Import List ZArith NArith Bool Lia Sorting.Sorted Sorting.Permutation.
From Coq Require Import ZifyBool ZifyNat ZifyN.
From Coq.Init Require Import Byte.
From Coq.Strings Require Import Byte.
From Verif.Model Require Import Base Types.
Import ListNotations.
Open Scope N_scope.

Ltac Zify.zify_post_hook ::= Z.div_mod_to_equations.

(** ** Outcomes *)
Lemma bind_ok {E A B} (m : outcome E A) (k : A -> outcome E B) b :
  bind m k = Ok b <-> exists a, m = Ok a /\ k a = Ok b.
Proof.
  destruct m; simpl; split; intros.
  - eauto.
  - destruct H as (? & H1 & ?). now inversion H1; subst.
  - discriminate.
  - destruct H as (? & ? & ?); discriminate.
  - discriminate.
  - destruct H as (? & ? & ?); discriminate.
Qed.
Lemma ensure_ok {E} c (e : E) u : ensure c e = Ok u <-> c = true.
Proof. unfold ensure. destruct c, u; split; intros; congruence. Qed.
Lemma assert_ok {E} c u : @assert_ E c = Ok u <-> c = true.
Proof. unfold assert_. destruct c, u; split; intros; congruence. Qed.
Lemma map_err_ok {E F A} (f : E -> F) (m : outcome E A) a : map_err f m = Ok a <-> m = Ok a.
Proof. destruct m; simpl; split; intros H; inversion H; reflexivity. Qed.
Lemma unwrap_ok {E F A} (m : outcome E A) a : @unwrap E F A m = Ok a <-> m = Ok a.
Proof. destruct m; simpl; split; intros H; inversion H; reflexivity. Qed.
Lemma ok_or_ok {E A} (o : option A) (e : E) a : ok_or o e = Ok a <-> o = Some a.
Proof. destruct o; simpl; split; intros H; inversion H; reflexivity. Qed.
Lemma expect_ok {E A} (o : option A) a : @expect E A o = Ok a <-> o = Some a.
Proof. destruct o; simpl; split; intros H; inversion H; reflexivity. Qed.
Lemma safe_add_ok {E} (f : ArithError -> E) a b c :
  safe_add f a b = Ok c <-> c = a + b /\ a + b < two64.
Proof. unfold safe_add. destruct (N.ltb_spec (a+b) two64); split; intros; try discriminate.
  - inversion H0; subst; auto.
  - destruct H0; subst; auto.
  - lia.
Qed.
Lemma safe_sub_ok {E} (f : ArithError -> E) a b c :
  safe_sub f a b = Ok c <-> c = a - b /\ b <= a.
Proof. unfold safe_sub. destruct (N.leb_spec b a); split; intros; try discriminate.
  - inversion H0; subst; auto.
  - destruct H0; subst; auto.
  - lia.
Qed.
Lemma safe_mul_ok {E} (f : ArithError -> E) a b c :
  safe_mul f a b = Ok c <-> c = a * b /\ a * b < two64.
Proof. unfold safe_mul. destruct (N.ltb_spec (a*b) two64); split; intros; try discriminate.
  - inversion H0; subst; auto.
  - destruct H0; subst; auto.
  - lia.
Qed.
Lemma safe_div_ok {E} (f : ArithError -> E) a b c :
  safe_div f a b = Ok c <-> c = a / b /\ b <> 0.
Proof. unfold safe_div. destruct (N.eqb_spec b 0); split; intros; try discriminate.
  - lia.
  - inversion H; subst; auto.
  - destruct H; subst; auto.
Qed.
Lemma safe_rem_ok {E} (f : ArithError -> E) a b c :
  safe_rem f a b = Ok c <-> c = a mod b /\ b <> 0.
Proof. unfold safe_rem. destruct (N.eqb_spec b 0); split; intros; try discriminate.
  - lia.
  - inversion H; subst; auto.
  - destruct H; subst; auto.
Qed.

(** Decompose hypotheses of the form [(x <- m ;; k) = Ok b]. *)
Ltac inv_ok1 :=
  match goal with
  | H : bind _ _ = Ok _ |- _ => apply bind_ok in H; destruct H as (? & ? & H)
  | H : ensure _ _ = Ok _ |- _ => apply ensure_ok in H
  | H : assert_ _ = Ok _ |- _ => apply assert_ok in H
  | H : map_err _ _ = Ok _ |- _ => apply map_err_ok in H
  | H : unwrap _ = Ok _ |- _ => apply unwrap_ok in H
  | H : ok_or _ _ = Ok _ |- _ => apply ok_or_ok in H
  | H : expect _ = Ok _ |- _ => apply expect_ok in H
  | H : safe_add _ _ _ = Ok _ |- _ => apply safe_add_ok in H; destruct H as (-> & H)
  | H : safe_sub _ _ _ = Ok _ |- _ => apply safe_sub_ok in H; destruct H as (-> & H)
  | H : safe_mul _ _ _ = Ok _ |- _ => apply safe_mul_ok in H; destruct H as (-> & H)
  | H : safe_div _ _ _ = Ok _ |- _ => apply safe_div_ok in H; destruct H as (-> & H)
  | H : safe_rem _ _ _ = Ok _ |- _ => apply safe_rem_ok in H; destruct H as (-> & H)
  | H : Ok _ = Ok _ |- _ => injection H; clear H; intros; subst
  | H : Err _ = Ok _ |- _ => discriminate H
  | H : Panic = Ok _ |- _ => discriminate H
  | x : unit |- _ => destruct x
  end.
Ltac inv_ok := repeat inv_ok1.

Lemma fold_outcome_app {E A S} (f : S -> A -> outcome E S) l1 l2 s :
  fold_outcome f (l1 ++ l2) s = (s' <- fold_outcome f l1 s ;; fold_outcome f l2 s').
Proof.
  revert s. induction l1; simpl; intros; auto.
  destruct (f s a); simpl; auto.
Qed.
Lemma fold_outcome_inv {E A S} (P : S -> Prop) (f : S -> A -> outcome E S) :
  forall l s s', P s ->
  (forall x a s1, In a l -> P x -> f x a = Ok s1 -> P s1) ->
  fold_outcome f l s = Ok s' -> P s'.
Proof.
  induction l; simpl; intros s s' Hs Hf H.
  - inv_ok; auto.
  - inv_ok. eapply IHl; [| |eassumption]; eauto.
Qed.
Lemma map_outcome_ok {E A B} (f : A -> outcome E B) l bs :
  map_outcome f l = Ok bs <-> Forall2 (fun a b => f a = Ok b) l bs.
Proof.
  revert bs. induction l; simpl; intros bs.
  - split; intros H. + inv_ok; constructor. + inversion H; auto.
  - split; intros H.
    + inv_ok. constructor; auto. now apply IHl.
    + inversion H; subst. rewrite H2; simpl. apply IHl in H4. rewrite H4. reflexivity.
Qed.

(** ** Bytes *)
Lemma byte_to_N_lt b : Byte.to_N b < 256.
Proof. destruct b; reflexivity. Qed.
Lemma byte_eqb_eq a b : byte_eqb a b = true <-> a = b.
Proof.
  unfold byte_eqb. rewrite N.eqb_eq. split; [|now intros ->].
  intros H. pose proof (Byte.of_to_N a) as Ha. pose proof (Byte.of_to_N b) as Hb.
  rewrite H in Ha. congruence.
Qed.
Lemma bytes_eqb_eq a b : bytes_eqb a b = true <-> a = b.
Proof.
  revert b. induction a; destruct b; simpl; split; intros H; try discriminate; auto.
  - apply andb_true_iff in H as [H1 H2]. apply byte_eqb_eq in H1. apply IHa in H2. congruence.
  - inversion H; subst. apply andb_true_iff; split; [now apply byte_eqb_eq|now apply IHa].
Qed.
Lemma bytes_eqb_refl a : bytes_eqb a a = true.
Proof. now apply bytes_eqb_eq. Qed.
Lemma bytes_eqb_neq a b : bytes_eqb a b = false <-> a <> b.
Proof. rewrite <- not_true_iff_false, bytes_eqb_eq. tauto. Qed.
Definition bytes_eq_dec (a b : bytes) : {a = b} + {a <> b}.
Proof. destruct (bytes_eqb a b) eqn:E; [left; now apply bytes_eqb_eq|right; now apply bytes_eqb_neq]. Defined.

Lemma of_N_lt x : x < 256 -> exists b, Byte.of_N x = Some b.
Proof.
  intros. destruct (Byte.of_N x) eqn:E; eauto.
  apply Byte.of_N_None_iff in E. lia.
Qed.
Lemma byte_of_N_to_N x : Byte.to_N (byte_of_N x) = x mod 256.
Proof.
  unfold byte_of_N. destruct (of_N_lt (x mod 256)) as [b Hb]. { apply N.mod_lt. lia. }
  rewrite Hb. now apply Byte.to_of_N_iff.
Qed.
Lemma byte_of_N_of_byte b : byte_of_N (Byte.to_N b) = b.
Proof.
  apply byte_eqb_eq. unfold byte_eqb. rewrite byte_of_N_to_N. apply N.eqb_eq.
  apply N.mod_small, byte_to_N_lt.
Qed.
Lemma le_bytes_length k x : length (le_bytes k x) = k.
Proof. revert x. induction k; simpl; intros; auto. Qed.
Lemma be_bytes_length k x : length (be_bytes k x) = k.
Proof. unfold be_bytes. now rewrite rev_length, le_bytes_length. Qed.
Lemma zero_bytes_length k : length (zero_bytes k) = k.
Proof. apply repeat_length. Qed.

Lemma le_val_le_bytes k x : le_val (le_bytes k x) = x mod 256 ^ N.of_nat k.
Proof.
  revert x. induction k; intros x.
  - simpl. now rewrite N.mod_1_r.
  - cbn [le_bytes le_val]. rewrite IHk, byte_of_N_to_N.
    rewrite Nat2N.inj_succ, N.pow_succ_r'.
    rewrite N.mod_mul_r by (try apply N.pow_nonzero; lia). lia.
Qed.
Lemma le_val_le_bytes_small k x : x < 256 ^ N.of_nat k -> le_val (le_bytes k x) = x.
Proof. intros. rewrite le_val_le_bytes. now apply N.mod_small. Qed.
Lemma le_val_bound bs : le_val bs < 256 ^ N.of_nat (length bs).
Proof.
  induction bs; cbn [le_val length].
  - reflexivity.
  - rewrite Nat2N.inj_succ, N.pow_succ_r'. pose proof (byte_to_N_lt a). lia.
Qed.
Lemma le_bytes_le_val bs : le_bytes (length bs) (le_val bs) = bs.
Proof.
  induction bs; cbn [le_val length le_bytes]; auto.
  pose proof (byte_to_N_lt a). f_equal.
  - rewrite <- (byte_of_N_of_byte a) at 2. unfold byte_of_N.
    replace ((Byte.to_N a + 256 * le_val bs) mod 256) with (Byte.to_N a mod 256) by lia. auto.
  - replace ((Byte.to_N a + 256 * le_val bs) / 256) with (le_val bs) by lia. auto.
Qed.
Lemma be_val_be_bytes_small k x : x < 256 ^ N.of_nat k -> be_val (be_bytes k x) = x.
Proof. unfold be_val, be_bytes. rewrite rev_involutive. apply le_val_le_bytes_small. Qed.
Lemma be_bytes_be_val bs : be_bytes (length bs) (be_val bs) = bs.
Proof.
  unfold be_val, be_bytes. rewrite <- (rev_length bs), le_bytes_le_val, rev_involutive. auto.
Qed.
Lemma le_bytes_inj k x y : x < 256 ^ N.of_nat k -> y < 256 ^ N.of_nat k ->
  le_bytes k x = le_bytes k y -> x = y.
Proof. intros Hx Hy H. apply (f_equal le_val) in H. now rewrite !le_val_le_bytes_small in H. Qed.
Lemma two64_256 : 256 ^ N.of_nat 8 = two64.
Proof. reflexivity. Qed.

Lemma app_inj_length {A} (a b c d : list A) :
  length a = length c -> a ++ b = c ++ d -> a = c /\ b = d.
Proof.
  revert c. induction a; destruct c; simpl; intros; try discriminate; auto.
  inversion H0; subst. apply IHa in H3 as [? ?]; [subst; auto|lia].
Qed.
Lemma app_inj_length_r {A} (a b c d : list A) :
  length b = length d -> a ++ b = c ++ d -> a = c /\ b = d.
Proof.
  intros Hl H. apply app_inj_length; auto.
  apply (f_equal (@length A)) in H. rewrite !app_length in H. lia.
Qed.

Lemma slice_some {A} (l : list A) i n x :
  slice l i n = Some x <-> (i + n <= length l)%nat /\ x = firstn n (skipn i l).
Proof.
  unfold slice. destruct (Nat.leb_spec (i+n) (length l)); split; intros Hx.
  - inversion Hx; auto.
  - destruct Hx; subst; auto.
  - discriminate.
  - lia.
Qed.
Lemma slice_app {A} (a b c : list A) : slice (a ++ b ++ c) (length a) (length b) = Some b.
Proof.
  apply slice_some. rewrite !app_length. split; [lia|].
  rewrite skipn_app, skipn_all2, Nat.sub_diag by lia. simpl.
  rewrite firstn_app, Nat.sub_diag, firstn_all. simpl. now rewrite app_nil_r.
Qed.
Lemma slice_length {A} (l : list A) i n x : slice l i n = Some x -> length x = n.
Proof.
  intros H. apply slice_some in H as [H ->]. rewrite firstn_length, skipn_length. lia.
Qed.

(** ** Equality tests *)
Lemma checkpoint_eqb_eq a b : checkpoint_eqb a b = true <-> a = b.
Proof.
  unfold checkpoint_eqb. rewrite andb_true_iff, N.eqb_eq, bytes_eqb_eq.
  destruct a, b; simpl. split; [intros [-> ->]; auto|now inversion 1].
Qed.
Lemma checkpoint_eqb_refl a : checkpoint_eqb a a = true.
Proof. now apply checkpoint_eqb_eq. Qed.
Lemma checkpoint_eqb_neq a b : checkpoint_eqb a b = false <-> a <> b.
Proof. rewrite <- not_true_iff_false, checkpoint_eqb_eq. tauto. Qed.
Lemma link_eqb_eq a b : link_eqb a b = true <-> a = b.
Proof.
  unfold link_eqb. rewrite andb_true_iff, !checkpoint_eqb_eq.
  destruct a, b; simpl. split; [intros [-> ->]; auto|now inversion 1].
Qed.
Lemma link_eqb_neq a b : link_eqb a b = false <-> a <> b.
Proof. rewrite <- not_true_iff_false, link_eqb_eq. tauto. Qed.
Lemma fork_eqb_eq a b : fork_eqb a b = true <-> a = b.
Proof.
  unfold fork_eqb. rewrite !andb_true_iff, !bytes_eqb_eq, N.eqb_eq.
  destruct a, b; simpl. split; [intros [[-> ->] ->]; auto|now inversion 1].
Qed.

(** ** Sorted maps *)
Definition key_lt {V} (a b : N * V) : Prop := fst a < fst b.
Definition bm_sorted {V} (m : bmap V) : Prop := StronglySorted key_lt m.

Lemma bm_get_in {V} (m : bmap V) k v : bm_get m k = Some v -> In (k, v) m.
Proof.
  induction m as [|[k' v'] m IH]; simpl; intros H; try discriminate.
  destruct (N.eqb_spec k k'); [inversion H; subst; auto|auto].
Qed.
Lemma bm_get_None {V} (m : bmap V) k : bm_get m k = None <-> ~ In k (map fst m).
Proof.
  induction m as [|[k' v'] m IH]; simpl; [tauto|].
  destruct (N.eqb_spec k k'); split; intros.
  - discriminate.
  - subst; tauto.
  - rewrite IH in H. intros [?|?]; congruence.
  - apply IH. tauto.
Qed.
Lemma bm_sorted_inv {V} a (m : bmap V) : bm_sorted (a :: m) ->
  bm_sorted m /\ forall x, In x m -> fst a < fst x.
Proof. intros H. apply StronglySorted_inv in H as [H1 H2]. rewrite Forall_forall in H2. auto. Qed.
Lemma bm_in_get {V} (m : bmap V) k v : bm_sorted m -> In (k, v) m -> bm_get m k = Some v.
Proof.
  induction m as [|[k' v'] m IH]; simpl; intros Hs H; [tauto|].
  apply bm_sorted_inv in Hs as [Hs Hlt]. destruct H as [H|H].
  - inversion H; subst. now rewrite N.eqb_refl.
  - specialize (Hlt _ H). simpl in Hlt. destruct (N.eqb_spec k k'); [lia|auto].
Qed.
Lemma bm_get_iff {V} (m : bmap V) k v : bm_sorted m -> bm_get m k = Some v <-> In (k, v) m.
Proof. intros. split; [apply bm_get_in|now apply bm_in_get]. Qed.
Lemma bm_sorted_NoDup {V} (m : bmap V) : bm_sorted m -> NoDup (map fst m).
Proof.
  induction m as [|a m IH]; simpl; intros Hs; constructor.
  - apply bm_sorted_inv in Hs as [_ Hlt]. rewrite in_map_iff. intros (x & Hx & Hin).
    specialize (Hlt _ Hin). lia.
  - apply IH. now apply bm_sorted_inv in Hs.
Qed.
Lemma bm_insert_in {V} (m : bmap V) k v x :
  In x (bm_insert m k v) -> x = (k, v) \/ In x m.
Proof.
  induction m as [|[k' v'] m IH]; simpl; [intros [<-|[]]; auto|].
  destruct (k <? k'); [simpl; intuition|].
  destruct (k =? k'); simpl; intuition.
Qed.
Lemma bm_insert_sorted {V} (m : bmap V) k v : bm_sorted m -> bm_sorted (bm_insert m k v).
Proof.
  induction m as [|[k' v'] m IH]; simpl; intros Hs.
  - repeat constructor.
  - pose proof Hs as Hs0. apply bm_sorted_inv in Hs as [Hs Hlt]. simpl in Hlt.
    destruct (N.ltb_spec k k'); [|destruct (N.eqb_spec k k')].
    + constructor; auto. constructor; [exact H|]. apply Forall_forall.
      intros x Hx. specialize (Hlt _ Hx). unfold key_lt; simpl in *; lia.
    + subst. constructor; auto. apply Forall_forall. intros x Hx. apply (Hlt _ Hx).
    + constructor; [now apply IH|]. apply Forall_forall. intros x Hx.
      apply bm_insert_in in Hx as [->|Hx]; unfold key_lt; simpl; [lia|apply (Hlt _ Hx)].
Qed.
Lemma bm_get_insert {V} (m : bmap V) k v k' : bm_sorted m ->
  bm_get (bm_insert m k v) k' = if k' =? k then Some v else bm_get m k'.
Proof.
  induction m as [|[k0 v0] m IH]; simpl; intros Hs; auto.
  apply bm_sorted_inv in Hs as [Hs Hlt]; simpl in Hlt.
  destruct (N.ltb_spec k k0); [|destruct (N.eqb_spec k k0)]; simpl.
  - destruct (N.eqb_spec k' k); auto.
  - subst. destruct (N.eqb_spec k' k0); auto.
  - rewrite IH by auto. destruct (N.eqb_spec k' k0), (N.eqb_spec k' k); subst; auto; congruence.
Qed.
Lemma bm_of_list_sorted {V} (l : list (N * V)) : bm_sorted (bm_of_list l).
Proof.
  unfold bm_of_list. assert (forall m : bmap V, bm_sorted m ->
    bm_sorted (fold_left (fun m kv => bm_insert m (fst kv) (snd kv)) l m)) as H.
  { induction l; simpl; intros; auto. apply IHl. now apply bm_insert_sorted. }
  apply H. constructor.
Qed.
Lemma bm_insert_last {V} (m : bmap V) k v :
  (forall x, In x m -> fst x < k) -> bm_insert m k v = m ++ [(k, v)].
Proof.
  induction m as [|[k0 v0] m IH]; simpl; intros H; auto.
  pose proof (H _ (or_introl eq_refl)) as H0. simpl in H0.
  destruct (N.ltb_spec k k0); [lia|]. destruct (N.eqb_spec k k0); [lia|].
  f_equal. apply IH. intros; apply H; auto.
Qed.
Lemma bm_of_list_sorted_id {V} (l : list (N * V)) : bm_sorted l -> bm_of_list l = l.
Proof.
  unfold bm_of_list. intros Hs.
  assert (forall l (m : bmap V), bm_sorted (m ++ l) ->
    fold_left (fun m kv => bm_insert m (fst kv) (snd kv)) l m = m ++ l) as H.
  { clear. induction l as [|[k v] l IH]; simpl; intros m Hs; [now rewrite app_nil_r|].
    rewrite bm_insert_last.
    - rewrite IH; rewrite <- app_assoc; auto.
    - intros x Hx. clear IH. induction m as [|a m IHm]; simpl in *; [tauto|].
      apply bm_sorted_inv in Hs as [Hs Hlt]. destruct Hx as [->|Hx]; auto.
      specialize (Hlt (k, v)). simpl in Hlt. apply Hlt. apply in_or_app; simpl; auto. }
  apply (H l []). exact Hs.
Qed.
Lemma bm_of_list_in {V} (l : list (N * V)) x : In x (bm_of_list l) -> In x l.
Proof.
  unfold bm_of_list. assert (forall m : bmap V,
    In x (fold_left (fun m kv => bm_insert m (fst kv) (snd kv)) l m) -> In x m \/ In x l) as H.
  { induction l as [|[k v] l IH]; simpl; intros m Hx; auto.
    apply IH in Hx as [Hx|Hx]; auto. apply bm_insert_in in Hx as [->|Hx]; auto. }
  intros Hx. apply H in Hx as [[]|]; auto.
Qed.
Lemma bm_sorted_filter {V} (p : N * V -> bool) (m : bmap V) : bm_sorted m -> bm_sorted (filter p m).
Proof.
  induction m; simpl; intros Hs; [constructor|].
  apply bm_sorted_inv in Hs as [Hs Hlt]. destruct (p a); auto.
  constructor; [now apply IHm|]. apply Forall_forall. intros x Hx. apply filter_In in Hx as [Hx _].
  apply (Hlt _ Hx).
Qed.
Lemma bm_sorted_map {V W} (f : N * V -> N * W) (m : bmap V) :
  (forall x, fst (f x) = fst x) -> bm_sorted m -> bm_sorted (map f m).
Proof.
  intros Hf. induction m; simpl; intros Hs; [constructor|].
  apply bm_sorted_inv in Hs as [Hs Hlt]. constructor; [now apply IHm|].
  apply Forall_forall. intros x Hx. apply in_map_iff in Hx as (y & <- & Hy).
  unfold key_lt. rewrite !Hf. now apply Hlt.
Qed.
Lemma bm_get_map {V W} (f : N -> V -> W) (m : bmap V) k :
  bm_get (map (fun kv => (fst kv, f (fst kv) (snd kv))) m) k = option_map (f k) (bm_get m k).
Proof.
  induction m as [|[k0 v0] m IH]; simpl; auto.
  destruct (N.eqb_spec k k0); subst; auto.
Qed.
Lemma bm_get_filter {V} (p : N * V -> bool) (m : bmap V) k : bm_sorted m ->
  bm_get (filter p m) k = match bm_get m k with
                          | Some v => if p (k, v) then Some v else None | None => None end.
Proof.
  induction m as [|[k0 v0] m IH]; simpl; intros Hs; auto.
  apply bm_sorted_inv in Hs as [Hs Hlt]; simpl in Hlt. specialize (IH Hs).
  destruct (p (k0, v0)) eqn:E; simpl; destruct (N.eqb_spec k k0); subst; auto.
  - now rewrite E.
  - rewrite IH. rewrite E. destruct (bm_get m k0) eqn:G; auto.
    apply bm_get_in in G. specialize (Hlt _ G). simpl in Hlt. lia.
Qed.

(** ** Sorted sets *)
Definition bs_sorted (s : list N) : Prop := StronglySorted N.lt s.
Lemma bs_insert_In s x y : In y (bs_insert s x) <-> y = x \/ In y s.
Proof.
  induction s as [|z s IH]; simpl; [intuition|].
  destruct (N.ltb_spec x z); [|destruct (N.eqb_spec x z)]; simpl; subst; intuition.
Qed.
Lemma bs_insert_sorted s x : bs_sorted s -> bs_sorted (bs_insert s x).
Proof.
  induction s as [|z s IH]; simpl; intros Hs; [repeat constructor|].
  apply StronglySorted_inv in Hs as [Hs Hall]. rewrite Forall_forall in Hall.
  destruct (N.ltb_spec x z); [|destruct (N.eqb_spec x z)].
  - constructor; [constructor; auto; now apply Forall_forall|].
    constructor; auto. apply Forall_forall. intros y Hy. specialize (Hall _ Hy). lia.
  - subst. constructor; auto. now apply Forall_forall.
  - constructor; [now apply IH|]. apply Forall_forall. intros y Hy.
    apply bs_insert_In in Hy as [->|Hy]; [lia|auto].
Qed.
Lemma bs_extend_In s l y : In y (bs_extend s l) <-> In y s \/ In y l.
Proof.
  unfold bs_extend. revert s. induction l; simpl; intros; [tauto|].
  rewrite IHl, bs_insert_In. intuition.
Qed.
Lemma bs_extend_sorted s l : bs_sorted s -> bs_sorted (bs_extend s l).
Proof. unfold bs_extend. revert s. induction l; simpl; intros; auto. apply IHl. now apply bs_insert_sorted. Qed.
Lemma bs_sorted_NoDup s : bs_sorted s -> NoDup s.
Proof.
  induction s; intros Hs; constructor; apply StronglySorted_inv in Hs as [Hs Hall]; auto.
  rewrite Forall_forall in Hall. intros Hin. specialize (Hall _ Hin). lia.
Qed.
Lemma bs_sorted_ext s t : bs_sorted s -> bs_sorted t -> (forall x, In x s <-> In x t) -> s = t.
Proof.
  revert t. induction s as [|a s IH]; intros t Hs Ht Heq.
  - destruct t; auto. exfalso. apply (Heq n). simpl; auto.
  - destruct t as [|b t]. { exfalso. apply (Heq a). simpl; auto. }
    apply StronglySorted_inv in Hs as [Hs Ha]. apply StronglySorted_inv in Ht as [Ht Hb].
    rewrite Forall_forall in Ha, Hb.
    assert (a = b) as ->.
    { pose proof (proj1 (Heq a) (or_introl eq_refl)) as [?|H1]; auto.
      pose proof (proj2 (Heq b) (or_introl eq_refl)) as [?|H2]; auto.
      specialize (Ha _ H2). specialize (Hb _ H1). lia. }
    f_equal. apply IH; auto. intros x. split; intros Hx.
    + destruct (proj1 (Heq x) (or_intror Hx)); auto. subst. specialize (Ha _ Hx). lia.
    + destruct (proj2 (Heq x) (or_intror Hx)); auto. subst. specialize (Hb _ Hx). lia.
Qed.

(** ** Root-keyed maps *)
Lemma rm_get_insert {V} (m : rmap V) k v k' :
  rm_get (rm_insert m k v) k' = if bytes_eqb k' k then Some v else rm_get m k'.
Proof. reflexivity. Qed.

Lemma skipn_skipn {A} n m (l : list A) : skipn n (skipn m l) = skipn (m + n) l.
Proof. revert l. induction m; intros l; [reflexivity|]. destruct l; simpl; [now rewrite skipn_nil|auto]. Qed.
Lemma NoDup_app_intro {A} (l l' : list A) : NoDup l -> NoDup l' -> (forall x, In x l -> ~ In x l') -> NoDup (l ++ l').
Proof.
  induction 1; simpl; intros Hl Hd; auto. constructor.
  - rewrite in_app_iff. intros [|Hx]; auto. apply (Hd x); auto.
  - apply IHNoDup; auto.
Qed.
