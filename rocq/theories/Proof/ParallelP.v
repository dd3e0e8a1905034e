From Coq Require Import List ZArith NArith Bool Lia Permutation.
From Coq Require Import ZifyBool ZifyNat ZifyN.
From Verif.Model Require Import Base Types ConsensusState Multiproof Builder GuestReader Verify HostChain HostInput Parallel.
From Verif.Spec Require Import Merkle Beacon.
From Verif.Proof Require Import BaseLemmas MerkleP MultiproofP BuilderP.
Import ListNotations.
Open Scope N_scope.

(** ** [try_join_all] *)
Section Join.
  Context {E A : Type}.
  Lemma arrived_in (rd : arrivals E A) i r : arrived rd i = Some r -> In (i, r) rd.
  Proof.
    induction rd as [|[j x] rd IH]; cbn; [discriminate|]. destruct (Nat.eqb_spec i j) as [->|]; intros H.
    - injection H as ->. now left.
    - right. auto.
  Qed.
  Lemma all_done_some (fs : list (option A)) l : all_done fs = Some l -> fs = map Some l.
  Proof.
    revert l. induction fs as [|[a|] fs IH]; cbn; intros l H; try discriminate.
    - injection H as <-. reflexivity.
    - destruct (all_done fs) eqn:D; [|discriminate]. injection H as <-. cbn. f_equal. auto.
  Qed.
  Lemma all_done_map (l : list A) : all_done (map Some l) = Some l.
  Proof. induction l; cbn; auto. now rewrite IHl. Qed.

  (** What has been kept came from the schedule. *)
  Definition from (S : nat -> outcome E A -> Prop) (i : nat) (fs : list (option A)) : Prop :=
    forall k a, nth_error fs k = Some (Some a) -> S (i + k)%nat (Ok a).
  Lemma poll_each_from (S : nat -> outcome E A -> Prop) rd : (forall i r, In (i, r) rd -> S i r) ->
    forall fs i, from S i fs ->
    match poll_each rd i fs with
    | Ok fs' => from S i fs' /\ length fs' = length fs /\
                (forall k a, nth_error fs k = Some (Some a) -> nth_error fs' k = Some (Some a)) /\
                (forall k, (k < length fs)%nat -> arrived rd (i + k) <> None -> nth_error fs' k <> Some None)
    | Err e => exists k, (k < length fs)%nat /\ S (i + k)%nat (Err e)
    | Panic => exists k, (k < length fs)%nat /\ S (i + k)%nat Panic
    end.
  Proof.
    intros HS fs. induction fs as [|o fs IH]; intros i HF; cbn [poll_each].
    - repeat split; auto. intros k L. cbn in L. lia.
    - assert (from S (Datatypes.S i) fs) as HF'.
      { intros k a H. replace (Datatypes.S i + k)%nat with (i + Datatypes.S k)%nat by lia. apply HF. exact H. }
      specialize (IH (Datatypes.S i) HF').
      assert (forall a', (forall a, a' = Some a -> S i (Ok a)) -> (forall a, o = Some a -> a' = Some a) ->
              (arrived rd i <> None -> a' <> None) ->
        match (r' <- poll_each rd (Datatypes.S i) fs ;; Ok (a' :: r')) with
        | Ok fs' => from S i fs' /\ length fs' = length (o :: fs) /\
                (forall k a, nth_error (o :: fs) k = Some (Some a) -> nth_error fs' k = Some (Some a)) /\
                (forall k, (k < length (o :: fs))%nat -> arrived rd (i + k) <> None -> nth_error fs' k <> Some None)
        | Err e => exists k, (k < length (o :: fs))%nat /\ S (i + k)%nat (Err e)
        | Panic => exists k, (k < length (o :: fs))%nat /\ S (i + k)%nat Panic
        end) as Step.
      { intros a' H1 H2 H3. destruct (poll_each rd (Datatypes.S i) fs) as [fs'|e|]; cbn [bind].
        - destruct IH as (F & L & K & Q). repeat split.
          + intros k a H. destruct k as [|k]; cbn in H.
            * injection H as ->. rewrite Nat.add_0_r. auto.
            * replace (i + Datatypes.S k)%nat with (Datatypes.S i + k)%nat by lia. auto.
          + cbn. lia.
          + intros k a H. destruct k as [|k]; cbn in *; [|auto]. injection H as ->. rewrite (H2 a); auto.
          + intros k Lk H. destruct k as [|k]; cbn.
            * rewrite Nat.add_0_r in H. specialize (H3 H). congruence.
            * apply Q; [cbn in Lk; lia|]. now replace (Datatypes.S i + k)%nat with (i + Datatypes.S k)%nat by lia.
        - destruct IH as (k & L & H). exists (Datatypes.S k). split; [cbn; lia|].
          now replace (i + Datatypes.S k)%nat with (Datatypes.S i + k)%nat by lia.
        - destruct IH as (k & L & H). exists (Datatypes.S k). split; [cbn; lia|].
          now replace (i + Datatypes.S k)%nat with (Datatypes.S i + k)%nat by lia. }
      destruct o as [a|].
      + apply Step; intros; try discriminate; auto. injection H as ->. specialize (HF 0%nat a0 eq_refl). now rewrite Nat.add_0_r in HF.
      + destruct (arrived rd i) as [[a|e|]|] eqn:Ea.
        * apply Step; intros; try discriminate. injection H as ->. apply HS, arrived_in, Ea.
        * exists 0%nat. rewrite Nat.add_0_r. split; [cbn; lia|]. apply HS, arrived_in, Ea.
        * exists 0%nat. rewrite Nat.add_0_r. split; [cbn; lia|]. apply HS, arrived_in, Ea.
        * apply Step; intros; try discriminate. congruence.
  Qed.

  Lemma join_small_from (S : nat -> outcome E A -> Prop) n sched :
    (forall rd i r, In rd sched -> In (i, r) rd -> S i r) ->
    forall fs, length fs = n -> from S 0 fs ->
    match join_small sched fs with
    | Some (Ok l) => length l = n /\ forall k a, nth_error l k = Some a -> S k (Ok a)
    | Some (Err e) => exists k, (k < n)%nat /\ S k (Err e)
    | Some Panic => exists k, (k < n)%nat /\ S k Panic
    | None => True
    end.
  Proof.
    induction sched as [|rd sched IH]; intros HS fs L F; cbn [join_small]; [exact I|].
    pose proof (poll_each_from S rd (fun i r H => HS rd i r (or_introl eq_refl) H) fs 0 F) as P.
    destruct (poll_each rd 0 fs) as [fs'|e|].
    - destruct P as (F' & L' & _). destruct (all_done fs') as [l|] eqn:D.
      + apply all_done_some in D. subst fs'. rewrite map_length in L'. split; [lia|].
        intros k a H. apply (F' k a). rewrite nth_error_map, H. reflexivity.
      + apply IH; [|lia|exact F']. intros. eapply HS; [right|]; eassumption.
    - rewrite <- L. exact P.
    - rewrite <- L. exact P.
  Qed.

  Definition kept (S : nat -> outcome E A -> Prop) (qs : list (option (outcome E A))) : Prop :=
    forall k r, nth_error qs k = Some (Some r) -> S k r.
  Lemma keep_nth : forall (qs : list (option (outcome E A))) i r k,
    nth_error (keep qs i r) k = if Nat.eqb k i then match nth_error qs k with Some None => Some (Some r) | x => x end else nth_error qs k.
  Proof.
    induction qs as [|q qs IH]; intros i r k.
    - cbn. destruct k, (Nat.eqb _ i); reflexivity.
    - destruct q as [q|], i as [|i], k as [|k]; cbn; auto; rewrite IH; reflexivity.
  Qed.
  Lemma keep_length : forall (qs : list (option (outcome E A))) i r, length (keep qs i r) = length qs.
  Proof. induction qs as [|[q|] qs IH]; intros [|i] r; cbn; auto. Qed.
  Lemma give_out_from (S : nat -> outcome E A -> Prop) : forall qs i, (forall k r, nth_error qs k = Some (Some r) -> S (i + k)%nat r) ->
    match give_out qs with
    | Some (Ok l) => length l = length qs /\ forall k a, nth_error l k = Some a -> S (i + k)%nat (Ok a)
    | Some (Err e) => exists k, (k < length qs)%nat /\ S (i + k)%nat (Err e) /\
                       forall j, (j < k)%nat -> exists a, S (i + j)%nat (Ok a)
    | Some Panic => exists k, (k < length qs)%nat /\ S (i + k)%nat Panic
    | None => exists k, nth_error qs k = Some None
    end.
  Proof.
    induction qs as [|[[a|e|]|] qs IH]; intros i H; cbn [give_out].
    - split; auto. intros [|k]; discriminate.
    - specialize (IH (Datatypes.S i)).
      assert (forall k r, nth_error qs k = Some (Some r) -> S (Datatypes.S i + k)%nat r) as H'.
      { intros k r Hk. replace (Datatypes.S i + k)%nat with (i + Datatypes.S k)%nat by lia. apply H. exact Hk. }
      specialize (IH H'). destruct (give_out qs) as [[l|e|]|].
      + destruct IH as [L K]. split; [cbn; lia|]. intros [|k] b Hb; cbn in Hb.
        * injection Hb as ->. apply H. reflexivity.
        * replace (i + Datatypes.S k)%nat with (Datatypes.S i + k)%nat by lia. auto.
      + destruct IH as (k & L & P & Q). exists (Datatypes.S k). split; [cbn; lia|].
        replace (i + Datatypes.S k)%nat with (Datatypes.S i + k)%nat by lia. split; auto.
        intros [|j] Lj.
        * exists a. apply H. reflexivity.
        * replace (i + Datatypes.S j)%nat with (Datatypes.S i + j)%nat by lia. apply Q. lia.
      + destruct IH as (k & L & P). exists (Datatypes.S k). split; [cbn; lia|].
        now replace (i + Datatypes.S k)%nat with (Datatypes.S i + k)%nat by lia.
      + destruct IH as (k & P). now exists (Datatypes.S k).
    - exists 0%nat. split; [cbn; lia|]. split; [apply H; reflexivity|]. intros; lia.
    - exists 0%nat. split; [cbn; lia|]. apply H; reflexivity.
    - now exists 0%nat.
  Qed.
  Lemma join_events_from (S : nat -> outcome E A -> Prop) n evs :
    (forall i r, In (i, r) evs -> S i r) ->
    forall qs, length qs = n -> kept S qs ->
    match join_events evs qs with
    | Some (Ok l) => length l = n /\ forall k a, nth_error l k = Some a -> S k (Ok a)
    | Some (Err e) => exists k, (k < n)%nat /\ S k (Err e) /\ forall j, (j < k)%nat -> exists a, S j (Ok a)
    | Some Panic => exists k, S k Panic
    | None => True
    end.
  Proof.
    induction evs as [|[i r] evs IH]; intros HS qs L K; cbn [join_events];
      pose proof (give_out_from S qs 0 K) as G; destruct (give_out qs) as [[l|e|]|]; rewrite ?L in G; auto.
    - destruct G as (k & _ & P). eauto.
    - destruct G as (k & _ & P). eauto.
    - assert (forall x, r = x -> x <> Panic -> kept S (keep qs i x)) as KK.
      { intros x <- _ k y H. rewrite keep_nth in H. destruct (Nat.eqb_spec k i) as [->|]; [|auto].
        destruct (nth_error qs i) as [[y'|]|] eqn:Eq; [|injection H as <-; apply HS; now left|discriminate].
        apply K. congruence. }
      destruct r as [a|e|].
      + apply IH; [|now rewrite keep_length|apply KK; congruence]. intros; apply HS; now right.
      + apply IH; [|now rewrite keep_length|apply KK; congruence]. intros; apply HS; now right.
      + exists i. apply HS. now left.
  Qed.
  Lemma from_repeat (S : nat -> outcome E A -> Prop) n : from S 0 (repeat None n).
  Proof. intros k a H. apply nth_error_In, repeat_spec in H. discriminate. Qed.
  Lemma kept_repeat (S : nat -> outcome E A -> Prop) n : kept S (repeat None n).
  Proof. intros k a H. apply nth_error_In, repeat_spec in H. discriminate. Qed.

  (** Every result is made of answers. *)
  Theorem join_from n (sched : list (arrivals E A)) :
    let S i r := exists rd, In rd sched /\ In (i, r) rd in
    match try_join_all n sched with
    | Some (Ok l) => length l = n /\ forall k a, nth_error l k = Some a -> S k (Ok a)
    | Some (Err e) => exists k, (k < n)%nat /\ S k (Err e) /\ ((30 < n)%nat -> forall j, (j < k)%nat -> exists a, S j (Ok a))
    | Some Panic => exists k, S k Panic
    | None => True
    end.
  Proof.
    intros S. unfold try_join_all. destruct (Nat.leb_spec n 30).
    - pose proof (join_small_from S n sched) as P. specialize (P ltac:(intros; now exists rd) (repeat None n) (repeat_length _ _) (from_repeat S n)).
      destruct (join_small sched (repeat None n)) as [[l|e|]|]; auto.
      + destruct P as (k & L & Q). exists k. repeat split; auto. lia.
      + destruct P as (k & L & Q). eauto.
    - pose proof (join_events_from S n (concat sched)) as P.
      specialize (P ltac:(intros i r H1; apply in_concat in H1; exact H1) (repeat None n) (repeat_length _ _) (kept_repeat S n)).
      destruct (join_events (concat sched) (repeat None n)) as [[l|e|]|]; auto.
      destruct P as (k & L & Q & R). exists k. repeat split; auto.
  Qed.

  (** Nothing is waited for once every answer is there. *)
  Lemma join_small_done n : forall (sched : list (arrivals E A)) fs, length fs = n ->
    (0 < n -> True)%nat -> sched <> [] ->
    (forall k, (k < n)%nat -> nth_error fs k = Some None -> exists rd, In rd sched /\ arrived rd k <> None) ->
    join_small sched fs <> None.
  Proof.
    induction sched as [|rd sched IH]; intros fs L _ NE H; [congruence|]. cbn [join_small].
    pose proof (poll_each_from (fun _ _ => True) rd (fun _ _ _ => I) fs 0 (fun _ _ _ => I)) as P.
    destruct (poll_each rd 0 fs) as [fs'|e|]; try discriminate.
    destruct P as (_ & L' & K & Q). destruct (all_done fs') as [l|] eqn:D; [discriminate|].
    assert (exists k, (k < n)%nat /\ nth_error fs' k = Some None) as (k & Lk & Ek).
    { clear - D L L'. rewrite <- L, <- L'. clear L L' n. revert D. induction fs' as [|[a|] fs' IH]; cbn; intros D; try discriminate.
      - destruct (all_done fs'); [discriminate|]. destruct (IH eq_refl) as (k & Lk & Ek). exists (S k). split; [lia|exact Ek].
      - exists 0%nat. split; [lia|reflexivity]. }
    assert (forall j, (j < n)%nat -> nth_error fs' j = Some None -> nth_error fs j = Some None /\ arrived rd j = None) as Back.
    { intros j Lj Ej. split.
      - destruct (nth_error fs j) as [[a|]|] eqn:Ef; auto.
        + apply K in Ef. congruence.
        + apply nth_error_None in Ef. lia.
      - destruct (arrived rd j) eqn:Ea; auto. exfalso. apply (Q j); [lia| |exact Ej]. cbn. congruence. }
    assert (forall j, (j < n)%nat -> nth_error fs' j = Some None -> exists rd, In rd sched /\ arrived rd j <> None) as H'.
    { intros j Lj Ej. destruct (Back j Lj Ej) as [Ef Ea]. destruct (H j Lj Ef) as (rd' & [->|I'] & N); [congruence|eauto]. }
    apply IH; auto; [lia|]. destruct (H' k Lk Ek) as (rd' & I' & _). intros ->. destruct I'.
  Qed.
  Lemma arrived_some (rd : arrivals E A) i r : In (i, r) rd -> arrived rd i <> None.
  Proof.
    induction rd as [|[j x] rd IH]; [intros []|]. cbn. destruct (Nat.eqb_spec i j); [discriminate|].
    intros [H|H]; [congruence|auto].
  Qed.
  Lemma join_events_done : forall (evs : arrivals E A) qs,
    (forall k, nth_error qs k = Some None -> exists r, In (k, r) evs) -> join_events evs qs <> None.
  Proof.
    induction evs as [|[i r] evs IH]; intros qs H; cbn [join_events];
      pose proof (give_out_from (fun _ _ => True) qs 0 (fun _ _ _ => I)) as G; destruct (give_out qs); try discriminate.
    - destruct G as (k & Ek). destruct (H k Ek) as (r & []).
    - assert (forall x, join_events evs (keep qs i x) <> None) as R.
      { intros x. apply IH. intros k Ek. rewrite keep_nth in Ek. destruct (Nat.eqb_spec k i) as [Nk|Nk].
        - destruct (nth_error qs k) as [[?|]|]; discriminate.
        - destruct (H k Ek) as (r' & [Er|Ir]); [congruence|eauto]. }
      destruct r; auto. discriminate.
  Qed.
  Theorem join_done n (sched : list (arrivals E A)) : sched <> [] ->
    (forall k, (k < n)%nat -> exists rd r, In rd sched /\ In (k, r) rd) -> try_join_all n sched <> None.
  Proof.
    intros NE H. unfold try_join_all. destruct (Nat.leb n 30).
    - apply (join_small_done n); auto; [apply repeat_length|]. intros k Lk _. destruct (H k Lk) as (rd & r & I1 & I2).
      exists rd. split; auto. eapply arrived_some, I2.
    - apply join_events_done. intros k Ek.
      assert (k < n)%nat as Lk.
      { rewrite <- (repeat_length (@None (outcome E A)) n). apply nth_error_Some. congruence. }
      destruct (H k Lk) as (rd & r & I1 & I2). exists r. apply in_concat. eauto.
  Qed.

  (** For answers that do not depend on when they are given: the sequential result. *)
  Lemma map_outcome_ok {B} (f : B -> outcome E A) : forall l bs, map_outcome f l = Ok bs <-> Forall2 (fun b a => f b = Ok a) l bs.
  Proof.
    induction l as [|x l IH]; intros bs; cbn.
    - split; intros H; [injection H as <-; constructor|inversion H; reflexivity].
    - split; intros H.
      + destruct (f x) eqn:Ex; cbn in H; try discriminate. destruct (map_outcome f l) eqn:El; cbn in H; try discriminate.
        injection H as <-. constructor; auto. now apply IH.
      + inversion H; subst. rewrite H2. cbn. apply IH in H4. now rewrite H4.
  Qed.
  Lemma map_outcome_err {B} (f : B -> outcome E A) : forall l e,
    map_outcome f l = Err e <-> exists k x, nth_error l k = Some x /\ f x = Err e /\
      forall j y, (j < k)%nat -> nth_error l j = Some y -> exists a, f y = Ok a.
  Proof.
    induction l as [|x l IH]; intros e; cbn [map_outcome].
    - split; [discriminate|]. intros ([|k] & y & H & _); discriminate.
    - split.
      + destruct (f x) as [a|e'|] eqn:Ex; cbn [bind]; intros H; try discriminate.
        * destruct (map_outcome f l) as [bs|e'|] eqn:El; cbn [bind] in H; try discriminate. injection H as ->.
          destruct (proj1 (IH e) eq_refl) as (k & y & H1 & H2 & H3). exists (S k), y. repeat split; auto.
          intros [|j] z Lj Hj; cbn in Hj; [injection Hj as <-; eauto|]. apply (H3 j); [lia|auto].
        * injection H as ->. exists 0%nat, x. repeat split; auto. intros j y Lj. lia.
      + intros ([|k] & y & H1 & H2 & H3); cbn in H1.
        * injection H1 as ->. now rewrite H2.
        * destruct (H3 0%nat x) as (a & Ha); [lia|reflexivity|]. rewrite Ha. cbn [bind].
          rewrite (proj2 (IH e)); [reflexivity|]. exists k, y. repeat split; auto.
          intros j z Lj Hj. apply (H3 (S j)); [lia|exact Hj].
  Qed.
  Definition steady {B} (f : B -> outcome E A) (l : list B) (sched : list (arrivals E A)) : Prop :=
    forall rd i r, In rd sched -> In (i, r) rd -> match nth_error l i with Some b => r = f b | None => False end.
  Theorem join_steady {B} (f : B -> outcome E A) l sched : steady f l sched ->
    (forall b, In b l -> f b <> Panic) ->
    match try_join_all (length l) sched with
    | Some (Ok as_) => map_outcome f l = Ok as_
    | Some (Err e) => (exists b, In b l /\ f b = Err e) /\ ((30 < length l)%nat -> map_outcome f l = Err e)
    | Some Panic => False
    | None => True
    end.
  Proof.
    intros St NP. pose proof (join_from (length l) sched) as P. cbn zeta in P.
    destruct (try_join_all (length l) sched) as [[as_|e|]|]; auto.
    - destruct P as [L P]. apply map_outcome_ok.
      assert (forall k a, nth_error as_ k = Some a -> exists b, nth_error l k = Some b /\ f b = Ok a) as Q.
      { intros k a H. destruct (P k a H) as (rd & I1 & I2). specialize (St rd k _ I1 I2).
        destruct (nth_error l k) as [b|]; [|destruct St]. eauto. }
      clear - L Q. revert as_ L Q. induction l as [|b l IH]; intros [|a as_] L Q; cbn in L; try lia; constructor.
      + destruct (Q 0%nat a eq_refl) as (b' & H1 & H2). cbn in H1. congruence.
      + apply IH; [lia|]. intros k x H. apply (Q (S k) x H).
    - destruct P as (k & L & (rd & I1 & I2) & R). pose proof (St rd k _ I1 I2) as S1.
      destruct (nth_error l k) as [b|] eqn:Eb; [|destruct S1]. split.
      + exists b. split; [eapply nth_error_In, Eb|auto].
      + intros H30. apply map_outcome_err. exists k, b. repeat split; auto.
        intros j y Lj Ej. destruct (R H30 j Lj) as (a & rd' & J1 & J2). specialize (St rd' j _ J1 J2).
        rewrite Ej in St. eauto.
    - destruct P as (k & rd & I1 & I2). specialize (St rd k _ I1 I2). destruct (nth_error l k) as [b|] eqn:Eb; auto.
      eapply NP; [eapply nth_error_In, Eb|auto].
  Qed.
End Join.

(** ** rayon *)
Section Rayon.
  Context {E A B : Type}.
  Variable sel : A -> bool.
  Variable f : A -> outcome E B.
  Lemma set_worker_nth : forall (ws : list (worker A B)) i w k,
    nth_error (set_worker ws i w) k = if Nat.eqb k i then match nth_error ws k with Some _ => Some w | None => None end else nth_error ws k.
  Proof.
    induction ws as [|x ws IH]; intros [|i] w [|k]; cbn; auto.
    - destruct (Nat.eqb k i); reflexivity.
  Qed.
  Lemma set_worker_length : forall (ws : list (worker A B)) i w, length (set_worker ws i w) = length ws.
  Proof. induction ws; intros [|i] w; cbn; auto. Qed.

  (** Nothing has been given up. *)
  Definition intact (w : worker A B) (piece : list A) : Prop :=
    exists done, piece = done ++ w_todo w /\ Forall2 (fun a b => f a = Ok b) (filter sel done) (w_out w).
  Definition good (pieces : list (list A)) (p : pool E A B) : Prop :=
    length (p_workers p) = length pieces /\
    (forall k w piece, nth_error (p_workers p) k = Some w -> nth_error pieces k = Some piece ->
       (exists pre, piece = pre ++ w_todo w \/ w_todo w = [])) /\
    (p_panicked p = true -> exists a, In a (concat pieces) /\ sel a = true /\ f a = Panic) /\
    (forall e, p_saved p = Some e -> exists a, In a (concat pieces) /\ sel a = true /\ f a = Err e) /\
    (p_full p = true -> p_saved p <> None) /\
    (p_saved p = None -> p_panicked p = false ->
       forall k w piece, nth_error (p_workers p) k = Some w -> nth_error pieces k = Some piece -> intact w piece).
  Lemma good_start pieces : good pieces (start_pool pieces).
  Proof.
    unfold start_pool. repeat split; cbn; try discriminate.
    - now rewrite map_length.
    - intros k w piece H1 H2. rewrite nth_error_map, H2 in H1. injection H1 as <-. cbn. exists []. now left.
    - intros _ _ k w piece H1 H2. rewrite nth_error_map, H2 in H1. injection H1 as <-. exists []. cbn. split; auto.
  Qed.
  Lemma good_work pieces p s : good pieces p -> good pieces (work sel f p s).
  Proof.
    destruct s as [i late]. intros (G1 & G2 & G3 & G4 & G5 & G6). unfold work.
    destruct (nth_error (p_workers p) i) as [[[|a r] out]|] eqn:Ei; try (repeat split; assumption).
    assert (exists piece, nth_error pieces i = Some piece) as (piece & Ep).
    { destruct (nth_error pieces i) eqn:En; eauto. apply nth_error_None in En.
      assert (i < length (p_workers p))%nat by (apply nth_error_Some; congruence). lia. }
    destruct (G2 i _ piece Ei Ep) as (pre & [Hp|Hp]); [|discriminate]. cbn in Hp.
    assert (In a (concat pieces)) as Ia.
    { apply in_concat. exists piece. split; [eapply nth_error_In, Ep|]. subst. apply in_elt. }
    assert (forall w, (w_todo w = r \/ w_todo w = []) -> forall k w' pc, nth_error (set_worker (p_workers p) i w) k = Some w' ->
       nth_error pieces k = Some pc -> exists pre, pc = pre ++ w_todo w' \/ w_todo w' = []) as T2.
    { intros w Hw k w' pc H1 H2. rewrite set_worker_nth in H1. destruct (Nat.eqb_spec k i) as [->|].
      - rewrite Ei in H1. injection H1 as <-. assert (pc = piece) by congruence. subst pc. destruct Hw as [Hw|Hw].
        + exists (pre ++ [a]). left. rewrite Hw, Hp, <- app_assoc. reflexivity.
        + exists []. now right.
      - eapply G2; eassumption. }
    assert (p_saved p = None -> p_panicked p = false -> forall b, (sel a = false /\ b = [] \/ (sel a = true /\ exists x, f a = Ok x /\ b = [x])) ->
      forall k w' pc, nth_error (set_worker (p_workers p) i (mkWorker r (out ++ b))) k = Some w' ->
       nth_error pieces k = Some pc -> intact w' pc) as T6.
    { intros N1 N2 b Hb k w' pc H1 H2. rewrite set_worker_nth in H1. destruct (Nat.eqb_spec k i) as [->|].
      - rewrite Ei in H1. injection H1 as <-. destruct (G6 N1 N2 i _ pc Ei H2) as (done & D1 & D2). cbn in D1, D2.
        exists (done ++ [a]). cbn. split; [now rewrite D1, <- app_assoc|]. rewrite filter_app. cbn.
        destruct Hb as [[-> ->]|(-> & x & Hx & ->)]; cbn.
        + now rewrite !app_nil_r.
        + apply Forall2_app; auto.
      - eapply G6; eassumption. }
    destruct (p_full p && negb late) eqn:Ef.
    - apply andb_true_iff in Ef as [Ef _]. pose proof (G5 Ef). repeat split; cbn; try assumption.
      + now rewrite set_worker_length.
      + apply T2. cbn. now right.
      + intros N1. congruence.
    - destruct (sel a) eqn:Es; [|].
      + destruct (f a) as [b|e|] eqn:Efa.
        * repeat split; cbn; try assumption; [now rewrite set_worker_length|apply T2; cbn; now left|].
          intros N1 N2. apply T6; eauto.
        * repeat split; cbn; try assumption; [now rewrite set_worker_length|apply T2; cbn; now right| | |].
          -- intros e0 H0. destruct (p_saved p) eqn:Esv; [apply G4; congruence|]. injection H0 as <-. eauto.
          -- intros _. destruct (p_saved p); discriminate.
          -- destruct (p_saved p); discriminate.
        * repeat split; cbn; try assumption; [now rewrite set_worker_length|apply T2; cbn; now right| |].
          -- intros _. eauto.
          -- intros _. discriminate.
      + repeat split; cbn; try assumption; [now rewrite set_worker_length|apply T2; cbn; now left|].
        intros N1 N2. rewrite <- (app_nil_r out). apply T6; auto.
  Qed.
  Lemma good_run pieces sched p : good pieces p -> good pieces (fold_left (work sel f) sched p).
  Proof. revert p. induction sched as [|s sched IH]; intros p G; cbn; auto. apply IH, good_work, G. Qed.

  Lemma filter_concat (l : list (list A)) : filter sel (concat l) = concat (map (filter sel) l).
  Proof. induction l; cbn; auto. now rewrite filter_app, IHl. Qed.
  Lemma Forall2_concat {C D} (P : C -> D -> Prop) : forall l m, Forall2 (Forall2 P) l m -> Forall2 P (concat l) (concat m).
  Proof. induction 1; cbn; auto using Forall2_app. Qed.
  Theorem par_collect_result pieces sched :
    (forall a, In a (concat pieces) -> f a <> Panic) ->
    match par_collect sel f pieces sched with
    | Some (Ok bs) => map_outcome f (filter sel (concat pieces)) = Ok bs
    | Some (Err e) => exists a, In a (concat pieces) /\ sel a = true /\ f a = Err e
    | Some Panic => False
    | None => True
    end.
  Proof.
    intros NP. unfold par_collect, collected.
    destruct (good_run pieces sched _ (good_start pieces)) as (G1 & G2 & G3 & G4 & G5 & G6).
    set (p := fold_left (work sel f) sched (start_pool pieces)) in *.
    destruct (forallb _ (p_workers p)) eqn:Ed; [|exact I].
    destruct (p_panicked p) eqn:Ep.
    - destruct (G3 eq_refl) as (a & Ia & _ & Fa). exact (NP a Ia Fa).
    - destruct (p_saved p) as [e|] eqn:Es; [apply G4; auto|].
      apply map_outcome_ok. rewrite filter_concat. apply Forall2_concat.
      specialize (G6 eq_refl eq_refl). rewrite forallb_forall in Ed.
      assert (forall w, In w (p_workers p) -> w_todo w = []) as Ed'.
      { intros w Iw. specialize (Ed w Iw). destruct (w_todo w); congruence. }
      clearbody p. clear - G1 G6 Ed'. destruct p as [ws sv fl pn]. cbn in *. revert pieces G1 G6.
      induction ws as [|w ws IH]; intros [|pc pieces] L H; cbn in L; try lia; cbn; constructor.
      + destruct (H 0%nat w pc eq_refl eq_refl) as (done & D1 & D2).
        rewrite (Ed' w (or_introl eq_refl)), app_nil_r in D1. now subst.
      + apply IH; [|lia|]; [intros; apply Ed'; now right|]. intros k w' pc' H1 H2. apply (H (S k) w' pc' H1 H2).
  Qed.

  (** A schedule that gives every worker as many turns as it has items finishes. *)
  Definition turns (i : nat) (sched : list (nat * bool)) : nat := length (filter (fun s => Nat.eqb (fst s) i) sched).
  Lemma work_todo p i late k w : nth_error (p_workers p) k = Some w ->
    exists w', nth_error (p_workers (work sel f p (i, late))) k = Some w' /\
      (length (w_todo w') <= length (w_todo w) - (if Nat.eqb i k then 1 else 0))%nat.
  Proof.
    intros Hk. unfold work. destruct (Nat.eqb_spec i k) as [->|Ni].
    - rewrite Hk. destruct w as [[|a r] out]; [exists (mkWorker [] out); cbn; split; [exact Hk|lia]|].
      destruct (p_full p && negb late); [|destruct (sel a); [destruct (f a)|]]; cbn; rewrite set_worker_nth, Nat.eqb_refl, Hk;
        eexists; (split; [reflexivity|]); cbn; lia.
    - destruct (nth_error (p_workers p) i) as [[[|a r] out]|]; try (exists w; split; [exact Hk|lia]).
      destruct (p_full p && negb late); [|destruct (sel a); [destruct (f a)|]]; cbn; rewrite set_worker_nth;
        (destruct (Nat.eqb_spec k i); [congruence|]); exists w; (split; [exact Hk|lia]).
  Qed.
  Lemma run_todo sched : forall p k w, nth_error (p_workers p) k = Some w ->
    exists w', nth_error (p_workers (fold_left (work sel f) sched p)) k = Some w' /\
      (length (w_todo w') <= length (w_todo w) - turns k sched)%nat.
  Proof.
    induction sched as [|[i late] sched IH]; intros p k w Hk; cbn [fold_left].
    - exists w. split; auto. cbn. lia.
    - destruct (work_todo p i late k w Hk) as (w1 & H1 & L1). destruct (IH _ k w1 H1) as (w2 & H2 & L2).
      exists w2. split; auto. unfold turns in *. cbn [filter fst]. destruct (Nat.eqb i k); cbn [length]; lia.
  Qed.
  Lemma run_length sched : forall p, length (p_workers (fold_left (work sel f) sched p)) = length (p_workers p).
  Proof.
    induction sched as [|[i late] sched IH]; intros p; cbn [fold_left]; auto. rewrite IH. unfold work.
    destruct (nth_error (p_workers p) i) as [[[|a r] out]|]; auto.
    destruct (p_full p && negb late); [|destruct (sel a); [destruct (f a)|]]; cbn; now rewrite set_worker_length.
  Qed.
  Theorem par_collect_done pieces sched :
    (forall k piece, nth_error pieces k = Some piece -> (length piece <= turns k sched)%nat) ->
    par_collect sel f pieces sched <> None.
  Proof.
    intros H. unfold par_collect, collected.
    destruct (forallb _ _) eqn:Ed; [discriminate|]. exfalso.
    apply not_true_iff_false in Ed. apply Ed. apply forallb_forall. intros w Iw.
    apply In_nth_error in Iw as (k & Hk).
    assert (exists w0, nth_error (p_workers (start_pool (E:=E) (B:=B) pieces)) k = Some w0) as (w0 & H0).
    { destruct (nth_error (p_workers (start_pool (E:=E) (B:=B) pieces)) k) eqn:E0; eauto.
      apply nth_error_None in E0. rewrite <- (run_length sched) in E0. apply nth_error_None in E0. congruence. }
    destruct (run_todo sched _ k w0 H0) as (w' & H1 & L). rewrite Hk in H1. injection H1 as <-.
    cbn in H0. rewrite nth_error_map in H0. destruct (nth_error pieces k) as [pc|] eqn:Epc; [|discriminate].
    cbn in H0. injection H0 as <-. cbn in L. specialize (H k pc Epc). destruct (w_todo w); auto. cbn in L. lia.
  Qed.
End Rayon.

(** ** Hash sets and sorting *)
Lemma index_sets_members t : forall indices x,
  (In x (fst (index_sets t indices)) <-> In x (flat_map get_branch_indices indices)) /\
  (In x (snd (index_sets t indices)) <-> In x (flat_map get_path_indices indices)).
Proof.
  unfold index_sets. induction t as [|k t1 IH1 t2 IH2]; intros indices x; cbn [par_reduce].
  - assert (forall acc, (In x (fst (fold_left (fun b a => (fst b ++ fst (get_branch_indices a, get_path_indices a), snd b ++ snd (get_branch_indices a, get_path_indices a))) indices acc))
       <-> In x (fst acc) \/ In x (flat_map get_branch_indices indices)) /\
      (In x (snd (fold_left (fun b a => (fst b ++ fst (get_branch_indices a, get_path_indices a), snd b ++ snd (get_branch_indices a, get_path_indices a))) indices acc))
       <-> In x (snd acc) \/ In x (flat_map get_path_indices indices))) as G.
    { induction indices as [|i indices IH]; intros acc; cbn [fold_left flat_map].
      - cbn. tauto.
      - destruct (IH (fst acc ++ fst (get_branch_indices i, get_path_indices i), snd acc ++ snd (get_branch_indices i, get_path_indices i))) as [I1 I2].
        cbn [fst snd] in *. rewrite I1, I2, !in_app_iff. tauto. }
    destruct (G ([], [])) as [G1 G2]. cbn [fst snd] in *. rewrite G1, G2. cbn. tauto.
  - cbn [fst snd]. rewrite !in_app_iff. destruct (IH1 (firstn k indices) x) as [-> ->]. destruct (IH2 (skipn k indices) x) as [-> ->].
    rewrite <- !in_app_iff, <- !flat_map_app, firstn_skipn. tauto.
Qed.

(** The comparison is that of one number. *)
Definition lex_key (a : N) : N := if a =? 0 then 0 else wrap64 (N.shiftl a (64 - N.size a)) * 2 ^ 64 + N.size a.
Lemma size_64 a : a < 2 ^ 64 -> N.size a <= 64.
Proof.
  intros H. destruct (N.eq_dec a 0) as [->|Na]; [cbn; lia|]. rewrite N.size_log2 by auto.
  assert (N.log2 a < 64) by (apply N.log2_lt_pow2; lia). lia.
Qed.
Lemma size_pos a : a <> 0 -> 1 <= N.size a.
Proof. intros H. rewrite N.size_log2 by auto. lia. Qed.
Lemma shifted_small a : a < 2 ^ 64 -> a <> 0 -> wrap64 (N.shiftl a (64 - N.size a)) = a * 2 ^ (64 - N.size a).
Proof.
  intros H Na. rewrite N.shiftl_mul_pow2. apply wrap64_small. change two64 with (2 ^ 64).
  pose proof (size_64 a H). pose proof (N.size_gt a) as G.
  replace (2 ^ 64) with (2 ^ N.size a * 2 ^ (64 - N.size a)) by (rewrite <- N.pow_add_r; f_equal; lia).
  apply N.mul_lt_mono_pos_r; [|exact G]. apply N.neq_0_lt_0, N.pow_nonzero. discriminate.
Qed.
Lemma lex_key_pos a : a < 2 ^ 64 -> a <> 0 -> 0 < lex_key a.
Proof. intros H Na. unfold lex_key. destruct (N.eqb_spec a 0); [lia|]. pose proof (size_pos a Na). lia. Qed.
Lemma cmp_lex_key a b : a < 2 ^ 64 -> b < 2 ^ 64 -> cmp_binary_lexicographically a b = (lex_key a ?= lex_key b).
Proof.
  intros Ha Hb. unfold cmp_binary_lexicographically.
  destruct (N.eqb_spec a 0) as [->|Na], (N.eqb_spec b 0) as [->|Nb]; cbn [andb].
  - reflexivity.
  - symmetry. apply N.compare_lt_iff. unfold lex_key at 1. cbn. now apply lex_key_pos.
  - symmetry. apply N.compare_gt_iff. unfold lex_key at 1. cbn. now apply lex_key_pos.
  - unfold lex_key. destruct (N.eqb_spec a 0), (N.eqb_spec b 0); try contradiction.
    pose proof (size_64 a Ha). pose proof (size_64 b Hb).
    set (x := wrap64 (N.shiftl a (64 - N.size a))). set (y := wrap64 (N.shiftl b (64 - N.size b))).
    assert (64 < 2 ^ 64) by reflexivity.
    destruct (N.compare_spec x y) as [->|L|L].
    + destruct (N.compare_spec (N.size a) (N.size b)); symmetry;
        [apply N.compare_eq_iff|apply N.compare_lt_iff|apply N.compare_gt_iff]; lia.
    + symmetry. apply N.compare_lt_iff. nia.
    + symmetry. apply N.compare_gt_iff. nia.
Qed.
Lemma lex_key_inj a b : a < 2 ^ 64 -> b < 2 ^ 64 -> lex_key a = lex_key b -> a = b.
Proof.
  intros Ha Hb H. destruct (N.eq_dec a 0) as [->|Na], (N.eq_dec b 0) as [->|Nb]; auto.
  - pose proof (lex_key_pos b Hb Nb). unfold lex_key at 1 in H. cbn in H. lia.
  - pose proof (lex_key_pos a Ha Na). unfold lex_key at 2 in H. cbn in H. lia.
  - unfold lex_key in H. destruct (N.eqb_spec a 0), (N.eqb_spec b 0); try contradiction.
    pose proof (size_64 a Ha). pose proof (size_64 b Hb). assert (64 < 2 ^ 64) by reflexivity.
    assert (wrap64 (N.shiftl a (64 - N.size a)) = wrap64 (N.shiftl b (64 - N.size b)) /\ N.size a = N.size b) as [E1 E2].
    { set (x := wrap64 (N.shiftl a (64 - N.size a))) in *. set (y := wrap64 (N.shiftl b (64 - N.size b))) in *. nia. }
    rewrite !shifted_small in E1 by auto. rewrite E2 in E1. apply N.mul_cancel_r in E1; auto.
    apply N.pow_nonzero. discriminate.
Qed.
Lemma lex_le_key a b : a < 2 ^ 64 -> b < 2 ^ 64 -> lex_le a b = (lex_key a <=? lex_key b).
Proof. intros Ha Hb. unfold lex_le. rewrite cmp_lex_key by auto. unfold N.leb. reflexivity. Qed.
Lemma lex_le_total a b : a < 2 ^ 64 -> b < 2 ^ 64 -> a <> b -> lex_le a b = negb (lex_le b a).
Proof.
  intros Ha Hb N. rewrite !lex_le_key by auto. pose proof (lex_key_inj a b Ha Hb).
  destruct (N.leb_spec (lex_key a) (lex_key b)), (N.leb_spec (lex_key b) (lex_key a)); auto; cbn; try lia.
Qed.
Lemma lex_le_trans a b c : a < 2 ^ 64 -> b < 2 ^ 64 -> c < 2 ^ 64 -> lex_le a b = true -> lex_le b c = true -> lex_le a c = true.
Proof. intros Ha Hb Hc. rewrite !lex_le_key by auto. lia. Qed.

Section Sort.
  Context {V : Type}.
  Definition small (l : list (N * V)) : Prop := forall x, In x l -> fst x < 2 ^ 64.
  Lemma insert_in (x : N * V) l y : In y (insert_sorted x l) <-> y = x \/ In y l.
  Proof.
    induction l as [|z l IH]; cbn; [intuition|]. destruct (lex_le (fst x) (fst z)); cbn; [intuition|]. rewrite IH. intuition.
  Qed.
  Lemma insert_comm (x y : N * V) l : fst x < 2 ^ 64 -> fst y < 2 ^ 64 -> small l -> fst x <> fst y ->
    insert_sorted x (insert_sorted y l) = insert_sorted y (insert_sorted x l).
  Proof.
    intros Hx Hy. induction l as [|z l IH]; intros Hl N; cbn [insert_sorted].
    - rewrite (lex_le_total (fst x) (fst y)) by auto. destruct (lex_le (fst y) (fst x)); reflexivity.
    - assert (fst z < 2 ^ 64) as Hz by (apply Hl; now left).
      assert (small l) as Hl' by (intros w Iw; apply Hl; now right).
      pose proof (lex_le_total (fst x) (fst y) Hx Hy N) as T.
      destruct (lex_le (fst y) (fst z)) eqn:Eyz, (lex_le (fst x) (fst z)) eqn:Exz; cbn [insert_sorted]; rewrite ?Eyz, ?Exz.
      + rewrite T. destruct (lex_le (fst y) (fst x)) eqn:Eyx; cbn [negb]; rewrite ?Eyz, ?Exz; reflexivity.
      + destruct (lex_le (fst x) (fst y)) eqn:Exy; [|reflexivity].
        pose proof (lex_le_trans (fst x) (fst y) (fst z) Hx Hy Hz Exy Eyz). congruence.
      + destruct (lex_le (fst y) (fst x)) eqn:Eyx; [|reflexivity].
        pose proof (lex_le_trans (fst y) (fst x) (fst z) Hy Hx Hz Eyx Exz). congruence.
      + rewrite IH; auto.
  Qed.
  Lemma sort_in (l : list (N * V)) y : In y (sort_lex l) <-> In y l.
  Proof. unfold sort_lex. induction l as [|x l IH]; cbn; [tauto|]. rewrite insert_in, IH. intuition. Qed.
  Theorem sort_perm (l m : list (N * V)) : Permutation l m -> small l -> NoDup (map fst l) -> sort_lex l = sort_lex m.
  Proof.
    induction 1; intros Hs Hn; auto.
    - cbn in *. unfold sort_lex in *. cbn. rewrite IHPermutation; auto.
      + intros y Hy. apply Hs. now right.
      + now inversion Hn.
    - unfold sort_lex. cbn. cbn in Hn. inversion Hn as [|? ? N1 N2]; subst. apply insert_comm.
      + apply Hs. now left.
      + apply Hs. right. now left.
      + intros z Hz. change (In z (sort_lex l)) in Hz. rewrite sort_in in Hz. apply Hs. right. now right.
      + intros Q. apply N1. left. now rewrite Q.
    - rewrite IHPermutation1 by assumption. apply IHPermutation2.
      + intros y Hy. apply Hs. eapply Permutation_in; [|exact Hy]. now apply Permutation_sym.
      + eapply Permutation_NoDup; [|exact Hn]. now apply Permutation_map.
  Qed.
End Sort.

(** Helper indices are 64-bit numbers and at least 2. *)
Lemma lxor1 a : N.lxor a 1 = if N.even a then a + 1 else a - 1.
Proof. destruct a as [|[p|p|]]; reflexivity. Qed.
Lemma sibling_bound a b : a < 2 * b -> sibling a < 2 * b.
Proof.
  intros H. unfold sibling. rewrite lxor1. destruct (N.even a) eqn:Ee; [|lia].
  apply N.even_spec in Ee as (k & ->). lia.
Qed.
Lemma sibling_ge a : 2 <= a -> 2 <= sibling a.
Proof.
  intros H. unfold sibling. rewrite lxor1. destruct (N.even a) eqn:Ee; [lia|].
  assert (a <> 2) by (intros ->; discriminate). lia.
Qed.
Lemma branch_up_small fuel : forall a x, a < 2 ^ 64 -> In x (branch_up fuel a) -> x < 2 ^ 64.
Proof.
  induction fuel as [|n IH]; intros a x Ha; cbn [branch_up]; [intros []|].
  destruct (1 <? a); [|intros []].
  assert (sibling (parent a) < 2 ^ 64) as S.
  { apply (sibling_bound _ (2 ^ 63)). unfold parent. apply N.le_lt_trans with a; [|exact Ha]. apply N.div_le_upper_bound; lia. }
  intros [<-|H]; [exact S|]. eapply IH; [exact S|exact H].
Qed.
Lemma branch_small i x : i < 2 ^ 64 -> In x (get_branch_indices i) -> x < 2 ^ 64.
Proof.
  intros Hi H. unfold get_branch_indices in H.
  assert (sibling i < 2 ^ 64) as S by (apply (sibling_bound _ (2 ^ 63)); exact Hi).
  assert (forall l : list N, In x (removelast l) -> In x l) as RL.
  { intros l. induction l as [|y l IHl]; cbn; auto. destruct l; [intros []|]. intros [->|Q]; auto. }
  apply RL in H. destruct H as [<-|H]; [exact S|]. eapply branch_up_small; eassumption.
Qed.
Lemma branch_ge i x : In x (get_branch_indices i) -> 2 <= x.
Proof.
  unfold get_branch_indices. generalize (N.to_nat (N.size (sibling i))). generalize (sibling i). clear i.
  intros a n. revert a. induction n as [|n IH]; intros a; cbn [branch_up].
  - intros [].
  - destruct (N.ltb_spec 1 a) as [L|L]; [|intros []].
    change (removelast (a :: sibling (parent a) :: branch_up n (sibling (parent a))))
      with (a :: removelast (sibling (parent a) :: branch_up n (sibling (parent a)))).
    intros [<-|H]; [lia|]. apply (IH _ H).
Qed.
Lemma path_self i : 2 <= i -> In i (get_path_indices i).
Proof.
  intros H. unfold get_path_indices. destruct (N.to_nat (N.size i)) as [|n] eqn:En.
  - exfalso. pose proof (size_pos i). lia.
  - cbn [path_up]. destruct (N.ltb_spec 1 i) as [L|L]; [|lia].
    change (removelast (i :: parent i :: path_up n (parent i))) with (i :: removelast (parent i :: path_up n (parent i))).
    now left.
Qed.

Theorem any_hash_order t order indices : (forall i, In i indices -> i < 2 ^ 64) -> NoDup indices ->
  hash_order (index_sets t indices) order ->
  sorted_indices order indices = compute_proof_indices_and_value_mask indices.
Proof.
  intros Hi Nd [No Mo]. unfold sorted_indices, compute_proof_indices_and_value_mask.
  set (helpers := set_difference _ _).
  assert (forall x, In x order <-> In x helpers) as Same.
  { intros x. rewrite Mo. unfold helpers. rewrite in_set_difference.
    destruct (index_sets_members t indices x) as [-> ->]. tauto. }
  apply sort_perm.
  - apply Permutation_app_tail, Permutation_map, NoDup_Permutation; auto. unfold helpers, set_difference. apply NoDup_nodup.
  - intros [x v] H. cbn. apply in_app_iff in H as [H|H]; apply in_map_iff in H as (y & Hy & Iy); injection Hy as <- <-; auto.
    apply Mo in Iy as [Iy _]. rewrite (proj1 (index_sets_members t indices y)) in Iy. apply in_flat_map in Iy as (i & Ii & Iy).
    eapply branch_small; [|exact Iy]. auto.
  - rewrite map_app, !map_map. cbn. rewrite !map_id.
    clear Same helpers. revert Nd. assert (forall x, In x order -> ~ In x indices) as Dis.
    { intros x Ix In_. apply Mo in Ix as [I1 I2].
      rewrite (proj1 (index_sets_members t indices x)) in I1. rewrite (proj2 (index_sets_members t indices x)) in I2.
      apply in_flat_map in I1 as (i & _ & I1). apply branch_ge in I1. apply I2. apply in_flat_map. exists x. split; auto using path_self. }
    clear - No Dis. induction order as [|x order IH]; intros Nd; cbn; auto. inversion No; subst. constructor.
    + rewrite in_app_iff. intros [Q|Q]; auto. apply (Dis x); [now left|exact Q].
    + apply IH; auto. intros y Iy. apply Dis. now right.
Qed.
