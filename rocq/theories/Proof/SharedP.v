(** Invariants of processes that share a directory. *)
From Coq Require Import List Arith NArith Bool Lia ZifyBool ZifyNat ZifyN.
From Coq.Init Require Import Byte.
From Verif.Model Require Import Base Types HostStore Shared.
From Verif.Spec Require Import SharedSpec.
From Verif.Proof Require Import BaseLemmas HostStoreP.
Import ListNotations.
Open Scope nat_scope.

Lemma nth_error_firstn_lt {A} (l : list A) n j : j < n -> nth_error (firstn n l) j = nth_error l j.
Proof. revert n j. induction l as [|x l IH]; intros [|n] [|j] H; cbn; auto; try lia. apply IH. lia. Qed.
Lemma nth_error_skipn {A} (l : list A) n j : nth_error (skipn n l) j = nth_error l (n + j).
Proof. revert l. induction n as [|n IH]; intros [|x l]; cbn; auto. now destruct j. Qed.
Lemma nth_error_ext {A} : forall l m : list A, (forall j, nth_error l j = nth_error m j) -> l = m.
Proof.
  induction l as [|x l IH]; intros [|y m] H; auto; try (specialize (H 0); discriminate).
  f_equal; [specialize (H 0); now injection H|]. apply IH. intros j. apply (H (S j)).
Qed.

(** ** Writing at an offset *)
Lemma nth_overwrite c off b j : nth_error (overwrite c off b) j =
  if j <? off then (if j <? length c then nth_error c j else Some x00)
  else if j <? off + length b then nth_error b (j - off) else nth_error c j.
Proof.
  unfold overwrite. destruct (Nat.ltb_spec j off) as [L|L].
  - destruct (Nat.ltb_spec j (length c)) as [L'|L'].
    + rewrite nth_error_app1 by (rewrite firstn_length; lia). now rewrite nth_error_firstn_lt by lia.
    + rewrite nth_error_app2 by (rewrite firstn_length; lia). rewrite firstn_length.
      rewrite nth_error_app1 by (rewrite repeat_length; lia). apply nth_error_repeat. lia.
  - rewrite nth_error_app2 by (rewrite firstn_length; lia). rewrite firstn_length.
    rewrite nth_error_app2 by (rewrite repeat_length; lia). rewrite repeat_length.
    replace (j - Nat.min off (length c) - (off - length c)) with (j - off) by lia.
    destruct (Nat.ltb_spec j (off + length b)) as [L'|L'].
    + rewrite nth_error_app1 by lia. reflexivity.
    + rewrite nth_error_app2 by lia. rewrite nth_error_skipn. f_equal. lia.
Qed.
Lemma length_overwrite c off b : length (overwrite c off b) = Nat.max (off + length b) (length c).
Proof. unfold overwrite. rewrite !app_length, firstn_length, repeat_length, skipn_length. lia. Qed.

(** ** Requests *)
Lemma nth_set {St} (qs : list (request St)) : forall i q q0 j, nth_error qs i = Some q0 ->
  nth_error (set_request qs i q) j = if i =? j then Some q else nth_error qs j.
Proof.
  induction qs as [|x qs IH]; intros [|i] q q0 [|j] H; cbn [set_request nth_error Nat.eqb] in *; try discriminate; auto. eauto.
Qed.
Definition request_slot {St} (q : request St) : Slot :=
  match q with Asked s | Reading s _ | Missing s | Fetched s _ | Creating s _ | Writing s _ _ | Finished s _ => s end.
Lemma map_set {St} (qs : list (request St)) : forall i q q0, nth_error qs i = Some q0 -> request_slot q = request_slot q0 ->
  map request_slot (set_request qs i q) = map request_slot qs.
Proof.
  induction qs as [|x qs IH]; intros [|i] q q0 H E; cbn [set_request nth_error map] in *; try discriminate.
  - injection H as ->. congruence.
  - f_equal. eauto.
Qed.

Section Bytes.
  Context {St : Type}.
  Variable ser : St -> bytes.
  Variable chain : Slot -> St.
  Notation R s := (ser (chain s)).

  Definition right_upto (s : Slot) (n : nat) (c : bytes) : Prop := forall j, j < n -> nth_error c j = nth_error (R s) j.
  Lemma right_full s c : right_or_zero ser chain s c -> right_upto s (length (R s)) c -> c = R s.
  Proof.
    intros [L _] H. apply nth_error_ext. intros j. destruct (Nat.lt_ge_cases j (length (R s))); [auto|].
    rewrite !(proj2 (nth_error_None _ _)) by lia. reflexivity.
  Qed.
  Lemma right_self s : right_or_zero ser chain s (R s).
  Proof. split; auto. Qed.
  Lemma right_nil s : right_or_zero ser chain s [].
  Proof. split; [cbn; lia|]. intros [|j] x; discriminate. Qed.

  (** What is written at [n] are the right bytes. *)
  Lemma slice_nth s n k j : j < length (firstn k (skipn n (R s))) -> nth_error (firstn k (skipn n (R s))) j = nth_error (R s) (n + j).
  Proof. intros H. rewrite firstn_length in H. rewrite nth_error_firstn_lt by lia. apply nth_error_skipn. Qed.
  Lemma overwrite_right s c n k : n <= length (R s) -> right_or_zero ser chain s c ->
    right_or_zero ser chain s (overwrite c n (firstn k (skipn n (R s)))).
  Proof.
    intros Hn [L H]. split.
    - rewrite length_overwrite, firstn_length, skipn_length. lia.
    - intros j x. rewrite nth_overwrite. destruct (Nat.ltb_spec j n).
      + destruct (Nat.ltb_spec j (length c)); [apply H|]. intros E. injection E as <-. auto.
      + destruct (Nat.ltb_spec j (n + length (firstn k (skipn n (R s))))); [|apply H].
        rewrite slice_nth by lia. replace (n + (j - n)) with j by lia. auto.
  Qed.
  Lemma overwrite_upto s c n k m : right_upto s m c -> m <= length (R s) ->
    right_upto s m (overwrite c n (firstn k (skipn n (R s)))).
  Proof.
    intros H Hm j Hj. rewrite nth_overwrite. pose proof (H j Hj) as E.
    assert (j < length c) as Lc. { apply nth_error_Some. rewrite E. apply nth_error_Some. lia. }
    destruct (Nat.ltb_spec j n).
    - replace (j <? length c) with true by lia. auto.
    - destruct (Nat.ltb_spec j (n + length (firstn k (skipn n (R s))))); [|auto].
      rewrite slice_nth by lia. f_equal. lia.
  Qed.
  Lemma overwrite_more s c n k : right_upto s n c -> n <= length (R s) ->
    right_upto s (n + length (firstn k (skipn n (R s)))) (overwrite c n (firstn k (skipn n (R s)))).
  Proof.
    intros H Hn j Hj. destruct (Nat.lt_ge_cases j n) as [L|L].
    - apply (overwrite_upto s c n k n H Hn j L).
    - rewrite nth_overwrite. replace (j <? n) with false by lia.
      replace (j <? n + length (firstn k (skipn n (R s)))) with true by lia. rewrite slice_nth by lia. f_equal. lia.
  Qed.
  Lemma overwrite_full s n k : n <= length (R s) -> overwrite (R s) n (firstn k (skipn n (R s))) = R s.
  Proof.
    intros Hn. apply right_full.
    - apply overwrite_right; [auto|apply right_self].
    - apply overwrite_upto; [intros j _; reflexivity|auto].
  Qed.
  Lemma read_right s c got k : right_or_zero ser chain s c -> right_or_zero ser chain s got ->
    right_or_zero ser chain s (got ++ firstn k (skipn (length got) c)).
  Proof.
    intros [L H] [Lg Hg]. split.
    - rewrite app_length, firstn_length, skipn_length. lia.
    - intros j x. destruct (Nat.lt_ge_cases j (length got)) as [Lj|Lj].
      + rewrite nth_error_app1 by lia. apply Hg.
      + rewrite nth_error_app2 by lia. intros E.
        assert (j - length got < length (firstn k (skipn (length got) c))) as Ll by (apply nth_error_Some; congruence).
        rewrite firstn_length in Ll. rewrite nth_error_firstn_lt, nth_error_skipn in E by lia.
        replace (length got + (j - length got)) with j in E by lia. apply H, E.
  Qed.

End Bytes.

Lemma file_entry d s c s' : fs_get (fs_write d (file_name s) c) (file_name s') =
  if N.eqb s' s then Some (FileEntry c) else fs_get d (file_name s').
Proof.
  rewrite fs_get_write. destruct (bytes_eqb (file_name s') (file_name s)) eqn:E, (N.eqb_spec s' s) as [->|Ne]; auto.
  - apply bytes_eqb_eq, file_name_inj in E. contradiction.
  - assert (bytes_eqb (file_name s) (file_name s) = true) by (apply bytes_eqb_eq; reflexivity). congruence.
Qed.
Lemma exists_get d name : fs_exists d name = match fs_get d name with Some _ => true | None => false end.
Proof. reflexivity. Qed.

Section SharedP.
  Context {St : Type}.
  Variable slot_of : St -> Slot.
  Variable ser : St -> bytes.
  Variable deser : bytes -> option St.
  Variable chain : Slot -> St.

  Notation step := (step slot_of ser deser).
  Notation take_turn := (take_turn slot_of ser deser).
  Notation run_turns := (run_turns slot_of ser deser).
  Notation R s := (ser (chain s)).
  Notation right_upto := (right_upto ser chain).

  (** *** The invariant *)
  Definition file_inv (s : Slot) (d : directory) (qs : list (request St)) : Prop :=
    fs_get d (file_name s) = None \/
    exists c, fs_get d (file_name s) = Some (FileEntry c) /\ right_or_zero ser chain s c /\
      (c = R s \/ (exists i, nth_error qs i = Some (Finished s (Err (POther 6)))) \/
       exists i st n, nth_error qs i = Some (Writing s st n) /\ right_upto s n c).
  Definition request_inv (d : directory) (q : request St) : Prop :=
    match q with
    | Asked _ | Missing _ => True
    | Reading s got => right_or_zero ser chain s got /\ fs_get d (file_name s) <> None
    | Fetched s st | Creating s st => st = chain s
    | Writing s st n => st = chain s /\ n <= length (R s) /\ fs_get d (file_name s) <> None
    | Finished s (Ok st) => st = chain s \/ exists b, right_or_zero ser chain s b /\ deser b = Some st
    | Finished s _ => True
    end.
  Definition inv (slots : list Slot) (w : shared (St:=St)) : Prop :=
    map request_slot (snd w) = slots /\ (forall s, file_inv s (fst w) (snd w)) /\
    forall i q, nth_error (snd w) i = Some q -> request_inv (fst w) q.

  (** Files stay. *)
  Lemma step_files d q k a : forall s, fs_get d (file_name s) <> None -> fs_get (fst (step d q k a)) (file_name s) <> None.
  Proof.
    intros s H. destruct q as [s0|s0 got|s0|s0 st|s0 st|s0 st n|s0 r]; cbn [Shared.step fst]; auto.
    - destruct k; auto. destruct (fs_read d (file_name s0)) as [c|e|]; auto. destruct (firstn (S k) _); auto.
    - destruct a; auto.
    - destruct k; auto. cbn [fst]. rewrite file_entry. destruct (N.eqb s (slot_of st)); [discriminate|auto].
    - destruct (skipn n (ser st)) as [|x l]; auto. destruct k; auto. cbn [fst]. unfold fs_write_at.
      destruct (fs_get d (file_name (slot_of st))) as [[c|]|]; auto. rewrite file_entry. destruct (N.eqb s (slot_of st)); [discriminate|auto].
  Qed.
  Lemma request_inv_mono d d' q : (forall s, fs_get d (file_name s) <> None -> fs_get d' (file_name s) <> None) ->
    request_inv d q -> request_inv d' q.
  Proof. intros H. destruct q; cbn [request_inv]; auto; [intros [H1 H2]|intros (H1 & H2 & H3)]; auto. Qed.
  Lemma step_slot d q k a : request_slot (snd (step d q k a)) = request_slot q.
  Proof.
    destruct q as [s0|s0 got|s0|s0 st|s0 st|s0 st n|s0 r]; cbn [Shared.step snd request_slot]; auto.
    - destruct (fs_exists d (file_name s0)); auto.
    - destruct k; auto. destruct (fs_read d (file_name s0)) as [c|e|]; auto. destruct (firstn (S k) _); auto.
    - destruct a; auto.
    - destruct (fs_exists d _); auto.
    - destruct k; auto.
    - destruct (skipn n (ser st)) as [|x l]; auto. destruct k; auto.
  Qed.

  Lemma inv_entry slots w s : inv slots w -> fs_get (fst w) (file_name s) <> None ->
    exists c, fs_get (fst w) (file_name s) = Some (FileEntry c) /\ right_or_zero ser chain s c.
  Proof. intros (_ & H & _) E. destruct (H s) as [H0|(c & Hc & Hr & _)]; [contradiction|eauto]. Qed.

  Lemma start_inv d slots : (forall s, undamaged ser chain d s) -> inv slots (start_requests d slots).
  Proof.
    intros H. split; [|split]; cbn [start_requests fst snd].
    - rewrite map_map. cbn [request_slot]. apply map_id.
    - intros s. destruct (H s) as [E|E]; [left; auto|]. right. exists (R s). split; [auto|]. split; [apply right_self|auto].
    - intros i q Hq. rewrite nth_error_map in Hq. destruct (nth_error slots i); [|discriminate]. injection Hq as <-. exact I.
  Qed.

  Lemma inv_slot slots w i q : inv slots w -> nth_error (snd w) i = Some q -> In (request_slot q) slots.
  Proof. intros (<- & _) H. apply in_map. eapply nth_error_In; eauto. Qed.

  Variable slots : list Slot.
  Hypothesis Hslot : forall s, In s slots -> slot_of (chain s) = s.
  Lemma step_request w i q k a : inv slots w -> nth_error (snd w) i = Some q ->
    (forall st, a = Ok st -> st = chain (request_slot q)) ->
    request_inv (fst (step (fst w) q k a)) (snd (step (fst w) q k a)).
  Proof.
    intros I E Ha. pose proof I as (_ & If & Iq). pose proof (Iq _ _ E) as Hq. pose proof (inv_slot _ _ _ _ I E) as Hin.
    destruct q as [s|s got|s|s st|s st|s st n|s r]; cbn [Shared.step request_inv request_slot] in *.
    - rewrite exists_get. destruct (fs_get (fst w) (file_name s)) eqn:G; cbn [fst snd request_inv]; auto. split; [apply right_nil|congruence].
    - destruct Hq as [Hg Hx]. destruct (inv_entry _ _ _ I Hx) as (c & Hc & Hr).
      destruct k; cbn [fst snd request_inv]; auto. unfold fs_read. rewrite Hc.
      pose proof (read_right ser chain s c got (S k) Hr Hg) as Hn.
      destruct (firstn (S k) (skipn (length got) c)); cbn [fst snd request_inv].
      + unfold ok_or. destruct (deser got) eqn:Ed; auto. right. eauto.
      + auto.
    - destruct a as [st|e|]; cbn [fst snd request_inv]; auto.
    - destruct (fs_exists (fst w) (file_name (slot_of st))); cbn [fst snd request_inv]; auto.
    - subst st. destruct k; cbn [fst snd request_inv]; auto. repeat split; auto; [lia|]. rewrite (Hslot _ Hin), file_entry, N.eqb_refl. discriminate.
    - destruct Hq as (-> & Hn & Hx). destruct (skipn n (R s)) as [|x l] eqn:Es; [cbn [fst snd request_inv]; auto|].
      destruct k; [cbn [fst snd request_inv]; auto|]. cbn [fst snd request_inv]. split; [auto|]. split.
      + rewrite <- Es, firstn_length, skipn_length. lia.
      + destruct (inv_entry _ _ _ I Hx) as (c & Hc & Hr). unfold fs_write_at. rewrite (Hslot _ Hin), Hc, file_entry, N.eqb_refl. discriminate.
    - auto.
  Qed.

  Lemma step_file w i q k a s : inv slots w -> nth_error (snd w) i = Some q ->
    file_inv s (fst (step (fst w) q k a)) (set_request (snd w) i (snd (step (fst w) q k a))).
  Proof.
    intros I E. pose proof I as (_ & If & Iq). pose proof (Iq _ _ E) as Hq. pose proof (inv_slot _ _ _ _ I E) as Hin. pose proof (If s) as Hs.
    (* unless the request writes, nothing changes *)
    assert (forall q', (forall n st, q = Writing s st n -> exists c, fs_get (fst w) (file_name s) = Some (FileEntry c) /\ 
        (q' = Finished s (Err (POther 6)) \/ (right_upto s n c -> right_or_zero ser chain s c -> c = R s))) ->
      (q = Finished s (Err (POther 6)) -> q' = q) ->
      file_inv s (fst w) (set_request (snd w) i q')) as Keep.
    { intros q' Hw Hf. destruct Hs as [Hs|(c & Hc & Hr & Hs)]; [left; auto|]. right. exists c. split; [auto|]. split; [auto|].
      destruct Hs as [->|[[j Hj]|(j & st & n & Hj & Hu)]]; [left; auto| |].
      - right. left. exists j. rewrite (nth_set _ _ _ _ _ E). destruct (Nat.eqb_spec i j) as [<-|]; auto.
        rewrite E in Hj. injection Hj as Hj. rewrite (Hf Hj), Hj. reflexivity.
      - destruct (Nat.eqb_spec i j) as [<-|Ne].
        + rewrite E in Hj. injection Hj as Hj. destruct (Hw n st Hj) as (c' & Hc' & [->|H]).
          * right. left. exists i. rewrite (nth_set _ _ _ _ _ E), Nat.eqb_refl. reflexivity.
          * rewrite Hc in Hc'. injection Hc' as <-. left. auto.
        + right. right. exists j, st, n. rewrite (nth_set _ _ _ _ _ E). replace (i =? j) with false by (symmetry; apply Nat.eqb_neq; auto). auto. }
    destruct q as [s0|s0 got|s0|s0 st|s0 st|s0 st n|s0 r]; cbn [Shared.step request_inv request_slot] in *.
    - apply Keep; intros; discriminate.
    - destruct k; [apply Keep; intros; discriminate|].
      destruct (fs_read (fst w) (file_name s0)) as [c|e|]; try (apply Keep; intros; discriminate).
      destruct (firstn (S k) _); apply Keep; intros; discriminate.
    - destruct a; apply Keep; intros; discriminate.
    - apply Keep; intros; discriminate.
    - subst st. destruct k; [apply Keep; intros; discriminate|]. cbn [fst snd]. rewrite (Hslot _ Hin).
      unfold file_inv. rewrite file_entry. destruct (N.eqb_spec s s0) as [->|Ne].
      + right. exists []. split; [auto|]. split; [apply right_nil|]. right. right. exists i, (chain s0), 0.
        split; [rewrite (nth_set _ _ _ _ _ E), Nat.eqb_refl; reflexivity|]. intros j Hj. lia.
      + destruct Hs as [Hs|(c & Hc & Hr & Hs)]; [left; auto|]. right. exists c. split; [auto|]. split; [auto|].
        destruct Hs as [->|[[j Hj]|(j & st & n & Hj & Hu)]]; [left; auto| |].
        * right. left. exists j. rewrite (nth_set _ _ _ _ _ E). destruct (Nat.eqb_spec i j) as [<-|]; auto. congruence.
        * right. right. exists j, st, n. rewrite (nth_set _ _ _ _ _ E). destruct (Nat.eqb_spec i j) as [<-|]; auto. congruence.
    - destruct Hq as (-> & Hn & Hx). destruct (inv_entry _ _ _ I Hx) as (c0 & Hc0 & Hr0).
      destruct (skipn n (R s0)) as [|x l] eqn:Es.
      { cbn [fst snd]. apply Keep; [|intros; discriminate]. intros n' st' H. injection H as <- <- <-. exists c0. split; auto. right.
        intros Hu Hr. apply right_full; auto. assert (length (skipn n (R s0)) = 0) as L by now rewrite Es.
        rewrite skipn_length in L. intros j Hj. apply Hu. lia. }
      destruct k.
      { cbn [fst snd]. apply Keep; [|intros; discriminate]. intros n' st' H. injection H as <- <- <-. exists c0. auto. }
      rewrite <- Es. cbn [fst snd]. unfold fs_write_at. rewrite (Hslot _ Hin), Hc0. unfold file_inv. rewrite file_entry. destruct (N.eqb_spec s s0) as [->|Ne].
      + right. exists (overwrite c0 n (firstn (S k) (skipn n (R s0)))). split; [auto|]. split; [apply overwrite_right; auto|].
        destruct Hs as [Hs|(c & Hc & Hr & Hs)]; [congruence|]. rewrite Hc0 in Hc. injection Hc as <-.
        destruct Hs as [->|[[j Hj]|(j & st & m & Hj & Hu)]].
        * left. apply overwrite_full. auto.
        * right. left. exists j. rewrite (nth_set _ _ _ _ _ E). destruct (Nat.eqb_spec i j) as [<-|]; auto. congruence.
        * right. right. destruct (Nat.eqb_spec i j) as [<-|Nj].
          -- rewrite E in Hj. injection Hj as <- <-. exists i, (chain s0), (n + length (firstn (S k) (skipn n (R s0)))).
             split; [rewrite (nth_set _ _ _ _ _ E), Nat.eqb_refl; reflexivity|]. apply overwrite_more; auto.
          -- exists j, st, m. rewrite (nth_set _ _ _ _ _ E). replace (i =? j) with false by (symmetry; apply Nat.eqb_neq; auto).
             split; [auto|]. destruct (Iq _ _ Hj) as (_ & Hm & _). apply overwrite_upto; auto.
      + destruct Hs as [Hs|(c & Hc & Hr & Hs)]; [left; auto|]. right. exists c. split; [auto|]. split; [auto|].
        destruct Hs as [->|[[j Hj]|(j & st & m & Hj & Hu)]]; [left; auto| |].
        * right. left. exists j. rewrite (nth_set _ _ _ _ _ E). destruct (Nat.eqb_spec i j) as [<-|]; auto. congruence.
        * right. right. exists j, st, m. rewrite (nth_set _ _ _ _ _ E). destruct (Nat.eqb_spec i j) as [<-|]; auto. congruence.
    - apply Keep; [intros; discriminate|auto].
  Qed.

  Lemma turn_inv w t : inv slots w ->
    (forall s st, nth_error slots (t_request t) = Some s -> t_node t = Ok st -> st = chain s) -> inv slots (take_turn w t).
  Proof.
    intros I Ha. unfold Shared.take_turn. destruct (nth_error (snd w) (t_request t)) as [q|] eqn:E; [|auto].
    pose proof (step_file w (t_request t) q (t_bytes t) (t_node t)) as Hf.
    pose proof (step_request w (t_request t) q (t_bytes t) (t_node t) I E) as Hr.
    pose proof (step_files (fst w) q (t_bytes t) (t_node t)) as Hm.
    pose proof (step_slot (fst w) q (t_bytes t) (t_node t)) as Hsl.
    destruct I as (I1 & I2 & I3).
    assert (nth_error slots (t_request t) = Some (request_slot q)) as Es by (rewrite <- I1; rewrite nth_error_map, E; reflexivity).
    specialize (Hr (fun st Hst => Ha _ _ Es Hst)).
    destruct (step (fst w) q (t_bytes t) (t_node t)) as [d' q']. cbn [fst snd] in *. split; [|split]; cbn [fst snd].
    - rewrite (map_set _ _ _ _ E); auto.
    - intros s. apply Hf; auto. split; [auto|split; auto].
    - intros i x Hx. rewrite (nth_set _ _ _ _ _ E) in Hx. destruct (t_request t =? i).
      + injection Hx as <-. auto.
      + apply (request_inv_mono (fst w)); eauto.
  Qed.
  Lemma run_inv w sched : inv slots w -> honest_node chain slots sched -> inv slots (run_turns w sched).
  Proof.
    revert w. induction sched as [|t sched IH]; intros w I H; [exact I|]. cbn [Shared.run_turns fold_left]. apply IH.
    - apply turn_inv; auto. intros s st. apply H. now left.
    - intros t' s st Ht. apply H. now right.
  Qed.
End SharedP.
