(** Property C78: processes that share a directory of state files. *)
From Coq Require Import String List Arith NArith Bool Lia ZifyBool ZifyNat ZifyN.
From Coq.Init Require Import Byte.
From Verif.Model Require Import Base Types HostStore StateFile Shared.
From Verif.Spec Require Import StateFileSpec SharedSpec.
From Verif.Proof Require Import BaseLemmas HostStoreP StateFileP SharedP.
From Verif.Props Require Import StateFileProps.
Import ListNotations.
Open Scope list_scope.
Open Scope nat_scope.

Lemma run_turns_app {St} so se de (w : shared (St:=St)) s1 s2 :
  run_turns so se de w (s1 ++ s2) = run_turns so se de (run_turns so se de w s1) s2.
Proof. apply fold_left_app. Qed.

Section Any.
  Context {St : Type}.
  Variable slot_of : St -> Slot.
  Variable ser : St -> bytes.
  Variable deser : bytes -> option St.
  Variable chain : Slot -> St.
  Variable slots : list Slot.
  Hypothesis Hslot : forall s, In s slots -> slot_of (chain s) = s.
  Hypothesis Hser : forall s, In s slots -> deser (ser (chain s)) = Some (chain s).
  Notation step := (step slot_of ser deser).
  Notation take_turn := (take_turn slot_of ser deser).
  Notation run_turns := (run_turns slot_of ser deser).
  Notation R s := (ser (chain s)).

  (** At any moment of any interleaving, with crashed processes, failed system calls and any number of
      writers, every byte of a state file is right or zero. *)
  Theorem C78_bytes d sched s b : (forall s, undamaged ser chain d s) -> honest_node chain slots sched ->
    fs_get (fst (run_turns (start_requests d slots) sched)) (file_name s) = Some b ->
    exists c, b = FileEntry c /\ right_or_zero ser chain s c.
  Proof.
    intros Hd Hn E. pose proof (run_inv slot_of ser deser chain slots Hslot _ sched (start_inv ser deser chain d slots Hd) Hn) as I.
    destruct (inv_entry _ _ _ _ _ s I) as (c & Hc & Hr); [congruence|]. rewrite E in Hc. injection Hc as ->. eauto.
  Qed.
  (** When nobody is writing a file, and no write has failed, the file is right or not there, however
      many processes have written it. *)
  Theorem C78_quiet d sched s : (forall s, undamaged ser chain d s) -> honest_node chain slots sched ->
    quiet ser s (snd (run_turns (start_requests d slots) sched)) ->
    undamaged ser chain (fst (run_turns (start_requests d slots) sched)) s.
  Proof.
    intros Hd Hn Hq. pose proof (run_inv slot_of ser deser chain slots Hslot _ sched (start_inv ser deser chain d slots Hd) Hn) as I.
    set (w := run_turns (start_requests d slots) sched) in *. destruct I as (_ & If & Ir).
    destruct (If s) as [E|(c & Hc & Hr & [->|[[i Hi]|(i & st & n & Hi & Hu)]])]; [left; auto|right; auto| |].
    - destruct (Hq _ (nth_error_In _ _ Hi)) as [_ H]. exfalso. apply H. reflexivity.
    - destruct (Ir _ _ Hi) as (-> & Hl & _). destruct (Hq _ (nth_error_In _ _ Hi)) as [H _].
      right. rewrite Hc. do 2 f_equal. apply right_full; auto. cbn [writer] in H.
      destruct (Nat.eq_dec n (length (R s))) as [<-|]; auto. exfalso. apply H. split; auto. lia.
  Qed.
  (** What a request returns is the state, or was read from a file whose bytes were right or zero. *)
  Theorem C78_answers d sched i s st : (forall s, undamaged ser chain d s) -> honest_node chain slots sched ->
    nth_error (snd (run_turns (start_requests d slots) sched)) i = Some (Finished s (Ok st)) ->
    st = chain s \/ exists b, right_or_zero ser chain s b /\ deser b = Some st.
  Proof.
    intros Hd Hn E. pose proof (run_inv slot_of ser deser chain slots Hslot _ sched (start_inv ser deser chain d slots Hd) Hn) as (_ & _ & I).
    apply (I _ _ E).
  Qed.

  (** *** A file that is there while nobody writes it *)
  Definition settled (s : Slot) (w : shared (St:=St)) : Prop :=
    complete ser chain (fst w) s /\ forall i q, nth_error (snd w) i = Some q -> ~ writer ser s q.
  Lemma step_settled s d q k a : complete ser chain d s -> In (request_slot q) slots -> request_inv ser deser chain d q -> ~ writer ser s q ->
    complete ser chain (fst (step d q k a)) s /\ ~ writer ser s (snd (step d q k a)).
  Proof.
    intros C Hin Hq Hw. unfold complete in *. destruct q as [s0|s0 got|s0|s0 st|s0 st|s0 st n|s0 r]; cbn [Shared.step request_inv request_slot writer] in *.
    - split; [exact C|]. cbn [snd]. destruct (fs_exists d (file_name s0)); auto.
    - destruct k; [cbn; auto|]. destruct (fs_read d (file_name s0)) as [c|e|]; [destruct (firstn (S k) (skipn (length got) c))| |]; cbn; auto.
    - destruct a; cbn; auto.
    - split; [exact C|]. cbn [snd]. subst st. rewrite (Hslot _ Hin). destruct (fs_exists d (file_name s0)) eqn:Ex; cbn; auto.
      intros ->. rewrite exists_get, C in Ex. discriminate.
    - destruct k; [cbn; auto|]. subst st. cbn [fst snd]. rewrite (Hslot _ Hin), file_entry.
      destruct (N.eqb_spec s s0); [congruence|]. cbn [writer]. split; [exact C|]. intros [-> _]. apply n. reflexivity.
    - destruct Hq as (-> & Hn & Hx). destruct (skipn n (R s0)) as [|x l] eqn:Es; [cbn; auto|]. destruct k; [cbn; auto|].
      assert (s0 <> s) as Ne.
      { intros ->. apply Hw. split; auto. assert (length (skipn n (R s)) <> 0) as L by (rewrite Es; discriminate).
        rewrite skipn_length in L. lia. }
      cbn [fst snd writer]. split; [|intros [E _]; contradiction]. unfold fs_write_at. rewrite (Hslot _ Hin).
      destruct (fs_get d (file_name s0)) as [[c|]|]; auto. rewrite file_entry. destruct (N.eqb_spec s s0); [congruence|auto].
    - cbn; auto.
  Qed.
  (** How a request for [s] goes on that starts when the file is there. *)
  Definition follows (s : Slot) (q : request St) : Prop :=
    q = Asked s \/ (exists n, q = Reading s (firstn n (R s))) \/ q = Finished s (Ok (chain s)).
  Lemma step_follows s d q k a : In s slots -> complete ser chain d s -> k <> 0 -> follows s q -> follows s (snd (step d q k a)).
  Proof.
    intros Hin C Hk [->|[[n ->]| ->]]; unfold complete in C; cbn [Shared.step].
    - rewrite exists_get, C. right. left. exists 0. reflexivity.
    - destruct k as [|k]; [congruence|]. unfold fs_read. rewrite C. rewrite firstn_length.
      destruct (firstn (S k) (skipn (Nat.min n (length (R s))) (R s))) as [|x l] eqn:Ef; cbn [snd].
      + assert (length (firstn (S k) (skipn (Nat.min n (length (R s))) (R s))) = 0) as L by now rewrite Ef.
        rewrite firstn_length, skipn_length in L. rewrite firstn_all2 by lia. rewrite (Hser s Hin). right. right. reflexivity.
      + rewrite <- Ef. right. left. exists (Nat.min n (length (R s)) + S k). f_equal.
        replace (firstn n (R s)) with (firstn (Nat.min n (length (R s))) (R s)).
        * generalize (Nat.min n (length (R s))) as m. generalize (R s) as l0. clear. induction l0 as [|y l0 IH]; intros [|m]; cbn [firstn skipn app Nat.add]; auto.
          f_equal. apply IH.
        * destruct (Nat.le_ge_cases n (length (R s))); [now rewrite Nat.min_l by auto|]. rewrite Nat.min_r by auto. rewrite !firstn_all2 by lia. reflexivity.
    - right. right. reflexivity.
  Qed.
  Lemma turn_settled s w t i : inv ser deser chain slots w ->
    (forall s st, nth_error slots (t_request t) = Some s -> t_node t = Ok st -> st = chain s) -> settled s w ->
    settled s (take_turn w t) /\
    (forall q, In s slots -> (t_request t = i -> t_bytes t <> 0) -> nth_error (snd w) i = Some q -> follows s q ->
       exists q', nth_error (snd (take_turn w t)) i = Some q' /\ follows s q').
  Proof.
    intros I Ha [C Hw]. unfold Shared.take_turn. destruct (nth_error (snd w) (t_request t)) as [q|] eqn:E; [|split; [split; auto|intros; eauto]].
    pose proof (step_settled s (fst w) q (t_bytes t) (t_node t) C (inv_slot _ _ _ _ _ _ _ I E) (proj2 (proj2 I) _ _ E) (Hw _ _ E)) as [C' Hw'].
    pose proof (fun Hs => step_follows s (fst w) q (t_bytes t) (t_node t) Hs C) as F.
    destruct (step (fst w) q (t_bytes t) (t_node t)) as [d' q']. cbn [fst snd] in *. split; [split; [exact C'|]|]; cbn [fst snd].
    - intros j x Hx. rewrite (nth_set _ _ _ _ _ E) in Hx. destruct (t_request t =? j); [injection Hx as <-; auto|eauto].
    - intros x Hs Hk Hx Fx. rewrite (nth_set _ _ _ _ _ E). destruct (Nat.eqb_spec (t_request t) i) as [<-|]; [|eauto].
      rewrite E in Hx. injection Hx as <-. eauto.
  Qed.
  (** Once the file of a slot is there and nobody is writing it, it stays as it is, and every request
      for the slot that starts afterwards returns the state. *)
  Theorem C78_settled d sched1 sched2 s : (forall s, undamaged ser chain d s) -> honest_node chain slots (sched1 ++ sched2) ->
    let w1 := run_turns (start_requests d slots) sched1 in
    quiet ser s (snd w1) -> fs_exists (fst w1) (file_name s) = true ->
    let w2 := run_turns w1 sched2 in
    complete ser chain (fst w2) s /\
    forall i r, nth_error (snd w1) i = Some (Asked s) -> no_io_error i sched2 ->
      nth_error (snd w2) i = Some (Finished s r) -> r = Ok (chain s).
  Proof.
    intros Hd Hn w1 Hq Hx w2.
    assert (honest_node chain slots sched1 /\ honest_node chain slots sched2) as [Hn1 Hn2].
    { split; intros t x st Ht; apply Hn, in_or_app; auto. }
    pose proof (run_inv slot_of ser deser chain slots Hslot _ sched1 (start_inv ser deser chain d slots Hd) Hn1) as I. fold w1 in I.
    assert (settled s w1) as S1.
    { split.
      - destruct (C78_quiet d sched1 s Hd Hn1 Hq) as [H|H]; [|exact H]. fold w1 in H. rewrite exists_get, H in Hx. discriminate.
      - intros i q Hi. destruct (Hq q (nth_error_In _ _ Hi)). auto. }
    clearbody w1. clear Hq Hx Hn Hn1.
    assert (settled s w2 /\ forall i q, In s slots -> nth_error (snd w1) i = Some q -> follows s q -> no_io_error i sched2 ->
      exists q', nth_error (snd w2) i = Some q' /\ follows s q') as [S2 F].
    { subst w2. revert w1 I S1 Hn2. induction sched2 as [|t sched IH]; intros w1 I S1 Hn2; [split; [exact S1|intros; eauto]|].
      assert (forall s st, nth_error slots (t_request t) = Some s -> t_node t = Ok st -> st = chain s) as Ht by (intros x st; apply Hn2; now left).
      destruct (IH (take_turn w1 t)) as [H1 H2].
      - apply turn_inv; auto.
      - apply (turn_settled s w1 t 0 I Ht S1).
      - intros t' x st Ht'. apply Hn2. now right.
      - split; [exact H1|]. intros i q Hs Hi Fq Hio.
        destruct (turn_settled s w1 t i I Ht S1) as [_ H3]. destruct (H3 q) as (q' & Hq' & Fq'); auto.
        { intros E. apply Hio; [now left|auto]. }
        apply (H2 i q' Hs Hq' Fq'). intros t' Ht'. apply Hio. now right. }
    split; [apply S2|]. intros i r Hi Hio Hr. assert (In s slots) as Hs by exact (inv_slot _ _ _ _ _ _ _ I Hi). destruct (F i _ Hs Hi (or_introl eq_refl) Hio) as (q' & Hq' & Fq).
    rewrite Hr in Hq'. injection Hq' as <-. destruct Fq as [Fq|[[n Fq]|Fq]]; [discriminate|discriminate|congruence].
  Qed.

  (** *** One writer at a time *)
  Definition single (s : Slot) (w : shared (St:=St)) : Prop :=
    (fs_get (fst w) (file_name s) = None \/
     exists n, n <= length (R s) /\ fs_get (fst w) (file_name s) = Some (FileEntry (firstn n (R s))) /\
       forall i q, nth_error (snd w) i = Some q -> writer ser s q -> exists st, q = Writing s st n) /\
    forall i q, nth_error (snd w) i = Some q ->
      match q with
      | Reading s' got => s' = s -> exists n, got = firstn n (R s)
      | Finished s' (Ok st) => s' = s -> st = chain s \/ exists n, deser (firstn n (R s)) = Some st
      | _ => True
      end.
  Lemma prefix_read s n got k : (exists m, got = firstn m (R s)) ->
    exists m, got ++ firstn k (skipn (length got) (firstn n (R s))) = firstn m (R s).
  Proof.
    intros [m ->]. generalize (R s) as l. clear. intros l.
    assert (exists m', firstn m l = firstn m' l /\ m' = length (firstn m l)) as (m' & E & L).
    { exists (length (firstn m l)). split; auto. rewrite firstn_length. destruct (Nat.le_ge_cases m (length l)); [now rewrite Nat.min_l by auto|].
      rewrite Nat.min_r by auto. rewrite !firstn_all2 by lia. reflexivity. }
    rewrite <- L, E. clear m E L. revert m' n k. induction l as [|x l IH]; intros m' n k.
    - exists 0. rewrite !firstn_nil, skipn_nil, firstn_nil. reflexivity.
    - destruct m' as [|m']; [exists (Nat.min k n); cbn [firstn app skipn]; now rewrite firstn_firstn|].
      destruct n as [|n]; [exists (S m'); cbn [firstn skipn app]; rewrite firstn_nil, app_nil_r; reflexivity|].
      destruct (IH m' n k) as [j Hj]. exists (S j). cbn [firstn skipn app]. now rewrite Hj.
  Qed.
  Lemma turn_single s w t : inv ser deser chain slots w -> one_writer ser s (snd w) ->
    single s w -> single s (take_turn w t).
  Proof.
    intros I Ho [Hf Hr]. unfold Shared.take_turn. destruct (nth_error (snd w) (t_request t)) as [q|] eqn:E; [|split; auto].
    pose proof (proj2 (proj2 I) _ _ E) as Hq. pose proof (inv_slot _ _ _ _ _ _ _ I E) as Hin. pose proof (Hr _ _ E) as Hrq.
    set (i := t_request t) in *. set (k := t_bytes t). set (a := t_node t). clearbody i k a.
    (* the file of [s] does not change and the request does not become a writer *)
    assert (forall q', ~ writer ser s q' \/ fs_get (fst w) (file_name s) = None ->
      match q' with
      | Reading s' got => s' = s -> exists n, got = firstn n (R s)
      | Finished s' (Ok st) => s' = s -> st = chain s \/ exists n, deser (firstn n (R s)) = Some st
      | _ => True
      end -> forall d', fs_get d' (file_name s) = fs_get (fst w) (file_name s) -> single s (d', set_request (snd w) i q')) as Keep.
    { intros q' Hw Hq' d' Ed. split; cbn [fst snd].
      - rewrite Ed. destruct Hf as [Hf|(n & Hn & Hc & Hw')]; [left; auto|]. right. exists n. split; [auto|]. split; [auto|].
        intros j x Hx Wx. rewrite (nth_set _ _ _ _ _ E) in Hx. destruct (i =? j); [|eauto]. injection Hx as <-.
        destruct Hw as [Hw|Hw]; [contradiction|congruence].
      - intros j x Hx. rewrite (nth_set _ _ _ _ _ E) in Hx. destruct (i =? j); [injection Hx as <-; exact Hq'|exact (Hr _ _ Hx)]. }
    destruct q as [s0|s0 got|s0|s0 st|s0 st|s0 st n|s0 r]; cbn [Shared.step request_inv request_slot] in *.
    - apply Keep; auto; destruct (fs_exists (fst w) (file_name s0)); cbn [writer]; auto. intros ->. exists 0. reflexivity.
    - destruct k; [apply Keep; cbn; auto|].
      destruct (fs_read (fst w) (file_name s0)) as [c|e|] eqn:Ef; [|apply Keep; cbn; auto|apply Keep; cbn; auto].
      destruct (firstn (S k) (skipn (length got) c)) as [|x l] eqn:Eb.
      + apply Keep; cbn [writer]; auto. unfold ok_or. destruct (deser got) eqn:Ed; auto. intros Es. destruct (Hrq Es) as [m ->]. right. eauto.
      + apply Keep; cbn [writer]; auto. intros Es. specialize (Hrq Es). subst s0.
        destruct Hf as [Hf|(n & Hn & Hc & _)]; unfold fs_read in Ef; [rewrite Hf in Ef; discriminate|]. rewrite Hc in Ef. injection Ef as <-.
        rewrite <- Eb. apply prefix_read, Hrq.
    - destruct a; apply Keep; cbn; auto.
    - subst st. rewrite (Hslot _ Hin), exists_get. destruct (fs_get (fst w) (file_name s0)) eqn:Ex; [apply Keep; cbn; auto|].
      destruct (N.eq_dec s0 s) as [->|Ne]; apply Keep; cbn; auto.
    - subst st. destruct k; [apply Keep; cbn; auto|]. rewrite (Hslot _ Hin). destruct (N.eq_dec s0 s) as [->|Ne].
      + split; cbn [fst snd].
        * right. exists 0. split; [lia|]. split; [rewrite file_entry, N.eqb_refl; reflexivity|].
          intros j x Hx Wx. rewrite (nth_set _ _ _ _ _ E) in Hx. destruct (Nat.eqb_spec i j) as [->|Nj]; [injection Hx as <-; eauto|].
          exfalso. apply Nj. apply (Ho i j _ _ E Hx); [reflexivity|auto].
        * intros j x Hx. rewrite (nth_set _ _ _ _ _ E) in Hx. destruct (i =? j); [injection Hx as <-; auto|exact (Hr _ _ Hx)].
      + apply Keep; cbn [writer]; auto; [left; intros [H _]; contradiction|]. rewrite file_entry. destruct (N.eqb_spec s s0); [congruence|auto].
    - destruct Hq as (-> & Hn & Hx). destruct (skipn n (R s0)) as [|x l] eqn:Es.
      { apply Keep; cbn [writer]; auto. intros ->. auto. }
      destruct k; [apply Keep; cbn; auto|]. rewrite <- Es, (Hslot _ Hin). destruct (N.eq_dec s0 s) as [->|Ne].
      + assert (n < length (R s)) as Ln. { assert (length (skipn n (R s)) <> 0) as L by (rewrite Es; discriminate). rewrite skipn_length in L. lia. }
        assert (writer ser s (Writing s (chain s) n)) as Wi by (split; auto).
        destruct Hf as [Hf|(m & Hm & Hc & Hw)]; [congruence|]. destruct (Hw _ _ E Wi) as [st Est]. injection Est as _ <-.
        unfold fs_write_at. rewrite Hc.
        assert (overwrite (firstn n (R s)) n (firstn (S k) (skipn n (R s))) = firstn (n + length (firstn (S k) (skipn n (R s)))) (R s)) as ->.
        { unfold overwrite. rewrite firstn_firstn, Nat.min_id, (firstn_length n), Nat.min_l, Nat.sub_diag by lia.
          rewrite (skipn_all2 (firstn n (R s))) by (rewrite firstn_length; lia). cbn [repeat app]. rewrite app_nil_r.
          generalize (R s) as l0. clear. intros l0. revert n. induction l0 as [|y l0 IH]; intros [|n]; cbn [firstn skipn app Nat.add length]; auto.
          - rewrite firstn_length. f_equal. cbn [length].
            destruct (Nat.le_ge_cases k (length l0)); [now rewrite Nat.min_l by auto|rewrite Nat.min_r by auto; rewrite !firstn_all2 by lia; reflexivity].
          - f_equal. apply IH. }
        split; cbn [fst snd].
        * right. exists (n + length (firstn (S k) (skipn n (R s)))). split; [rewrite firstn_length, skipn_length; lia|].
          split; [rewrite file_entry, N.eqb_refl; reflexivity|].
          intros j y Hy Wy. rewrite (nth_set _ _ _ _ _ E) in Hy. destruct (Nat.eqb_spec i j) as [->|Nj]; [injection Hy as <-; eauto|].
          exfalso. apply Nj. apply (Ho i j _ _ E Hy); auto.
        * intros j y Hy. rewrite (nth_set _ _ _ _ _ E) in Hy. destruct (i =? j); [injection Hy as <-; auto|exact (Hr _ _ Hy)].
      + apply Keep; cbn [writer]; auto; [left; intros [H _]; contradiction|]. unfold fs_write_at.
        destruct (fs_get (fst w) (file_name s0)) as [[c|]|]; auto. rewrite file_entry. destruct (N.eqb_spec s s0); [congruence|auto].
    - apply Keep; auto.
  Qed.
  (** If two requests never write the same file at the same time, its content is always a beginning of
      the right one, and what a request returns is the state or was read from such a beginning. *)
  Theorem C78_one_writer d sched s : (forall s, undamaged ser chain d s) -> honest_node chain slots sched ->
    (forall sched1 sched2, sched = sched1 ++ sched2 -> one_writer ser s (snd (run_turns (start_requests d slots) sched1))) ->
    let w := run_turns (start_requests d slots) sched in
    (fs_get (fst w) (file_name s) = None \/ exists n, fs_get (fst w) (file_name s) = Some (FileEntry (firstn n (R s)))) /\
    forall i st, nth_error (snd w) i = Some (Finished s (Ok st)) -> st = chain s \/ exists n, deser (firstn n (R s)) = Some st.
  Proof.
    intros Hd Hn Ho w. assert (single s w) as [Hf Hr].
    { subst w. induction sched as [|t sched IH] using rev_ind.
      - split; cbn [Shared.run_turns fold_left start_requests fst snd].
        + destruct (Hd s) as [H|H]; [left; auto|]. right. exists (length (R s)). split; [lia|]. split; [rewrite firstn_all; auto|].
          intros i q Hi Wi. rewrite nth_error_map in Hi. destruct (nth_error slots i); [|discriminate]. injection Hi as <-. destruct Wi.
        + intros i q Hi. rewrite nth_error_map in Hi. destruct (nth_error slots i); [|discriminate]. injection Hi as <-. exact I.
      - rewrite run_turns_app. cbn [Shared.run_turns fold_left].
        assert (honest_node chain slots sched) as Hn' by (intros t' x st Ht; apply Hn, in_or_app; auto).
        apply turn_single.
        + apply run_inv; auto. apply start_inv. exact Hd.
        + apply (Ho sched [t]). reflexivity.
        + apply IH; auto. intros s1 s2 Es. apply (Ho s1 (s2 ++ [t])). rewrite Es, app_assoc. reflexivity. }
    split.
    - destruct Hf as [Hf|(n & _ & Hf & _)]; eauto.
    - intros i st Hi. apply (Hr _ _ Hi). reflexivity.
  Qed.

  (** *** Finishing *)
  Definition left_to_do (q : request St) : nat :=
    let L := length (R (request_slot q)) in
    match q with
    | Asked _ => L + 5 | Missing _ => L + 4 | Fetched _ _ => L + 3 | Creating _ _ => L + 2
    | Writing _ _ n => L - n + 1
    | Reading _ got => L - length got + 1
    | Finished _ _ => 0
    end.
  Lemma step_less w i q k a : inv ser deser chain slots w -> nth_error (snd w) i = Some q ->
    left_to_do (snd (step (fst w) q k a)) <= left_to_do q - 1.
  Proof.
    intros I E. pose proof (proj2 (proj2 I) _ _ E) as Hq. pose proof (inv_slot _ _ _ _ _ _ _ I E) as Hin.
    destruct q as [s0|s0 got|s0|s0 st|s0 st|s0 st n|s0 r]; cbn [Shared.step request_inv left_to_do request_slot] in *.
    - destruct (fs_exists (fst w) (file_name s0)); cbn [snd left_to_do request_slot length]; lia.
    - destruct k; [cbn [snd left_to_do]; lia|]. destruct Hq as [Hg Hx]. destruct (inv_entry _ _ _ _ _ _ I Hx) as (c & Hc & Hr).
      unfold fs_read. rewrite Hc. pose proof (read_right ser chain s0 c got (S k) Hr Hg) as [Hn _].
      destruct (firstn (S k) (skipn (length got) c)) as [|x l]; cbn [snd left_to_do request_slot]; [lia|].
      rewrite app_length in *. cbn [length] in *. lia.
    - destruct a; cbn [snd left_to_do request_slot]; lia.
    - destruct (fs_exists (fst w) _); cbn [snd left_to_do request_slot]; lia.
    - destruct k; cbn [snd left_to_do request_slot]; lia.
    - destruct Hq as (-> & Hn & _). destruct (skipn n (R s0)) as [|x l] eqn:Es; [cbn [snd left_to_do request_slot]; lia|].
      destruct k; cbn [snd left_to_do request_slot]; [lia|]. 
      assert (length (skipn n (R s0)) = S (length l)) as L by now rewrite Es. rewrite skipn_length in L. cbn [firstn length]. lia.
    - cbn [snd left_to_do]. lia.
  Qed.
  (** Every request ends, whatever the others do, after at most five turns more than the state has
      bytes. *)
  Theorem C78_finishes d sched i s : (forall s, undamaged ser chain d s) -> honest_node chain slots sched ->
    nth_error slots i = Some s -> length (R s) + 5 <= turns_for i sched ->
    exists r, nth_error (snd (run_turns (start_requests d slots) sched)) i = Some (Finished s r).
  Proof.
    intros Hd Hn Hi Ht.
    assert (forall w, inv ser deser chain slots w -> exists q, nth_error (snd w) i = Some q /\ request_slot q = s) as Hreq.
    { intros w (Hm & _ & _). rewrite <- Hm, nth_error_map in Hi. destruct (nth_error (snd w) i) as [q|]; [|discriminate]. injection Hi as Hi. eauto. }
    pose proof (start_inv ser deser chain d slots Hd) as I.
    assert (forall w q, inv ser deser chain slots w -> honest_node chain slots sched -> nth_error (snd w) i = Some q -> left_to_do q <= turns_for i sched ->
      exists q', nth_error (snd (run_turns w sched)) i = Some q' /\ left_to_do q' = 0) as G.
    { clear Hn Ht I. induction sched as [|t sched IH]; intros w q I Hn Hq Hl.
      - cbn in Hl. exists q. split; [exact Hq|lia].
      - assert (forall s st, nth_error slots (t_request t) = Some s -> t_node t = Ok st -> st = chain s) as Ha by (intros x st; apply Hn; now left).
        pose proof (turn_inv slot_of ser deser chain slots Hslot w t I Ha) as I'.
        assert (honest_node chain slots sched) as Hn' by (intros t' x st Ht'; apply Hn; now right).
        destruct (Hreq _ I') as (q' & Hq' & Hs'). cbn [Shared.run_turns fold_left]. apply (IH _ q' I' Hn' Hq').
        unfold turns_for in Hl. cbn [filter] in Hl. unfold Shared.take_turn in Hq'.
        destruct (Nat.eqb_spec (t_request t) i) as [Et|Et].
        + rewrite Et, Hq in Hq'. pose proof (step_less w i q (t_bytes t) (t_node t) I Hq) as Hs.
          destruct (step (fst w) q (t_bytes t) (t_node t)) as [d' q0]. cbn [snd] in *. rewrite (nth_set _ _ _ _ _ Hq), Nat.eqb_refl in Hq'.
          injection Hq' as ->. cbn [length] in Hl. fold (turns_for i sched) in Hl. lia.
        + fold (turns_for i sched) in Hl. destruct (nth_error (snd w) (t_request t)) as [x|] eqn:Ex.
          * destruct (step (fst w) x (t_bytes t) (t_node t)) as [d' q0]. cbn [snd] in Hq'. rewrite (nth_set _ _ _ _ _ Ex) in Hq'.
            replace (t_request t =? i) with false in Hq' by (symmetry; apply Nat.eqb_neq; auto). rewrite Hq in Hq'. injection Hq' as <-. exact Hl.
          * rewrite Hq in Hq'. injection Hq' as <-. exact Hl. }
    destruct (G (start_requests d slots) (Asked s) I Hn) as (q' & Hq' & Hz).
    - cbn [start_requests snd]. rewrite nth_error_map, Hi. reflexivity.
    - exact Ht.
    - destruct (Hreq _ (run_inv slot_of ser deser chain slots Hslot _ sched I Hn)) as (q2 & H2 & Hs2). rewrite Hq' in H2. injection H2 as <-.
      destruct q' as [s0|s0 got|s0|s0 st|s0 st|s0 st n|s0 r]; cbn [left_to_do request_slot] in *; try lia. subst s0. eauto.
  Qed.
End Any.

(** ** A single process *)
Lemma fs_remove_twice d n : fs_remove (fs_remove d n) n = fs_remove d n.
Proof.
  induction d as [|[m e] d IH]; cbn [fs_remove]; auto. destruct (bytes_eqb n m) eqn:E; auto. cbn [fs_remove]. rewrite E. congruence.
Qed.
Lemma bytes_eqb_same b : bytes_eqb b b = true.
Proof. apply bytes_eqb_eq. reflexivity. Qed.
Lemma fs_write_twice d n a b : fs_write (fs_write d n a) n b = fs_write d n b.
Proof. unfold fs_write. cbn [fs_remove]. now rewrite bytes_eqb_same, fs_remove_twice. Qed.
Lemma fs_get_here d n b : fs_get (fs_write d n b) n = Some (FileEntry b).
Proof. now rewrite fs_get_write, bytes_eqb_same. Qed.
Lemma write_next d n (l : bytes) m k : m <= length l ->
  fs_write_at (fs_write d n (firstn m l)) n m (firstn k (skipn m l)) = fs_write d n (firstn (m + length (firstn k (skipn m l))) l).
Proof.
  intros Hm. unfold fs_write_at. rewrite fs_get_here, fs_write_twice. f_equal. unfold overwrite.
  rewrite firstn_firstn, Nat.min_id, (firstn_length m), Nat.min_l, Nat.sub_diag by lia.
  rewrite (skipn_all2 (firstn m l)) by (rewrite firstn_length; lia). cbn [repeat app]. rewrite app_nil_r.
  apply nth_error_ext. intros j. destruct (Nat.lt_ge_cases j m) as [L|L].
  - rewrite nth_error_app1 by (rewrite firstn_length; lia). rewrite !nth_error_firstn_lt by lia. reflexivity.
  - rewrite nth_error_app2 by (rewrite firstn_length; lia). rewrite (firstn_length m), Nat.min_l by lia.
    destruct (Nat.lt_ge_cases j (m + length (firstn k (skipn m l)))) as [L'|L'].
    + rewrite (nth_error_firstn_lt l) by lia. rewrite firstn_length in L'. rewrite nth_error_firstn_lt, nth_error_skipn by lia. f_equal. lia.
    + rewrite !(proj2 (nth_error_None _ _)); auto; rewrite ?firstn_length, ?skipn_length in *; lia.
Qed.

Section Alone.
  Context {St : Type}.
  Variable slot_of : St -> Slot.
  Variable ser : St -> bytes.
  Variable deser : bytes -> option St.
  Variables (d : directory) (s : Slot) (a : answer St).
  Notation sequential := (persistent_state_at_slot slot_of ser deser (fun w _ => (a, w)) (d, tt) s).
  Definition along (d1 : directory) (q : request St) : Prop :=
    match q with
    | Asked s' => s' = s /\ d1 = d
    | Reading s' got => s' = s /\ d1 = d /\
        ((exists c n, fs_get d (file_name s) = Some (FileEntry c) /\ got = firstn n c) \/ fs_get d (file_name s) = Some DirEntry)
    | Missing s' => s' = s /\ d1 = d /\ fs_get d (file_name s) = None
    | Fetched s' st => s' = s /\ d1 = d /\ fs_get d (file_name s) = None /\ a = Ok st
    | Creating s' st => s' = s /\ d1 = d /\ fs_get d (file_name s) = None /\ a = Ok st /\ fs_get d (file_name (slot_of st)) = None
    | Writing s' st n => s' = s /\ fs_get d (file_name s) = None /\ a = Ok st /\ fs_get d (file_name (slot_of st)) = None /\
        n <= length (ser st) /\ d1 = fs_write d (file_name (slot_of st)) (firstn n (ser st))
    | Finished s' r => s' = s /\ sequential = (r, (d1, tt))
    end.
  Lemma step_along d1 q k : k <> 0 -> along d1 q -> along (fst (step slot_of ser deser d1 q k a)) (snd (step slot_of ser deser d1 q k a)).
  Proof.
    intros Hk H. destruct k as [|k]; [congruence|]. destruct q as [s0|s0 got|s0|s0 st|s0 st|s0 st n|s0 r]; cbn [step along] in *.
    - destruct H as [-> ->]. rewrite exists_get. destruct (fs_get d (file_name s)) as [[c|]|] eqn:E; cbn [fst snd along]; auto.
      split; [auto|split; auto]. left. exists c, 0. auto.
    - destruct H as (-> & -> & [(c & n & E & ->)|E]); unfold fs_read; rewrite E.
      + destruct (firstn (S k) (skipn (length (firstn n c)) c)) as [|x l] eqn:Eb; cbn [fst snd along].
        * split; auto. assert (length (firstn (S k) (skipn (length (firstn n c)) c)) = 0) as L by now rewrite Eb.
          rewrite firstn_length, skipn_length, firstn_length in L. rewrite firstn_all2 by lia.
          unfold persistent_state_at_slot, file_state_at_slot. rewrite exists_get, E. cbn [negb]. unfold fs_read. rewrite E. cbn [bind].
          unfold ok_or. destruct (deser c); reflexivity.
        * split; [auto|split; [auto|]]. left. rewrite <- Eb.
          exists c, (length (firstn n c) + S k). split; auto.
          apply nth_error_ext. intros j. destruct (Nat.lt_ge_cases j (length (firstn n c))) as [L|L].
          -- rewrite nth_error_app1 by lia. rewrite firstn_length in L. rewrite !nth_error_firstn_lt by (rewrite ?firstn_length; lia). reflexivity.
          -- rewrite nth_error_app2 by lia. destruct (Nat.lt_ge_cases j (length (firstn n c) + S k)) as [L'|L'].
             ++ rewrite !nth_error_firstn_lt, nth_error_skipn by lia. f_equal. lia.
             ++ rewrite !(proj2 (nth_error_None _ _)); auto; rewrite ?(firstn_length (S k)), ?(firstn_length (length (firstn n c) + S k)); lia.
      + cbn [fst snd along]. split; auto. unfold persistent_state_at_slot, file_state_at_slot. rewrite exists_get, E. cbn [negb]. unfold fs_read. rewrite E. reflexivity.
    - destruct H as (-> & -> & E). destruct a as [st|e|] eqn:Ea; cbn [fst snd along]; auto;
        (split; [auto|]); unfold persistent_state_at_slot, file_state_at_slot; rewrite exists_get, E; cbn [negb]; rewrite ?Ea; reflexivity.
    - destruct H as (-> & -> & E & Ea). rewrite exists_get. destruct (fs_get d (file_name (slot_of st))) eqn:E2; cbn [fst snd along]; auto.
      split; auto. unfold persistent_state_at_slot, file_state_at_slot, save_state. rewrite exists_get, E, Ea. cbn [negb]. rewrite exists_get, E2. reflexivity.
    - destruct H as (-> & -> & E & Ea & E2). cbn [fst snd along]. repeat split; auto. lia.
    - destruct H as (-> & E & Ea & E2 & Hn & ->). destruct (skipn n (ser st)) as [|x l] eqn:Es.
      + cbn [fst snd along]. split; auto. assert (length (skipn n (ser st)) = 0) as L by now rewrite Es. rewrite skipn_length in L.
        rewrite firstn_all2 by lia. unfold persistent_state_at_slot, file_state_at_slot, save_state. rewrite exists_get, E, Ea. cbn [negb]. rewrite exists_get, E2. reflexivity.
      + rewrite <- Es. cbn [fst snd along]. repeat split; auto.
        * rewrite firstn_length, skipn_length. lia.
        * apply write_next. auto.
    - auto.
  Qed.
  (** A request that is not disturbed does what Model/HostStore.v says. *)
  Theorem C78_alone sched d' r : (forall t, In t sched -> t_bytes t <> 0 /\ t_node t = a) ->
    run_turns slot_of ser deser (start_requests d [s]) sched = (d', [Finished s r]) -> sequential = (r, (d', tt)).
  Proof.
    intros Ht H.
    assert (forall sched d1 q, (forall t, In t sched -> t_bytes t <> 0 /\ t_node t = a) -> along d1 q ->
      exists d2 q2, run_turns slot_of ser deser (d1, [q]) sched = (d2, [q2]) /\ along d2 q2) as G.
    { clear. induction sched as [|t sched IH]; intros d1 q Ht H; [exists d1, q; auto|].
      cbn [run_turns fold_left]. fold (run_turns slot_of ser deser (take_turn slot_of ser deser (d1, [q]) t) sched).
      unfold take_turn. cbn [snd fst]. destruct (t_request t) as [|i]; cbn [nth_error].
      - destruct (Ht t (or_introl eq_refl)) as [Hk Hn]. pose proof (step_along d1 q (t_bytes t) Hk H) as S. rewrite Hn.
        destruct (step slot_of ser deser d1 q (t_bytes t) a) as [d2 q2]. cbn [set_request]. apply IH; auto. intros t' Ht'. apply Ht. now right.
      - assert (nth_error (@nil (request St)) i = None) as -> by (destruct i; reflexivity). apply IH; auto. intros t' Ht'. apply Ht. now right. }
    destruct (G sched d (Asked s) Ht (conj eq_refl eq_refl)) as (d2 & q2 & H2 & A).
    change (d, [Asked s]) with (@start_requests St d [s]) in H2. rewrite H in H2. injection H2 as <- <-. apply A.
  Qed.
End Alone.

(** ** What goes wrong with two writers *)
Section Holes.
  Context {St : Type}.
  Variable slot_of : St -> Slot.
  Variable ser : St -> bytes.
  Variable deser : bytes -> option St.
  Variables (s : Slot) (st : St).
  Hypothesis Hslot : slot_of st = s.
  Notation R := (ser st).
  (** Both writers find no file; the first writes [b] bytes; the reader reads [a] of them; the second
      opens the file, which empties it; the first writes the rest, leaving a hole; the reader reads on.
      Then the second writer fills the hole. *)
  Definition holes (a b : nat) : list (turn St) :=
    let go i k := mkTurn i k (Ok st) in
    let L := length R in
    [go 0 1; go 0 1; go 0 1; go 1 1; go 1 1; go 1 1; go 0 1; go 0 b; go 2 1; go 2 a; go 1 1; go 0 L; go 0 1; go 2 L; go 2 1; go 1 L; go 1 1].
  Definition holed (a b : nat) : bytes := firstn a R ++ repeat x00 (b - a) ++ skipn b R.
  Notation take_turn := (take_turn slot_of ser deser).
  Notation step := (step slot_of ser deser).
  Lemma turn0 D q0 q1 q2 k n : take_turn (D, [q0; q1; q2]) (mkTurn 0 k n) = let (D', q) := step D q0 k n in (D', [q; q1; q2]).
  Proof. reflexivity. Qed.
  Lemma turn1 D q0 q1 q2 k n : take_turn (D, [q0; q1; q2]) (mkTurn 1 k n) = let (D', q) := step D q1 k n in (D', [q0; q; q2]).
  Proof. reflexivity. Qed.
  Lemma turn2 D q0 q1 q2 k n : take_turn (D, [q0; q1; q2]) (mkTurn 2 k n) = let (D', q) := step D q2 k n in (D', [q0; q1; q]).
  Proof. reflexivity. Qed.
  Lemma step_asked D k n : step D (Asked s) k n = (D, match fs_get D (file_name s) with Some _ => Reading s [] | None => Missing s end).
  Proof. cbn [Shared.step]. rewrite exists_get. destruct (fs_get D (file_name s)); reflexivity. Qed.
  Lemma step_missing D k : step D (Missing s) k (Ok st) = (D, Fetched s st).
  Proof. reflexivity. Qed.
  Lemma step_fetched D k n : fs_get D (file_name s) = None -> step D (Fetched s st) k n = (D, Creating s st).
  Proof. intros H. cbn [Shared.step]. rewrite Hslot, exists_get, H. reflexivity. Qed.
  Lemma step_creating D n : step D (Creating s st) 1 n = (fs_write D (file_name s) [], Writing s st 0).
  Proof. cbn [Shared.step]. now rewrite Hslot. Qed.
  Lemma step_writing D m k n : m < length R -> 0 < k -> step D (Writing s st m) k n =
    (fs_write_at D (file_name s) m (firstn k (skipn m R)), Writing s st (m + length (firstn k (skipn m R)))).
  Proof.
    intros Hm Hk. cbn [Shared.step]. rewrite Hslot. destruct k; [lia|]. destruct (skipn m R) eqn:E; [|reflexivity].
    assert (length (skipn m R) = 0) as L by now rewrite E. rewrite skipn_length in L. lia.
  Qed.
  Lemma step_written D k n : step D (Writing s st (length R)) k n = (D, Finished s (Ok st)).
  Proof. cbn [Shared.step]. rewrite skipn_all. reflexivity. Qed.
  Lemma step_reading D c got k n : fs_get D (file_name s) = Some (FileEntry c) -> length got < length c -> 0 < k ->
    step D (Reading s got) k n = (D, Reading s (got ++ firstn k (skipn (length got) c))).
  Proof.
    intros H L Hk. cbn [Shared.step]. destruct k; [lia|]. unfold fs_read. rewrite H. destruct (firstn (S k) (skipn (length got) c)) eqn:E; [|reflexivity].
    assert (length (firstn (S k) (skipn (length got) c)) = 0) as L0 by now rewrite E. rewrite firstn_length, skipn_length in L0. lia.
  Qed.
  Lemma step_eof D c got n : fs_get D (file_name s) = Some (FileEntry c) -> length got = length c ->
    step D (Reading s got) 1 n = (D, Finished s (ok_or (deser got) (POther 3))).
  Proof. intros H L. cbn [Shared.step]. unfold fs_read. rewrite H, L, skipn_all. reflexivity. Qed.

  Lemma holes_run d a b : fs_get d (file_name s) = None -> 0 < a -> a <= b -> b < length R ->
    run_turns slot_of ser deser (start_requests d [s; s; s]) (holes a b) =
    (fs_write d (file_name s) R, [Finished s (Ok st); Finished s (Ok st); Finished s (ok_or (deser (holed a b)) (POther 3))]).
  Proof.
    intros Hd Ha Hab Hb. unfold holes, run_turns, start_requests. cbn [fold_left map].
    rewrite turn0, step_asked, Hd. rewrite turn0, step_missing. rewrite turn0, step_fetched by auto.
    rewrite turn1, step_asked, Hd. rewrite turn1, step_missing. rewrite turn1, step_fetched by auto.
    rewrite turn0, step_creating. rewrite turn0, step_writing by lia.
    change (fs_write d (file_name s) []) with (fs_write d (file_name s) (firstn 0 R)). rewrite write_next by lia.
    replace (0 + length (firstn b (skipn 0 R))) with b by (cbn [skipn]; rewrite firstn_length; lia).
    rewrite turn2, step_asked, fs_get_here.
    rewrite turn2, (step_reading _ (firstn b R)) by (try apply fs_get_here; try lia; rewrite firstn_length; cbn [length]; lia).
    replace ([] ++ firstn a (skipn (length (@nil byte)) (firstn b R))) with (firstn a R)
      by (cbn [app length skipn]; rewrite firstn_firstn; f_equal; lia).
    rewrite turn1, step_creating, fs_write_twice.
    rewrite turn0, step_writing by lia. replace (firstn (length R) (skipn b R)) with (skipn b R)
      by (symmetry; apply firstn_all2; rewrite skipn_length; lia).
    replace (b + length (skipn b R)) with (length R) by (rewrite skipn_length; lia).
    assert (fs_write_at (fs_write d (file_name s) []) (file_name s) b (skipn b R) =
      fs_write d (file_name s) (repeat x00 b ++ skipn b R)) as ->.
    { unfold fs_write_at. rewrite fs_get_here, fs_write_twice. unfold overwrite. cbn [length]. rewrite firstn_nil, Nat.sub_0_r, skipn_nil, app_nil_r. reflexivity. }
    rewrite turn0, step_written.
    set (X := repeat x00 b ++ skipn b R).
    assert (length X = length R) as LX by (unfold X; rewrite app_length, repeat_length, skipn_length; lia).
    assert (length (firstn a R) = a) as La by (rewrite firstn_length; lia).
    rewrite turn2, (step_reading _ X) by (try apply fs_get_here; lia). rewrite La.
    assert (firstn a R ++ firstn (length R) (skipn a X) = holed a b) as ->.
    { unfold holed. f_equal. rewrite firstn_all2 by (rewrite skipn_length; lia). unfold X.
      replace b with (a + (b - a)) at 1 by lia. rewrite repeat_app, <- app_assoc.
      rewrite skipn_app, repeat_length, Nat.sub_diag, skipn_all2 by (rewrite repeat_length; lia). reflexivity. }
    rewrite turn2, (step_eof _ X).
    2: apply fs_get_here.
    2: { rewrite LX. unfold holed. rewrite !app_length, La, repeat_length, skipn_length. lia. }
    rewrite turn1, step_writing by lia. cbn [skipn]. rewrite firstn_all. cbn [Nat.add].
    rewrite turn1, step_written. f_equal. unfold fs_write_at. rewrite fs_get_here, fs_write_twice. f_equal.
    unfold overwrite. cbn [firstn Nat.sub repeat app Nat.add]. rewrite skipn_all2 by lia. apply app_nil_r.
  Qed.
  Lemma holes_ok a b : 0 < a -> 0 < b -> b < length R ->
    forall t, In t (holes a b) -> t_bytes t <> 0 /\ t_node t = Ok st.
  Proof. intros Ha Hb HL t Ht. unfold holes in Ht. cbn [In] in Ht. 
    repeat (destruct Ht as [<-|Ht]; [cbn [t_bytes t_node]; split; [lia|auto]|]). destruct Ht. Qed.
End Holes.


(** A process can fail only because another one wrote the file: "State file already exists". *)
Theorem C78_unaffected_refuted {St} slot_of ser deser (st : St) d : fs_get d (file_name (slot_of st)) = None ->
  let s := slot_of st in
  exists sched, (forall t, In t sched -> t_bytes t <> 0 /\ t_node t = Ok st) /\
    nth_error (snd (run_turns slot_of ser deser (start_requests d [s; s]) sched)) 1 = Some (Finished s (Err (POther 2))).
Proof.
  intros Hd s. change (slot_of st) with s in Hd. set (go i := mkTurn i 1 (Ok st) : turn St). exists (map go [0; 0; 1; 1; 0; 0; 1]). split.
  - intros t Ht. apply in_map_iff in Ht as (i & <- & _). split; [discriminate|reflexivity].
  - assert (forall D q0 q1 k, take_turn slot_of ser deser (D, [q0; q1]) (mkTurn 0 k (Ok st)) =
      let (D', q) := step slot_of ser deser D q0 k (Ok st) in (D', [q; q1])) as T0 by reflexivity.
    assert (forall D q0 q1 k, take_turn slot_of ser deser (D, [q0; q1]) (mkTurn 1 k (Ok st)) =
      let (D', q) := step slot_of ser deser D q1 k (Ok st) in (D', [q0; q])) as T1 by reflexivity.
    unfold run_turns, start_requests, go. cbn [map fold_left].
    rewrite T0, step_asked, Hd, T0, (step_missing _ _ _ s st), T1, step_asked, Hd, T1, (step_missing _ _ _ s st).
    rewrite T0, (step_fetched slot_of ser deser s st eq_refl d 1 (Ok st) Hd), T0, (step_creating slot_of ser deser s st eq_refl), T1.
    cbn [step]. fold s. rewrite exists_get, fs_get_here. reflexivity.
Qed.

(** ** Beacon states *)
Open Scope N_scope.
Lemma fields_split ts1 t ts2 : forall ps, fields_ok (ts1 ++ t :: ts2) ps = true ->
  exists l1 p l2, ps = l1 ++ p :: l2 /\ length l1 = length ts1 /\ field_ok t p = true /\ fields_ok ts2 l2 = true /\
    forall p' , field_ok t p' = true -> fields_ok (ts1 ++ t :: ts2) (l1 ++ p' :: l2) = true.
Proof.
  induction ts1 as [|t0 ts1 IH]; intros [|p ps] H; cbn [app fields_ok] in H; try discriminate; apply andb_true_iff in H as [H1 H2].
  - exists [], p, ps. repeat split; auto. intros p' Hp. cbn [app fields_ok]. now rewrite Hp, H2.
  - destruct (IH ps H2) as (l1 & q & l2 & -> & L & Hq & Hl & Hx). exists (p :: l1), q, l2. cbn [app length fields_ok]. repeat split; auto.
    intros p' Hp. now rewrite H1, Hx.
Qed.
Lemma lookup_replace name p p' l2 : forall l1 fs n t, nth_error fs (length l1) = Some (n, t) -> n <> name ->
  lookup fs (l1 ++ p' :: l2) name = lookup fs (l1 ++ p :: l2) name.
Proof.
  induction l1 as [|q l1 IH]; intros [|[m u] fs] n t H Ne; cbn [length nth_error app lookup] in *; try discriminate.
  - injection H as <- <-. destruct (String.eqb_spec m name); [contradiction|reflexivity].
  - destruct (String.eqb m name); [reflexivity|]. eapply IH; eauto.
Qed.
Lemma lookup_here n t p l2 : forall l1 f1 f2, length l1 = length f1 -> ~ In n (map fst f1) ->
  lookup (f1 ++ (n, t) :: f2) (l1 ++ p :: l2) n = Some (part_bytes p).
Proof.
  induction l1 as [|q l1 IH]; intros [|[m u] f1] f2 L Ni; cbn [length app lookup map fst In] in *; try discriminate.
  - now rewrite String.eqb_refl.
  - destruct (String.eqb_spec m n); [tauto|]. apply IH; [lia|tauto].
Qed.
Lemma contents_app a b : contents (a ++ b) = contents a ++ contents b.
Proof. induction a as [|[x|x] a IH]; cbn [app contents]; auto. now rewrite IH, app_assoc. Qed.
Lemma places_size_app a b : places_size (a ++ b) = places_size a + places_size b.
Proof. unfold places_size. induction a as [|p a IH]; cbn [app fold_right]; [reflexivity|]. rewrite IH. lia. Qed.
(** Changing the content of a variable-size field, but not its length, changes only its bytes. *)
Lemma encode_replace l1 l2 c : exists A, forall z, blen z = blen c -> encode_container (l1 ++ PVar z :: l2) = A ++ z ++ contents l2.
Proof.
  exists (places (places_size (l1 ++ PVar c :: l2)) (l1 ++ PVar c :: l2) ++ contents l1). intros z Hz. unfold encode_container.
  rewrite contents_app. cbn [contents]. rewrite <- !app_assoc. f_equal.
  rewrite !places_app, !places_size_app. cbn [places]. rewrite Hz. reflexivity.
Qed.
Lemma decode_size sh b ps : decode_container sh b = Some ps -> shape_size sh <= blen b.
Proof.
  intros H. destruct (N.lt_ge_cases (blen b) (shape_size sh)) as [L|L]; [|exact L]. unfold decode_container in H. rewrite cut_short in H by exact L. discriminate.
Qed.

(** With a second writer, a third process may be served a state whose balances are all zero, although
    the node is honest, no call fails, and the file is right in the end. *)
Theorem C78_zeroed_balances_refuted order st d c :
  state_ok st = true -> blen (encode_state st) < 2 ^ 32 -> In (bs_version st) order ->
  bs_version st <> VPhase0 -> bs_version st <> VAltair ->
  fs_get d (file_name (bs_slot st)) = None -> field st "balances" = Some c ->
  let s := bs_slot st in
  exists sched st', (forall t, In t sched -> t_bytes t <> O /\ t_node t = Ok st) /\
    run_turns bs_slot encode_state (decode_state order) (start_requests d [s; s; s]) sched =
      (fs_write d (file_name s) (encode_state st), [Finished s (Ok st); Finished s (Ok st); Finished s (Ok st')]) /\
    field st' "balances" = Some (repeat x00 (length c)) /\
    (forall name, name <> "balances"%string -> field st' name = field st name) /\ bs_version st' = bs_version st.
Proof.
  intros Hok Hl Hin V0 V1 Hd Hc s.
  assert (exists f1 f2 sh g1 g2, fields (bs_version st) = f1 ++ ("balances"%string, FList 8 1099511627776) :: f2 /\
    f2 = g1 ++ ("latest_execution_payload_header"%string, FSub sh) :: g2 /\ ~ In "balances"%string (map fst f1) /\ 0 < shape_size sh) as (f1 & f2 & sh & g1 & g2 & Ef & Eg & Nf & Hsh).
  { clear - V0 V1. generalize dependent (bs_version st). intros v V0 V1. exists (firstn 12 (fields v)), (skipn 13 (fields v)).
    exists (match nth_error (fields v) 24 with Some (_, FSub sh) => sh | _ => [] end), (firstn 11 (skipn 13 (fields v))), (skipn 12 (skipn 13 (fields v))).
    destruct v; try congruence; (split; [reflexivity|]; split; [reflexivity|]; split; [cbn; intuition discriminate|reflexivity]). }
  pose proof Hok as Hok'. unfold state_ok, field_types in Hok'. rewrite Ef, map_app in Hok'. cbn [map snd] in Hok'.
  destruct (fields_split _ _ _ _ Hok') as (l1 & p & l2 & Ep & L1 & Hp & Hl2 & Hrep). rewrite map_length in L1.
  destruct p as [x|x]; [discriminate|].
  assert (x = c) as ->.
  { unfold field in Hc. rewrite Ef, Ep, (lookup_here _ _ _ _ _ _ _ L1 Nf) in Hc. now injection Hc as ->. }
  assert (contents l2 <> []) as Hne.
  { rewrite Eg, map_app in Hl2. cbn [map snd] in Hl2. destruct (fields_split _ _ _ _ Hl2) as (m1 & q & m2 & -> & _ & Hq & _).
    destruct q as [y|y]; [discriminate|]. cbn [field_ok] in Hq. destruct (decode_container sh y) eqn:Ed; [|discriminate].
    apply decode_size in Ed. rewrite contents_app. cbn [contents]. intros E. apply app_eq_nil in E as [_ E]. apply app_eq_nil in E as [-> _].
    unfold blen in Ed. cbn [length] in Ed. lia. }
  destruct (encode_replace l1 l2 c) as [A HA]. set (z := repeat x00 (length c)).
  assert (blen z = blen c) as Hz by (unfold z, blen; now rewrite repeat_length).
  set (st' := mkBState (bs_version st) (l1 ++ PVar z :: l2)).
  assert (encode_state st = A ++ c ++ contents l2) as E1 by (unfold encode_state; rewrite Ep; apply HA; reflexivity).
  assert (encode_state st' = A ++ z ++ contents l2) as E2 by (apply HA; exact Hz).
  assert (state_ok st' = true) as Hok2.
  { unfold state_ok, field_types. cbn [bs_version bs_fields st']. rewrite Ef, map_app. cbn [map snd]. apply Hrep. cbn [field_ok] in *. rewrite Hz. exact Hp. }
  assert (length A <> O) as LA.
  { intros H0. pose proof (C61_size st Hok) as Hs. rewrite E1 in Hs. destruct A; [|discriminate]. rewrite Ep, contents_app in Hs. cbn [contents app] in Hs.
    rewrite !blen_app in Hs. assert (0 < fixed_size (bs_version st)) by (destruct (bs_version st); reflexivity). lia. }
  assert (length (contents l2) <> O) as LB by (destruct (contents l2); [congruence|discriminate]).
  assert (length (encode_state st) = (length A + length c + length (contents l2))%nat) as LE by (rewrite E1, !app_length; lia).
  exists (holes encode_state st (length A) (length A + length c)), st'.
  split; [|split; [|split; [|split]]].
  - apply (holes_ok bs_slot encode_state s st eq_refl); lia.
  - rewrite (holes_run bs_slot encode_state (decode_state order) s st eq_refl) by (auto; lia). do 5 f_equal.
    assert (holed encode_state st (length A) (length A + length c) = encode_state st') as ->.
    { unfold holed. rewrite E1, E2, firstn_app, Nat.sub_diag, firstn_all, app_nil_r. f_equal.
      replace (length A + length c - length A)%nat with (length c) by lia. fold z. f_equal.
      rewrite app_assoc, skipn_app, skipn_all2 by (rewrite app_length; lia). rewrite app_length, Nat.sub_diag. reflexivity. }
    rewrite (C61_round_trip order st'); auto. rewrite E2. rewrite E1 in Hl. rewrite !blen_app in *. lia.
  - unfold field. cbn [bs_version bs_fields st']. rewrite Ef. now rewrite (lookup_here _ _ _ _ _ _ _ L1 Nf).
  - intros name Ne. unfold field. cbn [bs_version bs_fields st']. rewrite Ep, Ef.
    apply (lookup_replace name _ _ _ _ _ "balances"%string (FList 8 1099511627776)); auto.
    rewrite L1, nth_error_app2, Nat.sub_diag by lia. reflexivity.
  - reflexivity.
Qed.

(** If two requests never write the file at the same time, what a request returns has every field of
    the state except possibly the last list (as after a crash, C49). *)
Theorem C78_one_writer_states order (chain : Slot -> BState) d slots sched s i st :
  (forall s, In s slots -> bs_slot (chain s) = s /\ state_ok (chain s) = true /\ blen (encode_state (chain s)) < 2 ^ 32 /\ In (bs_version (chain s)) order) ->
  (forall s, undamaged encode_state chain d s) -> honest_node chain slots sched ->
  (forall sched1 sched2, sched = sched1 ++ sched2 ->
     one_writer encode_state s (snd (run_turns bs_slot encode_state (decode_state order) (start_requests d slots) sched1))) ->
  nth_error (snd (run_turns bs_slot encode_state (decode_state order) (start_requests d slots) sched)) i = Some (Finished s (Ok st)) ->
  bs_version st = bs_version (chain s) /\
  forall name, name <> last_list (bs_version (chain s)) -> field st name = field (chain s) name.
Proof.
  intros Hc Hd Hn Ho Hi.
  assert (In s slots) as Hs.
  { apply (inv_slot encode_state (decode_state order) chain slots _ i _ (run_inv bs_slot encode_state (decode_state order) chain slots (fun s H => proj1 (Hc s H)) _ sched (start_inv _ _ _ d slots Hd) Hn) Hi). }
  destruct (Hc s Hs) as (Hb & Hok & Hl & Hv).
  assert (forall s, In s slots -> decode_state order (encode_state (chain s)) = Some (chain s)) as Hser
    by (intros x Hx; destruct (Hc x Hx) as (_ & ? & ? & ?); apply C61_round_trip; auto).
  destruct (C78_one_writer bs_slot encode_state (decode_state order) chain slots (fun s H => proj1 (Hc s H)) Hser d sched s Hd Hn Ho) as [_ Ha].
  destruct (Ha i st Hi) as [->|[n Hdec]]; [auto|].
  destruct (C49_torn_state order (chain s) n [] Hok Hl eq_refl) as [[[x Hx]|(st' & H1 & H2 & H3 & H4)] _].
  - exfalso. revert Hx. unfold file_state_at_slot, save_interrupted. rewrite !exists_get. cbn [fs_get rm_get]. rewrite fs_get_here. cbn [negb].
    unfold fs_read. rewrite fs_get_here. cbn [bind]. rewrite Hdec. discriminate.
  - revert H1. unfold file_state_at_slot, save_interrupted. rewrite !exists_get. cbn [fs_get rm_get]. rewrite fs_get_here. cbn [negb].
    unfold fs_read. rewrite fs_get_here. cbn [bind]. rewrite Hdec. cbn [ok_or]. intros H1. injection H1 as <-. auto.
Qed.

(** *** Concrete cases *)
(** States are slots; a file has three bytes, and its first two can be read as another state. *)
Definition s_ser (s : N) : bytes := [byte_of_N s; xff; x01].
Definition s_deser (b : bytes) : option N :=
  match b with [x; xff; x01] => Some (Byte.to_N x) | [x; xff] => Some 99 | _ => None end.
Definition s_go (i k : nat) : turn N := mkTurn i k (Ok 7).
(** Two writers at the same time, the second in two pieces; then a third request. *)
Definition s_race : list (turn N) :=
  map (fun i => s_go i 1) [0; 0; 0; 1; 1; 1; 0; 0; 1]%nat ++ [s_go 0 5; s_go 1 2; s_go 0 1; s_go 1 1; s_go 1 1].
Definition s_read : list (turn N) := [s_go 2 1; s_go 2 2; s_go 2 2; s_go 2 2].
Example C78_nonvacuous :
  (forall s, In s [7; 7; 7] -> (fun s : N => s) s = s) /\ (forall s, In s [7; 7; 7] -> s_deser (s_ser s) = Some s) /\
  (forall s, undamaged s_ser (fun s => s) [] s) /\ honest_node (fun s => s) [7; 7; 7] (s_race ++ s_read) /\
  let w1 := run_turns (fun s => s) s_ser s_deser (start_requests [] [7; 7; 7]) s_race in
  quiet s_ser 7 (snd w1) /\ fs_exists (fst w1) (file_name 7) = true /\ nth_error (snd w1) 2 = Some (Asked 7) /\
  no_io_error 2 s_read /\
  run_turns (fun s => s) s_ser s_deser w1 s_read =
    (fs_write [] (file_name 7) [x07; xff; x01], [Finished 7 (Ok 7); Finished 7 (Ok 7); Finished 7 (Ok 7)]).
Proof.
  split; [auto|]. split; [intros s [<-|[<-|[<-|[]]]]; reflexivity|]. split; [left; reflexivity|]. split.
  { intros t s st Ht Hs Hn. assert (st = 7) as ->.
    { revert Hn. assert (Forall (fun t => t_node t = Ok 7) (s_race ++ s_read)) as F by (repeat constructor).
      rewrite Forall_forall in F. rewrite (F t Ht). congruence. }
    assert (In s [7; 7; 7]) as I by (eapply nth_error_In; eauto). destruct I as [<-|[<-|[<-|[]]]]; reflexivity. }
  cbn zeta. split; [|split; [vm_compute; reflexivity|split; [vm_compute; reflexivity|split; [|vm_compute; reflexivity]]]].
  - replace (snd (run_turns (fun s => s) s_ser s_deser (start_requests [] [7; 7; 7]) s_race)) with [Finished 7 (Ok 7); Finished 7 (Ok 7); @Asked N 7] by (vm_compute; reflexivity).
    intros q [<-|[<-|[<-|[]]]]; (split; [intros []|unfold write_failed; discriminate]).
  - intros t [<-|[<-|[<-|[<-|[]]]]] _; discriminate.
Qed.
(** While the first writer is half-way, a reader takes its two bytes for another state. *)
Definition s_torn : list (turn N) := [s_go 0 1; s_go 0 1; s_go 0 1; s_go 0 1; s_go 0 2; s_go 1 1; s_go 1 4; s_go 1 4; s_go 0 1; s_go 0 1].
Example C78_one_writer_nonvacuous :
  (forall sched1 sched2, s_torn = sched1 ++ sched2 ->
     one_writer s_ser 7 (snd (run_turns (fun s => s) s_ser s_deser (start_requests [] [7; 7]) sched1))) /\
  run_turns (fun s => s) s_ser s_deser (start_requests [] [7; 7]) s_torn =
    (fs_write [] (file_name 7) (s_ser 7), [Finished 7 (Ok 7); Finished 7 (Ok 99)]).
Proof.
  split; [|vm_compute; reflexivity]. intros s1 s2 E.
  assert (exists n, (n <= 10)%nat /\ s1 = firstn n s_torn) as (n & Hn & ->).
  { exists (length s1). split; [|rewrite E, firstn_app, Nat.sub_diag, firstn_all; cbn [firstn]; now rewrite app_nil_r].
    apply (f_equal (@length _)) in E. rewrite app_length in E. cbn in E. lia. }
  assert (forall q q' : request N, ~ writer s_ser 7 q' -> one_writer s_ser 7 [q; q']) as G.
  { intros q q' W i j x y Hx Hy Wx Wy. destruct i as [|[|i]], j as [|[|j]]; cbn in Hx, Hy; auto; try congruence; try (destruct i; discriminate); try (destruct j; discriminate). }
  do 11 (destruct n as [|n]; [match goal with |- one_writer _ _ ?l => let l' := eval vm_compute in l in change l with l' end; apply G; cbn; tauto|]). lia.
Qed.
(** A state with a balance that is not zero. *)
Definition rich_field (c : bytes) (k : N) (f : string * fty) : part :=
  if String.eqb (fst f) "balances" then PVar c else zero_field k f.
Lemma rich_ok c k fs : k <= 262144 -> blen c = 8 ->
  Forall (fun f => (snd f = FList 16 262144 \/ fst f <> "pending_consolidations"%string) /\
            match snd f with FSub sh => shape_size sh < 2 ^ 32 | FList e _ => e <> 0 | _ => True end /\
            (fst f = "balances"%string -> snd f = FList 8 1099511627776)) fs ->
  fields_ok (map snd fs) (map (rich_field c k) fs) = true.
Proof.
  intros Hk Hc H. induction H as [|[n t] fs (H1 & H2 & H3) H IH]; cbn [map fields_ok]; auto.
  apply andb_true_iff. split; auto. unfold rich_field. cbn [fst snd] in *. destruct (String.eqb_spec n "balances") as [->|Ne].
  - rewrite (H3 eq_refl). cbn [field_ok]. rewrite Hc. reflexivity.
  - apply zero_field_ok; auto.
Qed.
Lemma rich_state c : blen c = 8 -> exists st, state_ok st = true /\ blen (encode_state st) < 2 ^ 32 /\
  bs_version st = VElectra /\ field st "balances" = Some c.
Proof.
  intros Hc. assert (exists k, k <= 262144 /\ k = 0) as (k & Hk & _) by (exists 0; lia).
  exists (mkBState VElectra (map (rich_field c k) (fields VElectra))).
  assert (state_ok (mkBState VElectra (map (rich_field c k) (fields VElectra))) = true) as Hok.
  { unfold state_ok, field_types. cbn [bs_version bs_fields]. apply rich_ok; auto.
    repeat (apply Forall_cons; [split; [first [left; reflexivity | right; discriminate] | split; [try reflexivity; try exact I; discriminate|first [reflexivity|discriminate]]]|]); apply Forall_nil. }
  split; [exact Hok|]. split; [|split; reflexivity].
  rewrite (C61_size _ Hok). cbn [bs_version bs_fields fixed_size].
  assert (contents (map (rich_field c k) (fields VElectra)) = c ++ encode_container (map zero_part deneb_header) ++ zeros (16 * k) ++ []) as -> by reflexivity.
  rewrite !blen_app, zero_header_size, blen_zeros by reflexivity. change (shape_size deneb_header) with 584. unfold blen in *. cbn [length]. lia.
Qed.
Example C78_zeroed_nonvacuous : exists st c, state_ok st = true /\ blen (encode_state st) < 2 ^ 32 /\
  bs_version st = VElectra /\ field st "balances" = Some c /\ c <> repeat x00 (length c).
Proof.
  destruct (rich_state [x05; x00; x00; x00; x00; x00; x00; x00] eq_refl) as (st & H1 & H2 & H3 & H4).
  eexists st, _. split; [exact H1|]. split; [exact H2|]. split; [exact H3|]. split; [exact H4|discriminate].
Qed.

Print Assumptions C78_bytes.
Print Assumptions C78_quiet.
Print Assumptions C78_answers.
Print Assumptions C78_settled.
Print Assumptions C78_one_writer.
Print Assumptions C78_finishes.
Print Assumptions C78_alone.
Print Assumptions C78_unaffected_refuted.
Print Assumptions C78_zeroed_balances_refuted.
Print Assumptions C78_one_writer_states.
