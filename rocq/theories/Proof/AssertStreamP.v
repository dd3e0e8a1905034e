From Coq Require Import List Arith ZArith NArith Bool Lia.
From Verif.Model Require Import Base Types ConsensusState Committee Verify AssertReader AssertStream.
From Verif.Spec Require Import VerifySpec.
From Verif.Proof Require Import BaseLemmas ConsensusStateP VerifyP ReplayP AssertReaderP.
Import ListNotations.
Open Scope N_scope.

(** ** Consuming uses up elements *)
Lemma consume_length X R av c l s : forall acc p s', consume_group X R av c l s acc = Ok (p, s') -> (length s' <= length s)%nat.
Proof.
  induction s as [|[a|] s IH]; intros acc p s' H; cbn [consume_group] in H.
  - injection H as <- <-. simpl. lia.
  - destruct (link_eqb (att_link a) l).
    + apply bind_ok in H as (i & _ & H). apply IH in H. simpl. lia.
    + injection H as <- <-. lia.
  - discriminate.
Qed.
Lemma stream_link_length X cfg R tr st a s st' s' : stream_link X cfg R tr st (att_link a) (Some a :: s) = Ok (st', s') ->
  (length s' <= length s)%nat.
Proof.
  unfold stream_link. intros H. repeat (apply bind_ok in H as (? & ? & H)).
  match goal with H0 : consume_group _ _ _ _ _ _ _ = Ok _ |- _ => rename H0 into E end.
  match type of E with _ = Ok ?x => destruct x as [p q] end.
  injection H as <- <-. cbn [snd]. cbn [consume_group] in E. rewrite (proj2 (link_eqb_eq _ _) eq_refl) in E.
  apply bind_ok in E as (i & _ & E). eapply consume_length; eauto.
Qed.
Lemma stream_fuel X cfg R tr : forall f f' s st, (length s < f)%nat -> (length s < f')%nat ->
  stream_links X cfg R tr f s st = stream_links X cfg R tr f' s st.
Proof.
  induction f as [|f IH]; intros [|f'] s st H H'; try lia. cbn [stream_links]. destruct s as [|[a|] s]; auto.
  destruct (stream_link X cfg R tr st (att_link a) (Some a :: s)) as [[st' s']|e|] eqn:E; cbn [bind]; auto.
  apply stream_link_length in E. cbn [fst snd]. simpl in H, H'. apply IH; lia.
Qed.

(** ** Against the loop over groups *)
Lemma consume_groups X R av c l g : (forall a, In a g -> att_link a = l) -> forall rest,
  (match rest with [] => True | b :: _ => att_link b <> l end) -> forall acc,
  consume_group X R av c l (map Some (g ++ rest)) acc =
  bind (fold_outcome (fun acc a => idxs <- process_attestation X R av c a ;; Ok (bs_extend acc idxs)) g acc)
       (fun p => Ok (p, map Some rest)).
Proof.
  induction g as [|a g IH]; intros Hg rest Hr acc.
  - cbn [fold_outcome bind app]. destruct rest as [|b rest]; cbn [map consume_group]; auto.
    destruct (link_eqb (att_link b) l) eqn:E; auto. apply link_eqb_eq in E. contradiction.
  - cbn [app map consume_group fold_outcome]. rewrite (proj2 (link_eqb_eq _ _) (Hg a (or_introl eq_refl))).
    destruct (process_attestation X R av c a) as [i|e|]; cbn [bind]; auto. apply IH; auto.
    intros b Hb. apply Hg. now right.
Qed.
Lemma stream_link_group X cfg R tr st l g rest : (forall a, In a g -> att_link a = l) ->
  (match rest with [] => True | b :: _ => att_link b <> l end) ->
  stream_link X cfg R tr st l (map Some (g ++ rest)) =
  bind (process_link X cfg R tr st (l, g)) (fun st' => Ok (st', map Some rest)).
Proof.
  intros Hg Hr. unfold stream_link, process_link.
  destruct (ensure _ _) as [?|?|]; cbn [bind]; auto. destruct (validate_link _ _ _ _) as [?|?|]; cbn [bind]; auto.
  destruct (map_err _ (rd_active_validators _ _)) as [avl|?|]; cbn [bind]; auto.
  destruct (compute_committees _ _ _ _) as [c|?|]; cbn [bind]; auto.
  rewrite consume_groups; auto. fold (process_group X R (bm_of_list avl) c g).
  destruct (process_group _ _ _ _ _) as [p|?|]; cbn [bind fst snd]; auto.
  destruct (check_threshold _ _ _ _) as [?|?|]; cbn [bind]; auto.
  destruct (map_err _ (state_transition _ _)) as [st'|?|]; cbn [bind]; auto.
  destruct (assert_ _) as [?|?|]; cbn [bind]; auto.
Qed.
Lemma stream_links_groups X cfg R tr gs : forall atts f st, groups atts gs -> (length atts < f)%nat ->
  stream_links X cfg R tr f (map Some atts) st = fold_outcome (process_link X cfg R tr) gs st.
Proof.
  induction gs as [|[l g] gs IH]; intros atts f st (H1 & H2 & H3) Hf.
  - cbn in H1. subst atts. destruct f; [simpl in Hf; lia|]. reflexivity.
  - inversion H2 as [|? ? [Hn Hk] H4]; subst. cbn [map concat snd fst] in *.
    destruct g as [|a g]; [contradiction|]. destruct f as [|f]; [simpl in Hf; lia|].
    assert (Hl : att_link a = l) by (apply Hk; now left).
    cbn [app map stream_links]. rewrite Hl. change (Some a :: map Some (g ++ concat (map snd gs))) with (map Some ((a :: g) ++ concat (map snd gs))).
    rewrite stream_link_group; auto.
    2:{ destruct gs as [|[l' [|b g']] gs]; cbn; auto; inversion H4 as [|? ? [Hn' Hk'] _]; subst; [contradiction|].
        cbn in *. rewrite att_link_of. rewrite (Hk' b (or_introl eq_refl)). intros ->. destruct H3 as [[] _]. reflexivity. }
    cbn [fold_outcome]. destruct (process_link X cfg R tr st (l, a :: g)) as [st'|e|]; cbn [bind fst snd]; auto.
    apply IH.
    + repeat split; auto. destruct gs; cbn in *; tauto.
    + cbn in Hf. rewrite app_length in Hf. lia.
Qed.

(** ** Iterators that stop early *)
Inductive cut : att_stream -> list Attestation -> Prop :=
| cut_nil : cut [] []
| cut_cons a s l : cut s l -> cut (Some a :: s) (a :: l)
| cut_stop r l : cut (None :: r) l.
Lemma compared_cut la : forall lb, cut (compared la lb) la.
Proof. induction la as [|a la IH]; intros [|b lb]; cbn [compared]; try constructor. destruct (attestation_eqb a b); constructor; auto. Qed.
Lemma compared_same la : compared la la = map Some la.
Proof. induction la as [|a la IH]; cbn [compared map]; auto. now rewrite (proj2 (attestation_eqb_eq a a) eq_refl), IH. Qed.
Lemma compared_all la : forall lb l, compared la lb = map Some l -> la = lb.
Proof.
  induction la as [|a la IH]; intros [|b lb] [|x l]; cbn [compared map]; try discriminate; auto.
  - destruct (attestation_eqb a b); discriminate.
  - destruct (attestation_eqb a b) eqn:E; [|discriminate]. apply attestation_eqb_eq in E. subst b. intros H. injection H as _ H. f_equal. eauto.
Qed.
Lemma consume_cut X R av c k s : forall l acc, cut s l ->
  match consume_group X R av c k s acc with
  | Ok (p, s') => exists l', cut s' l' /\ consume_group X R av c k (map Some l) acc = Ok (p, map Some l') /\
                             (s' = map Some l' -> s = map Some l)
  | Err e => consume_group X R av c k (map Some l) acc = Err e
  | Panic => True
  end.
Proof.
  induction s as [|x s IH]; intros l acc H; inversion H as [|a s0 l0 Hc|]; subst; cbn [consume_group map]; auto.
  - exists []. repeat split. constructor.
  - destruct (link_eqb (att_link a) k) eqn:E.
    + destruct (process_attestation X R av c a) as [i|e|]; cbn [bind]; auto.
      specialize (IH l0 (bs_extend acc i) Hc). destruct (consume_group X R av c k s (bs_extend acc i)) as [[p s']|e|]; auto.
      destruct IH as (l' & H1 & H2 & H3). exists l'. repeat split; auto. intros Hs. f_equal. auto.
    + exists (a :: l0). repeat split; auto.
Qed.
Lemma stream_links_cut X cfg R tr : forall f s l st, cut s l -> (length s < f)%nat -> (length l < f)%nat ->
  match stream_links X cfg R tr f s st with
  | Ok st' => stream_links X cfg R tr f (map Some l) st = Ok st' /\ s = map Some l
  | Err e => stream_links X cfg R tr f (map Some l) st = Err e
  | Panic => True
  end.
Proof.
  induction f as [|f IH]; intros s l st H Hs Hl; [lia|].
  inversion H as [|a s0 l0 Hc|]; subst; cbn [stream_links map]; auto.
  destruct (stream_link X cfg R tr st (att_link a) (Some a :: s0)) as [[st' s']|e|] eqn:E; cbn [bind fst snd]; auto.
  - pose proof (stream_link_length _ _ _ _ _ _ _ _ _ E) as Ls. unfold stream_link in E |- *.
    revert E.
    destruct (ensure _ _) as [?|?|]; cbn [bind]; try discriminate. destruct (validate_link _ _ _ _) as [?|?|]; cbn [bind]; try discriminate.
    destruct (map_err _ (rd_active_validators _ _)) as [avl|?|]; cbn [bind]; try discriminate.
    destruct (compute_committees _ _ _ _) as [c|?|]; cbn [bind]; try discriminate.
    pose proof (consume_cut X R (bm_of_list avl) c (att_link a) _ _ [] H) as C.
    destruct (consume_group X R (bm_of_list avl) c (att_link a) (Some a :: s0) []) as [[p q]|?|] eqn:Eq; cbn [bind]; try discriminate.
    destruct C as (l' & C1 & C2 & C3).
    change (Some a :: map Some l0) with (map Some (a :: l0)). rewrite C2. cbn [bind fst snd].
    destruct (check_threshold _ _ _ _) as [?|?|]; cbn [bind]; try discriminate.
    destruct (map_err _ (state_transition _ _)) as [st2|?|]; cbn [bind]; try discriminate.
    destruct (assert_ _) as [?|?|]; cbn [bind]; try discriminate. intros Q. injection Q as -> ->. cbn [fst snd].
    assert (Ll : (length l' <= length l0)%nat).
    { cbn [map consume_group] in C2. rewrite (proj2 (link_eqb_eq _ _) eq_refl) in C2. apply bind_ok in C2 as (i & _ & C2).
      apply consume_length in C2. now rewrite !map_length in C2. }
    simpl in Hs, Hl. specialize (IH s' l' st' C1 ltac:(lia) ltac:(lia)).
    destruct (stream_links X cfg R tr f s' st') as [st3|e|]; auto. destruct IH as [I1 I2]. split; auto.
  - assert (stream_link X cfg R tr st (att_link a) (Some a :: map Some l0) = Err e) as ->; auto.
    unfold stream_link in E |- *. revert E.
    destruct (ensure _ _) as [?|?|]; cbn [bind]; auto. destruct (validate_link _ _ _ _) as [?|?|]; cbn [bind]; auto.
    destruct (map_err _ (rd_active_validators _ _)) as [avl|?|]; cbn [bind]; auto.
    destruct (compute_committees _ _ _ _) as [c|?|]; cbn [bind]; auto.
    pose proof (consume_cut X R (bm_of_list avl) c (att_link a) _ _ [] H) as C.
    change (Some a :: map Some l0) with (map Some (a :: l0)).
    destruct (consume_group X R (bm_of_list avl) c (att_link a) (Some a :: s0) []) as [[p q]|?|] eqn:Eq; cbn [bind].
    + destruct C as (l' & C1 & C2 & C3). rewrite C2. cbn [bind fst snd].
      destruct (check_threshold _ _ _ _) as [?|?|]; cbn [bind]; auto.
      destruct (map_err _ (state_transition _ _)) as [st2|?|]; cbn [bind]; auto.
      destruct (assert_ _) as [?|?|]; cbn [bind]; auto. discriminate.
    + rewrite C. auto.
    + discriminate.
Qed.

(** ** [verify] *)
Lemma verify_stream_plain X cfg R atts : rd_attestations R = Ok atts -> verify_stream X cfg R (Ok (map Some atts)) = verify X cfg R.
Proof.
  intros H. unfold verify_stream, verify. rewrite H. cbn [unwrap bind].
  destruct (unwrap (rd_consensus_state R)) as [st0|?|]; cbn [bind]; auto.
  rewrite (stream_links_groups X cfg R (finalized st0) (chunk_by_link atts)); auto; [apply chunk_groups|]. rewrite map_length. lia.
Qed.
(** Only the attestations differ: what [verify_stream] reads of the reader. *)
Definition with_attestations (B : Reader) (a : outcome ReaderError (list Attestation)) : Reader :=
  mkReader (rd_chain_spec B) (rd_genesis_validators_root B) (rd_fork B) (rd_active_validators B) (rd_randao_mix B) a
           (rd_consensus_state B) (rd_slot_for_block B).
Lemma att_eqb_refl_list l : list_eqb attestation_eqb l l = true.
Proof. now apply (list_eqb_eq _ attestation_eqb_eq). Qed.
Lemma process_link_atts X cfg R a tr st g : process_link X cfg (with_attestations R a) tr st g = process_link X cfg R tr st g.
Proof. reflexivity. Qed.
Lemma verify_stream_atts X cfg A B a s :
  verify_stream X cfg (assert_reader A (with_attestations B a)) s = verify_stream X cfg (assert_reader A B) s.
Proof.
  unfold verify_stream. cbn [assert_reader with_attestations rd_consensus_state rd_slot_for_block].
  destruct (unwrap (both cs_eqb (rd_consensus_state A) (rd_consensus_state B))) as [st0|?|]; cbn [bind]; auto.
  destruct (unwrap s) as [s0|?|]; cbn [bind]; auto.
  assert (forall f s st, stream_links X cfg (assert_reader A (with_attestations B a)) (finalized st0) f s st
          = stream_links X cfg (assert_reader A B) (finalized st0) f s st) as ->; [|reflexivity].
  assert (C : forall av c l s acc, consume_group X (assert_reader A (with_attestations B a)) av c l s acc
          = consume_group X (assert_reader A B) av c l s acc).
  { intros av c l s1. induction s1 as [|[x|] s1 IH]; intros acc; cbn [consume_group]; auto.
    destruct (link_eqb (att_link x) l); auto.
    change (process_attestation X (assert_reader A (with_attestations B a)) av c x) with (process_attestation X (assert_reader A B) av c x).
    destruct (process_attestation X (assert_reader A B) av c x); cbn [bind]; auto. }
  induction f as [|f IH]; intros s1 st; cbn [stream_links]; auto. destruct s1 as [|[x|] s1]; auto.
  assert (stream_link X cfg (assert_reader A (with_attestations B a)) (finalized st0) st (att_link x) (Some x :: s1)
          = stream_link X cfg (assert_reader A B) (finalized st0) st (att_link x) (Some x :: s1)) as ->.
  { unfold stream_link. cbn [assert_reader with_attestations rd_chain_spec rd_active_validators].
    destruct (ensure _ _) as [?|?|]; cbn [bind]; auto. destruct (validate_link _ _ _ _) as [?|?|]; cbn [bind]; auto.
    destruct (map_err _ (both _ _ _)) as [avl|?|]; cbn [bind]; auto.
    change (compute_committees X (assert_reader A (with_attestations B a)) (bm_of_list avl) (epoch (target (att_link x))))
      with (compute_committees X (assert_reader A B) (bm_of_list avl) (epoch (target (att_link x)))).
    destruct (compute_committees X (assert_reader A B) (bm_of_list avl) (epoch (target (att_link x)))) as [c|?|]; cbn [bind]; auto.
    fold (assert_reader A (with_attestations B a)). fold (assert_reader A B). now rewrite C. }
  destruct (stream_link X cfg (assert_reader A B) (finalized st0) st (att_link x) (Some x :: s1)) as [[? ?]|?|]; cbn [bind fst snd]; auto.
Qed.
