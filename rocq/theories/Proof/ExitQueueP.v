(** Patches of an honest exit queue are accepted. *)
From Coq Require Import List Arith ZArith NArith Bool Lia Sorted Permutation.
From Coq Require Import ZifyBool ZifyNat ZifyN.
From Verif.Model Require Import Base Types ConsensusState Multiproof Verify GuestReader.
From Verif.Spec Require Import Beacon GuestSpec Registry ExitQueue VerifySpec.
From Verif.Proof Require Import BaseLemmas VerifyP PatchP.
Import ListNotations.
Open Scope N_scope.
Notation length := List.length.

Section Accept.
  Variables (cs : ChainSpec) (patches : bmap StatePatch) (reg : bmap ValidatorInfo) (churn : N).

  (** An exit is known, and unchanged or late enough. *)
  Definition exit_fine (pe er : Epoch) (x : N * Epoch) : Prop :=
    exists v, bm_get reg (fst x) = Some v /\
      (previous_exit patches v (fst x) pe = snd x \/
       (previous_exit patches v (fst x) pe = far_future_epoch cs /\ er <= snd x)).

  Lemma new1_later pe h i ex l : StronglySorted (fun x y => snd x <= snd y) ((i, ex) :: l) -> h < ex ->
    flat_map (new1 patches reg h pe) l = [].
  Proof.
    intros S Hh. inversion S as [|? ? _ F]; subst. cbn [snd] in F. clear S. induction l as [|[j y] l IH]; [reflexivity|].
    cbn [flat_map]. inversion F as [|? ? F1 F2]; subst. cbn [snd] in F1. rewrite (IH F2). unfold new1. cbn [fst snd].
    destruct (bm_get reg j); [|reflexivity]. rewrite (proj2 (N.leb_gt y h)) by lia. now rewrite andb_false_r.
  Qed.
  Lemma exits_accept pe : forall l b er, StronglySorted (fun x y => snd x <= snd y) l ->
    Forall (exit_fine pe er) l ->
    (forall h, bal_of (flat_map (new1 patches reg h pe) l) <= b + churn * (h - er)) ->
    (forall x, In x l -> b + churn * (snd x - er) < two64) ->
    exists b' er', fold_outcome (validate_exit cs patches reg churn pe) l (b, er) = Ok (b', er') /\
      (er' = er \/ exists x v, In x l /\ er' = snd x /\ bm_get reg (fst x) = Some v /\ previous_exit patches v (fst x) pe <> snd x).
  Proof.
    induction l as [|[i ex] l IH]; intros b er S F B O; [exists b, er; split; [reflexivity|now left]|].
    pose proof S as S0. inversion S as [|? ? S' _]; subst. inversion F as [|? ? (v & Hv & D) F']; subst. cbn [fst snd] in *.
    cbn [fold_outcome]. unfold validate_exit at 1. rewrite Hv. cbn [expect bind]. change (sat_sub pe 1) with (pe - 1).
    change (match bm_get patches (pe - 1) with
            | Some p => match bm_get (validator_exits p) i with Some x => x | None => exit_epoch v end
            | None => exit_epoch v end) with (previous_exit patches v i pe).
    destruct (N.eqb_spec (previous_exit patches v i pe) ex) as [E|E].
    - cbn [bind]. destruct (IH b er S' F') as (b' & er' & R1 & R2).
      + intros h. specialize (B h). cbn [flat_map] in B. unfold new1 at 1 in B. cbn [fst snd] in B. rewrite Hv in B.
        rewrite (proj2 (N.eqb_eq _ _) E) in B. exact B.
      + intros x Hx. apply O. now right.
      + exists b', er'. split; [exact R1|]. destruct R2 as [->|(x & w & H1 & H2)]; [now left|]. right. exists x, w. split; [now right|exact H2].
    - destruct D as [D|[D1 D2]]; [contradiction|]. rewrite (proj2 (N.eqb_eq _ _) D1), (proj2 (N.leb_le _ _) D2). cbn [assert_ bind].
      assert (Ho := O _ (or_introl eq_refl)). cbn [snd] in Ho.
      assert (W : wrap64 (b + wrap64 (sat_sub ex er * churn)) = b + churn * (ex - er)).
      { unfold wrap64, sat_sub. rewrite (N.mul_comm (ex - er)). rewrite (N.mod_small (churn * (ex - er))) by lia. apply N.mod_small. lia. }
      rewrite W.
      assert (NB : forall h, bal_of (flat_map (new1 patches reg h pe) ((i, ex) :: l)) =
                    (if ex <=? h then effective_balance v else 0) + bal_of (flat_map (new1 patches reg h pe) l)).
      { intros h. cbn [flat_map]. rewrite bal_app. f_equal. unfold new1. cbn [fst snd]. rewrite Hv.
        rewrite (proj2 (N.eqb_neq _ _) E). cbn [negb andb]. destruct (ex <=? h); unfold bal_of; cbn [map sum fst]; lia. }
      pose proof (B ex) as Bx. rewrite NB, N.leb_refl in Bx. rewrite (proj2 (N.leb_le _ _)) by lia. cbn [assert_ bind].
      destruct (IH (b + churn * (ex - er) - effective_balance v) ex S') as (b' & er' & R1 & R2).
      + rewrite Forall_forall in F' |- *. intros x Hx. destruct (F' x Hx) as (w & Hw & Dw). exists w. split; [exact Hw|].
        destruct Dw as [Dw|[Dw1 Dw2]]; [now left|]. right. split; [exact Dw1|].
        inversion S0 as [|? ? _ SF]; subst. rewrite Forall_forall in SF. specialize (SF x Hx). cbn [snd] in SF. exact SF.
      + intros h. destruct (N.ltb_spec h ex) as [L|L].
        * rewrite (new1_later pe h i ex l S0 L). unfold bal_of. cbn [map sum]. apply N.le_0_l.
        * specialize (B h). rewrite NB in B. rewrite (proj2 (N.leb_le ex h)) in B by lia.
          assert (churn * (h - er) = churn * (ex - er) + churn * (h - ex)) by (rewrite <- N.mul_add_distr_l; f_equal; lia). lia.
      + intros x Hx. specialize (O x (or_intror Hx)). inversion S0 as [|? ? _ SF]; subst. rewrite Forall_forall in SF. specialize (SF x Hx). cbn [snd] in SF.
        assert (churn * (snd x - er) = churn * (ex - er) + churn * (snd x - ex)) by (rewrite <- N.mul_add_distr_l; f_equal; lia). lia.
      + exists b', er'. split; [exact R1|]. right. destruct R2 as [->|(x & w & H1 & H2)].
        * exists (i, ex), v. repeat split; auto. now left.
        * exists x, w. split; [now right|exact H2].
  Qed.

  Lemma patch_accept trusted pe p er : trusted <= pe ->
    (forall x, In x (validator_exits p) -> exit_fine pe er x) ->
    (forall h, new_exit_balance patches reg h pe p <= churn * (1 + (h - er))) ->
    (forall x, In x (validator_exits p) -> churn * (1 + (snd x - er)) < two64) ->
    exists er', validate_patch cs patches reg churn trusted er (pe, p) = Ok er' /\
      (er' = er \/ exists x v, In x (validator_exits p) /\ er' = snd x /\ bm_get reg (fst x) = Some v /\ previous_exit patches v (fst x) pe <> snd x).
  Proof.
    intros Ht F B O. unfold validate_patch. rewrite (proj2 (N.leb_le _ _) Ht). cbn [assert_ bind].
    pose proof (sort_exits_perm (validator_exits p)) as P.
    destruct (exits_accept pe (sort_exits (validator_exits p)) churn er) as (b' & er' & R1 & R2).
    - apply sort_exits_sorted.
    - apply Forall_forall. intros x Hx. apply F. eapply Permutation_in; [symmetry; exact P|exact Hx].
    - intros h. specialize (B h). unfold new_exit_balance in B.
      change (new_exits patches reg h pe p) with (flat_map (new1 patches reg h pe) (validator_exits p)) in B.
      fold (bal_of (flat_map (new1 patches reg h pe) (validator_exits p))) in B.
      rewrite (proj1 (bal_flat_perm (new1 patches reg h pe) _ _ P)) in B. lia.
    - intros x Hx. assert (In x (validator_exits p)) by (eapply Permutation_in; [symmetry; exact P|exact Hx]). specialize (O x H). lia.
    - rewrite R1. cbn [bind]. exists er'. split; [reflexivity|]. destruct R2 as [->|(x & v & H1 & H2)]; [now left|].
      right. exists x, v. split; [|exact H2]. eapply Permutation_in; [symmetry; exact P|exact H1].
  Qed.
  Lemma patch_exact trusted pe p er :
    (forall x, In x (validator_exits p) -> churn * (1 + (snd x - er)) < two64) ->
    (exists er', validate_patch cs patches reg churn trusted er (pe, p) = Ok er') <->
    trusted <= pe /\
    (forall x, In x (validator_exits p) -> exit_fine pe er x) /\
    (forall h, new_exit_balance patches reg h pe p <= churn * (1 + (h - er))).
  Proof.
    intros O. split.
    - intros (er' & E). pose proof (patch_fold _ _ _ _ _ 0 _ _ _ _ E) as (P1 & _ & _ & _ & P2). split; [exact P1|]. split.
      + intros [i ex] Hx. destruct (P2 i ex Hx) as (v & Hv & D). exists v. split; [exact Hv|]. cbn [fst snd].
        destruct D as [D|[D1 D2]]; [now left|]. right. split; [exact D1|lia].
      + intros h. pose proof (patch_fold _ _ _ _ _ h _ _ _ _ E) as (_ & _ & _ & P3 & _).
        etransitivity; [exact P3|]. rewrite N.mul_add_distr_l, N.mul_1_r. apply N.add_le_mono_l, N.mul_le_mono_l. lia.
    - intros (H1 & H2 & H3). destruct (patch_accept trusted pe p er H1 H2 H3 O) as (er' & E & _). eauto.
  Qed.
End Accept.

(** ** The queue *)
Definition bal_upto (bal : N -> N) (h : Epoch) (l : list (N * Epoch)) : N :=
  sum (map (fun x => if snd x <=? h then bal (fst x) else 0) l).

Lemma assign_ok cs cur c churn b q trusted : 0 < c <= churn -> trusted <= cur -> q_balance q <= churn ->
  let q' := assign cs cur c b q in
  q_epoch q <= q_epoch q' /\ activation_exit_epoch cs trusted <= q_epoch q' /\ q_balance q' <= churn /\
  b + q_balance q' <= q_balance q + churn * (q_epoch q' - q_epoch q).
Proof.
  intros Hc Ht Hb. cbn zeta. unfold assign.
  set (first := N.max (q_epoch q) (activation_exit_epoch cs cur)).
  assert (F1 : q_epoch q <= first) by lia.
  assert (F2 : activation_exit_epoch cs trusted <= first) by (unfold first, activation_exit_epoch; lia).
  set (avail := if q_epoch q <? first then c else q_balance q).
  assert (A1 : avail <= churn) by (unfold avail; destruct (q_epoch q <? first); lia).
  assert (A2 : avail <= q_balance q + churn * (first - q_epoch q)).
  { unfold avail. destruct (N.ltb_spec (q_epoch q) first); [|lia].
    assert (churn * 1 <= churn * (first - q_epoch q)) by (apply N.mul_le_mono_l; lia). lia. }
  destruct (N.ltb_spec avail b) as [L|L].
  - set (x := b - avail - 1). set (more := x / c + 1). cbn [q_epoch q_balance].
    assert (D : x = c * (x / c) + x mod c) by (apply N.div_mod; lia).
    assert (M : x mod c < c) by (apply N.mod_lt; lia).
    assert (E : more * c = c * (x / c) + c) by (unfold more; lia).
    assert (Ex : x = b - avail - 1) by reflexivity. clearbody more x first avail.
    remember (c * (x / c)) as cd eqn:Hcd. remember (x mod c) as m eqn:Hm. clear Hcd Hm. remember (more * c) as mc eqn:Hmc.
    split; [lia|]. split; [lia|]. split; [lia|].
    assert (G : churn * (first + more - q_epoch q) = churn * (first - q_epoch q) + churn * more) by (rewrite <- N.mul_add_distr_l; f_equal; lia).
    rewrite G. assert (c * more <= churn * more) by (apply N.mul_le_mono_r; lia). rewrite (N.mul_comm more c) in Hmc. lia.
  - cbn [q_epoch q_balance]. repeat split; lia.
Qed.

Section Queue.
  Variables (cs : ChainSpec) (bal : ValidatorIndex -> N) (trusted : Epoch) (churn : N).

  Lemma queue_run_ok q evs out q' : queue_run cs bal trusted churn q evs out q' -> q_balance q <= churn ->
    q_epoch q <= q_epoch q' /\ q_balance q' <= churn /\
    (forall x, In x out -> q_epoch q <= snd x <= q_epoch q' /\ activation_exit_epoch cs trusted <= snd x) /\
    (forall h, bal_upto bal h out <= q_balance q + churn * (h - q_epoch q)) /\
    (out <> [] -> activation_exit_epoch cs trusted <= q_epoch q').
  Proof.
    induction 1 as [q|q i cur c evs out q' Ht Hc q1 R IH|q b cur c evs out q' Ht Hc R IH]; intros Hb.
    - repeat split; try lia; try easy. intros h. unfold bal_upto. cbn [map sum]. apply N.le_0_l.
    - pose proof (assign_ok cs cur c churn (bal i) q trusted Hc Ht Hb) as (A1 & A2 & A3 & A4). fold q1 in A1, A2, A3, A4.
      destruct (IH A3) as (I1 & I2 & I3 & I4 & I5).
      split; [lia|]. split; [exact I2|]. split; [|split; [|intros _; lia]].
      + intros x [<-|Hx]; cbn [snd]; [lia|]. specialize (I3 x Hx). lia.
      + intros h. unfold bal_upto. cbn [map sum fst snd]. change (sum (map (fun x => if snd x <=? h then bal (fst x) else 0) out)) with (bal_upto bal h out).
        specialize (I4 h). destruct (N.leb_spec (q_epoch q1) h) as [L|L].
        * assert (churn * (h - q_epoch q) = churn * (q_epoch q1 - q_epoch q) + churn * (h - q_epoch q1)) by (rewrite <- N.mul_add_distr_l; f_equal; lia). lia.
        * assert (Z : forall l, (forall x, In x l -> q_epoch q1 <= snd x) -> bal_upto bal h l = 0).
          { clear -L. intros l Hl. unfold bal_upto. induction l as [|x l IH]; [reflexivity|]. cbn [map sum].
            rewrite (proj2 (N.leb_gt (snd x) h)) by (specialize (Hl x (or_introl eq_refl)); lia). rewrite IH; [reflexivity|]. intros y Hy. apply Hl. now right. }
          rewrite Z; [apply N.le_0_l|]. intros x Hx. specialize (I3 x Hx). lia.
    - pose proof (assign_ok cs cur c churn b q trusted Hc Ht Hb) as (A1 & A2 & A3 & A4). set (q1 := assign cs cur c b q) in *.
      destruct (IH A3) as (I1 & I2 & I3 & I4 & I5).
      split; [lia|]. split; [exact I2|]. split; [|split; [|intros _; lia]].
      + intros x Hx. specialize (I3 x Hx). lia.
      + intros h. specialize (I4 h). destruct (N.leb_spec (q_epoch q1) h) as [L|L].
        * assert (churn * (h - q_epoch q) = churn * (q_epoch q1 - q_epoch q) + churn * (h - q_epoch q1)) by (rewrite <- N.mul_add_distr_l; f_equal; lia). lia.
        * assert (Z : forall l, (forall x, In x l -> q_epoch q1 <= snd x) -> bal_upto bal h l = 0).
          { clear -L. intros l Hl. unfold bal_upto. induction l as [|x l IH]; [reflexivity|]. cbn [map sum].
            rewrite (proj2 (N.leb_gt (snd x) h)) by (specialize (Hl x (or_introl eq_refl)); lia). rewrite IH; [reflexivity|]. intros y Hy. apply Hl. now right. }
          rewrite Z; [apply N.le_0_l|]. intros x Hx. specialize (I3 x Hx). lia.
  Qed.
End Queue.

Lemma sum_perm l l' : Permutation l l' -> sum l = sum l'.
Proof. induction 1; simpl; lia. Qed.
Lemma sum_le_incl {A} (f : A -> N) (dec : forall x y : A, {x = y} + {x <> y}) : forall l l', NoDup l -> incl l l' -> sum (map f l) <= sum (map f l').
Proof.
  induction l as [|x l IH]; intros l' Hn Hi; [apply N.le_0_l|].
  inversion Hn as [|? ? N1 N2]; subst. assert (Hx : In x l') by (apply Hi; now left).
  apply in_split in Hx as (l1 & l2 & ->). cbn [map sum].
  rewrite (sum_perm (map f (l1 ++ x :: l2)) (map f (x :: l1 ++ l2))) by (apply Permutation_map; symmetry; apply Permutation_middle).
  cbn [map sum]. apply N.add_le_mono_l, IH; auto. intros y Hy. assert (In y (l1 ++ x :: l2)) by (apply Hi; now right).
  apply in_app_or in H as [H|[H|H]]; apply in_or_app; [now left| |now right]. subst. contradiction.
Qed.

Section Honest.
  Variables (cs : ChainSpec) (bal : ValidatorIndex -> N) (trusted : Epoch) (churn : N).
  Notation act := (activation_exit_epoch cs trusted).

  Lemma assign_first cur c b q : 0 < c <= churn -> trusted <= cur -> q_balance q <= churn ->
    let q' := assign cs cur c b q in
    b + q_balance q' <= churn + churn * (q_epoch q' - N.max (q_epoch q) act).
  Proof.
    intros Hc Ht Hb. cbn zeta. unfold assign.
    set (first := N.max (q_epoch q) (activation_exit_epoch cs cur)).
    assert (F1 : N.max (q_epoch q) act <= first) by (unfold first, activation_exit_epoch; lia).
    set (M := N.max (q_epoch q) act) in *.
    set (avail := if q_epoch q <? first then c else q_balance q).
    assert (A1 : avail <= churn) by (unfold avail; destruct (q_epoch q <? first); lia).
    clearbody first M avail.
    destruct (N.ltb_spec avail b) as [L|L].
    - set (x := b - avail - 1). set (more := x / c + 1). cbn [q_epoch q_balance].
      assert (D : x = c * (x / c) + x mod c) by (apply N.div_mod; lia).
      assert (Hm : x mod c < c) by (apply N.mod_lt; lia).
      assert (E : more * c = c * (x / c) + c) by (unfold more; lia).
      assert (Ex : x = b - avail - 1) by reflexivity. clearbody more x.
      remember (c * (x / c)) as cd eqn:Hcd. remember (x mod c) as m eqn:Hm'. clear Hcd Hm'. remember (more * c) as mc eqn:Hmc.
      assert (G : churn * (first + more - M) = churn * (first - M) + churn * more) by (rewrite <- N.mul_add_distr_l; f_equal; lia).
      rewrite G. assert (c * more <= churn * more) by (apply N.mul_le_mono_r; lia). rewrite (N.mul_comm more c) in Hmc. generalize (N.le_0_l (churn * (first - M))). lia.
    - cbn [q_epoch q_balance]. generalize (N.le_0_l (churn * (first - M))). lia.
  Qed.
  Lemma upto_none h lo (l : list (N * Epoch)) : h < lo -> (forall x, In x l -> lo <= snd x) -> bal_upto bal h l = 0.
  Proof.
    intros L Hl. unfold bal_upto. induction l as [|x l IH]; [reflexivity|]. cbn [map sum].
    rewrite (proj2 (N.leb_gt (snd x) h)) by (specialize (Hl x (or_introl eq_refl)); lia). rewrite IH; [reflexivity|]. intros y Hy. apply Hl. now right.
  Qed.
  Lemma queue_run_first q evs out q' : queue_run cs bal trusted churn q evs out q' -> q_balance q <= churn ->
    forall h, bal_upto bal h out <= churn * (1 + (h - N.max (q_epoch q) act)).
  Proof.
    intros R Hb h. destruct R as [q|q i cur c evs out q' Ht Hc q1 R|q b cur c evs out q' Ht Hc R].
    - apply N.le_0_l.
    - pose proof (assign_first cur c (bal i) q Hc Ht Hb) as A. cbv zeta in A. pose proof (assign_ok cs cur c churn (bal i) q trusted Hc Ht Hb) as (A1 & A2 & A3 & _).
      fold q1 in A, A1, A2, A3. apply queue_run_ok in R as (_ & _ & R3 & R4 & _); [|exact A3].
      unfold bal_upto. cbn [map sum fst snd]. change (sum (map (fun x => if snd x <=? h then bal (fst x) else 0) out)) with (bal_upto bal h out).
      destruct (N.leb_spec (q_epoch q1) h) as [L|L].
      + specialize (R4 h). set (M := N.max (q_epoch q) act) in *. assert (M <= q_epoch q1) by lia. clearbody M.
        replace (1 + (h - M)) with (1 + (q_epoch q1 - M) + (h - q_epoch q1)) by lia.
        rewrite !N.mul_add_distr_l, N.mul_1_r. lia.
      + rewrite (upto_none h (q_epoch q1)); [apply N.le_0_l|exact L|]. intros x Hx. specialize (R3 x Hx). lia.
    - pose proof (assign_first cur c b q Hc Ht Hb) as A. cbv zeta in A. pose proof (assign_ok cs cur c churn b q trusted Hc Ht Hb) as (A1 & A2 & A3 & _).
      set (q1 := assign cs cur c b q) in *. apply queue_run_ok in R as (_ & _ & R3 & R4 & _); [|exact A3].
      destruct (N.leb_spec (q_epoch q1) h) as [L|L].
      + specialize (R4 h). set (M := N.max (q_epoch q) act) in *. assert (M <= q_epoch q1) by lia. clearbody M.
        replace (1 + (h - M)) with (1 + (q_epoch q1 - M) + (h - q_epoch q1)) by lia.
        rewrite !N.mul_add_distr_l, N.mul_1_r. lia.
      + rewrite (upto_none h (q_epoch q1)); [apply N.le_0_l|exact L|]. intros x Hx. specialize (R3 x Hx). lia.
  Qed.

  Variables (patches : bmap StatePatch) (reg : bmap ValidatorInfo).
  Hypothesis Ht : 1 <= trusted.
  Hypothesis Hlate : forall e p, In (e, p) patches -> trusted <= e.
  Hypothesis Hsorted : forall e p, In (e, p) patches -> bm_sorted (validator_exits p).
  Hypothesis Hreg : forall e p i ex, In (e, p) patches -> bm_get (validator_exits p) i = Some ex ->
    exists v, bm_get reg i = Some v /\ exit_epoch v = far_future_epoch cs /\ effective_balance v = bal i.
  Hypothesis Hover : forall e p i ex, In (e, p) patches -> bm_get (validator_exits p) i = Some ex ->
    churn * (1 + (ex - act)) < two64.

  Definition is_new (pe : Epoch) (x : N * Epoch) : bool :=
    match bm_get reg (fst x) with Some v => negb (previous_exit patches v (fst x) pe =? snd x) | None => false end.
  Lemma new_balance pe h l : (forall x, In x l -> exists v, bm_get reg (fst x) = Some v /\ effective_balance v = bal (fst x)) ->
    bal_of (flat_map (new1 patches reg h pe) l) = bal_upto bal h (filter (is_new pe) l).
  Proof.
    induction l as [|x l IH]; intros Hl; [reflexivity|]. cbn [flat_map filter]. rewrite bal_app, IH by (intros; apply Hl; now right).
    destruct (Hl x (or_introl eq_refl)) as (v & Hv & Hb). unfold new1, is_new at 2. rewrite Hv.
    destruct (previous_exit patches v (fst x) pe =? snd x); cbn [negb andb]; [reflexivity|].
    unfold bal_upto. cbn [map sum]. destruct (snd x <=? h); unfold bal_of; cbn [map sum fst]; rewrite ?Hb; lia.
  Qed.

  Lemma honest_fold : forall l q before er,
    honest_exits consecutive cs bal trusted churn q before l -> incl l patches -> NoDup (map fst l) ->
    q_balance q <= churn -> act <= er <= N.max (q_epoch q) act ->
    match l with
    | [] => True
    | (e, _) :: _ => forall i, match bm_get patches (e - 1) with
                               | Some p => forall x, bm_get (validator_exits p) i = Some x <-> In (i, x) before
                               | None => before = [] end
    end ->
    (forall e p, In (e, p) l -> bm_get patches e = Some p) ->
    exists er', fold_outcome (validate_patch cs patches reg churn trusted) l er = Ok er'.
  Proof.
    induction l as [|[e p] l IH]; intros q before er He Hi Hn Hq Her Hp Hg; [eexists; reflexivity|].
    inversion He as [|q0 before0 e0 p0 rest evs out q' R Hx Hr He' E1 E2]; subst. clear He.
    assert (Hin : In (e, p) patches) by (apply Hi; now left). assert (Hte : trusted <= e) by (now apply (Hlate e p)).
    pose proof (queue_run_ok _ _ _ _ _ _ _ _ R Hq) as (Q1 & Q2 & Q3 & Q4 & Q5).
    pose proof (queue_run_first _ _ _ _ R Hq) as QF.
    assert (Hs : bm_sorted (validator_exits p)) by eauto.
    assert (Hget : forall x, In x (validator_exits p) -> bm_get (validator_exits p) (fst x) = Some (snd x)).
    { intros [i ex] Hx'. cbn [fst snd]. now apply bm_in_get. }
    (* what the guest compares an exit with *)
    assert (Prev : forall i ex v, bm_get (validator_exits p) i = Some ex -> bm_get reg i = Some v -> exit_epoch v = far_future_epoch cs ->
              previous_exit patches v i e = ex \/ (previous_exit patches v i e = far_future_epoch cs /\ In (i, ex) out)).
    { intros i ex v Hi' Hv Hf. unfold previous_exit. specialize (Hp i). pose proof (proj1 (Hx i ex) Hi') as Hin'.
      destruct (bm_get patches (e - 1)) as [pp|].
      - destruct (bm_get (validator_exits pp) i) as [x|] eqn:Ex.
        + assert (Hb : In (i, x) before) by (now apply Hp). assert (bm_get (validator_exits p) i = Some x) by (apply Hx; apply in_or_app; now left). left. congruence.
        + right. split; [exact Hf|]. apply in_app_or in Hin' as [Hin'|Hin']; [|exact Hin']. apply Hp in Hin'. discriminate.
      - rewrite Hp in Hin'. right. split; [exact Hf|exact Hin']. }
    destruct (patch_accept cs patches reg churn trusted e p er Hte) as (er' & V & Ve).
    - intros [i ex] Hx'. pose proof (Hget _ Hx') as Hgx. cbn [fst snd] in Hgx. destruct (Hreg _ _ _ _ Hin Hgx) as (v & Hv & Hf & _).
      exists v. cbn [fst snd]. split; [exact Hv|]. destruct (Prev i ex v Hgx Hv Hf) as [D|[D1 D2]]; [now left|]. right. split; [exact D1|].
      specialize (Q3 _ D2). cbn [snd] in Q3. lia.
    - intros h. unfold new_exit_balance. change (new_exits patches reg h e p) with (flat_map (new1 patches reg h e) (validator_exits p)).
      fold (bal_of (flat_map (new1 patches reg h e) (validator_exits p))). rewrite new_balance.
      2:{ intros x Hx'. destruct (Hreg _ _ _ _ Hin (Hget _ Hx')) as (v & Hv & _ & Hb). eauto. }
      etransitivity; [|etransitivity; [apply (QF h)|]].
      + apply sum_le_incl.
        * intros a b. decide equality; apply N.eq_dec.
        * apply NoDup_filter. apply (NoDup_map_inv fst). now apply bm_sorted_NoDup.
        * intros [i ex] Hx'. apply filter_In in Hx' as [Hx' Hnew]. pose proof (Hget _ Hx') as Hgx. cbn [fst snd] in Hgx.
          destruct (Hreg _ _ _ _ Hin Hgx) as (v & Hv & Hf & _). unfold is_new in Hnew. cbn [fst snd] in Hnew. rewrite Hv in Hnew.
          destruct (Prev i ex v Hgx Hv Hf) as [D|[_ D]]; [|exact D]. rewrite D, N.eqb_refl in Hnew. discriminate.
      + apply N.mul_le_mono_l. lia.
    - intros x Hx'. pose proof (Hover _ _ _ _ Hin (Hget _ Hx')) as Ho. eapply N.le_lt_trans; [|exact Ho]. apply N.mul_le_mono_l. lia.
    - cbn [fold_outcome]. rewrite V. cbn [bind].
      assert (Hle : er <= er').
      { pose proof (patch_fold _ _ _ _ _ 0 _ _ _ _ V) as (_ & P & _). exact P. }
      apply (IH q' (before ++ out)); auto.
      + intros x Hx'. apply Hi. now right.
      + now inversion Hn.
      + split; [lia|]. destruct Ve as [->|(x & v & H1 & -> & H3 & H4)]; [lia|].
        destruct x as [i ex]. cbn [fst snd] in *. pose proof (Hget _ H1) as Hgx. cbn [fst snd] in Hgx.
        destruct (Hreg _ _ _ _ Hin Hgx) as (v' & Hv & Hf & _). assert (v' = v) by congruence. subst v'.
        destruct (Prev i ex v Hgx Hv Hf) as [D|[_ D]]; [congruence|]. specialize (Q3 _ D). cbn [snd] in Q3. lia.
      + destruct l as [|[e' p'] l']; [exact I|]. red in Hr. subst e'. intros i. replace (e + 1 - 1) with e by lia.
        rewrite (Hg e p (or_introl eq_refl)). intros x. apply Hx.
      + intros e' p' Hp'. apply Hg. now right.
  Qed.
End Honest.

Lemma patch_params_total cs trusted si reg : exit_numbers_fit cs reg trusted ->
  patch_params cs trusted si reg = Ok (exit_churn cs reg trusted, earliest_exit cs si trusted).
Proof.
  intros (Q1 & Q2 & Q3 & Q4 & Q5). unfold patch_params.
  replace (filter (fun v => is_active_at v trusted) (bm_values reg)) with (map snd (active_at_l reg trusted)).
  2:{ unfold active_at_l, bm_values. clear. induction reg as [|[k v] r IH]; simpl; auto. destruct (is_active_at v trusted); simpl; congruence. }
  fold (active_at_l reg trusted) in Q3. rewrite (proj2 (total_balance_ok GE_Arith cs (active_at_l reg trusted) _) (conj eq_refl Q3)).
  cbn [bind]. unfold get_balance_churn_limit, safe_div, safe_rem, safe_sub.
  rewrite (proj2 (N.eqb_neq _ _) Q1). cbn [bind]. rewrite (proj2 (N.eqb_neq _ _) Q2). cbn [bind].
  set (t := balance_of cs (active_at_l reg trusted)). set (c := N.max (min_per_epoch_churn_limit_electra cs) (t / churn_limit_quotient cs)).
  rewrite (proj2 (N.leb_le (c mod effective_balance_increment cs) c)) by (apply N.mod_le; exact Q2). cbn [bind].
  change (c - c mod effective_balance_increment cs) with (churn_limit cs t). unfold safe_mul.
  assert (Ec : churn_limit cs t * 2 = exit_churn cs reg trusted) by (unfold exit_churn; fold (active_at_l reg trusted); fold t; apply N.mul_comm).
  rewrite Ec, (proj2 (N.ltb_lt (exit_churn cs reg trusted) two64)) by exact Q4. cbn [bind].
  rewrite act_exit_total by exact Q5. reflexivity.
Qed.
Lemma validate_patches_total cs patches trusted si reg er' : exit_numbers_fit cs reg trusted ->
  fold_outcome (validate_patch cs patches reg (exit_churn cs reg trusted) trusted) patches (earliest_exit cs si trusted) = Ok er' ->
  validate_state_patches cs patches trusted si reg = Ok tt.
Proof.
  intros Hf E. unfold validate_state_patches. rewrite patch_params_total by auto. cbn [bind]. rewrite E. reflexivity.
Qed.
Lemma no_exits_accepted cs patches0 trusted reg churn : forall patches er,
  Forall (fun ep => trusted <= fst ep /\ validator_exits (snd ep) = []) patches ->
  fold_outcome (validate_patch cs patches0 reg churn trusted) patches er = Ok er.
Proof.
  induction patches as [|[e p] l IH]; intros er F; [reflexivity|]. inversion F as [|? ? [F1 F2] F']; subst. cbn [fst snd] in *.
  cbn [fold_outcome]. unfold validate_patch at 1. rewrite (proj2 (N.leb_le _ _) F1). cbn [assert_ bind]. rewrite F2. cbn [sort_exits fold_right fold_outcome bind].
  now apply IH.
Qed.
Lemma honest_accepted cs bal trusted patches reg si q : wf_patches patches -> 1 <= trusted -> exit_numbers_fit cs reg trusted ->
  let churn := exit_churn cs reg trusted in
  N.min (si_earliest_exit_epoch si) (si_earliest_consolidation_epoch si) <= q_epoch q -> q_balance q <= churn ->
  (forall e p, In (e, p) patches -> trusted <= e) ->
  honest_exits consecutive cs bal trusted churn q [] patches ->
  (forall e p i ex, In (e, p) patches -> In (i, ex) (validator_exits p) ->
     churn * (1 + (ex - activation_exit_epoch cs trusted)) < 2 ^ 64 /\
     exists v, bm_get reg i = Some v /\ exit_epoch v = far_future_epoch cs /\ effective_balance v = bal i) ->
  validate_state_patches cs patches trusted si reg = Ok tt.
Proof.
  intros [Wp We] Ht Hf churn Hq Hqb Hlate He Hr.
  apply bm_sorted_keys in Wp. rewrite Forall_forall in We.
  assert (Hs : forall e p, In (e, p) patches -> bm_sorted (validator_exits p)).
  { intros e p Hi. apply bm_sorted_keys. apply (We _ Hi). }
  destruct (honest_fold cs bal trusted churn patches reg Ht Hlate Hs) with (l := patches) (q := q) (before := @nil (N * Epoch)) (er := earliest_exit cs si trusted)
    as (er' & E); auto.
  - intros e p i ex Hi Hg. apply bm_get_in in Hg. destruct (Hr e p i ex Hi Hg) as (_ & Hv). exact Hv.
  - intros e p i ex Hi Hg. apply bm_get_in in Hg. destruct (Hr e p i ex Hi Hg) as (Ho & _). exact Ho.
  - apply incl_refl.
  - now apply bm_sorted_NoDup.
  - unfold earliest_exit. lia.
  - destruct patches as [|[e p] l]; [exact I|]. intros i.
    assert (trusted <= e) by (apply (Hlate e p); now left).
    destruct (bm_get ((e, p) :: l) (e - 1)) as [pp|] eqn:Eg; [|reflexivity].
    exfalso. cbn [bm_get] in Eg. destruct (N.eqb_spec (e - 1) e); [lia|]. apply bm_get_in in Eg.
    apply bm_sorted_inv in Wp as [_ Wl]. specialize (Wl _ Eg). cbn [fst] in Wl. lia.
  - intros e p Hi. now apply bm_in_get.
  - now apply (validate_patches_total _ _ _ _ _ er').
Qed.
