(** Registry updates and state patches. *)
From Coq Require Import List Arith ZArith NArith Bool Lia Sorted Permutation.
From Verif.Model Require Import Base Types ConsensusState Multiproof Verify GuestReader.
From Verif.Spec Require Import Beacon GuestSpec Registry VerifySpec.
From Verif.Proof Require Import BaseLemmas VerifyP.
Import ListNotations.
Open Scope N_scope.
Notation length := List.length.

(** ** Registry updates *)
Lemma update_fields cs fin cur act v : let w := registry_update_validator cs fin cur act v in
  pubkey w = pubkey v /\ effective_balance w = effective_balance v /\ slashed w = slashed v /\ exit_epoch w = exit_epoch v.
Proof.
  cbv zeta. unfold registry_update_validator.
  destruct (is_eligible_for_activation_queue cs v); destruct (is_eligible_for_activation cs fin _); simpl; auto.
Qed.
Lemma update_activation cs fin cur act v :
  activation_epoch (registry_update_validator cs fin cur act v) = activation_epoch v \/
  (activation_epoch v = far_future_epoch cs /\ activation_epoch (registry_update_validator cs fin cur act v) = act).
Proof.
  unfold registry_update_validator.
  destruct (is_eligible_for_activation_queue cs v); destruct (is_eligible_for_activation cs fin _) eqn:E; simpl; auto;
  unfold is_eligible_for_activation in E; apply andb_true_iff in E as [_ E]; apply N.eqb_eq in E; auto.
Qed.
Lemma update_is_spec cs ej fin cur v w w' : fin <= cur -> cur + 1 < 2 ^ 64 -> cur < far_future_epoch cs ->
  same_but_exit v w -> spec_update cs ej fin cur w w' ->
  same_but_exit (registry_update_validator cs fin cur (activation_exit_epoch cs cur) v) w'.
Proof.
  intros Hf Hc Hff [x ->] S.
  unfold registry_update_validator, is_eligible_for_activation_queue, is_eligible_for_activation.
  inversion S as [Q1 Q2|y Q E1 E2 E3|Q E A1 A2|Q E A]; subst; clear S; unfold active_in, with_exit in *; cbn [pubkey effective_balance slashed activation_eligibility_epoch activation_epoch exit_epoch] in *.
  - rewrite (proj2 (N.eqb_eq _ _) Q1), (proj2 (N.leb_le _ _) Q2). cbn [andb].
    cbn [activation_eligibility_epoch activation_epoch].
    assert (sat_add cur 1 = cur + 1) as -> by (unfold sat_add, u64_max, two64; lia).
    rewrite (proj2 (N.leb_gt _ _)) by lia. cbn [andb]. exists x. reflexivity.
  - destruct ((activation_eligibility_epoch v =? far_future_epoch cs) && (min_activation_balance cs <=? effective_balance v)) eqn:B.
    { exfalso. apply Q. apply andb_true_iff in B as [B1 B2]. apply N.eqb_eq in B1. apply N.leb_le in B2. auto. }
    destruct ((activation_eligibility_epoch v <=? fin) && (activation_epoch v =? far_future_epoch cs)) eqn:B'.
    { exfalso. apply andb_true_iff in B' as [_ B2]. apply N.eqb_eq in B2. lia. }
    exists y. reflexivity.
  - destruct ((activation_eligibility_epoch v =? far_future_epoch cs) && (min_activation_balance cs <=? effective_balance v)) eqn:B.
    { exfalso. apply Q. apply andb_true_iff in B as [B1 B2]. apply N.eqb_eq in B1. apply N.leb_le in B2. auto. }
    rewrite (proj2 (N.eqb_eq _ _) A2), (proj2 (N.leb_le _ _) A1). cbn [andb]. exists x. reflexivity.
  - destruct ((activation_eligibility_epoch v =? far_future_epoch cs) && (min_activation_balance cs <=? effective_balance v)) eqn:B.
    { exfalso. apply Q. apply andb_true_iff in B as [B1 B2]. apply N.eqb_eq in B1. apply N.leb_le in B2. auto. }
    destruct ((activation_eligibility_epoch v <=? fin) && (activation_epoch v =? far_future_epoch cs)) eqn:B'.
    { exfalso. apply A. apply andb_true_iff in B' as [B1 B2]. apply N.eqb_eq in B2. apply N.leb_le in B1. auto. }
    exists x. reflexivity.
Qed.
Lemma act_exit_ok {E} (f : ArithError -> E) cs e a : compute_activation_exit_epoch f cs e = Ok a ->
  a = activation_exit_epoch cs e /\ e + 1 + max_seed_lookahead cs < 2 ^ 64.
Proof.
  unfold compute_activation_exit_epoch, safe_add, activation_exit_epoch. destruct (N.ltb_spec (e + 1) two64); [|discriminate].
  cbn [bind]. destruct (N.ltb_spec (e + 1 + max_seed_lookahead cs) two64); [|discriminate].
  intros [= <-]. unfold two64 in *. auto.
Qed.
Lemma act_exit_total {E} (f : ArithError -> E) cs e : e + 1 + max_seed_lookahead cs < 2 ^ 64 ->
  compute_activation_exit_epoch f cs e = Ok (activation_exit_epoch cs e).
Proof.
  intros H. unfold compute_activation_exit_epoch, safe_add, activation_exit_epoch, two64.
  rewrite (proj2 (N.ltb_lt _ _)) by lia. cbn [bind]. now rewrite (proj2 (N.ltb_lt _ _)) by lia.
Qed.
Definition upd cs fin cur (kv : N * ValidatorInfo) : N * ValidatorInfo :=
  (fst kv, registry_update_validator cs fin cur (activation_exit_epoch cs cur) (snd kv)).
Lemma process_registry_ok {E} cs reg fin cur m : @process_registry_updates E cs reg fin cur = Ok m ->
  m = map (upd cs fin cur) reg /\ cur + 1 + max_seed_lookahead cs < 2 ^ 64.
Proof.
  unfold process_registry_updates. intros H. apply bind_ok in H as (a & H1 & H2).
  destruct (compute_activation_exit_epoch _ cs cur) eqn:Ea; try discriminate. simpl in H1. injection H1 as ->.
  apply act_exit_ok in Ea as [-> Hb]. injection H2 as <-. auto.
Qed.
Lemma process_registry_total {E} cs reg fin cur : cur + 1 + max_seed_lookahead cs < 2 ^ 64 ->
  @process_registry_updates E cs reg fin cur = Ok (map (upd cs fin cur) reg).
Proof. intros H. unfold process_registry_updates. rewrite act_exit_total by auto. reflexivity. Qed.

(** The loop as a function. *)
Fixpoint upds cs (l : list (Epoch * Epoch)) (m : bmap ValidatorInfo) : bmap ValidatorInfo :=
  match l with [] => m | (fin, e) :: r => upds cs r (map (upd cs fin e) m) end.
Definition fin_of (state_fin trusted cj e : Epoch) : Epoch := if e <? cj then state_fin else trusted.
Lemma registry_fold_ok {E} cs sf tr cj es : forall reg m,
  fold_outcome (fun r e => @process_registry_updates E cs r (fin_of sf tr cj e) e) es reg = Ok m ->
  m = upds cs (map (fun e => (fin_of sf tr cj e, e)) es) reg /\ Forall (fun e => e + 1 + max_seed_lookahead cs < 2 ^ 64) es.
Proof.
  induction es as [|e es IH]; intros reg m H; cbn [fold_outcome map upds] in *; [injection H as ->; auto|].
  apply bind_ok in H as (m1 & H1 & H2). apply process_registry_ok in H1 as [-> Hb]. apply IH in H2 as [-> Hf]. auto.
Qed.
Lemma registry_loop_ok {E} cs sf tr cj se reg m : @registry_loop E cs sf tr cj se reg = Ok m ->
  m = upds cs (map (fun e => (fin_of sf tr cj e, e)) (epoch_range se cj)) reg /\
  Forall (fun e => e + 1 + max_seed_lookahead cs < 2 ^ 64) (epoch_range se cj).
Proof. apply registry_fold_ok. Qed.
Lemma epoch_range_In a b e : In e (epoch_range a b) <-> a <= e <= b.
Proof.
  unfold epoch_range. rewrite in_map_iff. split.
  - intros (k & <- & Hk). apply in_seq in Hk. lia.
  - intros H. exists (N.to_nat (e - a)). split; [lia|]. apply in_seq. lia.
Qed.
Lemma epoch_range_nil a b : b < a -> epoch_range a b = [].
Proof. intros H. unfold epoch_range. replace (N.to_nat (b + 1 - a)) with O by lia. reflexivity. Qed.
Lemma epoch_range_cons a b : a <= b -> epoch_range a b = a :: epoch_range (a + 1) b.
Proof.
  intros H. unfold epoch_range. replace (N.to_nat (b + 1 - a)) with (S (N.to_nat (b + 1 - (a + 1)))) by lia.
  cbn [seq map]. f_equal; [lia|]. rewrite <- seq_shift, map_map. apply map_ext. lia.
Qed.

Definition upd1 cs (l : list (Epoch * Epoch)) (v : ValidatorInfo) : ValidatorInfo :=
  fold_left (fun v fe => registry_update_validator cs (fst fe) (snd fe) (activation_exit_epoch cs (snd fe)) v) l v.
Lemma upds_map cs l : forall m, upds cs l m = map (fun kv => (fst kv, upd1 cs l (snd kv))) m.
Proof.
  induction l as [|[fin e] l IH]; intros m; cbn [upds].
  - symmetry. unfold upd1. cbn [fold_left]. rewrite <- (map_id m) at 2. apply map_ext. now intros [].
  - rewrite IH, map_map. apply map_ext. intros [k v]. reflexivity.
Qed.
Lemma upd1_fields cs l : forall v, let w := upd1 cs l v in
  pubkey w = pubkey v /\ effective_balance w = effective_balance v /\ slashed w = slashed v /\ exit_epoch w = exit_epoch v.
Proof.
  induction l as [|[fin e] l IH]; intros v; cbv zeta; [auto|]. unfold upd1. cbn [fold_left fst snd].
  specialize (IH (registry_update_validator cs fin e (activation_exit_epoch cs e) v)).
  pose proof (update_fields cs fin e (activation_exit_epoch cs e) v) as U. cbv zeta in *. unfold upd1 in IH.
  destruct IH as (I1 & I2 & I3 & I4), U as (U1 & U2 & U3 & U4). repeat split; congruence.
Qed.
Lemma upd1_activation cs a l : (forall fe, In fe l -> a <= snd fe) -> forall v,
  activation_epoch (upd1 cs l v) = activation_epoch v \/
  (activation_epoch v = far_future_epoch cs /\
   (activation_epoch (upd1 cs l v) = far_future_epoch cs \/ activation_exit_epoch cs a <= activation_epoch (upd1 cs l v))).
Proof.
  induction l as [|[fin e] l IH]; intros Hl v; [left; reflexivity|]. unfold upd1. cbn [fold_left fst snd].
  assert (a <= e) as He by (apply (Hl (fin, e)); simpl; auto).
  specialize (IH ltac:(intros; apply Hl; simpl; auto) (registry_update_validator cs fin e (activation_exit_epoch cs e) v)).
  unfold upd1 in IH. pose proof (update_activation cs fin e (activation_exit_epoch cs e) v) as U.
  set (w := registry_update_validator _ _ _ _ _) in *.
  destruct U as [U|[U1 U2]].
  - destruct IH as [-> |[I1 I2]]; [left; auto|]. right. split; [congruence|auto].
  - right. split; auto. destruct IH as [-> |[I1 I2]]; [|auto]. right. rewrite U2. unfold activation_exit_epoch. lia.
Qed.
(** Activity before the first activation epoch the updates can assign is unchanged. *)
Lemma upd1_active cs a l v e : (forall fe, In fe l -> a <= snd fe) -> e < far_future_epoch cs -> e < activation_exit_epoch cs a ->
  is_active_at (upd1 cs l v) e = is_active_at v e /\ (is_active_at v e = true -> activation_epoch (upd1 cs l v) = activation_epoch v).
Proof.
  intros Hl H1 H2. destruct (upd1_fields cs l v) as (_ & _ & _ & Ex). unfold is_active_at. rewrite Ex.
  destruct (upd1_activation cs a l Hl v) as [-> |[A1 A2]]; [auto|].
  rewrite (proj2 (N.leb_gt (activation_epoch v) e)) by lia. rewrite (proj2 (N.leb_gt (activation_epoch (upd1 cs l v)) e)) by lia.
  split; [reflexivity|discriminate].
Qed.

Lemma registry_rel_upd cs ej fin cur m m' m'' : fin <= cur -> cur + 1 < 2 ^ 64 -> cur < far_future_epoch cs ->
  registry_rel same_but_exit m m' -> registry_rel (spec_update cs ej fin cur) m' m'' ->
  registry_rel same_but_exit (map (upd cs fin cur) m) m''.
Proof.
  intros H1 H2 H3 R. revert m''. induction R as [|x y m m' [Hk Hs] R IH]; intros m'' R'; inversion R'; subst; [constructor|].
  cbn [map]. constructor; [|apply IH; auto]. destruct H4 as [Hk' Hu]. split; [cbn [upd fst]; congruence|].
  cbn [upd snd]. eapply update_is_spec; eauto.
Qed.
Lemma spec_updates_agree cs ej cj sf tr : forall n se fins m m' m'',
  n = N.to_nat (cj + 1 - se) -> fins = map (fin_of sf tr cj) (epoch_range se cj) ->
  Forall (fun e => e + 1 + max_seed_lookahead cs < 2 ^ 64) (epoch_range se cj) ->
  far_future_epoch cs = 2 ^ 64 - 1 -> sf <= se -> tr <= cj ->
  registry_rel same_but_exit m m' -> spec_updates cs ej se fins m' m'' ->
  registry_rel same_but_exit (upds cs (map (fun e => (fin_of sf tr cj e, e)) (epoch_range se cj)) m) m''.
Proof.
  induction n as [|n IH]; intros se fins m m' m'' Hn Hf Hb Hff Hsf Htr R S.
  - rewrite epoch_range_nil in * by lia. subst fins. inversion S; subst. exact R.
  - rewrite epoch_range_cons in * by lia. subst fins. cbn [map upds] in *. inversion S; subst. inversion Hb; subst.
    eapply IH; eauto; try lia. eapply registry_rel_upd; eauto; try lia. unfold fin_of. destruct (N.ltb_spec se cj); lia.
Qed.

(** ** Patches *)
Lemma insert_by_epoch_perm x l : Permutation (x :: l) (insert_by_epoch x l).
Proof.
  induction l as [|y r IH]; simpl; auto. destruct (snd x <=? snd y); auto.
  rewrite perm_swap. now constructor.
Qed.
Lemma sort_exits_perm l : Permutation l (sort_exits l).
Proof. induction l as [|x l IH]; simpl; auto. rewrite <- insert_by_epoch_perm. now constructor. Qed.

Lemma validate_exit_ok cs patches reg churn pe b er i ex st :
  validate_exit cs patches reg churn pe (b, er) (i, ex) = Ok st ->
  exists v, bm_get reg i = Some v /\
    ((previous_exit patches v i pe = ex /\ st = (b, er)) \/
     (previous_exit patches v i pe <> ex /\ previous_exit patches v i pe = far_future_epoch cs /\
      er <= ex /\ snd st = ex /\ fst st + effective_balance v <= b + churn * (ex - er))).
Proof.
  unfold validate_exit. intros H. apply bind_ok in H as (v & H1 & H2). apply expect_ok in H1. exists v. split; auto.
  unfold previous_exit. change (sat_sub pe 1) with (pe - 1) in H2.
  destruct (N.eqb_spec (match bm_get patches (pe - 1) with
                        | Some p => match bm_get (validator_exits p) i with Some x => x | None => exit_epoch v end
                        | None => exit_epoch v end) ex) as [E|E].
  - left. split; auto. now injection H2.
  - right. apply bind_ok in H2 as ([] & A1 & H2). apply bind_ok in H2 as ([] & A2 & H2). apply bind_ok in H2 as ([] & A3 & H2).
    apply assert_ok in A1, A2, A3. apply N.eqb_eq in A1. apply N.leb_le in A2, A3. injection H2 as <-. cbn [fst snd].
    repeat split; auto. unfold sat_sub, wrap64 in *.
    assert (forall x, x mod two64 <= x) as M by (intros; apply N.mod_le; discriminate).
    pose proof (M (b + ((ex - er) * churn) mod two64)). pose proof (M ((ex - er) * churn)).
    rewrite (N.mul_comm churn). lia.
Qed.

Definition new1 patches reg horizon pe (ix : N * Epoch) : list (ValidatorInfo * Epoch) :=
  match bm_get reg (fst ix) with
  | Some v => if negb (previous_exit patches v (fst ix) pe =? snd ix) && (snd ix <=? horizon) then [(v, snd ix)] else []
  | None => []
  end.
Definition bal_of (l : list (ValidatorInfo * Epoch)) : N := sum (map (fun ve => effective_balance (fst ve)) l).
Lemma sum_app a b : sum (a ++ b) = sum a + sum b.
Proof. induction a; simpl; lia. Qed.
Lemma bal_app a b : bal_of (a ++ b) = bal_of a + bal_of b.
Proof. unfold bal_of. now rewrite map_app, sum_app. Qed.
Lemma bal_flat_perm (f : N * Epoch -> list (ValidatorInfo * Epoch)) l l' : Permutation l l' ->
  bal_of (flat_map f l) = bal_of (flat_map f l') /\ (flat_map f l = [] <-> flat_map f l' = []).
Proof.
  induction 1; cbn [flat_map]; rewrite ?bal_app in *.
  - tauto.
  - destruct IHPermutation as [-> I]. split; auto. split; intros E; apply app_eq_nil in E as [-> E]; simpl; apply I; auto.
  - split; [lia|]. split; intros E; apply app_eq_nil in E as [-> E]; apply app_eq_nil in E as [-> ->]; reflexivity.
  - destruct IHPermutation1 as [-> I1], IHPermutation2 as [-> I2]. split; auto. now rewrite I1.
Qed.

Section Fold.
  Variables (cs : ChainSpec) (patches : bmap StatePatch) (reg : bmap ValidatorInfo) (churn : N).
  Let step := validate_exit cs patches reg churn.

  Lemma exits_fold pe h : forall l b er b' er', fold_outcome (step pe) l (b, er) = Ok (b', er') ->
    er <= er' /\
    (h < er -> flat_map (new1 patches reg h pe) l = []) /\
    bal_of (flat_map (new1 patches reg h pe) l) <= b + churn * (N.min h er' - er) /\
    (forall i ex, In (i, ex) l -> exists v, bm_get reg i = Some v /\
       (previous_exit patches v i pe = ex \/ (previous_exit patches v i pe = far_future_epoch cs /\ er <= ex <= er'))).
  Proof.
    induction l as [|[i ex] l IH]; intros b er b' er' H; cbn [fold_outcome] in H.
    - injection H as -> ->. cbn [flat_map]. repeat split; try lia; try contradiction. unfold bal_of. simpl. lia.
    - apply bind_ok in H as ([b1 er1] & H1 & H2). apply validate_exit_ok in H1 as (v & Hv & D).
      apply IH in H2 as (I1 & I2 & I3 & I4). cbn [flat_map]. unfold new1 at 1 3. cbn [fst snd]. rewrite Hv.
      destruct D as [[D1 D2]|(D1 & D2 & D3 & D4 & D5)].
      + injection D2 as -> ->. rewrite (proj2 (N.eqb_eq _ _) D1). cbn [negb andb app]. repeat split; auto.
        intros j x [[= <- <-]|Hj]; eauto.
      + rewrite (proj2 (N.eqb_neq _ _) D1). cbn [negb andb fst snd] in *. subst er1.
        assert (I5 : forall j x, (i, ex) = (j, x) \/ In (j, x) l -> exists w, bm_get reg j = Some w /\
           (previous_exit patches w j pe = x \/ (previous_exit patches w j pe = far_future_epoch cs /\ er <= x <= er'))).
        { intros j x [[= <- <-]|Hj].
          - exists v. split; [exact Hv|]. right. split; [exact D2|lia].
          - destruct (I4 j x Hj) as (w & W1 & [W2|[W2 W3]]); exists w; (split; [exact W1|]); [left; exact W2|]. right. split; [exact W2|lia]. }
        destruct (N.leb_spec ex h) as [L|L].
        * split; [lia|]. split; [lia|]. split; [|exact I5].
          change ([(v, ex)] ++ flat_map (new1 patches reg h pe) l) with ((v, ex) :: flat_map (new1 patches reg h pe) l).
          unfold bal_of in *. cbn [map sum fst].
          assert (churn * (N.min h er' - er) = churn * (ex - er) + churn * (N.min h er' - ex)) as ->
            by (rewrite <- N.mul_add_distr_l; f_equal; lia). lia.
        * cbn [app]. rewrite (I2 L). unfold bal_of. cbn [map sum]. split; [lia|]. split; [reflexivity|]. split; [apply N.le_0_l|exact I5].
  Qed.

  Lemma patch_fold trusted h pe p er er' : validate_patch cs patches reg churn trusted er (pe, p) = Ok er' ->
    trusted <= pe /\ er <= er' /\
    (h < er -> new_exits patches reg h pe p = []) /\
    new_exit_balance patches reg h pe p <= churn + churn * (N.min h er' - er) /\
    (forall i ex, In (i, ex) (validator_exits p) -> exists v, bm_get reg i = Some v /\
       (previous_exit patches v i pe = ex \/ (previous_exit patches v i pe = far_future_epoch cs /\ er <= ex <= er'))).
  Proof.
    unfold validate_patch. intros H. apply bind_ok in H as ([] & A & H). apply assert_ok in A. apply N.leb_le in A.
    apply bind_ok in H as ([b1 er1] & F & H). injection H as ->.
    apply (exits_fold pe h) in F as (F1 & F2 & F3 & F4).
    destruct (bal_flat_perm (new1 patches reg h pe) _ _ (sort_exits_perm (validator_exits p))) as [P1 P2].
    unfold new_exit_balance. change (new_exits patches reg h pe p) with (flat_map (new1 patches reg h pe) (validator_exits p)).
    fold (bal_of (flat_map (new1 patches reg h pe) (validator_exits p))). rewrite P1.
    split; [auto|]. split; [auto|]. split; [intros; apply P2; auto|]. split; [auto|].
    intros i ex Hi. apply F4. eapply Permutation_in; [apply sort_exits_perm|auto].
  Qed.

  Lemma patches_fold trusted : forall l er er',
    fold_outcome (validate_patch cs patches reg churn trusted) l er = Ok er' -> er <= er' /\
    forall pe p, In (pe, p) l -> exists s s', er <= s /\ s' <= er' /\ validate_patch cs patches reg churn trusted s (pe, p) = Ok s'.
  Proof.
    induction l as [|[pe p] l IH]; intros er er' H; cbn [fold_outcome] in H.
    - injection H as ->. split; [lia|contradiction].
    - apply bind_ok in H as (s & H1 & H2). apply IH in H2 as [I1 I2].
      pose proof (patch_fold _ 0 _ _ _ _ H1) as (_ & P & _). split; [lia|].
      intros pe' p' [[= <- <-]|Hi].
      + exists er, s. repeat split; auto; lia.
      + destruct (I2 _ _ Hi) as (a & b & Q1 & Q2 & Q3). exists a, b. repeat split; auto; lia.
  Qed.

  Definition total_new h (l : bmap StatePatch) : N := sum (map (fun ep => new_exit_balance patches reg h (fst ep) (snd ep)) l).
  Definition nonempty h (ep : N * StatePatch) : bool := match new_exits patches reg h (fst ep) (snd ep) with [] => false | _ => true end.
  Lemma patches_total trusted h : forall l er er',
    fold_outcome (validate_patch cs patches reg churn trusted) l er = Ok er' ->
    (h < er -> total_new h l = 0) /\
    total_new h l <= churn * (N.of_nat (length (filter (nonempty h) l)) + (h - er)).
  Proof.
    induction l as [|[pe p] l IH]; intros er er' H; cbn [fold_outcome] in H.
    - cbn. split; [reflexivity|apply N.le_0_l].
    - apply bind_ok in H as (s & H1 & H2). apply IH in H2 as [I1 I2].
      pose proof (patch_fold _ h _ _ _ _ H1) as (_ & P1 & P2 & P3 & _).
      unfold total_new in *. cbn [map sum filter fst snd].
      assert (Z : new_exits patches reg h pe p = [] -> new_exit_balance patches reg h pe p = 0).
      { unfold new_exit_balance. now intros ->. }
      split. { intros L. rewrite I1 by lia. rewrite Z; auto. }
      unfold nonempty at 1. cbn [fst snd]. destruct (new_exits patches reg h pe p) as [|x r] eqn:E.
      + rewrite Z by auto. destruct (N.ltb_spec h s) as [L|L].
        * rewrite I1 by auto. apply N.le_0_l.
        * etransitivity; [exact I2|]. apply N.mul_le_mono_l. lia.
      + cbn [List.length]. destruct (N.ltb_spec h s) as [L|L].
        * rewrite I1 by auto.
          assert (churn + churn * (N.min h s - er) <= churn * (N.of_nat (S (length (filter (nonempty h) l))) + (h - er))).
          { rewrite <- (N.mul_1_r churn) at 1. rewrite <- N.mul_add_distr_l. apply N.mul_le_mono_l. lia. }
          lia.
        * assert (churn + churn * (N.min h s - er) + churn * (N.of_nat (length (filter (nonempty h) l)) + (h - s)) =
                  churn * (N.of_nat (S (length (filter (nonempty h) l))) + (h - er))).
          { rewrite <- (N.mul_1_r churn) at 1. rewrite <- !N.mul_add_distr_l. f_equal. lia. }
          lia.
  Qed.
End Fold.

Lemma churn_ok cs total c : get_balance_churn_limit cs total = Ok c -> c = churn_limit cs total.
Proof.
  unfold get_balance_churn_limit, safe_div, safe_rem, safe_sub, churn_limit.
  destruct (N.eqb_spec (churn_limit_quotient cs) 0); [discriminate|]. cbn [bind].
  destruct (N.eqb_spec (effective_balance_increment cs) 0); [discriminate|]. cbn [bind].
  destruct (_ <=? _); [|discriminate]. now intros [= <-].
Qed.
Definition active_at_l (reg : bmap ValidatorInfo) (e : Epoch) : list (N * ValidatorInfo) :=
  filter (fun kv => is_active_at (snd kv) e) reg.
Lemma patch_params_ok cs trusted si reg churn er : patch_params cs trusted si reg = Ok (churn, er) ->
  churn = 2 * churn_limit cs (balance_of cs (active_at_l reg trusted)) /\
  er = N.max (N.min (si_earliest_exit_epoch si) (si_earliest_consolidation_epoch si)) (activation_exit_epoch cs trusted) /\
  activation_exit_epoch cs trusted < 2 ^ 64.
Proof.
  unfold patch_params. intros H. apply bind_ok in H as (t & H1 & H). apply bind_ok in H as (c & H2 & H).
  apply bind_ok in H as (ch & H3 & H). apply bind_ok in H as (act & H4 & H). injection H as <- <-.
  apply churn_ok in H2. apply act_exit_ok in H4 as [-> B].
  replace (filter (fun v => is_active_at v trusted) (bm_values reg)) with (map snd (active_at_l reg trusted)) in H1.
  2:{ unfold active_at_l, bm_values. clear. induction reg as [|[k v] r IH]; simpl; auto. destruct (is_active_at v trusted); simpl; congruence. }
  apply total_balance_ok in H1 as [-> _]. subst c.
  unfold safe_mul in H3. destruct (_ <? _); [|discriminate]. injection H3 as <-. repeat split; auto. lia.
Qed.
Lemma validate_patches_ok cs patches trusted si reg u : validate_state_patches cs patches trusted si reg = Ok u ->
  exists churn er er', patch_params cs trusted si reg = Ok (churn, er) /\
    fold_outcome (validate_patch cs patches reg churn trusted) patches er = Ok er'.
Proof.
  unfold validate_state_patches. intros H. apply bind_ok in H as ([churn er] & H1 & H). apply bind_ok in H as (er' & H2 & _).
  eauto.
Qed.

(** A patched exit epoch is the registry's, or a new one that is not before the earliest allowed one. *)
Lemma patched_exit cs patches reg churn trusted er er' : 1 <= trusted -> bm_sorted patches ->
  fold_outcome (validate_patch cs patches reg churn trusted) patches er = Ok er' ->
  forall pe p i ex, In (pe, p) patches -> In (i, ex) (validator_exits p) ->
  exists v, bm_get reg i = Some v /\ (ex = exit_epoch v \/ (exit_epoch v = far_future_epoch cs /\ er <= ex)).
Proof.
  intros Ht Hs F. apply patches_fold in F as [_ F].
  intros pe. induction pe as [pe IH] using (well_founded_induction N.lt_wf_0). intros p i ex Hp Hi.
  destruct (F pe p Hp) as (s & s' & S1 & S2 & V).
  apply (patch_fold _ _ _ _ _ 0) in V as (T & _ & _ & _ & V). destruct (V i ex Hi) as (v & Hv & D). exists v. split; auto.
  assert (C : previous_exit patches v i pe = exit_epoch v \/
              (exit_epoch v = far_future_epoch cs /\ er <= previous_exit patches v i pe)).
  { unfold previous_exit. destruct (bm_get patches (pe - 1)) as [q|] eqn:Eq; auto.
    destruct (bm_get (validator_exits q) i) as [x|] eqn:Ex; auto.
    destruct (IH (pe - 1) ltac:(lia) q i x) as (w & Hw & D'); [now apply bm_get_in|now apply bm_get_in|].
    rewrite Hv in Hw. injection Hw as <-. exact D'. }
  destruct D as [D|[D1 D2]]; [rewrite <- D; auto|].
  right. split; [|lia]. destruct C as [C|[C _]]; congruence.
Qed.
Lemma patched_activity cs patches reg churn trusted er er' : 1 <= trusted -> bm_sorted patches ->
  fold_outcome (validate_patch cs patches reg churn trusted) patches er = Ok er' ->
  forall e i v, e < er -> bm_get reg i = Some v ->
  patch_is_active_validator (patch_at patches e) i v e = is_active_at v e.
Proof.
  intros Ht Hs F e i v He Hv. unfold patch_is_active_validator, patch_at.
  destruct (bm_get patches e) as [p|] eqn:Ep; [|reflexivity].
  destruct (bm_get (validator_exits p) i) as [x|] eqn:Ex; [|reflexivity].
  destruct (patched_exit _ _ _ _ _ _ _ Ht Hs F e p i x) as (w & Hw & D); try (now apply bm_get_in).
  rewrite Hv in Hw. injection Hw as <-. unfold is_active_at.
  destruct D as [-> |[D1 D2]].
  - destruct (e <? exit_epoch v), (activation_epoch v <=? e); reflexivity.
  - rewrite (proj2 (N.ltb_lt e x)) by lia. reflexivity.
Qed.

(** The order of exits with the same epoch does not matter. *)
Lemma validate_exit_swap cs patches reg churn pe st x y : snd x = snd y ->
  (s <- validate_exit cs patches reg churn pe st x ;; validate_exit cs patches reg churn pe s y) =
  (s <- validate_exit cs patches reg churn pe st y ;; validate_exit cs patches reg churn pe s x).
Proof.
  destruct x as [i ex], y as [j ex'], st as [b er]. cbn [snd]. intros <-. unfold validate_exit.
  assert (Z : forall c a, c < two64 -> wrap64 (c + wrap64 (sat_sub a a * churn)) = c).
  { intros c a Hc. unfold sat_sub, wrap64. rewrite N.sub_diag, N.mul_0_l, N.mod_0_l, N.add_0_r by discriminate. now apply N.mod_small. }
  assert (M : forall c, wrap64 c < two64) by (intros; unfold wrap64; now apply N.mod_lt).
  destruct (bm_get reg i) as [v|] eqn:Ei, (bm_get reg j) as [w|] eqn:Ej; cbn [expect bind]; try reflexivity.
  2-3: destruct (_ =? ex); [reflexivity|]; destruct (_ =? _); [|reflexivity]; destruct (er <=? ex); [|reflexivity];
       cbn [assert_ bind]; destruct (_ <=? _); reflexivity.
  set (pi := match bm_get patches (sat_sub pe 1) with Some p => _ | None => exit_epoch v end).
  set (pj := match bm_get patches (sat_sub pe 1) with Some p => _ | None => exit_epoch w end).
  destruct (pi =? ex) eqn:Pi, (pj =? ex) eqn:Pj; cbn [bind]; rewrite ?Pi, ?Pj; try reflexivity.
  - destruct (pj =? far_future_epoch cs); [|reflexivity]. destruct (er <=? ex); [|reflexivity]. cbn [assert_ bind].
    destruct (effective_balance w <=? _); reflexivity.
  - destruct (pi =? far_future_epoch cs); [|reflexivity]. destruct (er <=? ex); [|reflexivity]. cbn [assert_ bind].
    destruct (effective_balance v <=? _); reflexivity.
  - destruct (pi =? far_future_epoch cs) eqn:Fi, (pj =? far_future_epoch cs) eqn:Fj; cbn [assert_ bind]; try reflexivity.
    2,3: destruct (er <=? ex); cbn [assert_ bind]; try reflexivity; destruct (_ <=? _); reflexivity.
    destruct (er <=? ex); cbn [assert_ bind]; [|reflexivity].
    set (c := wrap64 (b + wrap64 (sat_sub ex er * churn))). assert (Hc : c < two64) by apply M. clearbody c.
    destruct (N.leb_spec (effective_balance v) c), (N.leb_spec (effective_balance w) c); cbn [assert_ bind]; rewrite ?Pi, ?Pj, ?Fi, ?Fj; cbn [assert_ bind];
      rewrite ?N.leb_refl; cbn [assert_ bind]; try reflexivity; rewrite ?Z by lia.
    + destruct (N.leb_spec (effective_balance w) (c - effective_balance v)), (N.leb_spec (effective_balance v) (c - effective_balance w));
        cbn [assert_ bind]; try reflexivity; try lia. do 2 f_equal. lia.
    + destruct (N.leb_spec (effective_balance w) (c - effective_balance v)); cbn [assert_ bind]; [lia|reflexivity].
    + destruct (N.leb_spec (effective_balance v) (c - effective_balance w)); cbn [assert_ bind]; [lia|reflexivity].
Qed.
Definition by_epoch (x y : N * Epoch) : Prop := snd x <= snd y.
Lemma fold_sorted_perm {E St} (f : St -> N * Epoch -> outcome E St)
  (Hf : forall s x y, snd x = snd y -> (t <- f s x ;; f t y) = (t <- f s y ;; f t x)) :
  forall l l' s, StronglySorted by_epoch l -> StronglySorted by_epoch l' -> Permutation l l' ->
  fold_outcome f l s = fold_outcome f l' s.
Proof.
  assert (Move : forall l1 x l2 s, Forall (fun y => snd y = snd x) l1 ->
            fold_outcome f (l1 ++ x :: l2) s = fold_outcome f (x :: l1 ++ l2) s).
  { induction l1 as [|y l1 IH]; intros x l2 s F; [reflexivity|]. inversion F; subst.
    cbn [app fold_outcome]. transitivity (t <- f s y ;; fold_outcome f (x :: l1 ++ l2) t).
    - destruct (f s y); cbn [bind]; auto.
    - cbn [fold_outcome]. specialize (Hf s y x H1). revert Hf.
      destruct (f s y) as [t| |], (f s x) as [u| |]; cbn [bind]; intros Hf;
        first [rewrite Hf; reflexivity | rewrite <- Hf; reflexivity | congruence]. }
  induction l as [|x l IH]; intros l' s S S' P.
  - apply Permutation_nil in P. now subst.
  - assert (In x l') as Hx by (eapply Permutation_in; [exact P|simpl; auto]).
    apply in_split in Hx as (l1 & l2 & ->).
    apply StronglySorted_inv in S as [S Fx]. rewrite Forall_forall in Fx.
    assert (P' : Permutation l (l1 ++ l2)) by (apply Permutation_cons_inv with (a := x); rewrite P; symmetry; apply Permutation_middle).
    rewrite Move.
    + cbn [fold_outcome]. destruct (f s x); cbn [bind]; auto. apply IH; auto.
      clear - S'. induction l1 as [|y l1 IH]; cbn [app] in *.
      * now apply StronglySorted_inv in S'.
      * apply StronglySorted_inv in S' as [A B]. constructor; auto. rewrite Forall_app in *. destruct B as [B1 B2]. split; auto. now inversion B2.
    + apply Forall_forall. intros y Hy.
      assert (snd x <= snd y). { apply Fx. eapply Permutation_in; [symmetry; exact P'|]. apply in_or_app; auto. }
      assert (snd y <= snd x). { clear - S' Hy. induction l1 as [|z l1 IH]; [easy|]. cbn [app] in S'. apply StronglySorted_inv in S' as [A B].
        destruct Hy as [<-|Hy]; [|auto]. rewrite Forall_forall in B. apply B. apply in_or_app. simpl. auto. }
      lia.
Qed.
Lemma sort_exits_sorted l : StronglySorted by_epoch (sort_exits l).
Proof.
  induction l as [|x l IH]; simpl; [constructor|]. revert IH. generalize (sort_exits l). clear l. intros l.
  induction l as [|y l IH]; intros S; simpl; [repeat constructor|].
  apply StronglySorted_inv in S as [S F]. destruct (N.leb_spec (snd x) (snd y)) as [L|L].
  - constructor; [constructor; auto|]. constructor; [exact L|]. rewrite Forall_forall in *. intros z Hz. specialize (F z Hz). unfold by_epoch in *. lia.
  - constructor; auto. rewrite Forall_forall in *. intros z Hz.
    assert (In z (x :: l)) as [<-|Hz'] by (eapply Permutation_in; [symmetry; apply insert_by_epoch_perm|auto]); [unfold by_epoch; lia|auto].
Qed.
