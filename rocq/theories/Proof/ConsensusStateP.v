From Coq Require Import List ZArith NArith Bool Lia.
From Coq Require Import ZifyBool ZifyNat ZifyN.
From Verif.Model Require Import Base Types ConsensusState.
From Verif.Spec Require Import FFG.
From Verif.Proof Require Import BaseLemmas.
Import ListNotations.
Open Scope N_scope.

Lemma cs_eqb_eq a b : cs_eqb a b = true <-> a = b.
Proof.
  unfold cs_eqb. rewrite andb_true_iff, !checkpoint_eqb_eq.
  destruct a, b; simpl. split; [intros [-> ->]; auto|now inversion 1].
Qed.
Lemma is_valid_iff s : is_valid s = true <-> valid_state s.
Proof.
  unfold is_valid, valid_state. rewrite orb_true_iff, cs_eqb_eq, N.ltb_lt. reflexivity.
Qed.
Lemma is_valid_false s : is_valid s = false <-> ~ valid_state s.
Proof. rewrite <- is_valid_iff. destruct (is_valid s); intuition congruence. Qed.

Lemma checkpoint_le_iff a b : checkpoint_le a b = true <-> cp_advances a b.
Proof. unfold checkpoint_le, cp_advances. rewrite orb_true_iff, checkpoint_eqb_eq, N.ltb_lt. reflexivity. Qed.

Ltac cp_case :=
  match goal with
  | H : context[checkpoint_eqb ?a ?b] |- _ =>
      let E := fresh "E" in destruct (checkpoint_eqb a b) eqn:E;
      [apply checkpoint_eqb_eq in E|apply checkpoint_eqb_neq in E]
  | |- context[checkpoint_eqb ?a ?b] =>
      let E := fresh "E" in destruct (checkpoint_eqb a b) eqn:E;
      [apply checkpoint_eqb_eq in E|apply checkpoint_eqb_neq in E]
  end.

Lemma state_transition_ok_iff s l s' :
  u64 (epoch (target l)) ->
  (state_transition s l = Ok s' <-> valid_state s /\ ffg_step s l s').
Proof.
  intros Hu. destruct l as [src tgt], s as [j f]; simpl in *. unfold u64 in Hu.
  unfold state_transition. rewrite <- is_valid_iff. destruct (is_valid (mkCS j f)) eqn:Ev; simpl.
  2:{ split; [discriminate|intros [? _]; discriminate]. }
  cp_case.
  - subst src. unfold safe_add. destruct (N.ltb_spec (epoch j + 1) two64) as [Hlt|Hge]; simpl.
    + destruct (N.eqb_spec (epoch tgt) (epoch j + 1)) as [Heq|Hne].
      * split; intros H.
        { inv_ok. split; auto. constructor; auto. }
        { destruct H as [_ H]. inversion H; subst; auto. lia. }
      * destruct (N.ltb_spec (epoch j + 1) (epoch tgt)) as [Hlt2|Hge2].
        { split; intros H.
          - inv_ok. split; auto. constructor; lia.
          - destruct H as [_ H]. inversion H; subst; auto. lia. }
        { split; [discriminate|]. intros [_ H]. inversion H; subst; lia. }
    + split; [discriminate|]. unfold two64 in *. intros [_ H]. inversion H; subst; lia.
  - split; [discriminate|]. intros [_ H]. inversion H; subst; congruence.
Qed.

Lemma state_transition_panic_iff s l : state_transition s l = Panic <-> ~ valid_state s.
Proof.
  rewrite <- is_valid_false. unfold state_transition.
  destruct (is_valid s); simpl; [|tauto].
  split; [|discriminate]. cp_case; simpl; [|discriminate].
  rewrite E. unfold safe_add. destruct (epoch (source l) + 1 <? two64); simpl; [|discriminate].
  destruct (_ =? _); [discriminate|].
  destruct (_ <? epoch (target l)); discriminate.
Qed.

Lemma state_transition_overflow_iff s l :
  state_transition s l = Err (CArith Overflow) <->
  valid_state s /\ current_justified s = source l /\ 2 ^ 64 <= epoch (source l) + 1.
Proof.
  rewrite <- is_valid_iff. unfold state_transition.
  destruct (is_valid s); simpl; [|split; [discriminate|intros [? _]; discriminate]].
  cp_case; simpl.
  - rewrite E. unfold safe_add. destruct (N.ltb_spec (epoch (source l) + 1) two64); simpl.
    + unfold two64 in *. split.
      * destruct (_ =? _); [discriminate|]. destruct (N.ltb_spec (epoch (source l) + 1) (2^64)); simpl; [|lia].
        destruct (_ <? _); discriminate.
      * intros (_ & _ & ?). lia.
    + unfold two64 in *. intuition.
  - split; [discriminate|]. intros (_ & ? & _). congruence.
Qed.

Lemma state_transition_invalid_iff s l :
  state_transition s l = Err InvalidTransition <->
  valid_state s /\
  (current_justified s <> source l \/
   (epoch (target l) <= epoch (source l) /\ epoch (source l) + 1 < 2 ^ 64)).
Proof.
  rewrite <- is_valid_iff. unfold state_transition.
  destruct (is_valid s); simpl; [|split; [discriminate|intros [? _]; discriminate]].
  cp_case; simpl.
  - rewrite E. unfold safe_add, two64. destruct (N.ltb_spec (epoch (source l) + 1) (2^64)); simpl.
    + destruct (N.eqb_spec (epoch (target l)) (epoch (source l) + 1)).
      * split; [discriminate|]. intros (_ & [?|[? ?]]); [congruence|lia].
      * destruct (N.ltb_spec (epoch (source l) + 1) (2^64)); simpl; [|lia].
        destruct (N.ltb_spec (epoch (source l) + 1) (epoch (target l))).
        { split; [discriminate|]. intros (_ & [?|[? ?]]); [congruence|lia]. }
        { split; auto. intros _. split; auto. right; lia. }
    + split; [discriminate|]. intros (_ & [?|[? ?]]); [congruence|lia].
  - split; auto.
Qed.

Lemma ffg_step_valid s l s' : valid_state s -> ffg_step s l s' -> valid_state s'.
Proof.
  intros Hv H. inversion H; subst; left; simpl; destruct Hv as [Hv|Hv]; simpl in *; try lia;
  inversion Hv; subst; simpl; lia.
Qed.
Lemma ffg_run_valid s ls s' : valid_state s -> ffg_run s ls s' -> valid_state s'.
Proof. intros Hv H. induction H; auto. apply IHffg_run. eapply ffg_step_valid; eauto. Qed.

Lemma ffg_step_mono s l s' : ffg_step s l s' -> valid_state s ->
  epoch (current_justified s) < epoch (current_justified s') /\
  epoch (finalized s) <= epoch (finalized s').
Proof.
  intros H Hv. inversion H; subst; simpl.
  - destruct Hv as [Hv|Hv]; [simpl in Hv; lia|inversion Hv; subst; simpl in *; lia].
  - lia.
Qed.
Lemma ffg_run_mono s ls s' : ffg_run s ls s' -> valid_state s ->
  epoch (current_justified s) + N.of_nat (length ls) <= epoch (current_justified s') /\
  epoch (finalized s) <= epoch (finalized s').
Proof.
  induction 1; intros Hv; simpl; [lia|].
  pose proof (ffg_step_mono _ _ _ H Hv). pose proof (ffg_step_valid _ _ _ Hv H) as Hv1.
  specialize (IHffg_run Hv1). lia.
Qed.
Lemma ffg_step_det s l s1 s2 : ffg_step s l s1 -> ffg_step s l s2 -> s1 = s2.
Proof. intros H1 H2. inversion H1; subst; inversion H2; subst; auto; lia. Qed.
Lemma ffg_run_app s l1 l2 s' : ffg_run s (l1 ++ l2) s' <-> exists m, ffg_run s l1 m /\ ffg_run m l2 s'.
Proof.
  revert s. induction l1; simpl; intros s; split; intros H.
  - exists s. split; auto. constructor.
  - destruct H as (m & H1 & H2). inversion H1; subst; auto.
  - inversion H; subst. apply IHl1 in H5 as (m & ? & ?). exists m. split; auto. econstructor; eauto.
  - destruct H as (m & H1 & H2). inversion H1; subst. econstructor; eauto. apply IHl1; eauto.
Qed.

(** Applying a list of links with [state_transition]. *)
Definition apply_links (s : ConsensusState) (ls : list Link) := fold_outcome state_transition ls s.
Lemma apply_links_ok_iff s ls s' : valid_state s -> Forall (fun l => u64 (epoch (target l))) ls ->
  (apply_links s ls = Ok s' <-> ffg_run s ls s').
Proof.
  revert s. induction ls as [|l ls IH]; intros s Hv Hu; unfold apply_links; simpl.
  - split; intros H; [inv_ok; constructor|inversion H; subst; auto].
  - inversion Hu; subst. split; intros H.
    + inv_ok. apply state_transition_ok_iff in H0 as [_ H0]; auto. econstructor; eauto.
      apply IH; auto. eapply ffg_step_valid; eauto.
    + inversion H; subst. assert (state_transition s l = Ok s1) as ->.
      { apply state_transition_ok_iff; auto. }
      simpl. apply IH; auto. eapply ffg_step_valid; eauto.
Qed.

(** ** transition_link *)
Lemma transition_link_none_iff s o :
  transition_link s o = Ok None <-> valid_state s /\ s = o.
Proof.
  unfold transition_link. rewrite <- is_valid_iff.
  destruct (is_valid s) eqn:Ev; simpl; [|split; [discriminate|intros [? _]; discriminate]].
  split.
  - intros H. inv_ok. cp_case.
    + inv_ok. match goal with H : checkpoint_eqb _ _ = true |- _ => apply checkpoint_eqb_eq in H end.
      destruct s, o; simpl in *; subst; auto.
    + destruct (negb _); [|inv_ok; discriminate].
      destruct (_ && _); [discriminate|destruct (_ =? 2); discriminate].
  - intros [_ <-]. rewrite Ev; simpl. unfold cs_less_or_equal, checkpoint_le.
    rewrite !checkpoint_eqb_refl, !orb_true_r. reflexivity.
Qed.

Lemma transition_link_some_iff s o l :
  transition_link s o = Ok (Some l) <->
  valid_state s /\ ffg_step s l o /\ ~ (s = genesis_state /\ epoch (target l) = 1).
Proof.
  unfold transition_link. rewrite <- is_valid_iff.
  destruct (is_valid s) eqn:Ev; simpl; [|split; [discriminate|intros [? _]; discriminate]].
  apply is_valid_iff in Ev. destruct s as [j f], o as [t g]; simpl in *.
  split.
  - intros H. inv_ok. unfold cs_less_or_equal in H1; simpl in H1.
    apply is_valid_iff in H0. cp_case; [inv_ok; discriminate|].
    cp_case; simpl in H.
    + inv_ok. match goal with H : (1 <? _) = true |- _ => apply N.ltb_lt in H; unfold sat_sub in H end.
      split; auto.  split.
      * constructor. lia.
      * intros [Hg He]. inversion Hg; subst. simpl in *. lia.
    + cp_case; simpl in H.
      * subst g. destruct (N.eqb_spec (sat_sub (epoch t) (epoch j)) 1) as [e|e]; simpl in H.
        { unfold sat_sub in e. inv_ok. split; auto. split.
          - constructor. lia.
          - intros [Hg He]. inversion Hg; subst. congruence. }
        { destruct (_ =? 2); discriminate. }
      * destruct (_ =? 2); discriminate.
  - intros (_ & Hst & Hg). pose proof (ffg_step_valid _ _ _ Ev Hst) as Hvo.
    rewrite (proj2 (is_valid_iff _) Hvo). simpl.
    inversion Hst; subst; simpl in *.
    + (* finalize *)
      destruct Ev as [Hlt|Hgen].
      2:{ exfalso. apply Hg. split; auto. inversion Hgen; subst; simpl in *; auto. }
      simpl in Hlt.
      assert (cs_less_or_equal (mkCS g f) (mkCS t g) = true) as ->.
      { unfold cs_less_or_equal, checkpoint_le; simpl. apply andb_true_iff; split; apply orb_true_iff; left; apply N.ltb_lt; lia. }
      simpl. cp_case; [subst; lia|]. cp_case; [subst; lia|]. simpl.
      rewrite checkpoint_eqb_refl. unfold sat_sub.
      replace (epoch t - epoch g =? 1) with true by (symmetry; apply N.eqb_eq; lia). reflexivity.
    + assert (cs_less_or_equal (mkCS j g) (mkCS t g) = true) as ->.
      { unfold cs_less_or_equal, checkpoint_le; simpl. rewrite checkpoint_eqb_refl, orb_true_r. simpl.
        apply orb_true_iff; left; apply N.ltb_lt; lia. }
      simpl. cp_case; [subst; lia|]. rewrite checkpoint_eqb_refl. simpl. unfold sat_sub.
      replace (1 <? epoch t - epoch j) with true by (symmetry; apply N.ltb_lt; lia). reflexivity.
Qed.

Lemma transition_link_panic_iff s o : transition_link s o = Panic <-> ~ valid_state s.
Proof.
  rewrite <- is_valid_false. unfold transition_link.
  destruct (is_valid s); simpl; [|tauto]. split; [|discriminate].
  destruct (is_valid o); simpl; [|discriminate].
  destruct (cs_less_or_equal s o); simpl; [|discriminate].
  destruct (checkpoint_eqb (current_justified s) (current_justified o)); simpl.
  - destruct (checkpoint_eqb (finalized s) (finalized o)); discriminate.
  - destruct (negb _); [destruct (_ && _); [discriminate|destruct (_ =? 2); discriminate]|].
    destruct (_ <? _); discriminate.
Qed.

Lemma transition_link_two_finality_iff s o :
  transition_link s o = Err TwoFinality <->
  valid_state s /\ valid_state o /\
  cp_advances (finalized s) (finalized o) /\ cp_advances (current_justified s) (current_justified o) /\
  current_justified s <> current_justified o /\ finalized s <> finalized o /\
  epoch (current_justified o) = epoch (finalized o) + 2.
Proof.
  rewrite <- !checkpoint_le_iff, <- !is_valid_iff.
  unfold transition_link. destruct (is_valid s); simpl; [|split; [discriminate|intros (?&_); discriminate]].
  destruct (is_valid o); simpl; [|split; [discriminate|intros (_&?&_); discriminate]].
  unfold cs_less_or_equal.
  destruct (checkpoint_le (finalized s) (finalized o)); simpl; [|split; [discriminate|intros (_&_&?&_); discriminate]].
  destruct (checkpoint_le (current_justified s) (current_justified o)); simpl; [|split; [discriminate|intros (_&_&_&?&_); discriminate]].
  cp_case.
  { destruct (checkpoint_eqb _ _); simpl; split; try discriminate; intros; intuition congruence. }
  cp_case; simpl.
  { destruct (_ <? _); simpl; split; try discriminate; intros; intuition congruence. }
  unfold sat_sub.
  destruct (checkpoint_eqb (finalized o) (current_justified s)
            && (epoch (current_justified o) - epoch (finalized o) =? 1)) eqn:E1.
  { split; [discriminate|]. intros. apply andb_true_iff in E1 as [_ E1]. lia. }
  destruct (N.eqb_spec (epoch (current_justified o) - epoch (finalized o)) 2).
  - split; auto. intros _. repeat split; auto. lia.
  - split; [discriminate|]. intros. lia.
Qed.

(** From [verify]'s perspective: runs where only the last step changes finality. *)
Lemma af_run c ls f t fin0 :
  atomic_finalization c ls f t -> ffg_run (mkCS c fin0) ls (mkCS t f).
Proof.
  intros H. revert fin0. induction H; intros.
  - eapply run_cons; [apply ffg_finalize; auto|apply run_nil].
  - eapply run_cons; [apply ffg_justify; auto|apply IHatomic_finalization].
Qed.
