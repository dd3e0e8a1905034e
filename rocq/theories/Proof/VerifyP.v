From Coq Require Import List ZArith NArith Bool Lia Sorted Permutation.
From Coq Require Import ZifyBool ZifyNat ZifyN.
From Verif.Model Require Import Base Types ConsensusState TreeHash Committee Verify.
From Verif.Spec Require Import FFG Committees Ssz VerifySpec.
From Verif.Proof Require Import BaseLemmas ConsensusStateP CommitteeP.
Import ListNotations.
Open Scope N_scope.

(** ** State transitions *)
Lemma state_transition_sound s l s' : state_transition s l = Ok s' -> valid_state s /\ ffg_step s l s'.
Proof.
  destruct l as [src tgt], s as [j f]. unfold state_transition. rewrite <- is_valid_iff.
  destruct (is_valid (mkCS j f)) eqn:Ev; cbn [assert_ bind]; [|discriminate]. cbn [current_justified finalized source target].
  destruct (checkpoint_eqb j src) eqn:Ec; cbn [bind]; [|discriminate]. apply checkpoint_eqb_eq in Ec. subst src.
  unfold safe_add. destruct (N.ltb_spec (epoch j + 1) two64); cbn [bind]; [|discriminate].
  destruct (N.eqb_spec (epoch tgt) (epoch j + 1)).
  - intros E; inv_ok. split; auto. now apply ffg_finalize.
  - destruct (N.ltb_spec (epoch j + 1) (epoch tgt)); [|discriminate].
    intros E; inv_ok. split; auto. apply ffg_justify. lia.
Qed.

(** ** Grouping *)
Lemma att_link_of a : att_link a = link_of a.
Proof. reflexivity. Qed.
Lemma chunk_head_key l k g gs : chunk_by_link l = (k, g) :: gs -> exists a r, l = a :: r /\ k = att_link a.
Proof.
  destruct l as [|a r]; simpl; [discriminate|]. intros E. exists a, r. split; auto.
  destruct (chunk_by_link r) as [|[k' g'] gs']; [congruence|].
  destruct (link_eqb (att_link a) k') eqn:El; [apply link_eqb_eq in El|]; congruence.
Qed.
Lemma chunk_groups l : groups l (chunk_by_link l).
Proof.
  induction l as [|a r IH]; simpl.
  - repeat split; constructor.
  - destruct IH as (H1 & H2 & H3). destruct (chunk_by_link r) as [|[k g] gs] eqn:E.
    + simpl in H1. subst r. repeat split; simpl; auto. constructor; [|constructor]. split; simpl; [discriminate|]. intros b [<-|[]]; reflexivity.
    + destruct (link_eqb (att_link a) k) eqn:El.
      * apply link_eqb_eq in El. repeat split.
        { simpl in *. now f_equal. }
        { inversion H2; subst. constructor; auto. destruct H4 as [Hn Hk]. split; simpl in *; [discriminate|].
          intros b [<-|Hb]; auto. }
        { exact H3. }
      * apply link_eqb_neq in El. repeat split.
        { simpl in *. now f_equal. }
        { constructor; auto. split; simpl; [discriminate|]. intros b [<-|[]]; reflexivity. }
        { exact El. }
        { exact H3. }
Qed.
Lemma groups_unique : forall gs1 gs2 l, groups l gs1 -> groups l gs2 -> gs1 = gs2.
Proof.
  assert (G : forall l gs, groups l gs -> gs = chunk_by_link l).
  { induction l as [|a r IH]; intros gs (H1 & H2 & H3).
    - destruct gs as [|[k [|b g]] gs]; auto; [|discriminate]. inversion H2; subst. destruct H4 as [[] _]; auto.
    - destruct gs as [|[k [|b g]] gs]; [discriminate| |].
      { inversion H2; subst. destruct H4 as [[] _]; auto. }
      simpl in H1. injection H1 as -> H1. inversion H2; subst. destruct H4 as [_ Hk]. simpl in Hk.
      assert (k = att_link a) as -> by (symmetry; apply Hk; auto).
      simpl. destruct g as [|b g].
      + simpl in *. rewrite <- (IH gs).
        2:{ repeat split; auto. destruct gs as [|x gs]; simpl in *; tauto. }
        destruct gs as [|[k' g'] gs]; auto. destruct (link_eqb (att_link a) k') eqn:El; auto.
        apply link_eqb_eq in El. simpl in H3. destruct H3 as [[] _]. auto.
      + rewrite <- (IH ((att_link a, b :: g) :: gs)).
        * now rewrite (proj2 (link_eqb_eq _ _) eq_refl).
        * repeat split; auto. constructor; auto. split; simpl; [discriminate|]. intros c Hc. apply Hk. simpl. tauto. }
  intros. rewrite (G l gs1), (G l gs2); auto.
Qed.
Lemma groups_chunk l gs : groups l gs -> chunk_by_link l = gs.
Proof. intros. eapply groups_unique; eauto. apply chunk_groups. Qed.

(** ** Active set *)
Lemma bm_sorted_keys {V} (m : bmap V) : bm_sorted m <-> StronglySorted N.lt (map fst m).
Proof.
  unfold bm_sorted. induction m as [|[k v] m IH]; simpl.
  - split; constructor.
  - split; intros H; apply StronglySorted_inv in H as [H1 H2]; constructor; try (apply IH; auto).
    + rewrite Forall_map. exact H2.
    + rewrite Forall_map in H2. exact H2.
Qed.
Lemma bm_of_list_snoc {V} (l : list (N * V)) x : bm_of_list (l ++ [x]) = bm_insert (bm_of_list l) (fst x) (snd x).
Proof. unfold bm_of_list. now rewrite fold_left_app. Qed.
Lemma bm_of_list_get {V} (l : list (N * V)) i :
  bm_get (bm_of_list l) i = option_map snd (find (fun x => fst x =? i) (rev l)).
Proof.
  induction l as [|x l IH] using rev_ind; [reflexivity|].
  rewrite bm_of_list_snoc, bm_get_insert by apply bm_of_list_sorted. rewrite rev_app_distr. simpl.
  rewrite (N.eqb_sym (fst x) i). destruct (i =? fst x); auto.
Qed.
Lemma find_fst {V} (l : list (N * V)) i x : find (fun x => fst x =? i) l = Some x -> fst x = i.
Proof. intros H. apply find_some in H as [_ H]. now apply N.eqb_eq in H. Qed.
Lemma active_set_of_list (l : list (N * ValidatorInfo)) : active_set l (bm_of_list l).
Proof.
  split; [apply bm_sorted_keys, bm_of_list_sorted|]. intros i v.
  rewrite <- bm_get_iff by apply bm_of_list_sorted. rewrite bm_of_list_get.
  destruct (find (fun x => fst x =? i) (rev l)) as [[j w]|] eqn:E; simpl; split; intros H; try discriminate.
  - apply find_fst in E. simpl in E. congruence.
  - congruence.
Qed.
Lemma sorted_set_unique {V} (a b : list (N * V)) :
  StronglySorted N.lt (map fst a) -> StronglySorted N.lt (map fst b) ->
  (forall x, In x a <-> In x b) -> a = b.
Proof.
  revert b. induction a as [|x a IH]; intros [|y b] Ha Hb E; auto.
  - destruct (proj2 (E y)); simpl; auto.
  - destruct (proj1 (E x)); simpl; auto.
  - simpl in *. apply StronglySorted_inv in Ha as [Ha La]. apply StronglySorted_inv in Hb as [Hb Lb].
    rewrite Forall_map, Forall_forall in La, Lb.
    assert (x = y) as ->.
    { destruct (proj1 (E x)) as [|Hx]; auto. destruct (proj2 (E y)) as [|Hy]; auto.
      apply Lb in Hx. apply La in Hy. lia. }
    f_equal. apply IH; auto. intros z. split; intros Hz.
    + destruct (proj1 (E z)) as [<-|]; auto. apply La in Hz. lia.
    + destruct (proj2 (E z)) as [<-|]; auto. apply Lb in Hz. lia.
Qed.
Lemma active_set_unique l av : active_set l av -> av = bm_of_list l.
Proof.
  intros [H1 H2]. destruct (active_set_of_list l) as [G1 G2]. apply sorted_set_unique; auto.
  intros [i v]. rewrite H2, G2. tauto.
Qed.

(** ** Balances *)
Lemma weight_perm a b : Permutation a b -> weight a = weight b.
Proof. induction 1; simpl; lia. Qed.
Lemma weight_app a b : weight (a ++ b) = weight a + weight b.
Proof. induction a; simpl; lia. Qed.
Lemma sum_balances_ok {E} (f : ArithError -> E) vs acc t :
  sum_balances f (map snd vs) acc = Ok t <-> t = acc + weight vs /\ (vs = [] \/ acc + weight vs < 2 ^ 64).
Proof.
  unfold sum_balances. revert acc t. induction vs as [|v vs IH]; intros acc t; simpl.
  - split; [intros; inv_ok; split; [lia|auto]|intros [-> _]; f_equal; lia].
  - rewrite bind_ok. split.
    + intros (a & Ha & H). apply safe_add_ok in Ha as [-> Ha]. apply IH in H as [-> H].
      split; [lia|]. right. unfold two64 in Ha. destruct H as [->|H]; simpl; lia.
    + intros [-> [|H]]; [discriminate|]. exists (acc + effective_balance (snd v)). split.
      * apply safe_add_ok. split; auto. unfold two64. lia.
      * apply IH. split; [lia|]. right. lia.
Qed.
Lemma total_balance_ok {E} (f : ArithError -> E) cs vs t :
  get_total_balance f cs (map snd vs) = Ok t <-> t = balance_of cs vs /\ weight vs < 2 ^ 64.
Proof.
  unfold get_total_balance, balance_of. rewrite bind_ok. split.
  - intros (a & Ha & H). apply sum_balances_ok in Ha as [-> Ha]. inv_ok. split; [lia|].
    destruct Ha as [->|]; simpl; lia.
  - intros [-> H]. exists (weight vs). split; [apply sum_balances_ok; split; [lia|right; lia]|]. f_equal. lia.
Qed.
Lemma filter_map_snd (vs : list (N * ValidatorInfo)) :
  filter (fun v => negb (slashed v)) (map snd vs) = map snd (unslashed vs).
Proof. unfold unslashed. induction vs; simpl; auto. destruct (negb _); simpl; congruence. Qed.
Lemma bm_values_snd {V} (m : bmap V) : bm_values m = map snd m.
Proof. reflexivity. Qed.
Lemma bm_keys_fst {V} (m : bmap V) : bm_keys m = map fst m.
Proof. reflexivity. Qed.

(** Look-ups of indices in a map. *)
Lemma lookups_ok {E} (g : N -> E) (av : bmap ValidatorInfo) idxs vs :
  map_outcome (fun i => ok_or (bm_get av i) (g i)) idxs = Ok vs <->
  Forall2 (fun i v => bm_get av i = Some v) idxs vs.
Proof.
  rewrite map_outcome_ok. split; intros H; induction H; constructor; auto; now apply ok_or_ok in H || now apply ok_or_ok.
Qed.
Lemma lookups_expect_ok {E} (av : bmap ValidatorInfo) idxs vs :
  map_outcome (fun i => @expect E _ (bm_get av i)) idxs = Ok vs <->
  Forall2 (fun i v => bm_get av i = Some v) idxs vs.
Proof.
  rewrite map_outcome_ok. split; intros H; induction H; constructor; auto; now apply expect_ok in H || now apply expect_ok.
Qed.
Lemma lookups_combine (av : bmap ValidatorInfo) idxs vs : Forall2 (fun i v => bm_get av i = Some v) idxs vs ->
  map fst (combine idxs vs) = idxs /\ map snd (combine idxs vs) = vs /\ incl (combine idxs vs) av.
Proof.
  induction 1 as [|i v idxs vs H F (I1 & I2 & I3)]; simpl; [repeat split; auto; intros ? []|].
  rewrite I1, I2. repeat split; auto. intros x [<-|Hx]; auto. now apply bm_get_in.
Qed.
Lemma lookups_of_signers (av : bmap ValidatorInfo) signers : bm_sorted av -> incl signers av ->
  Forall2 (fun i v => bm_get av i = Some v) (map fst signers) (map snd signers).
Proof.
  intros Hs. induction signers as [|[i v] r IH]; intros Hi; simpl; constructor.
  - apply bm_get_iff; auto. apply Hi. simpl; auto.
  - apply IH. intros x Hx. apply Hi. simpl; auto.
Qed.

(** ** One attestation *)
Lemma signing_root_spec H d dom : signing_root H d dom = attestation_signing_root H d dom.
Proof. reflexivity. Qed.
Lemma attester_domain_spec H cs e f gvr :
  get_attester_domain H cs e f gvr = domain H (domain_beacon_attester cs) (version_at f e) gvr.
Proof. reflexivity. Qed.
Lemma process_attestation_sound X R av c a idxs : bm_sorted av ->
  process_attestation X R av c a = Ok idxs ->
  exists f gvr signers,
    rd_fork R (epoch (ad_target (att_data a))) = Ok f /\ rd_genesis_validators_root R = Ok gvr /\
    map fst signers = idxs /\ bs_sorted idxs /\
    get_attesting_indices X (rd_chain_spec R) c a = Ok idxs /\
    aggregate_ok X (rd_chain_spec R) f gvr av (link_of a) a signers.
Proof.
  intros Hs E. unfold process_attestation in E. inv_ok.
  match goal with H : (_ =? epoch_of_slot _ _) = true |- _ => apply N.eqb_eq in H; rename H into Hslot end.
  match goal with H : (ad_index _ =? 0) = true |- _ => apply N.eqb_eq in H; rename H into Hidx end.
  match goal with H : map_outcome _ _ = Ok _ |- _ => apply lookups_ok in H; rename H into Hl end.
  match goal with H : is_valid_indexed_attestation _ _ _ _ _ = Ok _ |- _ => rename H into Hv end.
  match goal with H : get_attesting_indices _ _ _ _ = Ok _ |- _ => rename H into Hg end.
  unfold is_valid_indexed_attestation in Hv. destruct x3 as [|v0 vr]; [discriminate|]. inv_ok.
  apply lookups_combine in Hl as (L1 & L2 & L3).
  pose proof (proj1 (get_attesting_indices_iff _ _ _ _ _) Hg) as (_ & _ & _ & Hsorted & _).
  match goal with Hf : rd_fork R _ = Ok ?f, Hg : rd_genesis_validators_root R = Ok ?g |- _ => exists f, g end.
  exists (combine idxs (v0 :: vr)). split; [assumption|]. split; [assumption|]. split; [exact L1|].
  split; [exact Hsorted|]. split; [exact Hg|]. split; try reflexivity; try assumption.
  - symmetry. exact Hslot.
  - split; [|split].
    + intros E. rewrite E in L2. discriminate.
    + rewrite L1. now apply bs_sorted_NoDup.
    + exact L3.
  - rewrite <- (map_map snd pubkey), L2. rewrite <- signing_root_spec, <- attester_domain_spec. cbn [map link_of target]. congruence.
Qed.

Lemma process_attestation_complete X R av c a f gvr signers l e sh cps :
  bm_sorted av -> cache_ok X (rd_chain_spec R) c e sh cps -> e = epoch (target l) ->
  rd_fork R (epoch (target l)) = Ok f -> rd_genesis_validators_root R = Ok gvr ->
  bits_well_formed sh (slots_per_epoch (rd_chain_spec R)) cps a ->
  aggregate_ok X (rd_chain_spec R) f gvr av l a signers ->
  StronglySorted N.lt (map fst signers) ->
  (forall i, In i (map fst signers) <-> In i (attesters_of sh (slots_per_epoch (rd_chain_spec R)) cps a)) ->
  process_attestation X R av c a = Ok (map fst signers).
Proof.
  intros Hs Hok He Hf Hg Hw [G1 G2 G3 G4 G5 (G6 & G7 & G8) G9] Hsort Hin. unfold process_attestation.
  rewrite G1, G3, G5, N.eqb_refl. unfold epoch_of_slot. rewrite G4, N.eqb_refl. cbn [assert_ bind].
  assert (get_attesting_indices X (rd_chain_spec R) c a = Ok (map fst signers)) as ->.
  { eapply get_attesting_indices_spec; eauto. unfold epoch_of_slot. congruence. }
  cbn [map_err bind].
  rewrite (proj2 (lookups_ok _ av (map fst signers) (map snd signers)) (lookups_of_signers av signers Hs G8)).
  cbn [bind]. unfold is_valid_indexed_attestation.
  destruct (map snd signers) as [|v0 vr] eqn:Ev; [destruct signers; [easy|discriminate]|].
  rewrite G3, Hf, Hg. cbn [map_err bind]. rewrite <- Ev, map_map, signing_root_spec, attester_domain_spec, G9. reflexivity.
Qed.

(** ** A group *)
Definition agg (X : Externals) (R : Reader) (av : validators) (l : Link) (a : Attestation) (s : validators) : Prop :=
  exists f gvr, rd_fork R (epoch (target l)) = Ok f /\ rd_genesis_validators_root R = Ok gvr /\
    aggregate_ok X (rd_chain_spec R) f gvr av l a s.
Definition step_att X R av c := fun acc a => idxs <- process_attestation X R av c a ;; Ok (bs_extend acc idxs).
Lemma process_group_sound X R av c l atts : bm_sorted av -> (forall a, In a atts -> link_of a = l) ->
  forall acc P, fold_outcome (step_att X R av c) atts acc = Ok P -> bs_sorted acc ->
  bs_sorted P /\ exists sets, Forall2 (fun a s => agg X R av l a s /\
      get_attesting_indices X (rd_chain_spec R) c a = Ok (map fst s)) atts sets /\
    forall i, In i P <-> In i acc \/ exists s, In s sets /\ In i (map fst s).
Proof.
  intros Hs. induction atts as [|a atts IH]; intros Hl acc P E Ha.
  - simpl in E. inv_ok. split; auto. exists []. split; [constructor|]. intros i. split; auto. intros [|(s & [] & _)]; auto.
  - cbn [fold_outcome] in E. unfold step_att in E at 1. inv_ok.
    match goal with H : process_attestation _ _ _ _ _ = Ok ?x |- _ => apply process_attestation_sound in H; auto; rename x into idxs; destruct H as (f & gvr & sg & Hf & Hg & Hidx & Hsi & Hgai & Hagg) end.
    assert (link_of a = l) as El by (apply Hl; simpl; auto).
    apply IH in E; [|intros; apply Hl; simpl; auto|now apply bs_extend_sorted].
    destruct E as [Hsp (sets & F2 & Hin)]. split; auto. exists (sg :: sets). split.
    + constructor; auto. split; [exists f, gvr; rewrite <- El; auto|congruence].
    + intros i. rewrite Hin, bs_extend_In, <- Hidx. split.
      * intros [[|]|(s & Hs1 & Hs2)]; auto; right; [exists sg|exists s]; simpl; auto.
      * intros [|(s & [<-|Hs1] & Hs2)]; eauto.
Qed.
Lemma process_group_complete X R av c l e sh cps f gvr atts sets : bm_sorted av ->
  cache_ok X (rd_chain_spec R) c e sh cps -> e = epoch (target l) ->
  rd_fork R (epoch (target l)) = Ok f -> rd_genesis_validators_root R = Ok gvr ->
  Forall2 (fun a signers =>
      bits_well_formed sh (slots_per_epoch (rd_chain_spec R)) cps a /\
      aggregate_ok X (rd_chain_spec R) f gvr av l a signers /\
      StronglySorted N.lt (map fst signers) /\
      forall i, In i (map fst signers) <-> In i (attesters_of sh (slots_per_epoch (rd_chain_spec R)) cps a)) atts sets ->
  forall acc, bs_sorted acc -> exists P, fold_outcome (step_att X R av c) atts acc = Ok P /\ bs_sorted P /\
    forall i, In i P <-> In i acc \/ exists s, In s sets /\ In i (map fst s).
Proof.
  intros Hs Hok He Hf Hg F. induction F as [|a sg atts sets (W & A & S & I) F IH]; intros acc Ha.
  - exists acc. repeat split; auto. intros [|(s & [] & _)]; auto.
  - cbn [fold_outcome]. unfold step_att at 1.
    rewrite (process_attestation_complete X R av c a f gvr sg l e sh cps); auto. cbn [bind].
    destruct (IH (bs_extend acc (map fst sg))) as (P & E & SP & Hin); [now apply bs_extend_sorted|].
    exists P. repeat split; auto.
    + intros Hi. apply Hin in Hi as [Hi|(s & H1 & H2)].
      * apply bs_extend_In in Hi as [|]; auto. right. exists sg. simpl; auto.
      * right. exists s. simpl; auto.
    + intros Hi. apply Hin. rewrite bs_extend_In. destruct Hi as [|(s & [<-|H1] & H2)]; auto. right; eauto.
Qed.

(** Pairing participants' indices with their records. *)
Definition records (av : validators) (P : list N) : validators := filter (fun x => existsb (N.eqb (fst x)) P) av.
Lemma records_In av P x : In x (records av P) <-> In x av /\ In (fst x) P.
Proof.
  unfold records. rewrite filter_In, existsb_exists. split.
  - intros [H (y & Hy & E)]. apply N.eqb_eq in E. subst. auto.
  - intros [H1 H2]. split; auto. exists (fst x). split; auto. apply N.eqb_refl.
Qed.
Lemma sorted_filter_fst (p : N * ValidatorInfo -> bool) (av : validators) :
  StronglySorted N.lt (map fst av) -> StronglySorted N.lt (map fst (filter p av)).
Proof.
  intros H. apply bm_sorted_keys. apply bm_sorted_filter. now apply bm_sorted_keys.
Qed.
Lemma key_in_map {V} (av : list (N * V)) x y : NoDup (map fst av) -> In x av -> In y av -> fst x = fst y -> x = y.
Proof.
  induction av as [|a av IH]; simpl; intros Hn Hx Hy E; [easy|]. inversion Hn; subst.
  destruct Hx as [->|Hx], Hy as [->|Hy]; auto; exfalso; apply H1.
  - rewrite E. now apply in_map.
  - rewrite <- E. now apply in_map.
Qed.
Lemma union_records X R av l atts sets P : bm_sorted av -> Forall2 (agg X R av l) atts sets ->
  (forall i, In i P <-> exists s, In s sets /\ In i (map fst s)) -> union_of sets (records av P).
Proof.
  intros Hs F Hin. assert (StronglySorted N.lt (map fst av)) as Hk by now apply bm_sorted_keys.
  assert (NoDup (map fst av)) as Hn by now apply bm_sorted_NoDup. split.
  - apply bs_sorted_NoDup. now apply sorted_filter_fst.
  - assert (forall s, In s sets -> incl s av) as Hi.
    { intros s Hsin. clear -F Hsin. induction F; [easy|]. destruct Hsin as [<-|]; auto.
      destruct H as (f & g & _ & _ & [_ _ _ _ _ (_ & _ & H) _]). auto. }
    intros x. rewrite records_In, Hin. split.
    + intros [H1 (s & H2 & H3)]. exists s. split; auto. apply in_map_iff in H3 as (y & E & Hy).
      assert (y = x) as <-; auto. apply (key_in_map av); auto. eapply Hi; eauto.
    + intros (s & H1 & H2). split; [eapply Hi; eauto|]. exists s. split; auto. now apply in_map.
Qed.
Lemma records_lookup av P vs : bm_sorted av -> bs_sorted P ->
  Forall2 (fun i v => bm_get av i = Some v) P vs -> map snd (records av P) = vs /\ map fst (records av P) = P.
Proof.
  intros Hs HP F. apply lookups_combine in F as (L1 & L2 & L3).
  assert (records av P = combine P vs) as ->; auto.
  apply sorted_set_unique.
  - apply sorted_filter_fst. now apply bm_sorted_keys.
  - rewrite L1. exact HP.
  - intros x. rewrite records_In. split.
    + intros [H1 H2]. rewrite <- L1 in H2. apply in_map_iff in H2 as (y & E & Hy).
      assert (y = x) as <-; auto. apply (key_in_map av); auto. now apply bm_sorted_NoDup.
    + intros Hx. split; auto. rewrite <- L1. now apply in_map.
Qed.
Lemma records_lookup_exists av P : bm_sorted av -> bs_sorted P -> (forall i, In i P -> In i (map fst av)) ->
  Forall2 (fun i v => bm_get av i = Some v) P (map snd (records av P)).
Proof.
  intros Hs HP Hi. replace P with (map fst (records av P)) at 1.
  - apply lookups_of_signers; auto. intros x Hx. now apply records_In in Hx.
  - apply bs_sorted_ext; auto; [apply sorted_filter_fst; now apply bm_sorted_keys|].
    intros i. rewrite in_map_iff. split.
    + intros (x & <- & Hx). now apply records_In in Hx.
    + intros HiP. specialize (Hi _ HiP) as Hk. apply in_map_iff in Hk as (x & <- & Hx). exists x.
      split; auto. now apply records_In.
Qed.

(** ** Threshold *)
Lemma check_threshold_ok cfg cs av P u : bm_sorted av -> bs_sorted P -> (forall i, In i P -> In i (map fst av)) ->
  check_threshold cfg cs av P = Ok u <->
  enough cfg cs av (records av P) /\ weight (unslashed (records av P)) < 2 ^ 64 /\ weight av < 2 ^ 64 /\
  2 * balance_of cs av < 2 ^ 64 /\ 3 * balance_of cs (unslashed (records av P)) < 2 ^ 64.
Proof.
  intros Hs HP Hi. unfold check_threshold.
  rewrite (proj2 (lookups_expect_ok av P _) (records_lookup_exists av P Hs HP Hi)). cbn [bind].
  rewrite filter_map_snd, bm_values_snd. unfold enough.
  set (W := unslashed (records av P)). split.
  - intros E. inv_ok.
    match goal with H : get_total_balance _ _ (map snd W) = Ok _ |- _ => apply total_balance_ok in H as [-> HW] end.
    match goal with H : get_total_balance _ _ (map snd av) = Ok _ |- _ => apply total_balance_ok in H as [-> HT] end.
    match goal with H : (_ <=? _) = true |- _ => apply N.leb_le in H end.
    match goal with H : (if ?c then _ else _) = Ok _ |- _ => destruct c eqn:Ec; [apply N.leb_le in Ec|destruct (_ =? 0); discriminate] end.
    unfold two64 in *. repeat split; auto; lia.
  - intros ([E1 E2] & HW & HT & B2 & B3).
    rewrite (proj2 (total_balance_ok VArith cs W _) (conj eq_refl HW)).
    rewrite (proj2 (total_balance_ok VArith cs av _) (conj eq_refl HT)). cbn [bind].
    destruct (N.leb_spec (balance_of cs av * justification_threshold_factor cfg) (balance_of cs W * justification_threshold_quotient cfg)); [|lia].
    cbn [bind].
    assert (balance_of cs W * 3 < two64) as M3 by (unfold two64; lia).
    assert (balance_of cs av * 2 < two64) as M2 by (unfold two64; lia).
    rewrite (proj2 (safe_mul_ok VArith (balance_of cs W) 3 _) (conj eq_refl M3)).
    rewrite (proj2 (safe_mul_ok VArith (balance_of cs av) 2 _) (conj eq_refl M2)). cbn [bind].
    destruct (N.leb_spec (balance_of cs av * 2) (balance_of cs W * 3)); [|lia]. destruct u. reflexivity.
Qed.
Lemma weight_incl (P av : validators) : NoDup (map fst P) -> incl P av -> weight P <= weight av.
Proof.
  revert av. induction P as [|x P IH]; intros av Hn Hi; simpl; [lia|]. inversion Hn; subst.
  assert (In x av) as Hx by (apply Hi; simpl; auto). apply in_split in Hx as (l1 & l2 & ->).
  specialize (IH (l1 ++ l2)). rewrite !weight_app in *. simpl.
  assert (weight P <= weight l1 + weight l2); [|lia]. apply IH; auto.
  intros y Hy. assert (In y (l1 ++ x :: l2)) as Hin by (apply Hi; simpl; auto).
  apply in_app_iff in Hin as [|[->|]]; apply in_app_iff; auto. exfalso. apply H1. now apply in_map.
Qed.
Lemma unslashed_incl P : incl (unslashed P) P.
Proof. intros x Hx. unfold unslashed in Hx. apply filter_In in Hx. tauto. Qed.
Lemma unslashed_NoDup P : NoDup (map fst P) -> NoDup (map fst (unslashed P)).
Proof.
  induction P as [|x P IH]; simpl; intros Hn; auto. inversion Hn; subst. destruct (negb _); simpl; auto.
  constructor; auto. intros Hin. apply H1. apply in_map_iff in Hin as (y & <- & Hy). apply in_map. apply filter_In in Hy. tauto.
Qed.

(** ** Committees for a link *)
Lemma get_seed_ok X R e dom seed : get_seed X R e dom = Ok seed ->
  exists mix, seed = sha256 X (dom ++ le_bytes 8 e ++ mix) /\
    rd_randao_mix R e ((wrap_usize X (e + epochs_per_historical_vector (rd_chain_spec R) - min_seed_lookahead (rd_chain_spec R) - 1)
       mod epochs_per_historical_vector (rd_chain_spec R)) mod 2 ^ 32) = Ok (Some mix).
Proof.
  unfold get_seed, get_randao_mix. intros E. inv_ok. eexists. split; [|eassumption]. reflexivity.
Qed.
Lemma get_seed_complete X R e dom mix : sane_spec X (rd_chain_spec R) ->
  e + epochs_per_historical_vector (rd_chain_spec R) < 2 ^ 64 ->
  rd_randao_mix R e (seed_epoch_index (rd_chain_spec R) e) = Ok (Some mix) ->
  get_seed X R e dom = Ok (sha256 X (dom ++ le_bytes 8 e ++ mix)).
Proof.
  intros (S1 & S2 & S3 & S4 & S5 & S6) He Hm. unfold get_seed, get_randao_mix.
  set (n := epochs_per_historical_vector (rd_chain_spec R)) in *. set (m := min_seed_lookahead (rd_chain_spec R)) in *.
  rewrite (proj2 (safe_add_ok RE_Arith e n _) (conj eq_refl He)). cbn [bind].
  assert (m <= e + n) as Q1 by lia. assert (1 <= e + n - m) as Q2 by lia.
  rewrite (proj2 (safe_sub_ok RE_Arith (e + n) m _) (conj eq_refl Q1)). cbn [bind].
  rewrite (proj2 (safe_sub_ok RE_Arith (e + n - m) 1 _) (conj eq_refl Q2)). cbn [bind].
  rewrite (proj2 (safe_rem_ok RE_Arith _ n _) (conj eq_refl S3)). cbn [bind].
  unfold wrap_usize. rewrite (mod_divide_mod (e + n - m - 1) n (2 ^ usize_bits X)); auto.
  2:{ apply N.pow_nonzero. lia. }
  rewrite (N.mod_small ((e + n - m - 1) mod n) (2 ^ 32)). 2:{ pose proof (N.mod_lt (e + n - m - 1) n S3). lia. }
  unfold seed_epoch_index in Hm. fold n m in Hm. rewrite Hm. reflexivity.
Qed.
Lemma compute_committees_complete X R av e mix sh : sane_spec X (rd_chain_spec R) ->
  let cs := rd_chain_spec R in
  let cps := committee_count cs (N.of_nat (length av)) in
  shuffle_permutes X -> av <> [] -> Forall (fun v => fst v < 2 ^ usize_bits X - 1) av ->
  e + epochs_per_historical_vector cs < 2 ^ 64 ->
  rd_randao_mix R e (seed_epoch_index cs e) = Ok (Some mix) ->
  shuffle_list X (map fst av) (shuffle_round_count cs)
      (sha256 X (le_bytes 4 (domain_beacon_attester cs) ++ le_bytes 8 e ++ mix)) = Some sh ->
  fits_platform X (slots_per_epoch cs) cps (N.of_nat (length sh)) ->
  exists c, compute_committees X R av e = Ok c /\ cache_ok X cs c e sh cps.
Proof.
  intros Sane cs cps Hp Hne Hb He Hm Hsh Hf. unfold compute_committees. fold cs.
  rewrite (get_seed_complete X R e _ mix Sane He Hm). cbn [map_err bind].
  unfold get_committee_count_per_slot. rewrite bm_keys_fst, map_length.
  destruct Sane as (S1 & S2 & _). fold cs in S1, S2.
  rewrite (proj2 (safe_div_ok LighthouseTypes _ _ _) (conj eq_refl S1)). cbn [bind].
  rewrite (proj2 (safe_div_ok LighthouseTypes _ _ _) (conj eq_refl S2)). cbn [bind].
  fold (committee_count cs (N.of_nat (length av))). fold cps.
  destruct (cc_initialized_total X cs (sha256 X (le_bytes 4 (domain_beacon_attester cs) ++ le_bytes 8 e ++ mix)) (map fst av) cps e sh) as [c Hc]; auto.
  - unfold cps, committee_count. lia.
  - destruct av; [easy|discriminate].
  - intros v Hv. eapply Permutation_in; [|eassumption]. symmetry. eauto.
  - intros v Hv. apply in_map_iff in Hv as (x & <- & Hx). rewrite Forall_forall in Hb. now apply Hb.
  - exists c. rewrite Hc. split; auto.
    apply cc_initialized_inv in Hc as (_ & _ & sh' & Hs' & H1 & H2 & H3 & H4 & _).
    rewrite Hsh in Hs'. injection Hs' as <-. repeat split; auto; apply Hf.
Qed.

(** ** One link *)
Lemma validate_link_ok cfg cs trusted l u : validate_link cfg cs trusted l = Ok u <-> within_bounds cfg cs trusted l.
Proof.
  unfold validate_link, within_bounds, is_supported_version, fork_le. rewrite bind_ok. split.
  - intros (v & H1 & H2). inv_ok. apply andb_true_iff in H1 as [H1 H3]. unfold sat_sub in *. lia.
  - intros [H1 H2]. exists tt. rewrite !ensure_ok. unfold sat_sub. rewrite andb_true_iff. split; [split|]; lia.
Qed.
Lemma agg_common X R av l atts sets : atts <> [] -> Forall2 (agg X R av l) atts sets ->
  exists f gvr, rd_fork R (epoch (target l)) = Ok f /\ rd_genesis_validators_root R = Ok gvr /\
    Forall2 (aggregate_ok X (rd_chain_spec R) f gvr av l) atts sets.
Proof.
  intros Hne F. destruct F as [|a s atts sets H F]; [easy|]. destruct H as (f & gvr & Hf & Hg & Ha).
  exists f, gvr. repeat split; auto. constructor; auto. clear -F Hf Hg.
  induction F; constructor; auto. destruct H as (f' & gvr' & Hf' & Hg' & Ha). congruence.
Qed.
Lemma process_link_sound X cfg R trusted st l atts st' : group_ok (l, atts) ->
  process_link X cfg R trusted st (l, atts) = Ok st' ->
  finalized st = trusted /\ within_bounds cfg (rd_chain_spec R) trusted l /\
  (exists av P, supermajority_link X cfg R l atts av P) /\
  valid_state st /\ ffg_step st l st'.
Proof.
  intros [Hne Hl] E. unfold process_link in E. inv_ok. simpl in Hne, Hl.
  match goal with H : checkpoint_eqb _ _ = true |- _ => apply checkpoint_eqb_eq in H end.
  match goal with H : validate_link _ _ _ _ = Ok _ |- _ => apply validate_link_ok in H end.
  match goal with H : state_transition _ _ = Ok _ |- _ => apply state_transition_sound in H as [Hv Hstep] end.
  match goal with H : rd_active_validators _ _ = Ok ?x |- _ => rename H into Hav; rename x into avl end.
  match goal with H : process_group _ _ _ _ _ = Ok ?x |- _ => rename H into Hg; rename x into P end.
  match goal with H : check_threshold _ _ _ _ = Ok _ |- _ => rename H into Ht end.
  set (av := bm_of_list avl) in *.
  assert (bm_sorted av) as Hs by apply bm_of_list_sorted.
  apply (process_group_sound X R av _ l atts Hs Hl [] P) in Hg; [|constructor].
  destruct Hg as [HP (sets & F0 & Hin)].
  assert (Forall2 (agg X R av l) atts sets) as F.
  { clear -F0. induction F0 as [|? ? ? ? [? _]]; constructor; auto. }
  clear F0. assert (forall i, In i P <-> exists s, In s sets /\ In i (map fst s)) as Hin'.
  { intros i. rewrite Hin. simpl. tauto. }
  pose proof (union_records X R av l atts sets P Hs F Hin') as HU.
  apply check_threshold_ok in Ht as (Hen & _); auto.
  2:{ intros i Hi. apply Hin' in Hi as (s & Hs1 & Hs2). clear -F Hs1 Hs2. induction F; [easy|].
      destruct Hs1 as [<-|]; auto. destruct H as (f & g & _ & _ & [_ _ _ _ _ (_ & _ & H) _]).
      apply in_map_iff in Hs2 as (z & <- & Hz). apply in_map. auto. }
  apply agg_common in F as (f & gvr & Hf & Hgv & F); auto.
  split; [assumption|]. split; [assumption|]. split; [|auto].
  exists av, (records av P). exists f, gvr, avl, sets. pose proof (active_set_of_list avl). auto 10.
Qed.

Lemma union_of_eq sets P P' : union_of sets P -> union_of sets P' -> Permutation P P'.
Proof.
  intros [N1 I1] [N2 I2]. apply NoDup_Permutation.
  - now apply NoDup_map_inv in N1.
  - now apply NoDup_map_inv in N2.
  - intros x. rewrite I1, I2. tauto.
Qed.
Lemma unslashed_perm P P' : Permutation P P' -> Permutation (unslashed P) (unslashed P').
Proof.
  unfold unslashed. induction 1; simpl; auto.
  - destruct (negb _); auto.
  - destruct (negb (slashed (snd x))), (negb (slashed (snd y))); auto. constructor.
  - etransitivity; eauto.
Qed.
Lemma balance_perm cs P P' : Permutation P P' -> balance_of cs (unslashed P) = balance_of cs (unslashed P').
Proof. intros. unfold balance_of. f_equal. now apply weight_perm, unslashed_perm. Qed.

Lemma process_link_complete X cfg R trusted st l atts st' :
  sane_spec X (rd_chain_spec R) -> shuffle_permutes X -> u64 (epoch (target l)) ->
  atts <> [] -> finalized st = trusted -> within_bounds cfg (rd_chain_spec R) trusted l ->
  link_evidence X cfg R l atts -> valid_state st -> ffg_step st l st' ->
  process_link X cfg R trusted st (l, atts) = Ok st'.
Proof.
  intros Sane Hp Hu Hne Hfin Hb Hev Hv Hstep. unfold process_link.
  rewrite Hfin, checkpoint_eqb_refl. cbn [ensure bind].
  rewrite (proj2 (validate_link_ok cfg _ trusted l tt) Hb). cbn [bind].
  destruct Hev as (f & gvr & avl & av & mix & sh & sets & P & Hf & Hg & Hav & Hact & Hnav & Hbd & He & Hm & Hsh & Hfits & F & HU & Hen & Hbal & Hbal').
  rewrite Hav. cbn [map_err bind]. pose proof (active_set_unique _ _ Hact) as Eav.
  assert (bm_sorted av) as Hs by (rewrite Eav; apply bm_of_list_sorted).
  rewrite <- Eav.
  destruct (compute_committees_complete X R av (epoch (target l)) mix sh) as (c & Hc & Hok); auto.
  rewrite Hc. cbn [bind].
  destruct (process_group_complete X R av c l _ sh _ f gvr atts sets Hs Hok eq_refl Hf Hg F [] ltac:(constructor)) as (P' & HP & HPs & Hin).
  unfold process_group. fold (step_att X R av c). rewrite HP. cbn [bind].
  assert (Forall2 (agg X R av l) atts sets) as F'.
  { clear -F Hf Hg. induction F as [|a s atts sets (_ & H & _)]; constructor; auto. exists f, gvr. auto. }
  assert (forall i, In i P' <-> exists s, In s sets /\ In i (map fst s)) as Hin'.
  { intros i. rewrite Hin. simpl. tauto. }
  pose proof (union_records X R av l atts sets P' Hs F' Hin') as HU'.
  pose proof (union_of_eq _ _ _ HU HU') as Pm.
  assert (balance_of (rd_chain_spec R) (unslashed (records av P')) <= balance_of (rd_chain_spec R) av) as Hle.
  { unfold balance_of. assert (weight (unslashed (records av P')) <= weight av); [|lia]. apply weight_incl.
    - apply unslashed_NoDup. apply HU'.
    - intros x Hx. apply unslashed_incl in Hx. now apply records_In in Hx. }
  assert (check_threshold cfg (rd_chain_spec R) av P' = Ok tt) as ->.
  { apply check_threshold_ok; auto.
    - intros i Hi. apply Hin' in Hi as (s & Hs1 & Hs2). clear -F' Hs1 Hs2. induction F'; [easy|].
      destruct Hs1 as [<-|]; auto. destruct H as (f & g & _ & _ & [_ _ _ _ _ (_ & _ & H) _]).
      apply in_map_iff in Hs2 as (z & <- & Hz). apply in_map. auto.
    - destruct Hen as [En1 En2]. pose proof (balance_perm (rd_chain_spec R) _ _ Pm) as Eb.
      split; [split; congruence|]. rewrite <- Eb. clear En1 En2. unfold balance_of in *. lia. }
  cbn [bind]. rewrite (proj2 (state_transition_ok_iff st l st' Hu) (conj Hv Hstep)). cbn [map_err bind].
  rewrite (proj2 (is_valid_iff st')). 2:{ eapply ffg_step_valid; eauto. } reflexivity.
Qed.

(** ** The link loop *)
Inductive guarded_run (trusted : Checkpoint) : ConsensusState -> list Link -> ConsensusState -> Prop :=
| gr_nil : forall s, guarded_run trusted s [] s
| gr_cons : forall s l s1 ls s2, finalized s = trusted -> valid_state s -> ffg_step s l s1 ->
    guarded_run trusted s1 ls s2 -> guarded_run trusted s (l :: ls) s2.
Lemma guarded_run_run trusted s ls s' : guarded_run trusted s ls s' -> ffg_run s ls s'.
Proof. induction 1; econstructor; eauto. Qed.
Lemma guarded_af trusted s ls s' : guarded_run trusted s ls s' -> finalized s = trusted -> valid_state s ->
  s <> genesis_state -> finalized s' <> trusted ->
  atomic_finalization (current_justified s) ls (finalized s') (current_justified s').
Proof.
  induction 1 as [|s l s1 ls s2 Hf Hv Hstep Hr IH]; intros Hf' Hv' Hg Hn; [easy|].
  assert (epoch (finalized s) < epoch (current_justified s)) as Hlt by (destruct Hv; [auto|easy]).
  inversion Hstep; subst; cbn [finalized current_justified] in *.
  - inversion Hr; subst.
    + simpl. now apply af_last.
    + simpl in *. exfalso. subst. lia.
  - apply af_skip; auto. apply IH; auto.
    + left. simpl. lia.
    + intros E. injection E as -> ->. simpl in *. lia.
Qed.
Lemma guarded_accept s ls s' : guarded_run (finalized s) s ls s' -> valid_state s ->
  finalized s' <> finalized s -> accepted_chain s ls s'.
Proof.
  intros Hr Hv Hn.
  assert (s = genesis_state \/ s <> genesis_state) as [->|Hg].
  { destruct (cs_eqb s genesis_state) eqn:E; [left; now apply cs_eqb_eq|right]. intros ->.
    rewrite (proj2 (cs_eqb_eq _ _) eq_refl) in E. discriminate. }
  - destruct s' as [t f]. inversion Hr as [|? ? s1 ls1 ? _ _ Hstep Hr1]; subst; [easy|].
    assert (exists b, l = mkLink genesis_cp b /\ s1 = mkCS b genesis_cp /\ 0 < epoch b) as (b & -> & -> & Hb).
    { inversion Hstep; subst; exists t0; repeat split; auto; simpl in *; lia. }
    apply chain_genesis; auto.
    apply (guarded_af _ _ _ _ Hr1); auto.
    + left. simpl. lia.
    + intros E. injection E as ->. simpl in Hb. lia.
  - destruct s' as [t f]. apply chain_normal; auto. apply (guarded_af _ _ _ _ Hr); auto.
Qed.
Lemma af_guarded c ls f t fin : atomic_finalization c ls f t -> epoch fin < epoch c ->
  guarded_run fin (mkCS c fin) ls (mkCS t f) /\ epoch fin < epoch f.
Proof.
  intros H. induction H; intros L.
  - split; auto. apply gr_cons with (s1 := mkCS t c); [reflexivity|left; auto|apply ffg_finalize; auto|constructor].
  - destruct IHatomic_finalization as [G1 G2]; [lia|]. split; auto.
    apply gr_cons with (s1 := mkCS b fin); [reflexivity|left; auto|apply ffg_justify; auto|auto].
Qed.
Lemma accept_guarded s ls s' : accepted_chain s ls s' ->
  guarded_run (finalized s) s ls s' /\ finalized s' <> finalized s /\ valid_state s.
Proof.
  intros H. destruct H as [s ls f t Hv Hg Haf|b ls f t Hb Haf].
  - destruct Hv as [Hlt|]; [|easy]. destruct s as [j fin]. simpl in *.
    destruct (af_guarded _ _ _ _ fin Haf Hlt) as [G1 G2]. split; [|split]; auto; [|left; auto].
    simpl. intros ->. lia.
  - destruct (af_guarded _ _ _ _ genesis_cp Haf) as [G1 G2]; [simpl; auto|]. split; [|split].
    + apply gr_cons with (s1 := mkCS b genesis_cp); [reflexivity|right; auto| |auto].
      destruct (N.eq_dec (epoch b) 1); [apply (ffg_finalize genesis_cp genesis_cp)|apply ffg_justify]; simpl; lia.
    + simpl. intros ->. lia.
    + right; auto.
Qed.

Lemma loop_sound X cfg R trusted gs : Forall group_ok gs -> forall st st',
  fold_outcome (process_link X cfg R trusted) gs st = Ok st' ->
  guarded_run trusted st (map fst gs) st' /\
  Forall (fun g => within_bounds cfg (rd_chain_spec R) trusted (fst g) /\
                   exists av P, supermajority_link X cfg R (fst g) (snd g) av P) gs.
Proof.
  induction 1 as [|[l atts] gs Hg Hgs IH]; intros st st' E.
  - simpl in E. inv_ok. split; constructor.
  - cbn [fold_outcome] in E. inv_ok. apply process_link_sound in H as (H1 & H2 & H3 & H4 & H5); auto.
    apply IH in E as [E1 E2]. split; [econstructor; eauto|]. constructor; auto.
Qed.
Lemma loop_complete X cfg R trusted gs : sane_spec X (rd_chain_spec R) -> shuffle_permutes X ->
  Forall group_ok gs -> Forall (fun g => u64 (epoch (target (fst g)))) gs ->
  Forall (fun g => within_bounds cfg (rd_chain_spec R) trusted (fst g) /\ link_evidence X cfg R (fst g) (snd g)) gs ->
  forall st st', guarded_run trusted st (map fst gs) st' ->
  fold_outcome (process_link X cfg R trusted) gs st = Ok st'.
Proof.
  intros Sane Hp Hg. induction Hg as [|[l atts] gs [Hne Hk] Hgs IH]; intros Hu He st st' Hr.
  - inversion Hr; subst. reflexivity.
  - inversion Hu; inversion He; subst. cbn [fold_outcome map fst] in *. inversion Hr; subst.
    destruct H5. erewrite process_link_complete; eauto.
Qed.

(** ** [verify] *)
Theorem verify_sound X cfg R post slot : verify X cfg R = Ok (post, slot) ->
  exists st0 atts gs,
    rd_consensus_state R = Ok st0 /\ rd_attestations R = Ok atts /\ groups atts gs /\
    accepted_chain st0 (map fst gs) post /\
    Forall (fun g => within_bounds cfg (rd_chain_spec R) (finalized st0) (fst g) /\
                     exists av P, supermajority_link X cfg R (fst g) (snd g) av P) gs /\
    rd_slot_for_block R (root (finalized post)) = Ok slot.
Proof.
  unfold verify. intros E. inv_ok.
  repeat match goal with H : unwrap _ = Ok _ |- _ => apply (proj1 (unwrap_ok _ _)) in H end.
  match goal with H : rd_consensus_state R = Ok ?x |- _ => rename H into Hst; rename x into st0 end.
  match goal with H : rd_attestations R = Ok ?x |- _ => rename H into Hatts; rename x into atts end.
  match goal with H : negb _ = true |- _ => rename H into Hne; rewrite negb_true_iff, checkpoint_eqb_neq in Hne end.
  match goal with H : fold_outcome _ _ _ = Ok _ |- _ => rename H into Hf end.
  pose proof (chunk_groups atts) as Hg. pose proof Hg as (_ & Hg2 & _).
  apply loop_sound in Hf as [Hr Hall]; auto.
  assert (valid_state st0) as Hv by (inversion Hr; subst; [easy|auto]).
  exists st0, atts, (chunk_by_link atts). repeat split; auto; try apply Hg.
  now apply guarded_accept.
Qed.
Theorem verify_complete X cfg R st0 atts gs post slot :
  sane_spec X (rd_chain_spec R) -> shuffle_permutes X ->
  rd_consensus_state R = Ok st0 -> rd_attestations R = Ok atts -> groups atts gs ->
  Forall (fun l => u64 (epoch (target l))) (map fst gs) ->
  accepted_chain st0 (map fst gs) post ->
  Forall (fun g => within_bounds cfg (rd_chain_spec R) (finalized st0) (fst g) /\
                   link_evidence X cfg R (fst g) (snd g)) gs ->
  rd_slot_for_block R (root (finalized post)) = Ok slot ->
  verify X cfg R = Ok (post, slot).
Proof.
  intros Sane Hp Hst Ha Hg Hu Hc He Hs. unfold verify. rewrite Hst, Ha. cbn [unwrap bind].
  rewrite (groups_chunk _ _ Hg). apply accept_guarded in Hc as (Hr & Hne & Hv).
  rewrite (loop_complete X cfg R (finalized st0) gs) with (st' := post); auto.
  - cbn [bind]. rewrite (proj2 (checkpoint_eqb_neq _ _) Hne). cbn [negb ensure bind]. rewrite Hs. reflexivity.
  - apply Hg.
  - rewrite Forall_map in Hu. auto.
Qed.
