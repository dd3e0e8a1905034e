(** From the host's input to the guest's reader. *)
From Coq Require Import List Arith ZArith NArith Bool Lia Sorted String.
From Coq Require Import ZifyBool ZifyNat ZifyN.
From Verif.Model Require Import Base Types ConsensusState Multiproof Builder Gindices Committee Verify GuestReader HostChain HostStore HostInput.
From Verif.Spec Require Import Merkle MultiproofSpec Ssz Beacon GuestSpec Registry VerifySpec HostInputSpec.
From Verif.Proof Require Import CommitteeP VerifyMoreP BaseLemmas MerkleP MultiproofP BuilderP VerifyP BeaconP GuestP PatchP ExitQueueP EndToEndP HostInputP.
Import ListNotations.
Open Scope N_scope.
Notation length := List.length.

Lemma extract_one_platform X b vals pks i : extract_one (on_platform X b) vals pks i = extract_one X vals pks i.
Proof. reflexivity. Qed.
Lemma extract_loop_platform X b cur : forall fuel vals pks i cache,
  extract_loop (on_platform X b) fuel cur vals pks i cache = extract_loop X fuel cur vals pks i cache.
Proof.
  induction fuel as [|fuel IH]; intros; [reflexivity|]. cbn [extract_loop]. destruct vals as [|[g c] rest]; [reflexivity|].
  destruct (g =? 3); [reflexivity|]. destruct (g =? exit_epoch_gindex i).
  - destruct (assert_ (u64_from_chunk c <=? cur)); cbn [bind]; auto.
  - rewrite extract_one_platform. destruct (extract_one X _ pks i) as [[[vi v'] pks']| |]; cbn [bind]; auto.
Qed.
Lemma extract_platform X b mp pks cur :
  extract_validators_multiproof (on_platform X b) mp pks cur = extract_validators_multiproof X mp pks cur.
Proof. apply extract_loop_platform. Qed.
Lemma into_reader_platform X b cs gi : into_reader (on_platform X b) cs gi = into_reader X cs gi.
Proof. unfold into_reader. rewrite extract_platform. reflexivity. Qed.

Lemma map_outcome_cons {A B E} (f : A -> outcome E B) a l ys : map_outcome f (a :: l) = Ok ys ->
  exists y ys', f a = Ok y /\ map_outcome f l = Ok ys' /\ ys = y :: ys'.
Proof.
  cbn [map_outcome]. intros H. apply bind_ok in H as (y & H1 & H). apply bind_ok in H as (ys' & H2 & H).
  injection H as <-. eauto.
Qed.
Lemma block_slot_proof_inv X headers r mp : hash32 (sha256 X) -> block_slot_proof X headers r = Ok mp ->
  exists h, headers r = Ok (Some h) /\
   (wf_header h -> calculate_root (sha256 X) mp = Ok r /\ mp_values mp = [(block_slot_gindex, ssz_u64 (hd_slot h))]).
Proof.
  intros Hh E. unfold block_slot_proof in E.
  apply bind_ok in E as (o & E1 & E). apply (proj1 (map_err_ok _ _ _)) in E1.
  apply bind_ok in E as (h & E2 & E). destruct o as [h'|]; [|discriminate]. injection E2 as ->.
  exists h. split; [exact E1|]. intros Hw.
  destruct (header_field_multiproof X h (Field "slot") block_slot_gindex (ssz_u64 (hd_slot h)) Hh Hw) as (mp' & E' & V & M).
  { reflexivity. } { split; reflexivity. } { apply node_at_header_slot. }
  apply bind_ok in E as (b & Eb & E). apply bind_ok in E as (mp2 & Em & E). apply bind_ok in E as (u & Ev & E). injection E as ->.
  rewrite Eb in E'. cbn [bind] in E'. rewrite Em in E'. injection E' as ->.
  apply (proj1 (map_err_ok _ _ _)) in Ev. destruct u.
  split; [|exact M]. apply mp_verify_iff in Ev. now apply calculate_root_iff.
Qed.
Lemma slots_fold X headers : hash32 (sha256 X) -> forall rs mps m,
  map_outcome (block_slot_proof X headers) rs = Ok mps ->
  (forall r h, In r rs -> headers r = Ok (Some h) -> wf_header h) ->
  exists m', fold_outcome (block_slots_step X) mps m = Ok m' /\
    (forall r, In r rs -> exists h, headers r = Ok (Some h) /\ rm_get m' r = Some (hd_slot h)) /\
    (forall r, ~ In r rs -> rm_get m' r = rm_get m r).
Proof.
  intros Hh. induction rs as [|r rs IH]; intros mps m E W.
  - injection E as <-. exists m. split; [reflexivity|]. split; [easy|auto].
  - apply map_outcome_cons in E as (mp & mps' & E1 & E2 & ->).
    apply block_slot_proof_inv in E1 as (h & Hr & P); auto.
    destruct (P (W r h (or_introl eq_refl) Hr)) as [P1 P2].
    destruct (IH mps' (rm_insert m r (hd_slot h)) E2) as (m' & F & G1 & G2); [intros; eapply W; eauto; now right|].
    exists m'. split; [|split].
    + cbn [fold_outcome]. unfold block_slots_step at 1. rewrite P1. cbn [map_err bind]. rewrite P2.
      unfold next_assert_gindex. rewrite N.eqb_refl. cbn [assert_ map_err bind].
      rewrite u64_from_ssz; [exact F|]. destruct (W r h (or_introl eq_refl) Hr) as (W1 & _). exact W1.
    + intros r' [<-|Hr']; [|auto]. destruct (in_dec (list_eq_dec Byte.byte_eq_dec) r rs) as [Hi|Hi]; [auto|].
      exists h. split; auto. rewrite G2 by auto. rewrite rm_get_insert, bytes_eqb_refl. reflexivity.
    + intros r' Hn. rewrite G2 by (intros Hi; apply Hn; now right). rewrite rm_get_insert.
      destruct (bytes_eqb r' r) eqn:Eq; [|reflexivity]. apply bytes_eqb_eq in Eq. subst. exfalso. apply Hn. now left.
Qed.

Section ToInput.
  Variable X : Externals.
  Variable cs : ChainSpec.
  Variable pk_deserialize : bytes -> option PublicKey.
  Variable states : Slot -> answer HState.
  Variable headers : Root -> outcome N (option Header).
  Notation H := (sha256 X).
  Definition decoded (v : Validator) (pk : PublicKey) : Prop := pk_deserialize (v_pubkey v) = Some pk.
  Notation checkpoint_state := (checkpoint_state X cs states).

  Lemma checkpoint_root c st : checkpoint_state c = Ok st -> boundary_root X st = root c.
  Proof.
    unfold checkpoint_state, state_at_checkpoint. intros E. apply bind_ok in E as (st' & _ & E). apply bind_ok in E as (u & He & E).
    injection E as ->. unfold ensure in He. destruct (bytes_eqb (root c) (boundary_root X st)) eqn:Eb; [|discriminate].
    apply bytes_eqb_eq in Eb. auto.
  Qed.

  (** What the guest makes of the input, step by step. *)
  Lemma to_input_reads trusted R reads gi : hash32 H -> pk48 X -> decodes X pk_deserialize ->
    to_input X cs pk_deserialize states headers trusted R reads = Ok gi ->
    exists st active cst patches,
      checkpoint_state trusted = Ok st /\ hs_supported st = true /\
      rd_active_validators R (epoch trusted) = Ok active /\
      state_patches cs states (epoch trusted) (st_validators (hs_state st)) reads = Ok patches /\
      rd_consensus_state R = Ok cst /\ rd_attestations R = Ok (gi_attestations gi) /\
      gi_consensus_state gi = cst /\ gi_patches gi = patches /\
      let s := hs_state st in
      (wf_state s -> wf_header (boundary_block X st) -> finalized cst = trusted ->
       (forall v, In v (st_validators s) -> epoch trusted < v_exit_epoch v -> exists pk, decoded v pk) ->
       (forall i v vi, nth_error (st_validators s) (N.to_nat i) = Some v -> In (i, vi) active -> decoded v (pubkey vi)) ->
       (forall r h, In r (rs_blocks reads) -> headers r = Ok (Some h) -> wf_header h) ->
       exists vals slots,
         exact_registry decoded (st_validators s) (epoch trusted) vals /\
         (forall r, In r (rs_blocks reads) -> exists h, headers r = Ok (Some h) /\ rm_get slots r = Some (hd_slot h)) /\
         into_reader X cs gi =
           (_ <- ensure (fork_eqb (st_fork s) (fork_at_epoch cs (epoch_of_slot cs (st_slot s)))) GE_Config ;;
            vals' <- registry_loop cs (epoch (st_finalized s)) (epoch trusted) (epoch (current_justified cst))
                       (epoch_of_slot cs (st_slot s)) vals ;;
            _ <- validate_state_patches cs patches (epoch trusted) (state_info H s) vals' ;;
            Ok (mkGuestReader cs (st_genesis_validators_root s) vals' patches cst (gi_attestations gi) slots))).
  Proof.
    intros Hh Hk Hd E. unfold to_input in E.
    apply bind_ok in E as (st & E1 & E). apply (proj1 (map_err_ok _ _ _)) in E1.
    apply bind_ok in E as (bp & E2 & E).
    apply bind_ok in E as (u & E3 & E). apply (proj1 (map_err_ok _ _ _)) in E3.
    apply bind_ok in E as (u1 & E4 & E). apply (proj1 (ensure_ok _ _ _)) in E4.
    apply bind_ok in E as (sp & E5 & E).
    apply bind_ok in E as (u2 & E6 & E). apply (proj1 (map_err_ok _ _ _)) in E6.
    apply bind_ok in E as (active & E7 & E). apply (proj1 (map_err_ok _ _ _)) in E7.
    apply bind_ok in E as ([vp keys] & E8 & E).
    apply bind_ok in E as (u3 & E9 & E). apply (proj1 (map_err_ok _ _ _)) in E9.
    apply bind_ok in E as (patches & E10 & E).
    apply bind_ok in E as (sps & E11 & E).
    apply bind_ok in E as (cst & E12 & E). apply (proj1 (map_err_ok _ _ _)) in E12.
    apply bind_ok in E as (atts & E13 & E). apply (proj1 (map_err_ok _ _ _)) in E13.
    injection E as <-. destruct u, u2, u3.
    exists st, active, cst, patches. cbn [gi_consensus_state gi_patches gi_attestations].
    do 8 (split; [assumption || reflexivity|]). cbn zeta.
    intros Ws Wh Hf Hkeys Hact Hhd. set (s := hs_state st) in *.
    destruct (validators_multiproof_ok X pk_deserialize decoded) with (cur := epoch trusted) (vs := st_validators s) (active := active)
      as (vp' & keys' & vals & V1 & V2 & V3 & V4 & V5 & V6); auto.
    { intros v pk Hv. unfold key_of. now apply Hd. }
    { apply Ws. }
    rewrite V1 in E8. injection E8 as -> ->.
    destruct (slots_fold X headers Hh (rs_blocks reads) sps [] E11 Hhd) as (slots & F1 & F2 & _).
    exists vals, slots. split; [|split; [exact F2|]].
    { split; [now apply bm_sorted_keys|exact V6]. }
    destruct (block_multiproof_ok X (boundary_block X st) Hh Wh) as (bp' & B1 & B2 & B3).
    rewrite B1 in E2. injection E2 as ->.
    destruct (state_multiproof_ok X s Hh Ws) as (sp' & S1 & S2 & S3).
    rewrite S1 in E5. injection E5 as ->.
    unfold into_reader. cbn [gi_beacon_block gi_beacon_state gi_active_validators gi_public_keys gi_patches gi_consensus_state gi_attestations gi_block_slot_proofs].
    rewrite Hf, E3. cbn [map_err bind]. rewrite B3. cbn [map_err bind].
    change (hd_state_root (boundary_block X st)) with (mroot H (state_tree H s)). rewrite S2. cbn [map_err bind].
    rewrite (extract_state_values H s _ Ws S3). cbn [map_err bind].
    cbn [si_validators_root si_slot si_fork si_finalized_checkpoint_epoch si_genesis_validators_root state_info].
    rewrite V2. cbn [map_err bind]. rewrite V3. cbn [map_err bind].
    destruct (ensure _ _); cbn [bind]; [|reflexivity|reflexivity].
    destruct (registry_loop _ _ _ _ _ _); cbn [bind]; [|reflexivity|reflexivity].
    rewrite F1.
    destruct (validate_state_patches _ _ _ _ _); cbn [bind]; reflexivity.
  Qed.
End ToInput.

(** ** Acceptance *)
Lemma exact_sorted K vs cur m : exact_registry K vs cur m -> bm_sorted m.
Proof. intros [H _]. now apply bm_sorted_keys. Qed.
Lemma registry_loop_total {E} cs sf tr cj se reg : cj + 1 + max_seed_lookahead cs < 2 ^ 64 ->
  @registry_loop E cs sf tr cj se reg = Ok (upds cs (map (fun e => (fin_of sf tr cj e, e)) (epoch_range se cj)) reg).
Proof.
  intros Hc. unfold registry_loop.
  assert (F : Forall (fun e => e + 1 + max_seed_lookahead cs < 2 ^ 64) (epoch_range se cj)).
  { apply Forall_forall. intros e He. apply epoch_range_In in He. lia. }
  revert reg. induction (epoch_range se cj) as [|e l IH]; intros reg; [reflexivity|]. inversion F as [|? ? F1 F2]; subst.
  cbn [fold_outcome map upds]. rewrite process_registry_total by exact F1. cbn [bind]. now apply IH.
Qed.
Lemma weight_filter_le f (m : list (N * ValidatorInfo)) : weight (filter f m) <= weight m.
Proof. induction m as [|x m IH]; cbn [filter weight]; [lia|]. destruct (f x); cbn [weight]; lia. Qed.
Lemma weight_upds cs l m : weight (upds cs l m) = weight m.
Proof.
  rewrite upds_map. induction m as [|[k v] m IH]; [reflexivity|]. cbn [map weight fst snd]. rewrite IH.
  destruct (upd1_fields cs l v) as (_ & -> & _). reflexivity.
Qed.
Lemma all_balances_nth vs : all_balances vs = sum (map v_effective_balance vs).
Proof. induction vs as [|v vs IH]; [reflexivity|]. cbn [all_balances fold_right map sum]. unfold all_balances in IH. now rewrite IH. Qed.
Lemma sum_index (f : nat -> N) : forall (vs : list Validator) l, NoDup l -> (forall k, In k l -> (k < length vs)%nat) ->
  (forall k v, In k l -> nth_error vs k = Some v -> f k = v_effective_balance v) ->
  sum (map f l) <= all_balances vs.
Proof.
  induction vs as [|v vs IH] using rev_ind; intros l Hn Hl Hf.
  - destruct l as [|k l]; [apply N.le_0_l|]. specialize (Hl k (or_introl eq_refl)). cbn in Hl. lia.
  - assert (Ea : all_balances (vs ++ [v]) = all_balances vs + v_effective_balance v).
    { unfold all_balances. rewrite fold_right_app. cbn [fold_right]. rewrite N.add_0_r. generalize (v_effective_balance v). clear.
      intros n. induction vs as [|w vs IH]; [reflexivity|]. cbn [fold_right]. rewrite IH. lia. }
    rewrite Ea. destruct (in_dec Nat.eq_dec (length vs) l) as [Hi|Hi].
    + apply in_split in Hi as (l1 & l2 & ->). rewrite map_app. cbn [map].
      assert (Es : sum (map f l1 ++ f (length vs) :: map f l2) = f (length vs) + sum (map f (l1 ++ l2))).
      { rewrite map_app. clear. generalize (map f l1) (map f l2) (f (length vs)). intros a b n. induction a as [|x a IH]; cbn [app sum]; [reflexivity|]. rewrite IH. lia. }
      rewrite Es. apply NoDup_remove in Hn as [Hn1 Hn2].
      rewrite (Hf (length vs) v).
      2:{ apply in_or_app. right. now left. } 2:{ rewrite nth_error_app2 by lia. now rewrite Nat.sub_diag. }
      assert (sum (map f (l1 ++ l2)) <= all_balances vs).
      { apply IH; auto.
        - intros k Hk. assert (k < length (vs ++ [v]))%nat by (apply Hl; apply in_app_or in Hk as [|]; apply in_or_app; [now left|right; now right]).
          rewrite app_length in H. cbn [List.length] in H. assert (k <> length vs) by (intros ->; contradiction). lia.
        - intros k w Hk Hw. apply Hf; [apply in_app_or in Hk as [|]; apply in_or_app; [now left|right; now right]|].
          rewrite nth_error_app1; [exact Hw|]. apply nth_error_Some. congruence. }
      lia.
    + assert (sum (map f l) <= all_balances vs).
      { apply IH; auto.
        - intros k Hk. specialize (Hl k Hk). rewrite app_length in Hl. cbn [List.length] in Hl. assert (k <> length vs) by (intros ->; contradiction). lia.
        - intros k w Hk Hw. apply Hf; auto. rewrite nth_error_app1; [exact Hw|]. apply nth_error_Some. congruence. }
      lia.
Qed.
Lemma exact_weight K vs cur m : exact_registry K vs cur m -> weight m <= all_balances vs.
Proof.
  intros X. pose proof (exact_sorted _ _ _ _ X) as S. destruct X as [_ X].
  set (f := fun k => match bm_get m (N.of_nat k) with Some v => effective_balance v | None => 0 end).
  assert (E : weight m = sum (map f (map (fun kv => N.to_nat (fst kv)) m))).
  { assert (G : forall kv, In kv m -> f (N.to_nat (fst kv)) = effective_balance (snd kv)).
    { intros [k v] Hk. unfold f. cbn [fst snd]. rewrite N2Nat.id. rewrite (bm_in_get m k v S Hk). reflexivity. }
    clear -G. revert G. generalize f. clear f. intros f G. induction m as [|kv m IH]; [reflexivity|]. cbn [map weight sum]. rewrite G by now left. rewrite IH; [reflexivity|].
    intros kv' Hk. apply G. now right. }
  rewrite E. apply sum_index.
  - rewrite <- map_map. apply FinFun.Injective_map_NoDup; [intros a b Hab; lia|]. now apply bm_sorted_NoDup.
  - intros k Hk. apply in_map_iff in Hk as ([i v] & <- & Hi). cbn [fst]. apply bm_in_get in Hi; auto.
    specialize (X i). rewrite Hi in X. apply nth_error_Some. destruct (nth_error vs (N.to_nat i)); [discriminate|contradiction].
  - intros k w Hk Hw. apply in_map_iff in Hk as ([i v] & <- & Hi). cbn [fst] in *. apply bm_in_get in Hi; auto.
    unfold f. rewrite N2Nat.id, Hi. specialize (X i). rewrite Hw, Hi in X. destruct X as (_ & pk & _ & ->). reflexivity.
Qed.
Lemma balances_numbers cs K vs cur m l trusted : balances_fit cs vs -> exact_registry K vs cur m ->
  activation_exit_epoch cs trusted < 2 ^ 64 -> exit_numbers_fit cs (upds cs l m) trusted.
Proof.
  intros (B1 & B2 & B3) X Ha. apply exact_weight in X.
  assert (W : weight (filter (fun kv => is_active_at (snd kv) trusted) (upds cs l m)) <= all_balances vs).
  { etransitivity; [apply weight_filter_le|]. now rewrite weight_upds. }
  unfold exit_numbers_fit. split; [exact B1|]. split; [exact B2|]. split; [lia|]. split; [|exact Ha].
  unfold exit_churn, churn_limit, balance_of. set (w := weight _) in *. clearbody w.
  set (t := N.max (effective_balance_increment cs) w). assert (Ht : t <= N.max (effective_balance_increment cs) (all_balances vs)) by lia.
  assert (t / churn_limit_quotient cs <= t) by (apply N.div_le_upper_bound; [exact B1|]; rewrite <- (N.mul_1_l t) at 1; apply N.mul_le_mono_r; clear - B1; lia).
  clearbody t. lia.
Qed.

(** The active sets the guest uses, from the validated registry. *)
Lemma guest_voters cs pkd vs tr vals sf cj se si r e :
  exact_registry (decoded pkd) vs tr vals -> gr_validators r = upds cs (map (fun e => (fin_of sf tr cj e, e)) (epoch_range se cj)) vals ->
  bm_sorted (gr_patches r) -> validate_state_patches cs (gr_patches r) tr si (gr_validators r) = Ok tt ->
  far_future_epoch cs = 2 ^ 64 - 1 -> 1 <= tr -> tr <= e <= tr + max_seed_lookahead cs -> e <= se + max_seed_lookahead cs ->
  exists avl, rd_active_validators (guest_reader r) e = Ok avl /\ voters_at pkd vs e avl.
Proof.
  intros F G Wp V Hff Ht He Hse. cbn [guest_reader rd_active_validators]. eexists. split; [reflexivity|].
  set (l := map _ (epoch_range se cj)) in *.
  apply validate_patches_ok in V as (churn & er & er' & P1 & P2). apply patch_params_ok in P1 as (_ & Her & Hb).
  assert (Hs : bm_sorted vals) by (eapply exact_sorted; eauto).
  assert (Hr : bm_sorted (gr_validators r)) by (rewrite G; now apply upds_sorted).
  assert (Hl : forall fe, In fe l -> se <= snd fe).
  { intros fe Hf. apply in_map_iff in Hf as (x & <- & Hx). apply epoch_range_In in Hx. cbn [snd]. lia. }
  unfold activation_exit_epoch in Hb, Her.
  assert (U : forall v, is_active_at (upd1 cs l v) e = is_active_at v e).
  { intros v. apply (upd1_active cs se); auto; [lia|]. unfold activation_exit_epoch. lia. }
  split; [apply bm_sorted_keys; now apply bm_sorted_filter|].
  intros i. rewrite bm_get_filter by auto. destruct F as [_ F]. specialize (F i).
  assert (Q : match bm_get (gr_validators r) i with
              | Some w => patch_is_active_validator (patch_at (gr_patches r) e) i w e = is_active_at w e | None => True end).
  { destruct (bm_get (gr_validators r) i) as [w|] eqn:Ew; [|exact I].
    apply (patched_activity _ _ _ _ _ _ _ Ht Wp P2); [lia|exact Ew]. }
  rewrite G, bm_get_upd in Q |- *.
  destruct (bm_get vals i) as [vi|] eqn:Ev; cbn [option_map] in Q |- *.
  - destruct (nth_error vs (N.to_nat i)) as [v|]; [|contradiction]. destruct F as (F1 & pk & F2 & ->).
    cbn [fst snd]. rewrite Q, U. unfold is_active_at, record_of. cbn [activation_epoch exit_epoch].
    destruct ((v_activation_epoch v <=? e) && (e <? v_exit_epoch v)); [|reflexivity].
    eexists. split; [reflexivity|]. destruct (upd1_fields cs l (record_of v pk)) as (U1 & U2 & U3 & _). unfold record_of in *.
    unfold voter_of. rewrite U1, U2, U3. cbn [pubkey effective_balance slashed]. auto.
  - destruct (nth_error vs (N.to_nat i)) as [v|]; [|reflexivity].
    rewrite (proj2 (N.ltb_ge e (v_exit_epoch v))) by lia. now rewrite andb_false_r.
Qed.

Lemma boundary_wf X st : hash32 (sha256 X) -> wf_state (hs_state st) -> wf_header (hs_header st) -> wf_header (boundary_block X st).
Proof.
  intros Hh Ws (W1 & W2 & W3 & W4 & W5). unfold boundary_block. repeat split; auto. cbn [hd_state_root].
  unfold tree_root. apply mroot_length; auto. now apply state_tree_wf.
Qed.
Lemma fork_eqb_refl f : fork_eqb f f = true.
Proof. unfold fork_eqb. now rewrite !bytes_eqb_refl, N.eqb_refl. Qed.
Lemma host_view X cs pkd states headers trusted st R reads gi cst active :
  sound_data X cs pkd headers trusted st (rs_blocks reads) ->
  checkpoint_state X cs states trusted = Ok st ->
  rd_consensus_state R = Ok cst -> finalized cst = trusted ->
  rd_active_validators R (epoch trusted) = Ok active -> keys_match pkd (st_validators (hs_state st)) active ->
  epoch (current_justified cst) + 1 + max_seed_lookahead cs < 2 ^ 64 ->
  to_input X cs pkd states headers trusted R reads = Ok gi ->
  let s := hs_state st in
  let se := st_slot s / slots_per_epoch cs in
  let l := map (fun e => (fin_of (epoch (st_finalized s)) (epoch trusted) (epoch (current_justified cst)) e, e)) (epoch_range se (epoch (current_justified cst))) in
  gi_consensus_state gi = cst /\ rd_attestations R = Ok (gi_attestations gi) /\
  state_patches cs states (epoch trusted) (st_validators s) reads = Ok (gi_patches gi) /\
  exists vals slots, exact_registry (decoded pkd) (st_validators s) (epoch trusted) vals /\
    (forall r, In r (rs_blocks reads) -> exists h, headers r = Ok (Some h) /\ rm_get slots r = Some (hd_slot h)) /\
    into_reader X cs gi = (_ <- validate_state_patches cs (gi_patches gi) (epoch trusted) (state_info (sha256 X) s) (upds cs l vals) ;;
      Ok (mkGuestReader cs (st_genesis_validators_root s) (upds cs l vals) (gi_patches gi) cst (gi_attestations gi) slots)).
Proof.
  intros D Ec Es Ef Ea Hk Hc E s se l. destruct D as [D1 D2 D3 D4 D5 D6 D7 D8].
  destruct (to_input_reads X cs pkd states headers trusted R reads gi D1 D2 D3 E)
    as (st' & active' & cst' & patches & E1 & E2 & E3 & E4 & E5 & E6 & E7 & E8 & E9).
  rewrite Ec in E1. injection E1 as <-. rewrite Ea in E3. injection E3 as <-. rewrite Es in E5. injection E5 as <-. subst patches.
  split; [exact E7|]. split; [exact E6|]. split; [exact E4|]. cbv zeta in E9. fold s in E9, E4, D4, D6, D7.
  destruct E9 as (vals & slots & F1 & F2 & F3); auto.
  { apply boundary_wf; auto. }
  exists vals, slots. split; [exact F1|]. split; [exact F2|]. rewrite F3.
  unfold epoch_of_slot. rewrite D7, fork_eqb_refl. cbn [ensure bind]. rewrite registry_loop_total by exact Hc. reflexivity.
Qed.

(** ** The patches *)
Lemma to_input_patches X cs pkd states headers trusted R reads gi :
  to_input X cs pkd states headers trusted R reads = Ok gi ->
  exists st, checkpoint_state X cs states trusted = Ok st /\
    state_patches cs states (epoch trusted) (st_validators (hs_state st)) reads = Ok (gi_patches gi).
Proof.
  intros E. unfold to_input in E.
  apply bind_ok in E as (st & E1 & E). apply (proj1 (map_err_ok _ _ _)) in E1.
  do 6 (apply bind_ok in E as (? & _ & E)). apply bind_ok in E as ([vp keys] & _ & E).
  apply bind_ok in E as (? & _ & E). apply bind_ok in E as (patches & E2 & E).
  do 3 (apply bind_ok in E as (? & _ & E)). injection E as <-. exists st. split; [exact E1|exact E2].
Qed.
Lemma seed_mix_index_ok X cs e : sane_spec X cs -> seed_mix_index X cs e = seed_epoch_index cs e.
Proof.
  intros (S1 & S2 & S3 & S4 & S5 & S6). unfold seed_mix_index, seed_epoch_index, wrap_usize.
  rewrite (mod_divide_mod (e + epochs_per_historical_vector cs - min_seed_lookahead cs - 1) (epochs_per_historical_vector cs) (2 ^ usize_bits X)); auto. 2:{ apply N.pow_nonzero. lia. }
  apply N.mod_small. pose proof (N.mod_lt (e + epochs_per_historical_vector cs - min_seed_lookahead cs - 1) _ S3). lia.
Qed.
Lemma mixes_one mixes i m : (forall j, In j [i] -> nth_error mixes (N.to_nat j) <> None) -> mixes_read mixes [i] m ->
  exists x, nth_error mixes (N.to_nat i) = Some x /\ m = [(i, x)].
Proof.
  intros Hi [Hs Hm]. destruct (nth_error mixes (N.to_nat i)) as [x|] eqn:Ex; [|exfalso; apply (Hi i); [now left|auto]].
  exists x. split; [reflexivity|]. apply bm_sorted_keys in Hs.
  assert (G : forall j, bm_get m j = if j =? i then Some x else None).
  { intros j. rewrite Hm. cbn [existsb]. rewrite orb_false_r. destruct (N.eqb_spec j i) as [-> |]; auto. }
  destruct m as [|[k y] m].
  - specialize (G i). rewrite N.eqb_refl in G. discriminate.
  - assert (k = i /\ y = x) as [-> ->].
    { specialize (G k). cbn [bm_get] in G. rewrite N.eqb_refl in G. destruct (N.eqb_spec k i); [|discriminate]. split; congruence. }
    f_equal. destruct m as [|[k y] m]; [reflexivity|]. exfalso.
    assert (In (k, y) ((i, x) :: (k, y) :: m)) as Hin by (right; now left).
    apply bm_in_get in Hin; auto. rewrite G in Hin. destruct (N.eqb_spec k i) as [-> |]; [|discriminate].
    apply bm_sorted_NoDup in Hs. cbn in Hs. inversion Hs as [|? ? Hn _]. apply Hn. now left.
Qed.

Lemma recorded_patches X cs states t vs atts post patches : sane_spec X cs ->
  state_patches cs states t vs (recorded_reads X cs atts post) = Ok patches ->
  bm_sorted patches /\
  (forall e, In e (map fst patches) <-> In e (target_epochs atts)) /\
  forall e p, In (e, p) patches -> exists st mix,
    states (start_slot cs e) = Ok st /\
    nth_error (hs_randao_mixes st) (N.to_nat (seed_epoch_index cs e)) = Some mix /\
    randao_mixes p = [(seed_epoch_index cs e, mix)] /\
    (if e =? t then validator_exits p = [] else exit_changes (st_validators (hs_state st)) vs (validator_exits p)).
Proof.
  intros Sane E. pose proof (recorded_reads_ok X cs atts post) as (W & _ & V & M). set (reads := recorded_reads X cs atts post) in *.
  destruct (state_patches_ok cs states t vs reads patches W E) as [Ws P]. split; [exact Ws|].
  assert (Q : forall e, In e (map fst patches) <-> In e (target_epochs atts)).
  { intros e. specialize (P e). specialize (V e). specialize (M e). destruct (bm_get patches e) as [p|] eqn:Ep; rewrite M in P.
    - split; intros _; [|apply bm_get_in in Ep; now apply (in_map fst) in Ep].
      destruct P as [[P|[P _]] _]; [|now apply V]. destruct (existsb (N.eqb e) (target_epochs atts)) eqn:Ex; [|easy]. now apply existsb_eqb.
    - destruct P as [P _]. destruct (existsb (N.eqb e) (target_epochs atts)) eqn:Ex; [discriminate|].
      split; [intros Hi; now apply bm_get_None in Ep|]. intros Hi. apply existsb_eqb in Hi. congruence. }
  split; [exact Q|]. intros e p Hi.
  assert (He : In e (target_epochs atts)) by (apply Q; now apply (in_map fst) in Hi).
  apply bm_in_get in Hi; auto. specialize (P e). rewrite Hi in P. destruct P as [_ (st & P1 & P2 & P3)].
  assert (Mx : bm_get (rs_mix_epochs reads) e = Some [seed_epoch_index cs e]).
  { rewrite M. pose proof He as He'. apply existsb_eqb in He'. rewrite He'. now rewrite seed_mix_index_ok. }
  rewrite Mx in P2. apply mixes_one in P2 as (mix & E1 & E2).
  2:{ intros j Hj. eapply state_patches_mixes; eauto. }
  exists st, mix. split; [exact P1|]. split; [exact E1|]. split; [exact E2|].
  rewrite V in P3. destruct (N.eqb_spec e t) as [-> |Hn].
  - destruct P3 as [(_ & P3 & _)|[_ P3]]; [easy|exact P3].
  - destruct P3 as [(_ & _ & P3)|[P3 _]]; [exact P3|tauto].
Qed.

(** ** The guest's reader, from the host's input *)
Lemma host_guest X bits cs pkd states headers trusted st R post gi cst active atts :
  sound_data X cs pkd headers trusted st [root (finalized post)] ->
  checkpoint_state X cs states trusted = Ok st ->
  rd_consensus_state R = Ok cst -> finalized cst = trusted -> rd_attestations R = Ok atts ->
  rd_active_validators R (epoch trusted) = Ok active -> keys_match pkd (st_validators (hs_state st)) active ->
  epoch (current_justified cst) + 1 + max_seed_lookahead cs < 2 ^ 64 ->
  sane_spec X cs -> far_future_epoch cs = 2 ^ 64 - 1 -> 1 <= epoch trusted ->
  to_input X cs pkd states headers trusted R (recorded_reads X cs atts post) = Ok gi ->
  let s := hs_state st in
  let se := st_slot s / slots_per_epoch cs in
  let l := map (fun e => (fin_of (epoch (st_finalized s)) (epoch trusted) (epoch (current_justified cst)) e, e)) (epoch_range se (epoch (current_justified cst))) in
  exists vals r, exact_registry (decoded pkd) (st_validators s) (epoch trusted) vals /\
    into_reader (on_platform X bits) cs gi =
      (_ <- validate_state_patches cs (gi_patches gi) (epoch trusted) (state_info (sha256 X) s) (upds cs l vals) ;; Ok r) /\
    (validate_state_patches cs (gi_patches gi) (epoch trusted) (state_info (sha256 X) s) (upds cs l vals) = Ok tt ->
     answers_faithfully cs pkd states headers trusted st cst atts (root (finalized post)) (guest_reader r)).
Proof.
  intros D Ec Es Ef Eat Ea Hk Hc Sane Hff Ht E s se l.
  pose proof (recorded_reads_ok X cs atts post) as (_ & Hb & _). rewrite <- Hb in D.
  destruct (host_view X cs pkd states headers trusted st R _ gi cst active D Ec Es Ef Ea Hk Hc E)
    as (G1 & G2 & G3 & vals & slots & G4 & G5 & G6).
  fold s in G3, G4, G6. fold se in G6. fold l in G6. rewrite Eat in G2. injection G2 as G2.
  eexists vals, _. split; [exact G4|]. split; [rewrite into_reader_platform; exact G6|].
  intros V. apply recorded_patches in G3 as (P1 & P2 & P3); auto.
  constructor; cbn [guest_reader gr_spec gr_genesis_validators_root gr_consensus_state gr_attestations gr_patches gr_block_slots
                    rd_chain_spec rd_consensus_state rd_attestations rd_genesis_validators_root rd_fork rd_randao_mix rd_slot_for_block]; auto.
  - now rewrite G2.
  - intros e He1 He2. eapply guest_voters; eauto. cbn [gr_patches gr_validators]. reflexivity.
  - intros e He. apply P2, in_map_iff in He as ([e' p] & <- & Hp). cbn [fst].
    destruct (P3 e' p Hp) as (st' & mix & Q1 & Q2 & Q3 & _). exists st', mix. split; [exact Q1|]. split; [exact Q2|].
    unfold patch_at. rewrite (bm_in_get _ _ _ P1 Hp), Q3. cbn [bm_get]. now rewrite N.eqb_refl.
  - destruct (G5 (root (finalized post))) as (h & H1 & H2); [rewrite Hb; now left|]. exists h. split; [exact H1|].
    unfold ok_or. now rewrite H2.
Qed.

(** ** The host can build its input *)
Lemma to_input_total X cs pkd states headers trusted st R active atts post cst h :
  sound_data X cs pkd headers trusted st [root (finalized post)] -> sane_spec X cs ->
  checkpoint_state X cs states trusted = Ok st -> hs_supported st = true ->
  rd_consensus_state R = Ok cst -> rd_attestations R = Ok atts ->
  rd_active_validators R (epoch trusted) = Ok active -> keys_match pkd (st_validators (hs_state st)) active ->
  (forall e, In e (target_epochs atts) -> exists st', states (start_slot cs e) = Ok st' /\
     nth_error (hs_randao_mixes st') (N.to_nat (seed_epoch_index cs e)) <> None) ->
  headers (root (finalized post)) = Ok (Some h) -> mroot (sha256 X) (header_tree (sha256 X) h) = root (finalized post) ->
  exists gi, to_input X cs pkd states headers trusted R (recorded_reads X cs atts post) = Ok gi.
Proof.
  intros [D1 D2 D3 D4 D5 D6 D7 D8] Sane Ec Hs Es Eat Ea Hk Hst Hh Hr.
  pose proof (recorded_reads_ok X cs atts post) as (W & Hb & V & M). set (reads := recorded_reads X cs atts post) in *.
  unfold to_input. unfold checkpoint_state in Ec. rewrite Ec. cbn [map_err bind].
  pose proof (checkpoint_root X cs states trusted st Ec) as Hroot.
  destruct (block_multiproof_ok X (boundary_block X st) D1 (boundary_wf X st D1 D4 D5)) as (bp & B1 & B2 & _).
  rewrite B1. cbn [bind]. rewrite <- Hroot. unfold boundary_root, tree_root. rewrite B2. cbn [map_err bind].
  rewrite Hs. cbn [ensure bind].
  destruct (state_multiproof_ok X (hs_state st) D1 D4) as (sp & S1 & S2 & _).
  rewrite S1. cbn [bind]. rewrite S2. cbn [map_err bind].
  rewrite Ea. cbn [map_err bind].
  destruct (validators_multiproof_ok X pkd (decoded pkd)) with (cur := epoch trusted) (vs := st_validators (hs_state st)) (active := active)
    as (vp & keys & vals & V1 & V2 & _); auto.
  { intros v pk Hv. unfold key_of. now apply D3. }
  { apply D4. }
  rewrite V1. cbn [bind]. rewrite V2. cbn [map_err bind].
  destruct (state_patches_exist cs states (epoch trusted) (st_validators (hs_state st)) reads W) as (patches & P).
  { intros e He. assert (Hi : In e (target_epochs atts)).
    { destruct He as [He|He]; [|now apply V]. rewrite M in He. destruct (existsb (N.eqb e) (target_epochs atts)) eqn:Ex; [now apply existsb_eqb|easy]. }
    destruct (Hst e Hi) as (st' & Q & _). eauto. }
  { intros e idxs st' i Hg Hs' Hi. rewrite M in Hg. destruct (existsb (N.eqb e) (target_epochs atts)) eqn:Ex; [|discriminate].
    injection Hg as <-. destruct Hi as [<-|[]]. rewrite seed_mix_index_ok by auto. apply existsb_eqb in Ex.
    destruct (Hst e Ex) as (st1 & Q1 & Q2). rewrite Hs' in Q1. injection Q1 as <-. exact Q2. }
  rewrite P. cbn [bind]. rewrite Hb.
  destruct (block_slot_proof_ok X headers (root (finalized post)) h) as (mp & Q & _); auto.
  { apply (D8 _ _ (or_introl eq_refl) Hh). }
  cbn [map_outcome]. rewrite Q. cbn [bind]. rewrite Es, Eat. cbn [map_err bind]. eexists. reflexivity.
Qed.
