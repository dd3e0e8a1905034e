(** C65: how much balance the patches of the two networks may let leave. *)
From Coq Require Import List Arith NArith Bool Lia.
From Coq.Init Require Import Byte.
From Verif.Model Require Import Base Types ConsensusState GuestReader Networks.
From Verif.Spec Require Import Registry VerifySpec Allowance.
From Verif.Proof Require Import BaseLemmas VerifyP PatchP ExitQueueP.
From Verif.Props Require Import VerifyProps RegistryProps ExitProps.
Import ListNotations.
Open Scope N_scope.

Lemma filter_le {A} (f : A -> bool) l : (List.length (filter f l) <= List.length l)%nat.
Proof. induction l as [|x l IH]; simpl; [lia|]. destruct (f x); simpl; lia. Qed.
Lemma floor_max t : (let c := N.max 128000000000 (N.max 1000000000 t / 65536) in c - c mod 1000000000) = 1000000000 * N.max 128 (t / 65536000000000).
Proof.
  cbv zeta. replace (t / 65536000000000) with (t / 65536 / 1000000000) by (rewrite N.div_div by lia; reflexivity).
  replace (N.max 1000000000 t / 65536) with (N.max (1000000000 / 65536) (t / 65536)).
  2:{ destruct (N.max_spec 1000000000 t) as [[H ->]|[H ->]].
      - apply N.max_r, N.div_le_mono; lia.
      - apply N.max_l, N.div_le_mono; lia. }
  change (1000000000 / 65536) with 15258. set (q := t / 65536). clearbody q.
  set (c := N.max 128000000000 (N.max 15258 q)).
  pose proof (N.div_mod c 1000000000 ltac:(lia)) as D. pose proof (N.mod_le c 1000000000 ltac:(lia)).
  assert (E : c / 1000000000 = N.max 128 (q / 1000000000)).
  { unfold c. replace (N.max 128000000000 (N.max 15258 q)) with (N.max 128000000000 q) by lia.
    destruct (N.max_spec 128000000000 q) as [[H1 ->]|[H1 ->]].
    - symmetry. apply N.max_r. change 128 with (128000000000 / 1000000000). apply N.div_le_mono; lia.
    - change (128000000000 / 1000000000) with 128. symmetry. apply N.max_l. change 128 with (128000000000 / 1000000000). apply N.div_le_mono; lia. }
  rewrite <- E. lia.
Qed.
Lemma network_churn n reg tr : exit_churn (network_spec n) reg tr = exit_allowance (active_total reg tr).
Proof.
  unfold exit_churn, exit_allowance, churn_limit, balance_of, active_total. set (t := weight _). clearbody t.
  replace (min_per_epoch_churn_limit_electra (network_spec n)) with 128000000000 by (destruct n; reflexivity).
  replace (churn_limit_quotient (network_spec n)) with 65536 by (destruct n; reflexivity).
  replace (effective_balance_increment (network_spec n)) with 1000000000 by (destruct n; reflexivity).
  rewrite floor_max. change (65536 * 10 ^ 9) with 65536000000000. change (10 ^ 9) with 1000000000. lia.
Qed.
Lemma network_first n si tr : earliest_exit (network_spec n) si tr = first_new_exit si tr.
Proof.
  unfold earliest_exit, first_new_exit, activation_exit_epoch.
  replace (max_seed_lookahead (network_spec n)) with 4 by (destruct n; reflexivity). rewrite N.max_comm. f_equal. lia.
Qed.
Lemma network_fit n reg tr : active_total reg tr < 2 ^ 64 -> tr + 5 < 2 ^ 64 -> exit_numbers_fit (network_spec n) reg tr.
Proof.
  intros Ht Htr. unfold exit_numbers_fit. fold (active_total reg tr).
  split; [destruct n; discriminate|]. split; [destruct n; discriminate|]. split; [exact Ht|]. split.
  - rewrite network_churn. unfold exit_allowance. set (t := active_total _ _) in *. clearbody t.
    change (2 ^ 64) with 18446744073709551616 in *.
    assert (t / (65536 * 10 ^ 9) <= 18446744073709551616 / (65536 * 10 ^ 9)) by (apply N.div_le_mono; [discriminate|lia]).
    change (18446744073709551616 / (65536 * 10 ^ 9)) with 281474 in *. change (10 ^ 9) with 1000000000 in *. lia.
  - unfold activation_exit_epoch. replace (max_seed_lookahead (network_spec n)) with 4 by (destruct n; reflexivity). lia.
Qed.

(** Over all patches of an accepted input, and in each of them: the limits of C34 in figures. *)
Theorem C65_exit_allowance n patches trusted si reg horizon :
  validate_state_patches (network_spec n) patches trusted si reg = Ok tt ->
  let first := first_new_exit si trusted in
  let allowed := exit_allowance (active_total reg trusted) in
  (forall pe p, In (pe, p) patches ->
     new_exit_balance patches reg horizon pe p <= allowed * (1 + (horizon - first)) /\
     (horizon < first -> new_exit_balance patches reg horizon pe p = 0)) /\
  sum (map (fun ep => new_exit_balance patches reg horizon (fst ep) (snd ep)) patches)
    <= allowed * (N.of_nat (List.length patches) + (horizon - first)).
Proof.
  intros V. cbv zeta. destruct (C34_churn_respected _ _ _ _ _ horizon V) as [H1 H2]. rewrite network_churn, network_first in *.
  split; [exact H1|]. etransitivity; [exact H2|]. apply N.mul_le_mono_l, N.add_le_mono_r.
  match goal with |- N.of_nat (List.length (filter ?f ?l)) <= _ => pose proof (filter_le f l) end. lia.
Qed.
(** Exactly what one patch may hold: exits of known validators, that either are the registry's or are
    new and not too early, and that fit into the allowance at every horizon. *)
Theorem C65_exits_exact n pe p trusted si reg :
  active_total reg trusted < 2 ^ 64 -> trusted + 5 < 2 ^ 64 -> 0 < pe ->
  let first := first_new_exit si trusted in
  let allowed := exit_allowance (active_total reg trusted) in
  (forall i ex, In (i, ex) (validator_exits p) -> allowed * (1 + (ex - first)) < 2 ^ 64) ->
  validate_state_patches (network_spec n) [(pe, p)] trusted si reg = Ok tt <->
  trusted <= pe /\
  (forall i ex, In (i, ex) (validator_exits p) -> exists v, bm_get reg i = Some v /\
     (exit_epoch v = ex \/ (exit_epoch v = 2 ^ 64 - 1 /\ first <= ex))) /\
  (forall horizon, new_exit_balance [(pe, p)] reg horizon pe p <= allowed * (1 + (horizon - first))).
Proof.
  intros Ht Htr Hpe. cbv zeta. intros Hov.
  pose proof (network_fit n reg trusted Ht Htr) as Fit.
  assert (Pv : forall v i, previous_exit [(pe, p)] v i pe = exit_epoch v).
  { intros v i. unfold previous_exit. cbn [bm_get]. rewrite (proj2 (N.eqb_neq _ _)) by lia. reflexivity. }
  rewrite <- (network_churn n), <- (network_first n) in *.
  transitivity (exists er', validate_patch (network_spec n) [(pe, p)] reg (exit_churn (network_spec n) reg trusted) trusted (earliest_exit (network_spec n) si trusted) (pe, p) = Ok er').
  { split.
    - unfold validate_state_patches. rewrite patch_params_total by exact Fit. cbn [bind fold_outcome].
      destruct (validate_patch _ _ _ _ _ _ _) as [er'| |]; cbn [bind]; try discriminate. intros _. now exists er'.
    - intros [er' E]. apply (validate_patches_total _ _ _ _ _ er' Fit). cbn [fold_outcome]. rewrite E. reflexivity. }
  rewrite C54_patch_exact by exact Hov.
  replace (far_future_epoch (network_spec n)) with (2 ^ 64 - 1) by (destruct n; reflexivity).
  split; intros (A1 & A2 & A3); (split; [exact A1|split; [|exact A3]]); intros i ex Hi; destruct (A2 i ex Hi) as (v & Hv & D); exists v; (split; [exact Hv|]);
    rewrite Pv in *; exact D.
Qed.

(** With 2560 ETH active 256 ETH may leave per epoch (with 34 million ETH, 1036). One validator of 256 ETH may exit at
    the first epoch, two only one epoch later. *)
Definition a_val (b : N) : ValidatorInfo := mkValidatorInfo [x00] b false 0 0 (2 ^ 64 - 1).
Definition a_reg : bmap ValidatorInfo := [(0, a_val 256000000000); (1, a_val 256000000000); (2, a_val 2048000000000)].
Definition a_si : StateInfo := mkStateInfo (toy_root 1) 0 toy_fork (toy_root 2) 0 412000 412003.
Example C65_exits_nonvacuous :
  first_new_exit a_si 412000 = 412005 /\ exit_allowance (active_total a_reg 412000) = 256000000000 /\
  exit_allowance (34000000 * 10 ^ 9) = 1036000000000 /\
  validate_state_patches (network_spec Mainnet) [(412002, mkStatePatch [] [(0, 412005)])] 412000 a_si a_reg = Ok tt /\
  validate_state_patches (network_spec Mainnet) [(412002, mkStatePatch [] [(0, 412004)])] 412000 a_si a_reg = Panic /\
  validate_state_patches (network_spec Sepolia) [(412002, mkStatePatch [] [(0, 412005); (1, 412005)])] 412000 a_si a_reg = Panic /\
  validate_state_patches (network_spec Sepolia) [(412002, mkStatePatch [] [(0, 412005); (1, 412006)])] 412000 a_si a_reg = Ok tt.
Proof. vm_compute. repeat split. Qed.

Print Assumptions C65_exit_allowance.
Print Assumptions C65_exits_exact.
Print Assumptions C65_exits_nonvacuous.
