(** C65: the fork of every epoch of the two networks. *)
From Coq Require Import List Arith NArith Bool Lia.
From Coq.Init Require Import Byte.
From Verif.Model Require Import Base Types ConsensusState GuestReader Networks.
From Verif.Spec Require Import ForkSchedule.
Import ListNotations.
Open Scope N_scope.

(** One entry of the schedule is in force at each epoch. *)
Theorem C65_some_fork_in_force n e : exists i start v, in_force n i start v e.
Proof.
  assert (G : forall (l : list (Epoch * Version)) st0 v0 e, st0 <= e -> exists i start v, nth_error ((st0, v0) :: l) i = Some (start, v) /\ start <= e /\
    forall start' v', nth_error ((st0, v0) :: l) (S i) = Some (start', v') -> e < start').
  { clear. intros l. induction l as [|[s1 v1] l IH]; intros st0 v0 e H0.
    - exists 0%nat, st0, v0. repeat split; [exact H0|]. intros start' v' E. discriminate.
    - destruct (N.leb_spec s1 e) as [H|H].
      + destruct (IH s1 v1 e H) as (i & start & v & E1 & E2 & E3). exists (S i), start, v. repeat split; auto.
      + exists 0%nat, st0, v0. repeat split; [exact H0|]. cbn [nth_error]. intros start' v' E. injection E as <- _. exact H. }
  unfold in_force. destruct n; cbn [schedule]; apply G; lia.
Qed.
(** The fork data of an epoch, over which votes are signed and to which the fork in the state is compared:
    the version in force, the one before it (at genesis the same) and the epoch it came into force. *)
Theorem C65_forks n i start v e : in_force n i start v e ->
  fork_at_epoch (network_spec n) e =
  mkFork (match i with O => v | S j => snd (nth j (schedule n) (0, [])) end) v start.
Proof.
  intros (E & H1 & H2).
  destruct n; do 7 (destruct i as [|i]; [injection E as <- <-;
    try (specialize (H2 _ _ eq_refl));
    unfold fork_at_epoch, fork_name_at_epoch, forks_desc, network_spec, mainnet_spec, sepolia_spec, preset;
    cbn [fork_name_from cs_fork_epoch mainnet_fork_epoch sepolia_fork_epoch];
    repeat match goal with |- context [if ?x <=? e then _ else _] => destruct (N.leb_spec x e); [try lia|try lia] end; reflexivity|]);
    destruct i; discriminate.
Qed.
Example C65_forks_nonvacuous : in_force Mainnet 6 411392 [x06; x00; x00; x00] 411392 /\ in_force Sepolia 5 222464 [x90; x00; x00; x74] 272639.
Proof. split; (split; [reflexivity|split; [lia|]]); cbn; intros ? ? H; [discriminate|]. injection H as <- _. lia. Qed.

Print Assumptions C65_some_fork_in_force.
Print Assumptions C65_forks.
Print Assumptions C65_forks_nonvacuous.
