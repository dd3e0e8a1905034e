(** C83: the stack of proof verification. *)
From Coq Require Import List Arith NArith Bool Lia ZifyBool ZifyNat ZifyN.
From Coq.Init Require Import Byte.
From Verif.Model Require Import Base Multiproof Builder StackUse.
From Verif.Spec Require Import Merkle MultiproofSpec StackSpec.
From Verif.Proof Require Import BaseLemmas MultiproofP StackP.
From Verif.Props Require Import MultiproofProps.
Import ListNotations.
Open Scope N_scope.

(** The recorded depth cannot change the outcome of verification, whoever wrote it. *)
Theorem C83_recorded_depth_is_harmless H mp hint :
  match root_use H hint (mp_data mp) (mp_descriptor mp) with Ok (r, _) => Ok r | Err e => Err e | Panic => Panic end
  = calculate_root H mp.
Proof. apply root_use_erase. Qed.
(** Verification of the proof of a tree holds exactly [need t] entries at its peak: between depth + 2 and
    2 * depth + 1. For an invented proof there are never more than bits in its descriptor. *)
Theorem C83_entries_needed H mp t : encodes mp t -> inner t ->
  exists u, calculate_root_use H mp = Ok (mroot H t, u) /\ u_peak u = need t.
Proof.
  intros He Hi. eexists. split; [apply root_use_tree; auto|]. rewrite grow_peak. cbn [u_peak]. pose proof (need_pos t). lia.
Qed.
Theorem C83_entries_by_depth t : inner t -> N.of_nat (depth t) + 2 <= need t <= 2 * N.of_nat (depth t) + 1.
Proof. intros Hi. pose proof (need_depth t). pose proof (need_inner t Hi). lia. Qed.
Theorem C83_entries_of_any_proof H mp r u : calculate_root_use H mp = Ok (r, u) ->
  u_peak u <= N.of_nat (length (mp_descriptor mp)).
Proof.
  unfold calculate_root_use, root_use. destruct (root_loop_use _ _ _ _ _ _) as [[st u']|e|] eqn:E; cbn [bind]; try discriminate.
  apply root_loop_use_bound in E; [|unfold covers; cbn; lia]. cbn [u_peak length] in E. destruct st as [|[] [|]]; try discriminate.
  intros X. injection X as <- <-. lia.
Qed.

(** The builder records two entries less than the verification needs, for every proof it builds. *)
Lemma built_depth {E} f idx mp : @build E f idx = Ok mp -> @calculate_max_stack_depth E (mp_descriptor mp) = Ok (mp_max_stack_depth mp).
Proof.
  unfold build. destruct (map_outcome _ _) as [n|e|]; cbn [bind]; try discriminate.
  destruct (calculate_max_stack_depth _) as [m|e|] eqn:M; cbn [bind]; try discriminate. intros X. injection X as <-. exact M.
Qed.
Theorem C83_recorded_depth E f idx mp t : @build E f idx = Ok mp -> encodes mp t -> inner t ->
  mp_max_stack_depth mp + 2 = need t.
Proof.
  intros Hb (Hd & _) Hi. apply built_depth in Hb. rewrite Hd, max_stack_depth_tree in Hb. injection Hb as <-.
  rewrite marks_need by assumption. lia.
Qed.
(** So the claim that the recorded depth is what the verification requires is wrong: every verification of a
    built proof outgrows the prepared stack, exactly once; with two more entries none would. *)
Theorem C83_recorded_depth_suffices_refuted E f idx H mp t : @build E f idx = Ok mp -> encodes mp t -> inner t ->
  exists u, calculate_root_use H mp = Ok (mroot H t, u) /\ mp_max_stack_depth mp < u_peak u /\ u_grown u = 1.
Proof.
  intros Hb He Hi. pose proof (C83_recorded_depth _ _ _ _ _ Hb He Hi) as Hd.
  eexists. split; [apply root_use_tree; auto|]. rewrite grow_peak. cbn [u_peak].
  split; [lia|]. apply (grow_once t 0 (mkUse (mp_max_stack_depth mp) 0 0)); cbn [u_cap]; [lia|].
  unfold next_cap. pose proof (need_depth t). destruct t as [c|l r]; [destruct Hi|]. cbn [depth] in *. lia.
Qed.
Theorem C83_two_more_suffice E f idx H mp t : @build E f idx = Ok mp -> encodes mp t -> inner t ->
  exists u, root_use H (mp_max_stack_depth mp + 2) (mp_data mp) (mp_descriptor mp) = Ok (mroot H t, u) /\
    u_grown u = 0 /\ u_cap u = u_peak u.
Proof.
  intros Hb He Hi. pose proof (C83_recorded_depth _ _ _ _ _ Hb He Hi) as Hd.
  eexists. split; [apply root_use_tree; auto|].
  destruct (grow_fits t 0 (mkUse (mp_max_stack_depth mp + 2) 0 0)) as [E1 E2]; cbn [u_cap] in *; [lia|].
  rewrite E2, E1, grow_peak. cbn [u_grown u_peak]. lia.
Qed.

(** Examples: the proof of C24's example, and trees that reach the two bounds. *)
Example C83_nonvacuous :
  build (tree_oracle RootMismatch toyH toyT) [4; 7] = Ok toy_mp /\ encodes toy_mp toyT /\ inner toyT /\
  mp_max_stack_depth toy_mp = 3 /\ need toyT = 5 /\
  calculate_root_use toyH toy_mp = Ok (mroot toyH toyT, mkUse 6 1 5).
Proof.
  split; [vm_compute; reflexivity|]. split; [exact (proj1 (proj2 C20_nonvacuous))|]. split; [exact I|]. repeat split; vm_compute; reflexivity.
Qed.
Fixpoint spine (left : bool) (n : nat) : mtree :=
  match n with O => MLeaf [] | S m => if left then MNode (spine left m) (MLeaf []) else MNode (MLeaf []) (spine left m) end.
Lemma spine_depth b n : depth (spine b n) = n.
Proof. induction n as [|n IH]; [reflexivity|]. destruct b; cbn [spine depth] in *; lia. Qed.
Example C83_bounds_reached n : need (spine true (S n)) = N.of_nat (depth (spine true (S n))) + 2 /\
  need (spine false n) = 2 * N.of_nat (depth (spine false n)) + 1.
Proof.
  rewrite !spine_depth. split.
  - induction n as [|n IH]; [reflexivity|]. change (spine true (S (S n))) with (MNode (spine true (S n)) (MLeaf [])). cbn [need] in *. lia.
  - induction n as [|n IH]; [reflexivity|]. cbn [spine need] in *. lia.
Qed.

Print Assumptions C83_recorded_depth_is_harmless.
Print Assumptions C83_entries_needed.
Print Assumptions C83_entries_by_depth.
Print Assumptions C83_entries_of_any_proof.
Print Assumptions C83_recorded_depth.
Print Assumptions C83_recorded_depth_suffices_refuted.
Print Assumptions C83_two_more_suffice.
