(** A toy chain for the concrete cases: 10 validators, one exited, one pending; a trusted state at
    slot 18; links 10 -> 12 -> 13; proofs built by the model of the host's builder. *)
From Coq Require Import List Arith ZArith NArith Bool Lia Sorted Permutation.
From Coq.Init Require Import Byte.
From Verif.Model Require Import Base Types ConsensusState Multiproof Builder Gindices TreeHash Committee Verify GuestReader Guest.
From Verif.Spec Require Import Merkle MultiproofSpec Ssz Beacon GuestSpec Committees.
From Verif.Proof Require Import BaseLemmas.
From Verif.Props Require Import VerifyProps.
Import ListNotations.
Open Scope N_scope.
Notation length := List.length.

(** A toy 32-byte hash that is quick to compute. *)
Definition g_byte (a b c d e f g h : bool) : byte := Byte.of_bits (a, (b, (c, (d, (e, (f, (g, h))))))).
Definition g_mix (u v x y : byte) : byte * byte :=
  match Byte.to_bits u, Byte.to_bits v, Byte.to_bits x, Byte.to_bits y with
  | (u0, (u1, (u2, (u3, (u4, (u5, (u6, u7))))))), (v0, (v1, (v2, (v3, (v4, (v5, (v6, v7))))))),
    (x0, (x1, (x2, (x3, (x4, (x5, (x6, x7))))))), (y0, (y1, (y2, (y3, (y4, (y5, (y6, y7))))))) =>
      (g_byte (xorb x0 (if v1 then u3 else u6)) (negb (xorb u4 x1)) (xorb x2 (if v3 then u5 else u0)) (xorb u6 x3)
         (xorb x4 (if v5 then u7 else u2)) (xorb u0 x5) (xorb x6 (if v7 then u1 else u4)) (xorb u2 x7),
       g_byte (xorb y0 (if u0 then v5 else x1)) (xorb v6 (xorb y1 u1)) (negb (xorb y2 (if u2 then v7 else x3))) (xorb v0 (xorb y3 u3))
         (xorb y4 (if u4 then v1 else x5)) (xorb v2 (xorb y5 u5)) (xorb y6 (if u6 then v3 else x7)) (xorb v4 (xorb y7 u7)))
  end.
Fixpoint g_absorb (u v : byte) (l m : bytes) : byte * byte :=
  match l with
  | [] => match m with [] => (u, v) | _ => (v, u) end
  | x :: r => let (u', v') := g_mix u v x (hd x00 m) in g_absorb u' v' r (tl m)
  end.
Fixpoint g_roll (u v : byte) (l m : bytes) : bytes :=
  match l with
  | [] => []
  | x :: r => let (u', v') := g_mix u v x (hd x01 m) in v' :: g_roll u' v' r (tl m)
  end.
Definition g_hash (b : bytes) : bytes :=
  let l := firstn 32 b in
  let m := skipn 32 b in
  let (u, v) := g_absorb x05 x3b l m in
  let h := g_roll u v l m in
  h ++ repeat x00 (32 - length h).
(** Signatures have 96 bytes. *)
Definition g_sig (b : bytes) : bytes := firstn 96 (b ++ repeat x00 96).
Definition g_X : Externals :=
  mkExternals g_hash (fun k => firstn 48 (k ++ repeat x00 48)) (fun s m ks => bytes_eqb s (g_sig (m ++ concat ks)))
    (fun l _ _ => Some (rev l)) 32.
Definition g_key (i : N) : bytes := [byte_of_N (100 + i)].
Definition g_validator (i elig act ex : N) : Validator :=
  mkValidator (g_key i ++ repeat x00 47) (toy_root i) 32 (i =? 7) elig act ex (2 ^ 64 - 1).
Definition g_far : N := 2 ^ 64 - 1.
Definition g_vs : list Validator :=
  [g_validator 0 0 0 g_far; g_validator 1 0 0 g_far; g_validator 2 0 0 g_far; g_validator 3 0 0 g_far;
   g_validator 40 0 0 5; g_validator 4 0 0 g_far; g_validator 5 0 0 g_far; g_validator 6 0 0 g_far;
   g_validator 7 0 0 g_far; g_validator 50 8 g_far g_far].
Definition g_state : State :=
  mkState false toy_gvr 18 (fork_at_epoch toy_cs 9) g_vs (mkCheckpoint 7 (toy_root 7)) 12 13 (fun k => MLeaf (toy_root k)).
Definition g_state_root : bytes := Eval vm_compute in mroot g_hash (state_tree g_hash g_state).
Definition g_header : Header := mkHeader 18 3 (toy_root 17) g_state_root (MLeaf (toy_root 1818)).
Definition g_root : bytes := Eval vm_compute in mroot g_hash (header_tree g_hash g_header).
Definition g_header12 : Header := mkHeader 24 4 (toy_root 23) (toy_root 2424) (MLeaf (toy_root 2323)).
Definition g_root12 : bytes := Eval vm_compute in mroot g_hash (header_tree g_hash g_header12).
Definition g_trusted : ConsensusState := mkCS (mkCheckpoint 10 (toy_root 10)) (mkCheckpoint 9 g_root).

Definition g_build (T : mtree) (gs : list N) : Multiproof :=
  match build (tree_oracle RootMismatch g_hash T) gs with Ok mp => mp | _ => mkMultiproof [] [] [] 0 end.
Definition g_block_proof : Multiproof := Eval vm_compute in g_build (header_tree g_hash g_header) [state_root_gindex].
Definition g_state_proof : Multiproof := Eval vm_compute in g_build (state_tree g_hash g_state)
  [genesis_validators_root_gindex; slot_gindex; fork_previous_version_gindex; fork_current_version_gindex;
   fork_epoch_gindex; validators_gindex; finalized_checkpoint_epoch_gindex; earliest_exit_epoch_gindex;
   earliest_consolidation_epoch_gindex].
Definition g_all_fields (i : N) : list N :=
  [public_key_0_gindex i; public_key_1_gindex i; effective_balance_gindex i; slashed_gindex i;
   activation_eligibility_epoch_gindex i; activation_epoch_gindex i; exit_epoch_gindex i].
Definition g_validators_proof : Multiproof := Eval vm_compute in g_build (registry_tree g_hash g_vs)
  (3 :: flat_map (fun i => if i =? 4 then [exit_epoch_gindex 4] else g_all_fields i) [0; 1; 2; 3; 4; 5; 6; 7; 8; 9]).
Definition g_slot_proof : Multiproof := Eval vm_compute in g_build (header_tree g_hash g_header12) [block_slot_gindex].

Definition g_att (slot : N) (l : Link) (bits : list bool) (keys : list N) : Attestation :=
  let d := toy_data slot l in
  mkAttestation true bits (repeat true 2 ++ repeat false 62) d
    (g_sig (signing_root g_hash d (get_attester_domain g_hash toy_cs (epoch (target l)) toy_fork toy_gvr)
       ++ map (fun i => byte_of_N (100 + i)) keys)).
Definition g_l1 := mkLink (mkCheckpoint 10 (toy_root 10)) (mkCheckpoint 12 g_root12).
Definition g_l2 := mkLink (mkCheckpoint 12 g_root12) (mkCheckpoint 13 (toy_root 13)).
Definition g_atts : list Attestation :=
  [g_att 24 g_l1 [true; true; true; true] [4; 5; 6; 7]; g_att 25 g_l1 [true; true; true; true] [0; 1; 2; 3];
   g_att 26 g_l2 [false; true; true; true] [4; 5; 6]; g_att 27 g_l2 [true; true; true; true] [0; 1; 2; 3]].
Definition g_patches : bmap StatePatch :=
  [(12, mkStatePatch [(10, toy_root 10)] []); (13, mkStatePatch [(11, toy_root 11)] [(5, 16)])].
Definition g_input : GuestInput :=
  mkGuestInput g_block_proof g_state_proof g_validators_proof (map g_key [0; 1; 2; 3; 4; 5; 6; 7; 50]) g_patches
    g_trusted g_atts [g_slot_proof].

(** Parsing a serialized proof back into its tree. *)
Fixpoint g_parse (fuel : nat) (d : list bool) (data : bytes) : option (mtree * list bool * bytes) :=
  match fuel, d with
  | S f, true :: d' => Some (MLeaf (firstn 32 data), d', skipn 32 data)
  | S f, false :: d' =>
      match g_parse f d' data with
      | Some (l, d1, data1) =>
          match g_parse f d1 data1 with
          | Some (r, d2, data2) => Some (MNode l r, d2, data2)
          | None => None
          end
      | None => None
      end
  | _, _ => None
  end.
Definition g_tree (mp : Multiproof) : mtree :=
  match g_parse (length (mp_descriptor mp)) (mp_descriptor mp) (mp_data mp) with
  | Some (t, _, _) => t | None => MLeaf [] end.
Fixpoint wf_treeb (t : mtree) : bool :=
  match t with MLeaf c => Nat.eqb (length c) 32 | MNode l r => wf_treeb l && wf_treeb r end.
Lemma wf_treeb_ok t : wf_treeb t = true -> wf_tree t.
Proof. induction t; simpl; [apply Nat.eqb_eq|]. rewrite andb_true_iff. intros []; auto. Qed.
Definition bits_eqb (a b : list bool) : bool := if list_eq_dec Bool.bool_dec a b then true else false.
(** The root of a tree and the inputs of its hashes, in one pass. *)
Fixpoint g_inputs (H : bytes -> bytes) (t : mtree) : bytes * list bytes :=
  match t with
  | MLeaf c => (c, [])
  | MNode l r => let (a, x) := g_inputs H l in let (b, y) := g_inputs H r in (H (a ++ b), (a ++ b) :: x ++ y)
  end.
Lemma g_inputs_ok H t : g_inputs H t = (mroot H t, hash_inputs H t).
Proof. induction t as [c|l IHl r IHr]; cbn [g_inputs mroot hash_inputs]; [reflexivity|]. now rewrite IHl, IHr. Qed.
(** A table from the first bits of a hash to the hashed bytes. *)
Inductive trie := TNone | TNode (l : trie) (o : option bytes) (r : trie).
Fixpoint t_put (k : list bool) (v : bytes) (t : trie) : trie :=
  match k, t with
  | [], TNone => TNode TNone (Some v) TNone
  | [], TNode l _ r => TNode l (Some v) r
  | true :: k', TNone => TNode (t_put k' v TNone) None TNone
  | true :: k', TNode l o r => TNode (t_put k' v l) o r
  | false :: k', TNone => TNode TNone None (t_put k' v TNone)
  | false :: k', TNode l o r => TNode l o (t_put k' v r)
  end.
Fixpoint t_get (k : list bool) (t : trie) : option bytes :=
  match k, t with
  | _, TNone => None
  | [], TNode _ o _ => o
  | true :: k', TNode l _ _ => t_get k' l
  | false :: k', TNode _ _ r => t_get k' r
  end.
Definition g_bits (h : bytes) : list bool :=
  flat_map (fun b => match Byte.to_bits b with (b0, (b1, (b2, (b3, (b4, (b5, (b6, b7))))))) => [b0; b1; b2; b3; b4; b5; b6; b7] end) (firstn 8 h).
(** No two of the inputs have the same first bits of their hashes. *)
Definition inj_fast (H : bytes -> bytes) (l : list bytes) : bool :=
  let hs := map (fun a => (a, g_bits (H a))) l in
  let t := fold_left (fun t x => t_put (snd x) (fst x) t) hs TNone in
  forallb (fun x => match t_get (snd x) t with Some a => bytes_eqb a (fst x) | None => false end) hs.
Lemma inj_fast_ok H l : inj_fast H l = true -> injective_on H l.
Proof.
  intros E a b Ha Hb Hab. unfold inj_fast in E. set (t := fold_left _ _ _) in E. rewrite forallb_forall in E.
  assert (Ia : In (a, g_bits (H a)) (map (fun a => (a, g_bits (H a))) l)) by (apply in_map_iff; exists a; auto).
  assert (Ib : In (b, g_bits (H b)) (map (fun a => (a, g_bits (H a))) l)) by (apply in_map_iff; exists b; auto).
  apply E in Ia. apply E in Ib. cbn [fst snd] in Ia, Ib. rewrite Hab in Ia. destruct (t_get (g_bits (H b)) t) as [c|]; [|discriminate].
  apply bytes_eqb_eq in Ia. apply bytes_eqb_eq in Ib. congruence.
Qed.
Definition checkableb (H : bytes -> bytes) (T : mtree) (mp : Multiproof) : bool :=
  let t := g_tree mp in
  bits_eqb (mp_descriptor mp) (preorder t) && wf_treeb t
  && bytes_eqb (mp_data mp) (concat (map snd (leaves t)))
  && Nat.ltb (depth t) 64 && inj_fast H (snd (g_inputs H T) ++ snd (g_inputs H t)).
Lemma checkableb_ok H T mp : checkableb H T mp = true -> checkable H T mp.
Proof.
  unfold checkableb. rewrite !g_inputs_ok. cbn [snd]. rewrite !andb_true_iff. intros [[[[E1 E2] E3] E4] E5]. exists (g_tree mp).
  unfold bits_eqb in E1. destruct (list_eq_dec _ _ _) as [E1'|]; [|discriminate].
  apply bytes_eqb_eq in E3. apply Nat.ltb_lt in E4. split; [|split; [exact E4|now apply inj_fast_ok]].
  split; [exact E1'|]. split; [now apply wf_treeb_ok|]. exists []. now rewrite app_nil_r.
Qed.

Lemma g_check_block : checkable g_hash (header_tree g_hash g_header) g_block_proof.
Proof. apply checkableb_ok. vm_compute. reflexivity. Qed.
Lemma g_check_state : checkable g_hash (state_tree g_hash g_state) g_state_proof.
Proof. apply checkableb_ok. vm_compute. reflexivity. Qed.
Lemma g_check_registry : checkable g_hash (registry_tree g_hash g_vs) g_validators_proof.
Proof. apply checkableb_ok. vm_compute. reflexivity. Qed.
Lemma g_check_slot : checkable g_hash (header_tree g_hash g_header12) g_slot_proof.
Proof. apply checkableb_ok. vm_compute. reflexivity. Qed.
Lemma g_roll_length l : forall u v m, length (g_roll u v l m) = length l.
Proof. induction l as [|x l IH]; intros u v m; cbn [g_roll]; [reflexivity|]. destruct (g_mix u v x (hd x01 m)). cbn [length]. now rewrite IH. Qed.
Lemma g_hash32 : hash32 g_hash.
Proof.
  intros x. unfold g_hash. destruct (g_absorb _ _ _ _). rewrite app_length, repeat_length, g_roll_length, firstn_length. lia.
Qed.
Lemma g_pk48 : pk48 g_X.
Proof. intros pk. unfold pk_serialize, g_X. rewrite firstn_length, app_length, repeat_length. lia. Qed.
Lemma g_wf : wf_header g_header /\ wf_header g_header12 /\ wf_state g_state.
Proof.
  split; [|split].
  - repeat split; vm_compute; reflexivity.
  - repeat split; vm_compute; reflexivity.
  - unfold wf_state. split; [vm_compute; reflexivity|]. split; [vm_compute; reflexivity|].
    split. { split; [|split]; vm_compute; reflexivity. }
    split.
    { split; [|vm_compute; congruence].
      unfold st_validators, g_state, g_vs.
      repeat (apply Forall_cons; [unfold wf_validator; repeat match goal with |- _ /\ _ => split end; vm_compute; reflexivity|]).
      constructor. }
    split; [vm_compute; reflexivity|]. split; [vm_compute; reflexivity|].
    split; [vm_compute; reflexivity|]. split; [vm_compute; reflexivity|].
    intros k. apply le_bytes_length.
Qed.
Definition g_reader : GuestInputReader :=
  match into_reader g_X toy_cs g_input with Ok r => r | _ => mkGuestReader toy_cs [] [] [] g_trusted [] [] end.
Example g_accepted : into_reader g_X toy_cs g_input = Ok g_reader.
Proof.
  unfold g_reader.
  assert (match into_reader g_X toy_cs g_input with Ok _ => true | _ => false end = true) as E by (vm_compute; reflexivity).
  destruct (into_reader g_X toy_cs g_input); [reflexivity|discriminate|discriminate].
Qed.
Example g_active : map fst (gr_validators g_reader) = [0; 1; 2; 3; 5; 6; 7; 8; 9].
Proof. vm_compute. reflexivity. Qed.
