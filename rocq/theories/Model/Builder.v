(** ssz-multiproofs/src/builder.rs (host side: building multiproofs). *)
From Coq Require Import List NArith Bool.
From Verif.Model Require Import Base Multiproof.
Import ListNotations.
Open Scope N_scope.

(** builder.rs:215-221. [index ^ 1] and [index / 2]. *)
Definition sibling (i : N) : N := N.lxor i 1.
Definition parent (i : N) : N := i / 2.

(** builder.rs:191-201 [get_branch_indices]: push sibling, then walk up while focus > 1, finally
    drop the last element. 64 iterations suffice for a [usize] index; fuel is the bit size. *)
Fixpoint branch_up (fuel : nat) (focus : N) : list N :=
  match fuel with
  | O => []
  | S f => if 1 <? focus then let n := sibling (parent focus) in n :: branch_up f n else []
  end.
Definition get_branch_indices (i : N) : list N :=
  removelast (sibling i :: branch_up (N.to_nat (N.size (sibling i))) (sibling i)).

(** builder.rs:203-213 [get_path_indices]. *)
Fixpoint path_up (fuel : nat) (focus : N) : list N :=
  match fuel with
  | O => []
  | S f => if 1 <? focus then let n := parent focus in n :: path_up f n else []
  end.
Definition get_path_indices (i : N) : list N :=
  removelast (i :: path_up (N.to_nat (N.size i)) i).

(** builder.rs:161-180 [cmp_binary_lexicographically] on 64-bit indices.
    [BITS - leading_zeros] is the bit length. *)
Definition cmp_binary_lexicographically (a b : N) : comparison :=
  if (a =? 0) && (b =? 0) then Eq
  else if a =? 0 then Lt
  else if b =? 0 then Gt
  else
    let a_len := N.size a in
    let b_len := N.size b in
    let a_sh := wrap64 (N.shiftl a (64 - a_len)) in
    let b_sh := wrap64 (N.shiftl b (64 - b_len)) in
    match N.compare a_sh b_sh with
    | Eq => N.compare a_len b_len
    | o => o
    end.

(** itertools [sorted_by]: a stable sort, as insertion sort. *)
Definition lex_le (a b : N) : bool :=
  match cmp_binary_lexicographically a b with Gt => false | _ => true end.
Fixpoint insert_sorted {V} (x : N * V) (l : list (N * V)) : list (N * V) :=
  match l with
  | [] => [x]
  | y :: r => if lex_le (fst x) (fst y) then x :: l else y :: insert_sorted x r
  end.
Definition sort_lex {V} (l : list (N * V)) : list (N * V) := fold_right insert_sorted [] l.

(** A [HashSet] of indices, as a duplicate-free list. The iteration order of [difference] is
    unspecified, but the elements are pairwise distinct and are sorted afterwards. *)
Definition set_difference (a b : list N) : list N :=
  nodup N.eq_dec (filter (fun x => negb (existsb (N.eqb x) b)) a).

(** builder.rs:124-157 [compute_proof_indices_and_value_mask]; rayon's parallel reduce computes
    the two unions. *)
Definition compute_proof_indices_and_value_mask (indices : list N) : list (N * bool) :=
  let helpers := set_difference (flat_map get_branch_indices indices)
                                (flat_map get_path_indices indices) in
  sort_lex (map (fun a => (a, false)) helpers ++ map (fun a => (a, true)) indices).

(** [usize::trailing_zeros] (64 for zero). *)
Fixpoint pos_trailing_zeros (p : positive) : nat :=
  match p with xO q => S (pos_trailing_zeros q) | _ => O end.
Definition trailing_zeros (i : N) : nat :=
  match i with N0 => 64 | Npos p => pos_trailing_zeros p end.

(** builder.rs:182-189 [compute_proof_descriptor]. *)
Definition compute_proof_descriptor (proof_indices : list N) : list bool :=
  flat_map (fun i => repeat false (trailing_zeros i) ++ [true]) proof_indices.

(** builder.rs:78-121 [build]. [node_at] stands for ssz_rs [compute_proof_cached_tree]: the node
    of the container's Merkle tree at a generalized index, an error when there is none.
    [self.gindices] is a [BTreeSet]: [indices] is expected sorted and duplicate free. *)
Definition build {E} (node_at : N -> outcome E bytes) (indices : list N) : outcome E Multiproof :=
  let im := compute_proof_indices_and_value_mask indices in
  nodes <- map_outcome node_at (map fst im) ;;
  let d := compute_proof_descriptor (map fst im) in
  md <- calculate_max_stack_depth d ;;
  Ok (mkMultiproof (concat nodes) (map snd im) d md).

(** builder.rs:45-73 [new], [with_gindex], [with_gindices]: the registered set. *)
Definition builder_new : list N := [].
Definition with_gindex (b : list N) (g : N) : list N := bs_insert b g.
Definition with_gindices (b : list N) (gs : list N) : list N := bs_extend b gs.
