(** ssz-multiproofs/src/multiproof.rs:195-243 once more, with the memory of the stack: what
    [Vec::with_capacity(stack_depth_hint)] prepares and how often it has to be moved. *)
From Coq Require Import List NArith Bool.
From Verif.Model Require Import Base Multiproof.
Import ListNotations.
Open Scope N_scope.

(** A [Vec]'s capacity, the number of times it has grown, and its greatest length so far. *)
Record Use := mkUse { u_cap : N; u_grown : N; u_peak : N }.

(** [Vec::push] on a vector of length [len] (external, alloc::raw_vec::grow_amortized): a full vector
    gets twice its capacity, at least one more, at least 4 (elements between 2 and 1024 bytes). *)
Definition push_use (u : Use) (len : nat) : Use :=
  let len := N.of_nat len in
  let full := u_cap u <=? len in
  mkUse (if full then N.max (N.max (2 * u_cap u) (u_cap u + 1)) 4 else u_cap u)
        (if full then u_grown u + 1 else u_grown u)
        (N.max (u_peak u) (len + 1)).

(** multiproof.rs:211-232, as [reduce]: three pops and the push of the computed node. *)
Fixpoint reduce_use (H : bytes -> bytes) (top : TreeNode) (below : list TreeNode) (u : Use) : list TreeNode * Use :=
  match below with
  | lft :: NInternal :: rest =>
      match node_value top, node_value lft with
      | Some r, Some l => reduce_use H (NComputed (H (l ++ r))) rest (push_use u (length rest))
      | _, _ => (top :: below, u)
      end
  | _ => (top :: below, u)
  end.

(** multiproof.rs:203-236, as [root_loop]. *)
Fixpoint root_loop_use (H : bytes -> bytes) (data : bytes) (descr : list bool) (node_index : nat)
         (stack : list TreeNode) (u : Use) : outcome MPError (list TreeNode * Use) :=
  match descr with
  | [] => Ok (stack, u)
  | true :: d =>
      c <- expect (slice data (node_index * CHUNK_SIZE) CHUNK_SIZE) ;;
      let '(stack', u') := reduce_use H (NLeaf c) stack (push_use u (length stack)) in
      root_loop_use H data d (S node_index) stack' u'
  | false :: d => root_loop_use H data d node_index (NInternal :: stack) (push_use u (length stack))
  end.

(** multiproof.rs:195-243 with the given hint (allocating that much succeeds): the result and the use. *)
Definition root_use (H : bytes -> bytes) (hint : N) (data : bytes) (descr : list bool) : outcome MPError (bytes * Use) :=
  '(stack, u) <- root_loop_use H data descr 0 [] (mkUse hint 0 0) ;;
  match stack with
  | [NLeaf _] => Err UnusedLeaves
  | [NComputed c] => Ok (c, u)
  | [NInternal] => Err UnexpectedInternalNode
  | _ => Panic
  end.
(** multiproof.rs:62-64. *)
Definition calculate_root_use (H : bytes -> bytes) (mp : Multiproof) : outcome MPError (bytes * Use) :=
  root_use H (mp_max_stack_depth mp) (mp_data mp) (mp_descriptor mp).
