(** ssz-multiproofs/src/multiproof.rs (guest side: verification and iteration). *)
From Coq Require Import List NArith Bool.
From Verif.Model Require Import Base.
Import ListNotations.
Open Scope N_scope.

(** error.rs: the variants used here. *)
Inductive MPError :=
| RootMismatch | UnusedLeaves | UnexpectedInternalNode | MissingValue
| GIndexMismatch (expected actual : N).

(** multiproof.rs:34-48 [Multiproof]. [Descriptor] and the mask are bit vectors. *)
Record Multiproof := mkMultiproof {
  mp_data : bytes;
  mp_value_mask : list bool;
  mp_descriptor : list bool;
  mp_max_stack_depth : N }.

(** multiproof.rs:23. *)
Definition CHUNK_SIZE : nat := 32.

(** multiproof.rs:177-191 [TreeNode], [has_value], [is_internal]. *)
Inductive TreeNode := NLeaf (c : bytes) | NComputed (c : bytes) | NInternal.
Definition node_value (n : TreeNode) : option bytes :=
  match n with NLeaf c | NComputed c => Some c | NInternal => None end.

(** multiproof.rs:211-232: the reduction loop, with the top of the stack given separately.
    [hasher.update(left); hasher.update(right)] hashes the concatenation. The two
    [UnexpectedInternalNode] returns are unreachable because of the loop condition
    ([has_value]); they have no counterpart here. *)
Fixpoint reduce (H : bytes -> bytes) (top : TreeNode) (below : list TreeNode) : list TreeNode :=
  match below with
  | lft :: NInternal :: rest =>
      match node_value top, node_value lft with
      | Some r, Some l => reduce H (NComputed (H (l ++ r))) rest
      | _, _ => top :: below
      end
  | _ => top :: below
  end.

(** multiproof.rs:203-236: main loop; [node_index] counts consumed chunks; out-of-range slicing
    panics. [node_index * CHUNK_SIZE] cannot wrap: the slice would have to exceed memory. *)
Fixpoint root_loop (H : bytes -> bytes) (data : bytes) (descr : list bool) (node_index : nat)
         (stack : list TreeNode) : outcome MPError (list TreeNode) :=
  match descr with
  | [] => Ok stack
  | true :: d =>
      c <- expect (slice data (node_index * CHUNK_SIZE) CHUNK_SIZE) ;;
      root_loop H data d (S node_index) (reduce H (NLeaf c) stack)
  | false :: d => root_loop H data d node_index (NInternal :: stack)
  end.

(** multiproof.rs:195-243 [calculate_compact_multi_merkle_root]; the stack depth hint only
    preallocates. *)
Definition calculate_compact_multi_merkle_root (H : bytes -> bytes) (data : bytes)
           (descr : list bool) : outcome MPError bytes :=
  stack <- root_loop H data descr 0 [] ;;
  match stack with
  | [NLeaf _] => Err UnusedLeaves
  | [NComputed c] => Ok c
  | [NInternal] => Err UnexpectedInternalNode
  | _ => Panic
  end.

(** multiproof.rs:62-64. *)
Definition calculate_root (H : bytes -> bytes) (mp : Multiproof) : outcome MPError bytes :=
  calculate_compact_multi_merkle_root H (mp_data mp) (mp_descriptor mp).

(** multiproof.rs:53-59. *)
Definition mp_verify (H : bytes -> bytes) (mp : Multiproof) (root : bytes) : outcome MPError unit :=
  r <- calculate_root H mp ;;
  if bytes_eqb r root then Ok tt else Err RootMismatch.

(** multiproof.rs:139-175 [GIndexIterator], run to exhaustion from state
    ([current_gindex], [stack]). [*= 2] and [* 2 + 1] wrap modulo 2^64 (release profile).
    A failed [stack.pop()?] ends the iteration without yielding. *)
Fixpoint gindex_iter (descr : list bool) (cur : N) (stack : list N) : list N :=
  match descr with
  | [] => []
  | false :: d => gindex_iter d (wrap64 (cur * 2)) (cur :: stack)
  | true :: d =>
      match stack with
      | [] => []
      | s :: st => cur :: gindex_iter d (wrap64 (wrap64 (s * 2) + 1)) st
      end
  end.
(** multiproof.rs:147-154. *)
Definition gindices (descr : list bool) : list N := gindex_iter descr 1 [1].

(** [slice::chunks_exact(32)]: a trailing partial chunk is dropped. *)
Fixpoint chunks_exact_aux (fuel : nat) (data : bytes) : list bytes :=
  match fuel with
  | O => []
  | S f => match slice data 0 CHUNK_SIZE with
           | Some c => c :: chunks_exact_aux f (skipn CHUNK_SIZE data)
           | None => []
           end
  end.
Definition chunks_exact (data : bytes) : list bytes := chunks_exact_aux (length data) data.

(** multiproof.rs:67-73 [nodes]. *)
Definition mp_nodes (mp : Multiproof) : list (N * bytes) :=
  combine (gindices (mp_descriptor mp)) (chunks_exact (mp_data mp)).

(** multiproof.rs:76-84 [values]. *)
Definition mp_values (mp : Multiproof) : list (N * bytes) :=
  map fst (filter (fun x => snd x) (combine (mp_nodes mp) (mp_value_mask mp))).

(** multiproof.rs:91-95 [get]. *)
Definition mp_get (mp : Multiproof) (g : N) : option bytes :=
  match find (fun x => fst x =? g) (mp_values mp) with
  | Some x => Some (snd x)
  | None => None
  end.

(** multiproof.rs:114-124 [next_assert_gindex]: returns the node and the remaining values. *)
Definition next_assert_gindex (vals : list (N * bytes)) (g : N)
  : outcome MPError (bytes * list (N * bytes)) :=
  match vals with
  | [] => Err MissingValue
  | (g', c) :: rest => if g' =? g then Ok (c, rest) else Err (GIndexMismatch g g')
  end.

(** multiproof.rs:247-271 [calculate_max_stack_depth]. *)
Fixpoint depth_reduce (top : bool) (below : list bool) (mx : N) : list bool * N :=
  (* a stack element is [true] when it has a value, [false] when internal *)
  match below with
  | true :: false :: rest =>
      if top then depth_reduce true rest (N.max mx (N.of_nat (S (length rest))))
      else (top :: below, mx)
  | _ => (top :: below, mx)
  end.
Fixpoint depth_loop (descr : list bool) (stack : list bool) (mx : N) : list bool * N :=
  match descr with
  | [] => (stack, mx)
  | true :: d => let '(st, mx') := depth_reduce true stack mx in depth_loop d st mx'
  | false :: d => depth_loop d (false :: stack) (N.max mx (N.of_nat (S (length stack))))
  end.
Definition calculate_max_stack_depth {E} (descr : list bool) : outcome E N :=
  let '(st, mx) := depth_loop descr [] 0 in
  _ <- assert_ (Nat.eqb (length st) 1) ;; Ok mx.
