(** host/src/bin/gen_gindices.rs: the program that writes core/src/guest_gindices.rs.
    Modelled: the functions the program emits, each with its name and the value its body computes.
    The text of the file and the writing of it are in Model/GenText.v. *)
From Coq Require Import List NArith String.
From Verif.Model Require Import Base.
From Verif.Spec Require Import Beacon.
Import ListNotations.
Open Scope string_scope.
Open Scope N_scope.

(** An emitted function: its name and its value at a validator index. The functions without a
    parameter ignore the index. *)
Definition Emitted : Type := (string * (N -> N))%type.

(** :201-209 [gen_gindices]. [generalized_index(..).unwrap()] panics on a path the type does not have;
    [T::generalized_index] is the consensus specification's function (ssz_rs is not modelled). *)
Definition gen_gindices {E} (G : ssz_type) (np : string * list path_elem) : outcome E (string * N) :=
  g <- expect (generalized_index G (snd np) 1) ;; Ok (fst np, g).
(** [.map(|(name, path)| gen_gindices::<G>(..))] over an array. *)
Fixpoint gen_each {E} (G : ssz_type) (l : list (string * list path_elem)) : outcome E (list (string * N)) :=
  match l with
  | [] => Ok []
  | x :: r => a <- gen_gindices G x ;; b <- gen_each G r ;; Ok (a :: b)
  end.
(** :72-91 [gen_guest_gindices_impl]: a function without parameters that returns the literal. *)
Definition gen_guest_gindices_impl (l : list (string * N)) : list Emitted :=
  map (fun nv => (fst nv ++ "_gindex", fun _ : N => snd nv)) l.

(** :101-119, the array in [validators_gindices]. *)
Definition validator_paths : list (string * list path_elem) :=
  [("public_key_0", [Field "public_key"; Index 0]);
   ("public_key_1", [Field "public_key"; Index 47]);
   ("effective_balance", [Field "effective_balance"]);
   ("activation_eligibility_epoch", [Field "activation_eligibility_epoch"]);
   ("activation_epoch", [Field "activation_epoch"]);
   ("exit_epoch", [Field "exit_epoch"]);
   ("slashed", [Field "slashed"])].
(** :133-137, the body of an emitted function: u64 operations, reduced once at the end. *)
Definition indexed_body (base chunks value : N) (i : N) : N :=
  let chunk_offset := value / chunks in
  let within_chunk := value mod chunks in
  wrap64 ((base + i) * chunks * chunk_offset + within_chunk).
(** :93-145 [validators_gindices], for any element type, list limit and paths; the program fixes
    [Validator], [VALIDATOR_REGISTRY_LIMIT] and [validator_paths]. *)
Definition element_gindices {E} (T : ssz_type) (limit : N) (paths : list (string * list path_elem)) : outcome E (list Emitted) :=
  base_gindex <- expect (generalized_index (TList T limit) [Index 0] 1) ;;
  g <- gen_each T paths ;;
  Ok (map (fun nv => (fst nv ++ "_gindex", indexed_body base_gindex (chunk_count T) (snd nv))) g).
Definition validators_gindices {E} : outcome E (list Emitted) := element_gindices T_validator (2 ^ 40) validator_paths.

(** :147-159 [block_gindices] *)
Definition block_paths : list (string * list path_elem) :=
  [("state_root", [Field "state_root"]); ("block_slot", [Field "slot"])].
(** :162-198 [beacon_gindices] *)
Definition beacon_paths : list (string * list path_elem) :=
  [("slot", [Field "slot"]);
   ("finalized_checkpoint_epoch", [Field "finalized_checkpoint"; Field "epoch"]);
   ("genesis_validators_root", [Field "genesis_validators_root"]);
   ("fork_previous_version", [Field "fork"; Field "previous_version"]);
   ("fork_current_version", [Field "fork"; Field "current_version"]);
   ("fork_epoch", [Field "fork"; Field "epoch"]);
   ("validators", [Field "validators"]);
   ("earliest_exit_epoch", [Field "earliest_exit_epoch"]);
   ("earliest_consolidation_epoch", [Field "earliest_consolidation_epoch"])].
(** :43-70 [main], with the state type as a parameter; the program fixes the Electra state. *)
Definition generate {E} (state : ssz_type) : outcome E (list Emitted) :=
  s <- gen_each state beacon_paths ;;
  b <- gen_each T_header block_paths ;;
  v <- validators_gindices ;;
  Ok (gen_guest_gindices_impl s ++ gen_guest_gindices_impl b ++ v)%list.
