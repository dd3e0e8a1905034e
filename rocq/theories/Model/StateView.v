(** host/src/beacon_state.rs:471-680: the accessors through which the host sees a state, and the step from
    a state as it was read (Model/StateJson.v) to the state that the other models use
    (Model/HostInput.v). The trees of [ssz_rs] are external: those of Spec/HashTreeRoot.v. *)
From Coq Require Import String List NArith Bool.
From Coq.Init Require Import Byte.
From Verif.Model Require Import Base Types HostInput StateFile StateJson.
From Verif.Spec Require Import Merkle Beacon StateJsonSpec HashTreeRoot.
Import ListNotations.
Open Scope list_scope.
Open Scope N_scope.

Definition as_bytes (v : val) : bytes := match v with VBytes b => b | _ => [] end.
Definition as_num (v : val) : N := match v with VNum n => n | _ => 0 end.
Definition as_bool (v : val) : bool := match v with VBool b => b | _ => false end.
Definition as_seq (v : val) : list val := match v with VSeq l => l | _ => [] end.
Definition sub (v : val) (i : nat) : val := nth i (as_seq v) (VNum 0).

(** A field by its name; the defaults stand for fields that the version does not have. *)
Definition get (st : TState) (name : string) : val :=
  match find (fun nv => String.eqb (fst nv) name) (combine (map fst (typed_fields (ts_version st))) (ts_fields st)) with
  | Some nv => snd nv
  | None => VNum 0
  end.
(** The types of [ethereum_consensus], as far as the host uses them. *)
Definition fork_of (v : val) : Fork := mkFork (as_bytes (sub v 0)) (as_bytes (sub v 1)) (as_num (sub v 2)).
Definition header_of_val (v : val) : Header :=
  mkHeader (as_num (sub v 0)) (as_num (sub v 1)) (as_bytes (sub v 2)) (as_bytes (sub v 3)) (MLeaf (as_bytes (sub v 4))).
Definition checkpoint_of_val (v : val) : Checkpoint := mkCheckpoint (as_num (sub v 0)) (as_bytes (sub v 1)).
Definition validator_of (v : val) : Validator :=
  mkValidator (as_bytes (sub v 0)) (as_bytes (sub v 1)) (as_num (sub v 2)) (as_bool (sub v 3)) (as_num (sub v 4))
    (as_num (sub v 5)) (as_num (sub v 6)) (as_num (sub v 7)).

(** :471-481 [version], as far as it matters (preflight_input_reader.rs accepts Electra and Fulu). *)
Definition supported (v : version) : bool := match v with VElectra | VFulu => true | _ => false end.
Definition is_fulu (v : version) : bool := match v with VFulu => true | _ => false end.
(** :483-680: [genesis_validators_root], [slot], [fork], [latest_block_header], [validators], [randao_mixes],
    [finalized_checkpoint]; the two exit queue fields and the rest are reached through the tree only. *)
Definition view_state (H : bytes -> bytes) (st : TState) : State :=
  mkState (is_fulu (ts_version st))
    (as_bytes (get st "genesis_validators_root")) (as_num (get st "slot")) (fork_of (get st "fork"))
    (map validator_of (as_seq (get st "validators"))) (checkpoint_of_val (get st "finalized_checkpoint"))
    (as_num (get st "earliest_exit_epoch")) (as_num (get st "earliest_consolidation_epoch"))
    (fun k => match nth_error (combine (StateJsonSpec.state_fields (ts_version st)) (ts_fields st)) (N.to_nat k) with
              | Some (nk, v) => ssz_tree H (snd nk) v
              | None => MLeaf (repeat x00 32)
              end).
Definition view (H : bytes -> bytes) (st : TState) : HState :=
  mkHState (supported (ts_version st)) (view_state H st) (header_of_val (get st "latest_block_header"))
    (map as_bytes (as_seq (get st "randao_mixes"))).
