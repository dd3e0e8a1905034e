(** host/src/bin/zkasper_cli.rs: the [build-input] and [sync] commands. Time is a list of views of the
    beacon node, one per iteration of the loop. Directories, logging texts and sleeping are not modelled. *)
From Coq Require Import List NArith Bool.
From Verif.Model Require Import Base Types ConsensusState Verify GuestReader Guest HostChain HostStore HostInput Cli.
From Verif.Spec Require Import Beacon.
Import ListNotations.
Open Scope N_scope.

(** What the loops ask for: the result of [prepare_input] (Model/HostInput.v) for an epoch, and the
    finalized epoch of the head ([BeaconClient::get_finality_checkpoints]). *)
Record View := mkView {
  vw_finalized : outcome N Epoch;
  vw_prepare : Epoch -> outcome HIError (GuestInput * ConsensusState * ConsensusState * N) }.

(** [HostInputReader::new] as used by [prepare_input] (zkasper_cli.rs:393-399); while the search goes on
    there is no result. *)
Definition collect_from (cs : ChainSpec) (ch : Chain) (fuel : nat) (c : Checkpoint) : outcome HostError (ConsensusState * list Attestation) :=
  match host_new cs ch c fuel with Some r => r | None => Panic end.
(** The beacon node (and the state directory) at some moment. *)
Record Node := mkNode {
  nd_finalized : outcome N Epoch;
  nd_states : Slot -> outcome ProviderError HState;
  nd_headers : Root -> outcome N (option Header);
  nd_blocks : Slot -> outcome N (option Header);
  nd_chain : Chain;
  nd_fuel : nat }.
Definition view (X : Externals) (cs : ChainSpec) (pk_deserialize : bytes -> option bytes) (cfg : Config) (n : Node) : View :=
  mkView (nd_finalized n)
    (prepare_input X cs pk_deserialize (nd_states n) (nd_headers n) (nd_blocks n)
       (collect_from cs (nd_chain n) (nd_fuel n)) cfg).

(** ** Files *)
(** zkasper_cli.rs:265-279: [inputs/{epoch}_stdin.bin] and [journals/{epoch}_journal.bin]. *)
Inductive file := InputFile (e : Epoch) | JournalFile (e : Epoch).
Definition file_eqb (a b : file) : bool :=
  match a, b with
  | InputFile x, InputFile y => x =? y
  | JournalFile x, JournalFile y => x =? y
  | _, _ => false
  end.
Definition disk := file -> option bytes.
(** [File::create] creates or truncates; [write_all] on the handle just opened appends. *)
Inductive disk_op := Create (f : file) | Append (f : file) (b : bytes).
Definition put (d : disk) (f : file) (b : bytes) : disk := fun g => if file_eqb g f then Some b else d g.
Definition apply_op (d : disk) (op : disk_op) : disk :=
  match op with
  | Create f => put d f []
  | Append f b => put d f (match d f with Some old => old | None => [] end ++ b)
  end.
Definition apply_ops (d : disk) (ops : list disk_op) : disk := fold_left apply_op ops d.

(** ** build-input *)
Record Built := mkBuilt {
  b_epoch : Epoch; b_input : GuestInput; b_pre : ConsensusState; b_post : ConsensusState; b_slot : N }.
(** zkasper_cli.rs:265-291: both files are created before either is written. [encode] is
    [bincode::serialize] at the end of [prepare_input]. *)
Definition build_ops (encode : GuestInput -> bytes) (b : Built) : list disk_op :=
  [ Create (InputFile (b_epoch b)); Create (JournalFile (b_epoch b));
    Append (InputFile (b_epoch b)) (encode_input_stdin (encode (b_input b)));
    Append (JournalFile (b_epoch b)) (journal_encode (b_pre b) (b_post b) (b_slot b)) ].

Inductive status := Running (e : Epoch) | Done | Failed.
(** zkasper_cli.rs:230-299 [Command::BuildInput]. An error ([?]) or panic ends the program before
    anything of the iteration is written. Failing file operations are not modelled here. *)
Fixpoint build_loop (continuous : bool) (views : list View) (e : Epoch) : list Built * status :=
  match views with
  | [] => ([], Running e)
  | v :: views' =>
      match vw_finalized v with
      | Ok fin =>
          if fin <? wrap64 (e + 1) then build_loop continuous views' e
          else match vw_prepare v e with
               | Ok (gi, pre, post, slot) =>
                   let b := mkBuilt e gi pre post slot in
                   if continuous then
                     let '(bs, st) := build_loop continuous views' (epoch (finalized post)) in (b :: bs, st)
                   else ([b], Done)
               | _ => ([], Failed)
               end
      | _ => ([], Failed)
      end
  end.
Definition build_disk (encode : GuestInput -> bytes) (d : disk) (bs : list Built) : disk :=
  apply_ops d (flat_map (build_ops encode) bs).

(** ** sync *)
(** zkasper_cli.rs:341-359: the message of a log line. *)
Inductive sync_msg := SyncOk | SyncMismatch (got : ConsensusState) | SyncFailed (e : CliError).
Record SyncLine := mkSyncLine { sl_from : ConsensusState; sl_to : ConsensusState; sl_msg : sync_msg }.
(** zkasper_cli.rs:331-369, the loop of [run_sync], which carries on from the expected state whatever
    the verification returned; [run] is [run_verify] with its fixed arguments. A panic in it ends the
    program; so does an error of [prepare_input]. *)
Fixpoint sync_loop (encode : GuestInput -> bytes) (run : ConsensusState -> bytes -> outcome CliError ConsensusState)
         (views : list View) (st : ConsensusState) : list SyncLine * status :=
  match views with
  | [] => ([], Running (epoch (finalized st)))
  | v :: views' =>
      match vw_prepare v (epoch (finalized st)) with
      | Ok (gi, pre, expected, _) =>
          match run pre (encode gi) with
          | Panic => ([], Failed)
          | r =>
              let msg := match r with
                         | Ok got => if state_eqb got expected then SyncOk else SyncMismatch got
                         | Err e => SyncFailed e
                         | Panic => SyncOk
                         end in
              let '(ls, s) := sync_loop encode run views' expected in
              (mkSyncLine st expected msg :: ls, s)
          end
      | _ => ([], Failed)
      end
  end.
