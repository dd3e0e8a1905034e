(** host/src/bin/zkasper_cli.rs: the text of the log file of [sync], and what happens to the file. The lines are those
    of Model/CliRun.v. The derived [Debug] of Lighthouse's Checkpoint and Epoch and of alloy's B256 is external and
    written out from their documentation. *)
From Coq Require Import String List NArith Bool.
From Coq.Init Require Import Byte.
From Verif.Model Require Import Base Types ConsensusState HostStore Cli CliRun BeaconClient Command.
Import ListNotations.
Open Scope list_scope.
Open Scope N_scope.

Definition str (s : string) : bytes := list_byte_of_string s.
(** core/src/lib.rs:104-106 [derive(Debug)] of the newtype around Lighthouse's Checkpoint *)
Definition debug_checkpoint (c : Checkpoint) : bytes :=
  str "Checkpoint(Checkpoint { epoch: Epoch(" ++ decimal (epoch c) ++ str "), root: 0x" ++ hex (root c) ++ str " })".
(** core/src/consensus_state.rs:26-30 [derive(Debug)] *)
Definition debug_state (s : ConsensusState) : bytes :=
  str "ConsensusState { current_justified_checkpoint: " ++ debug_checkpoint (current_justified s)
  ++ str ", finalized_checkpoint: " ++ debug_checkpoint (finalized s) ++ str " }".
(** :341-359. [why] is the outermost message of an error ([{e}] of an [anyhow::Error]). *)
Definition message (why : CliError -> bytes) (to : ConsensusState) (m : sync_msg) : bytes :=
  match m with
  | SyncOk => str "Ok"
  | SyncMismatch got => str "New state mismatch: expected " ++ debug_state to ++ str ", got " ++ debug_state got
  | SyncFailed e => str "Verification failed: " ++ why e
  end.
(** :422-458: the contexts, and the text of anyhow's [ensure!] (external). Which of the two conditions failed is not
    part of [CliError], and anyhow may append the two values; both are left out here. The theorems hold for any texts
    without ends of lines and tabs. *)
Definition contexts (e : CliError) : bytes :=
  match e with
  | DecodeFailed => str "failed to deserialize state"
  | InputInvalid => str "failed to validate input"
  | HostVerifyFailed => str "host verification failed"
  | GuestFailed => str "guest verification failed"
  | BadJournal => str "invalid journal"
  | Mismatch => str "Condition failed: `guest_post_state == post_state`"
  end.
(** :491-495 [log_sync] *)
Definition log_line (why : CliError -> bytes) (l : SyncLine) : bytes :=
  debug_state (sl_from l) ++ str " -> " ++ debug_state (sl_to l) ++ [x09] ++ message why (sl_to l) (sl_msg l).
Definition log_text (why : CliError -> bytes) (ls : list SyncLine) : bytes := concat (map (fun l => log_line why l ++ [x0a]) ls).

(** The file system: the log file or its directory cannot be created (:319-324), or it can and there is room for
    that many bytes; [None] for enough. *)
Inductive log_disk := NoLog | Room (k : option nat).
(** :310-370 with the log file: what the file holds behind the run, and how the run ends. The file is emptied
    before the first request; a line that does not fit panics (:493), with what did fit in the file. *)
Definition logged (why : CliError -> bytes) (f : log_disk) (before : option bytes) (r : Run) : option bytes * ending :=
  match ran_log r with
  | None => (before, ran_end r)
  | Some ls =>
      match f with
      | NoLog => (before, Failure)
      | Room None => (Some (log_text why ls), ran_end r)
      | Room (Some k) =>
          if Nat.ltb k (length (log_text why ls)) then (Some (firstn k (log_text why ls)), Failure)
          else (Some (log_text why ls), ran_end r)
      end
  end.
