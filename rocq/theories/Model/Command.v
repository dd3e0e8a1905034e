(** host/src/bin/zkasper_cli.rs: the program as a whole, from its subcommand to what it writes, reports
    and ends with. The parts are in Model/Cli.v, CliRun.v, HostInput.v and Networks.v. Argument parsing
    (:41-126) is in Model/Args.v; logging and failing file-system calls are not modelled. *)
From Coq Require Import List NArith Bool.
From Verif.Model Require Import Base Types ConsensusState Verify GuestReader Guest HostChain HostStore HostInput Cli CliRun InputCodec Networks.
Import ListNotations.
Open Scope N_scope.

(** :70-75 *)
Inductive ExecMode := Native | Ssz | R0vm.
(** :437 [mode == ExecMode::R0vm], the only use of the mode *)
Definition in_zkvm (m : ExecMode) : bool := match m with R0vm => true | _ => false end.
(** :88-126. The log file of [Sync] is a flag here: whether a path is given. *)
Inductive Command :=
| Verify (mode : ExecMode) (trusted_epoch : Epoch)
| Sync (mode : ExecMode) (start_slot : Slot) (log : bool)
| BuildInput (finalized_epoch : Epoch) (continuous : bool).

(** [Success] is exit code 0, [Failure] another one: an error returned from [main] or a panic. *)
Inductive ending := Success | Failure | Ongoing.
(** What a run has done so far: the inputs it built (Model/CliRun.v [build_disk] has their files), the
    lines in the log file if there is one, the post-state it reported (:212). *)
Record Run := mkRun {
  ran_built : list Built;
  ran_log : option (list SyncLine);
  ran_post : option ConsensusState;
  ran_end : ending }.
Definition ending_of (s : status) : ending :=
  match s with Running _ => Ongoing | Done => Success | Failed => Failure end.

(** What runs a guest program in the zkVM: for each network's program ([MAINNET_ELF], [SEPOLIA_ELF]) and
    standard input, the journal of the session, if it does not fail. *)
Definition Zkvm : Type := Network -> bytes -> option bytes.
(** :478-489 [execute_guest_program]; [ExecutorEnvBuilder::write_frame] (external) writes the length as a
    little-endian u32 and the bytes, like [encode_input_stdin]. *)
Definition execute_guest_program (zk : Zkvm) (n : Network) (input : bytes) : option bytes := zk n (encode_input_stdin input).

(** :161-308 [main] after the arguments are parsed. [nodes] is the beacon node at each round of requests:
    one for [verify]; for [sync] one for the initial state (:328) and one for each round of the loop; one
    for each round of [build-input]. With no more rounds to come the run is where it is ([Ongoing]). *)
Definition zkasper (X : Externals) (C : Codec) (w : N) (pk_deserialize : bytes -> option bytes) (zk : Zkvm)
           (n : Network) (cmd : Command) (nodes : list Node) : Run :=
  let cs := network_spec n in                                                     (* :182-185 *)
  let cfg := config_for n in                                                      (* :152-157 *)
  let see := view X cs pk_deserialize cfg in
  let run mode := run_verify X (decode_input C w) (execute_guest_program zk n) cs cfg (in_zkvm mode) in
  match cmd with
  | Verify mode e =>                                                              (* :191-213 *)
      match nodes with
      | [] => mkRun [] None None Ongoing
      | nd :: _ =>
          match vw_prepare (see nd) e with
          | Ok (gi, pre, _, _) =>
              match run mode pre (encode_input C gi) with
              | Ok post => mkRun [] None (Some post) Success
              | _ => mkRun [] None None Failure
              end
          | _ => mkRun [] None None Failure
          end
      end
  | Sync mode slot log =>                                                         (* :214-229, :310-370 *)
      let written lines := if log then Some lines else None in
      match nodes with
      | [] => mkRun [] (written []) None Ongoing
      | nd :: later =>
          match ch_state (nd_chain nd) slot with
          | Ok st =>
              let '(lines, s) := sync_loop (encode_input C) (run mode) (map see later) st in
              mkRun [] (written lines) None (ending_of s)
          | _ => mkRun [] (written []) None Failure
          end
      end
  | BuildInput e continuous =>                                                    (* :230-299 *)
      let '(bs, s) := build_loop continuous (map see nodes) e in
      mkRun bs None None (ending_of s)
  end.
