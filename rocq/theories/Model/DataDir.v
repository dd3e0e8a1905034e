(** host/src/bin/zkasper_cli.rs: the files under the data directory, and several processes that run
    [build-input] in the same data directory, one file-system call at a time. Model/CliRun.v has a single
    process whose calls are not interleaved; Model/Shared.v has the state files. *)
From Coq Require Import List NArith Bool.
From Coq.Init Require Import Byte.
From Verif.Model Require Import Base Types HostStore Cli CliRun ConsensusState GuestReader Guest BeaconClient Networks Shared.
Import ListNotations.
Open Scope N_scope.

(** ** Paths, relative to the data directory *)
(** [PathBuf] (:60, :178, :265-279): the list of its segments; equality of paths as of lists. *)
Definition path : Type := list bytes.
Definition path_eqb : path -> path -> bool := segments_eqb.
(** :139-146 [Display] of [Network] *)
Definition network_name (n : Network) : bytes :=
  match n with
  | Mainnet => [x6d; x61; x69; x6e; x6e; x65; x74]                                (* mainnet *)
  | Sepolia => [x73; x65; x70; x6f; x6c; x69; x61]                                (* sepolia *)
  end.
(** :265-279: the parts of the two file names *)
Definition w_inputs := [x69; x6e; x70; x75; x74; x73].
Definition w_journals := [x6a; x6f; x75; x72; x6e; x61; x6c; x73].
Definition stdin_suffix := [x5f; x73; x74; x64; x69; x6e; x2e; x62; x69; x6e].                            (* _stdin.bin *)
Definition journal_suffix := [x5f; x6a; x6f; x75; x72; x6e; x61; x6c; x2e; x62; x69; x6e].                (* _journal.bin *)
(** :265-279: [inputs/{epoch}_stdin.bin] and [journals/{epoch}_journal.bin] of the network's directory *)
Definition cli_path (n : Network) (f : file) : path :=
  match f with
  | InputFile e => [network_name n; w_inputs; decimal e ++ stdin_suffix]
  | JournalFile e => [network_name n; w_journals; decimal e ++ journal_suffix]
  end.
(** :178-179 and file_provider.rs:44 *)
Definition state_path (n : Network) (s : Slot) : path := [network_name n; w_states; file_name s].

(** What is under the data directory. Directories are not entries: :266, :276 create them when missing. *)
Definition tree := path -> option bytes.
Definition tree_put (d : tree) (p : path) (b : bytes) : tree := fun q => if path_eqb q p then Some b else d q.

(** ** Processes *)
(** What is left of a process's file-system work: opening a file, which empties it; writing the rest of
    [b] at offset [off] of the open file ([write_all] keeps calling [write]). *)
Inductive act := Opening (p : path) | Putting (p : path) (b : bytes) (off : nat).
(** :265-291 for one epoch: both files are opened before either is written (cf. [build_ops]). *)
Definition epoch_acts (encode : GuestInput -> bytes) (n : Network) (b : Built) : list act :=
  let i := cli_path n (InputFile (b_epoch b)) in
  let j := cli_path n (JournalFile (b_epoch b)) in
  [ Opening i; Opening j; Putting i (encode_input_stdin (encode (b_input b))) 0;
    Putting j (journal_encode (b_pre b) (b_post b) (b_slot b)) 0 ].
(** A process that still runs, and one that has stopped with an error ([?] after the failed call). One
    that was killed is one that gets no more turns. *)
Inductive process := Working (l : list act) | Stopped (l : list act).
(** One turn of a process: a call transfers at most [k] bytes; with [k = 0] it fails. [d] is what is on
    disk; writing at an offset past the end leaves zeros in between ([overwrite]). *)
Definition act_step (d : tree) (l : list act) (k : nat) : tree * process :=
  match l with
  | [] => (d, Working [])
  | Opening p :: r =>
      match k with
      | O => (d, Stopped l)
      | S _ => (tree_put d p [], Working r)
      end
  | Putting p b off :: r =>
      match skipn off b with
      | [] => (d, Working r)
      | rest =>
          match k with
          | O => (d, Stopped l)
          | S _ => let c := firstn k rest in
                   (match d p with Some old => tree_put d p (overwrite old off c) | None => d end,
                    Working (Putting p b (off + length c) :: r))
          end
      end
  end.
Fixpoint set_nth {A} (l : list A) (i : nat) (x : A) : list A :=
  match l, i with
  | [], _ => []
  | _ :: r, O => x :: r
  | y :: r, S j => y :: set_nth r j x
  end.
Definition call (w : tree * list process) (t : nat * nat) : tree * list process :=
  match nth_error (snd w) (fst t) with
  | Some (Working l) => let '(d, q) := act_step (fst w) l (snd t) in (d, set_nth (snd w) (fst t) q)
  | _ => w
  end.
(** The processes, each with its network and the inputs it builds, and a schedule of turns (which
    process, how many bytes). *)
Definition start_builds (encode : GuestInput -> bytes) (d : tree) (ps : list (Network * list Built)) : tree * list process :=
  (d, map (fun p => Working (flat_map (epoch_acts encode (fst p)) (snd p))) ps).
Definition run_builds (encode : GuestInput -> bytes) (d : tree) (ps : list (Network * list Built)) (sched : list (nat * nat))
  : tree * list process := fold_left call sched (start_builds encode d ps).
