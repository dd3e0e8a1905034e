(** What users of a shared data directory rely on. *)
From Coq Require Import List NArith.
From Coq.Init Require Import Byte.
From Verif.Model Require Import Base Types Cli CliRun ConsensusState GuestReader Guest Networks DataDir.
Import ListNotations.
Open Scope N_scope.

(** The bytes of a file of an input that was built. *)
Definition file_bytes (encode : GuestInput -> bytes) (b : Built) (f : file) : option bytes :=
  match f with
  | InputFile e => if e =? b_epoch b then Some (encode_input_stdin (encode (b_input b))) else None
  | JournalFile e => if e =? b_epoch b then Some (journal_encode (b_pre b) (b_post b) (b_slot b)) else None
  end.
(** Processes for the same network build the same input for the same epoch. *)
Definition same_inputs (ps : list (Network * list Built)) : Prop :=
  forall n bs bs' b b', In (n, bs) ps -> In (n, bs') ps -> In b bs -> In b' bs' -> b_epoch b = b_epoch b' -> b = b'.
(** Some process for network [n] builds the file with these bytes. *)
Definition builds (encode : GuestInput -> bytes) (ps : list (Network * list Built)) (n : Network) (f : file) (c : bytes) : Prop :=
  exists bs b, In (n, bs) ps /\ In b bs /\ file_bytes encode b f = Some c.
(** All the inputs that the processes for network [n] build. *)
Definition built_for (n : Network) (ps : list (Network * list Built)) : list Built :=
  flat_map (fun p => match fst p, n with Mainnet, Mainnet | Sepolia, Sepolia => snd p | _, _ => [] end) ps.
(** Each byte is the right one for its position, or zero. *)
Definition right_or_zeros (right c : bytes) : Prop :=
  (length c <= length right)%nat /\ forall j x, nth_error c j = Some x -> x = x00 \/ nth_error right j = Some x.

Definition work_of (q : process) : list act := match q with Working l | Stopped l => l end.
(** The process has the file open, that is, has opened it and has not yet written all of it (or has
    stopped on the way). *)
Definition has_open (p : path) (q : process) : Prop :=
  exists before b off after, work_of q = before ++ Putting p b off :: after /\ ~ In (Opening p) before.
(** All processes are through. *)
Definition all_finished (w : tree * list process) : Prop := forall q, In q (snd w) -> q = Working [].
(** No call of process [i] fails. *)
Definition no_failure (i : nat) (sched : list (nat * nat)) : Prop := forall k, In (i, k) sched -> k <> O.
Definition turns_of (i : nat) (sched : list (nat * nat)) : nat := length (filter (fun t => Nat.eqb (fst t) i) sched).
(** Turns that are enough for a process: one for each file to open, one to see the end of each file, and one for each byte. *)
Definition enough_turns (encode : GuestInput -> bytes) (bs : list Built) : nat :=
  list_sum (map (fun b => 4 + length (encode_input_stdin (encode (b_input b))) + length (journal_encode (b_pre b) (b_post b) (b_slot b)))%nat bs).
