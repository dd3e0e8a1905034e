(** Several processes using the same directory of state files, one file-system call at a time.
    Model/HostStore.v has a single process whose calls are not interleaved. *)
From Coq Require Import List NArith Bool.
From Coq.Init Require Import Byte.
From Verif.Model Require Import Base Types HostStore.
Import ListNotations.
Open Scope N_scope.

(** Writing at an offset: positions between the end of the file and the offset become zero (POSIX). *)
Definition overwrite (content : bytes) (off : nat) (b : bytes) : bytes :=
  firstn off content ++ repeat x00 (off - length content) ++ b ++ skipn (off + length b) content.
Definition fs_write_at (d : directory) (name : bytes) (off : nat) (b : bytes) : directory :=
  match fs_get d name with
  | Some (FileEntry c) => fs_write d name (overwrite c off b)
  | _ => d
  end.

(** Where a request for the state of a slot is: persistant_api_provider.rs:50-66, with the calls of
    file_provider.rs:41-53 and 82-94 inlined. No program removes a state file: the call of
    [clear_states_before] at zkasper_cli.rs:368 is commented out. A process that makes several requests
    is several requests here, of which one starts after the other. The cache in front of the provider
    (cache_provider.rs) is not part of this model. *)
Inductive request (St : Type) :=
| Asked (s : Slot)                                (** file_provider.rs:84, before [file.exists()] *)
| Reading (s : Slot) (got : bytes)                (** file_provider.rs:88, in [fs::read] *)
| Missing (s : Slot)                              (** persistant_api_provider.rs:57 *)
| Fetched (s : Slot) (st : St)                    (** file_provider.rs:45, before [file.exists()] *)
| Creating (s : Slot) (st : St)                   (** file_provider.rs:51, before the file is opened *)
| Writing (s : Slot) (st : St) (n : nat)          (** file_provider.rs:51, [n] bytes written *)
| Finished (s : Slot) (r : answer St).
Arguments Asked {St}. Arguments Reading {St}. Arguments Missing {St}. Arguments Fetched {St}.
Arguments Creating {St}. Arguments Writing {St}. Arguments Finished {St}.

(** One turn: which request goes on; how many bytes a read or write transfers at most (0: the system
    call fails); what the beacon node answers if it is asked. *)
Record turn (St : Type) := mkTurn { t_request : nat; t_bytes : nat; t_node : answer St }.
Arguments mkTurn {St}. Arguments t_request {St}. Arguments t_bytes {St}. Arguments t_node {St}.

Section Shared.
  Context {St : Type}.
  Variable slot_of : St -> Slot.
  Variable ser : St -> bytes.
  Variable deser : bytes -> option St.

  Definition step (d : directory) (q : request St) (k : nat) (node : answer St) : directory * request St :=
    match q with
    | Asked s => (d, if fs_exists d (file_name s) then Reading s [] else Missing s)
    | Reading s got =>
        match k with
        | O => (d, Finished s (Err (POther 1)))
        | S _ =>
            match fs_read d (file_name s) with
            | Ok c =>
                match firstn k (skipn (length got) c) with
                | [] => (d, Finished s (ok_or (deser got) (POther 3)))
                | b => (d, Reading s (got ++ b))
                end
            | Err e => (d, Finished s (Err e))
            | Panic => (d, Finished s Panic)
            end
        end
    | Missing s =>
        match node with
        | Ok st => (d, Fetched s st)
        | Err _ => (d, Finished s (Err (POther 5)))
        | Panic => (d, Finished s Panic)
        end
    | Fetched s st => (d, if fs_exists d (file_name (slot_of st)) then Finished s (Err (POther 2)) else Creating s st)
    | Creating s st =>
        match k with
        | O => (d, Finished s (Err (POther 6)))
        | S _ => (fs_write d (file_name (slot_of st)) [], Writing s st 0)
        end
    | Writing s st n =>
        match skipn n (ser st) with
        | [] => (d, Finished s (Ok st))
        | rest =>
            match k with
            | O => (d, Finished s (Err (POther 6)))
            | S _ => let b := firstn k rest in
                     (fs_write_at d (file_name (slot_of st)) n b, Writing s st (n + length b))
            end
        end
    | Finished s r => (d, q)
    end.

  Definition shared : Type := directory * list (request St).
  Fixpoint set_request (qs : list (request St)) (i : nat) (q : request St) : list (request St) :=
    match qs, i with
    | [], _ => []
    | _ :: r, O => q :: r
    | x :: r, S j => x :: set_request r j q
    end.
  Definition take_turn (w : shared) (t : turn St) : shared :=
    match nth_error (snd w) (t_request t) with
    | Some q => let '(d, q') := step (fst w) q (t_bytes t) (t_node t) in (d, set_request (snd w) (t_request t) q')
    | None => w
    end.
  Definition run_turns (w : shared) (sched : list (turn St)) : shared := fold_left take_turn sched w.
  Definition start_requests (d : directory) (slots : list Slot) : shared := (d, map Asked slots).
End Shared.
