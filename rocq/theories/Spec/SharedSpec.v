(** What users of a shared directory rely on. *)
From Coq Require Import List NArith.
From Coq.Init Require Import Byte.
From Verif.Model Require Import Base Types HostStore Shared.
Import ListNotations.
Open Scope N_scope.

Section SharedSpec.
  Context {St : Type}.
  Variable ser : St -> bytes.
  (** The state of each slot. *)
  Variable chain : Slot -> St.

  (** Whenever the node answers, it answers for the chain. *)
  Definition honest_node (slots : list Slot) (sched : list (turn St)) : Prop :=
    forall t s st, In t sched -> nth_error slots (t_request t) = Some s -> t_node t = Ok st -> st = chain s.
  (** The file of the slot, if it exists, holds exactly the state. *)
  Definition undamaged (d : directory) (s : Slot) : Prop :=
    fs_get d (file_name s) = None \/ fs_get d (file_name s) = Some (FileEntry (ser (chain s))).
  Definition complete (d : directory) (s : Slot) : Prop :=
    fs_get d (file_name s) = Some (FileEntry (ser (chain s))).
  (** Every byte is that of the state at the same position, or zero. *)
  Definition right_or_zero (s : Slot) (b : bytes) : Prop :=
    (length b <= length (ser (chain s)))%nat /\
    forall j x, nth_error b j = Some x -> x = x00 \/ nth_error (ser (chain s)) j = Some x.

  (** The request has seen that there is no file and has not yet written it. *)
  Definition writer (s : Slot) (q : request St) : Prop :=
    match q with
    | Creating s' _ => s' = s
    | Writing s' st n => s' = s /\ (n < length (ser st))%nat
    | _ => False
    end.
  (** Its write has failed. *)
  Definition write_failed (s : Slot) (q : request St) : Prop := q = Finished s (Err (POther 6)).
  (** Nobody is writing the file of the slot, and no attempt to write it has failed. *)
  Definition quiet (s : Slot) (qs : list (request St)) : Prop :=
    forall q, In q qs -> ~ writer s q /\ ~ write_failed s q.
  (** At most one request is writing the file of the slot. *)
  Definition one_writer (s : Slot) (qs : list (request St)) : Prop :=
    forall i j q q', nth_error qs i = Some q -> nth_error qs j = Some q' -> writer s q -> writer s q' -> i = j.
  (** No system call of request [i] fails. *)
  Definition no_io_error (i : nat) (sched : list (turn St)) : Prop :=
    forall t, In t sched -> t_request t = i -> t_bytes t <> O.
  Definition turns_for (i : nat) (sched : list (turn St)) : nat :=
    length (filter (fun t => Nat.eqb (t_request t) i) sched).
End SharedSpec.
