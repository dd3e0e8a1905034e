(** Specification of the state stores: what a user of the cache and of the state directory relies
    on. *)
From Coq Require Import List NArith Bool.
From Verif.Model Require Import Base Types HostStore.
Import ListNotations.
Open Scope N_scope.

(** ** Cache *)
(** The requests of a log for slots that were not known, where a successful answer makes its slot
    known. *)
Definition success {A} (a : answer A) : bool := match a with Ok _ => true | _ => false end.
Fixpoint misses {St} (known : Slot -> bool) (log : list (Slot * answer St)) : list (Slot * answer St) :=
  match log with
  | [] => []
  | (s, a) :: r =>
      if known s then misses known r
      else (s, a) :: misses (fun s' => known s' || (success a && (s' =? s))) r
  end.
(** Two logs agree: a slot has only one successful answer. *)
Definition consistent {St} (log : list (Slot * answer St)) : Prop :=
  forall s st1 st2, In (s, Ok st1) log -> In (s, Ok st2) log -> st1 = st2.

(** ** State directory *)
(** An abstract store: at most one state per slot. *)
Definition store (St : Type) := Slot -> option St.
Inductive op (St : Type) := Save (st : St) | Clear (before : Epoch) | Read (s : Slot).
Arguments Save {St}. Arguments Clear {St}. Arguments Read {St}.
Inductive reply (St : Type) := Done | Refused | Found (st : St) | Missing.
Arguments Done {St}. Arguments Refused {St}. Arguments Found {St}. Arguments Missing {St}.

(** What each operation should do: saving never overwrites, clearing drops the slots before the
    first slot of the epoch, reading returns what is stored. *)
Definition spec_op {St} (slot_of : St -> Slot) (spe : N) (m : store St) (o : op St) : reply St * store St :=
  match o with
  | Save st => match m (slot_of st) with
               | Some _ => (Refused, m)
               | None => (Done, fun s => if s =? slot_of st then Some st else m s)
               end
  | Clear e => (Done, fun s => if s <? e * spe then None else m s)
  | Read s => (match m s with Some st => Found st | None => Missing end, m)
  end.
Fixpoint spec_ops {St} (slot_of : St -> Slot) (spe : N) (m : store St) (os : list (op St)) : list (reply St) :=
  match os with
  | [] => []
  | o :: r => let '(a, m') := spec_op slot_of spe m o in a :: spec_ops slot_of spe m' r
  end.

(** The same operations on a directory, with the answers read as replies. *)
Definition reply_unit {St} (a : answer unit) : option (reply St) :=
  match a with Ok _ => Some Done | Err (POther _) => Some Refused | _ => None end.
Definition reply_state {St} (a : answer St) : option (reply St) :=
  match a with Ok st => Some (Found st) | Err (NotFound _) => Some Missing | _ => None end.
Definition dir_op {St} (slot_of : St -> Slot) (ser : St -> bytes) (deser : bytes -> option St) (cs : ChainSpec)
           (d : directory) (o : op St) : option (reply St) * directory :=
  match o with
  | Save st => let '(a, d') := save_state slot_of ser d st in (reply_unit a, d')
  | Clear e => let '(a, d') := clear_states_before cs d e in (reply_unit a, d')
  | Read s => (reply_state (file_state_at_slot deser d s), d)
  end.
Fixpoint dir_ops {St} (slot_of : St -> Slot) (ser : St -> bytes) (deser : bytes -> option St) (cs : ChainSpec)
         (d : directory) (os : list (op St)) : list (option (reply St)) :=
  match os with
  | [] => []
  | o :: r => let '(a, d') := dir_op slot_of ser deser cs d o in a :: dir_ops slot_of ser deser cs d' r
  end.
Definition op_in_range {St} (slot_of : St -> Slot) (spe : N) (o : op St) : Prop :=
  match o with Save st => slot_of st < 2 ^ 64 | Clear e => e * spe < 2 ^ 64 | Read s => s < 2 ^ 64 end.
