(** What it means that the order of events does not matter. *)
From Coq Require Import List NArith.
From Verif.Model Require Import Base Types ConsensusState HostChain Parallel.
From Verif.Spec Require Import HostSpec.
Import ListNotations.
Open Scope N_scope.

(** The same value, or both fail; which error is reported may differ. *)
Definition same_result {E A} (a b : outcome E A) : Prop :=
  match a, b with
  | Ok x, Ok y => x = y
  | Err _, Err _ => True
  | Panic, Panic => True
  | _, _ => False
  end.
(** Every answer that arrives, whenever it arrives, is that of [f] to the request. *)
Definition answers_of {E A B} (f : B -> outcome E A) (requests : list B) (sched : list (arrivals E A)) : Prop :=
  forall poll i r, In poll sched -> In (i, r) poll -> exists b, nth_error requests i = Some b /\ r = f b.
(** Every request is answered at some time. *)
Definition all_answered {E A} (n : nat) (sched : list (arrivals E A)) : Prop :=
  sched <> [] /\ forall i, (i < n)%nat -> exists poll r, In poll sched /\ In (i, r) poll.
(** The slots whose blocks are asked for. *)
Definition asked (cs : ChainSpec) (links : list Link) (slots : list Slot) : Prop :=
  exists lo hi, target_bounds links lo hi /\ (hi + 1) * slots_per_epoch cs < 2 ^ 64 /\
    slot_range (lo * slots_per_epoch cs) ((hi + 1) * slots_per_epoch cs) slots.
(** How often worker [i] gets its turn. *)
Definition turns_of (i : nat) (sched : list (nat * bool)) : nat := length (filter (fun s => Nat.eqb (fst s) i) sched).
