(** The exit queue of the consensus specification (electra beacon-chain.md,
    compute_exit_epoch_and_update_churn; compute_consolidation_epoch_and_update_churn has the same
    form) and the exits that successive states show. *)
From Coq Require Import List NArith Bool.
From Verif.Model Require Import Base Types Verify GuestReader.
From Verif.Spec Require Import Registry.
Import ListNotations.
Open Scope N_scope.

(** state.earliest_exit_epoch and state.exit_balance_to_consume. *)
Record queue := mkQueue { q_epoch : Epoch; q_balance : N }.

(** compute_exit_epoch_and_update_churn at epoch [cur] with per-epoch churn [c]; the epoch assigned
    is the [q_epoch] of the result. *)
Definition assign (cs : ChainSpec) (cur : Epoch) (c : N) (balance : N) (q : queue) : queue :=
  let first := N.max (q_epoch q) (activation_exit_epoch cs cur) in
  let avail := if q_epoch q <? first then c else q_balance q in
  if avail <? balance
  then let more := (balance - avail - 1) / c + 1 in
       mkQueue (first + more) (avail + more * c - balance)
  else mkQueue first (avail - balance).

(** What happens to the queue: a validator is given an exit epoch for its effective balance, or
    balance passes the queue without an exit (a partial withdrawal). *)
Inductive event :=
| Exit (i : ValidatorIndex) (cur : Epoch) (c : N)
| Withdraw (balance : N) (cur : Epoch) (c : N).

(** Events from the epoch [trusted] on, with churn at most [churn]. [balance_of i] is the effective
    balance of validator [i]. The list holds the exits, in order. *)
Inductive queue_run (cs : ChainSpec) (balance_of : ValidatorIndex -> N) (trusted : Epoch) (churn : N)
  : queue -> list event -> list (ValidatorIndex * Epoch) -> queue -> Prop :=
| qr_nil : forall q, queue_run cs balance_of trusted churn q [] [] q
| qr_exit : forall q i cur c evs out q', trusted <= cur -> 0 < c <= churn ->
    let q1 := assign cs cur c (balance_of i) q in
    queue_run cs balance_of trusted churn q1 evs out q' ->
    queue_run cs balance_of trusted churn q (Exit i cur c :: evs) ((i, q_epoch q1) :: out) q'
| qr_withdraw : forall q b cur c evs out q', trusted <= cur -> 0 < c <= churn ->
    queue_run cs balance_of trusted churn (assign cs cur c b q) evs out q' ->
    queue_run cs balance_of trusted churn q (Withdraw b cur c :: evs) out q'.

(** Successive patches, with epochs related by [next]: each shows the exits assigned so far, [before]
    being those shown by the previous patch. *)
Inductive honest_exits (next : Epoch -> Epoch -> Prop) (cs : ChainSpec) (balance_of : ValidatorIndex -> N)
                       (trusted : Epoch) (churn : N)
  : queue -> list (ValidatorIndex * Epoch) -> list (Epoch * StatePatch) -> Prop :=
| he_nil : forall q before, honest_exits next cs balance_of trusted churn q before []
| he_cons : forall q before e p rest evs out q',
    queue_run cs balance_of trusted churn q evs out q' ->
    (forall i ex, bm_get (validator_exits p) i = Some ex <-> In (i, ex) (before ++ out)) ->
    match rest with [] => True | (e', _) :: _ => next e e' end ->
    honest_exits next cs balance_of trusted churn q' (before ++ out) rest ->
    honest_exits next cs balance_of trusted churn q before ((e, p) :: rest).
(** Consecutive epochs. *)
Definition consecutive (e e' : Epoch) : Prop := e' = e + 1.
