(** C75: the balances of the chain when it counts the votes, against those of the trusted state
    (docs/src/02_balance_drift.md). *)
From Coq Require Import List NArith Bool.
From Verif.Model Require Import Base Types Networks.
From Verif.Spec Require Import FFG Safety Ssz Beacon NetworkSpec Meaning.
Import ListNotations.
Open Scope N_scope.

(** weigh_justification_and_finalization (phase0 beacon-chain.md): with the balances and slashing flags
    of [s], all aggregates in [g] are valid votes for [l] and the unslashed voters hold two thirds of
    the active balance. *)
Definition supermajority_in (X : Externals) (n : Network) (s : State) (mix : bytes) (l : Link) (g : list Attestation) : Prop :=
  let vs := st_validators s in
  let e := epoch (target l) in
  Forall (vote_valid X n s mix l) g /\
  2 * total_balance vs (active_indices vs e) <= 3 * total_balance vs (voters X vs mix e g).

(** The three drifts of the document, for the registries [vs] then and [vs'] now and validators that
    attested or did not: what the others gained, what the attesters lost, and what the attesters
    slashed since weigh. In Gwei. *)
Definition sum_of (f : N -> N) (l : list N) : N := fold_right (fun i t => f i + t) 0 l.
Definition gain (vs vs' : list Validator) (others : list N) : N := sum_of (fun i => balance_at vs' i - balance_at vs i) others.
Definition loss (vs vs' : list Validator) (attesters : list N) : N := sum_of (fun i => balance_at vs i - balance_at vs' i) attesters.
Definition slashed_weight (vs' : list Validator) (attesters : list N) : N :=
  sum_of (balance_at vs') (filter (is_slashed vs') attesters).
Definition others (active attesters : list N) : list N := filter (fun i => negb (mem i attesters)) active.

(** The margin between the network's threshold and two thirds covers the drift. *)
Definition drift_within (n : Network) (vs vs' : list Validator) (active attesters : list N) : Prop :=
  let B := total_balance vs active in
  200 * B + 100 * (2 * gain vs vs' (others active attesters) + loss vs vs' attesters + 3 * slashed_weight vs' attesters)
    <= 3 * percent n * B.
(** The drift is within the bounds that the document gives for [k] epochs, a total balance of [b0] ETH
    and [v0] active validators at the trusted epoch, and at most [slashed] ETH slashed. *)
Definition documented_drift (b0 v0 k slashed : N) (vs vs' : list Validator) (active attesters : list N) : Prop :=
  let eth := 1000000000 in
  total_balance vs active = eth * b0 /\
  N.of_nat (length active) <= v0 + 8 * k /\
  gain vs vs' (others active attesters) <= eth * doc_A b0 k (N.of_nat (length (others active attesters))) /\
  loss vs vs' attesters <= eth * doc_E b0 (b0 + 256 * k + 48 * k + v0 + 128960 * k) k (N.of_nat (length attesters)) /\
  slashed_weight vs' attesters <= eth * slashed.
