(** C71: what the protocol does to the registry between the trusted state and the target epochs:
    validators join, balances change, validators are slashed, and exits pass the exit queue. *)
From Coq Require Import List NArith Bool Sorted.
From Coq.Init Require Import Byte.
From Verif.Model Require Import Base Types ConsensusState GuestReader HostChain HostStore HostInput Networks.
From Verif.Spec Require Import FFG Ssz Beacon Registry VerifySpec HostInputSpec ExitQueue NetworkSpec Meaning.
Import ListNotations.
Open Scope N_scope.

(** From the registry [vs] to the later registry [vs']: entries are only added, keys stay, and no
    activation or exit epoch up to [limit] is set, moved or removed. In the protocol new activation and
    exit epochs are at least 1 + MAX_SEED_LOOKAHEAD epochs away (compute_activation_exit_epoch).
    Balances and slashing flags are free. *)
Definition epoch_moves (limit e e' : Epoch) : Prop := e' = e \/ (limit < e /\ limit < e').
Definition registry_moves (limit : Epoch) (vs vs' : list Validator) : Prop :=
  (length vs <= length vs')%nat /\
  forall i v', nth_error vs' i = Some v' ->
    match nth_error vs i with
    | Some v => v_pubkey v' = v_pubkey v /\ epoch_moves limit (v_activation_epoch v) (v_activation_epoch v') /\
                epoch_moves limit (v_exit_epoch v) (v_exit_epoch v')
    | None => limit < v_activation_epoch v'
    end.

(** In [vs'] validator [i] exits at [ex], otherwise than in [vs]. *)
Definition new_exit (vs vs' : list Validator) (i : ValidatorIndex) (ex : Epoch) : Prop :=
  exists v v', nth_error vs (N.to_nat i) = Some v /\ nth_error vs' (N.to_nat i) = Some v' /\
    v_exit_epoch v' = ex /\ v_exit_epoch v <> ex.
(** The states at the consecutive epochs [es] show the exits that one exit queue has assigned by then;
    [before] are those assigned so far. The balance of an exit is that of the trusted registry [vs]. *)
Inductive queued_exits (cs : ChainSpec) (states : Slot -> answer HState) (vs : list Validator) (trusted : Epoch) (churn : N)
  : queue -> list (ValidatorIndex * Epoch) -> list Epoch -> Prop :=
| qe_nil : forall q before, queued_exits cs states vs trusted churn q before []
| qe_cons : forall q before e es st' evs out q',
    states (start_slot cs e) = Ok st' ->
    queue_run cs (balance_at vs) trusted churn q evs out q' ->
    (forall i ex, new_exit vs (st_validators (hs_state st')) i ex <-> In (i, ex) (before ++ out)) ->
    match es with [] => True | e' :: _ => e' = e + 1 end ->
    queued_exits cs states vs trusted churn q' (before ++ out) es ->
    queued_exits cs states vs trusted churn q before (e :: es).

(** Twice get_balance_churn_limit for the validators active at [e]. *)
Definition doubled_churn (n : Network) (vs : list Validator) (e : Epoch) : N :=
  2 * churn_limit (network_spec n) (total_balance vs (active_indices vs e)).

(** The chain behind the votes [votes], seen from the trusted state [st]. *)
Record moving_chain (n : Network) (states : Slot -> answer HState) (trusted : Checkpoint) (st : HState)
       (votes : list Attestation) : Prop := {
  mc_genesis : forall s st', states s = Ok st' -> st_genesis_validators_root (hs_state st') = st_genesis_validators_root (hs_state st);
  mc_keys : forall st' i v v', states (32 * epoch trusted) = Ok st' ->
    nth_error (st_validators (hs_state st)) i = Some v -> nth_error (st_validators (hs_state st')) i = Some v' ->
    v_pubkey v = v_pubkey v';
  (* the trusted state is not much older than the trusted epoch *)
  mc_epochs : forall e, In e (target_epochs votes) -> e <= st_slot (hs_state st) / 32 + 4;
  mc_fork : forall e st', In e (target_epochs votes) -> states (32 * e) = Ok st' -> st_fork (hs_state st') = fork_at_epoch (network_spec n) e;
  mc_registry : forall e st', In e (target_epochs votes) -> states (32 * e) = Ok st' ->
    registry_moves (epoch trusted + 4) (st_validators (hs_state st)) (st_validators (hs_state st'));
  (* exits *)
  mc_new : forall e st' i ex v, In e (target_epochs votes) -> states (32 * e) = Ok st' ->
    new_exit (st_validators (hs_state st)) (st_validators (hs_state st')) i ex ->
    nth_error (st_validators (hs_state st)) (N.to_nat i) = Some v -> v_exit_epoch v = 2 ^ 64 - 1 /\ ex <= epoch trusted + 65536;
  mc_exits : exists q es,
    q_epoch q = st_earliest_exit_epoch (hs_state st) /\
    q_balance q <= doubled_churn n (st_validators (hs_state st)) (epoch trusted) /\
    StronglySorted N.lt es /\ (forall e, In e es <-> In e (target_epochs votes)) /\
    queued_exits (network_spec n) states (st_validators (hs_state st)) (epoch trusted)
      (doubled_churn n (st_validators (hs_state st)) (epoch trusted)) q [] es }.

(** The aggregates [g] for the link [l] also reach the threshold with the balances and slashing flags
    of the trusted state. *)
Definition trusted_support (n : Network) (X : Externals) (states : Slot -> answer HState) (st : HState) (l : Link) (g : list Attestation) : Prop :=
  let vs := st_validators (hs_state st) in
  let e := epoch (target l) in
  forall st' mix, states (32 * e) = Ok st' -> nth_error (hs_randao_mixes st') (N.to_nat ((e + 65534) mod 65536)) = Some mix ->
  percent n * total_balance vs (active_indices vs e) <= 100 * total_balance vs (voters X vs mix e g).
