(** host/src/input_reader/host_input_reader.rs: what the host reads from the chain to build an
    input. *)
From Coq Require Import List NArith Bool.
From Verif.Model Require Import Base Types ConsensusState GuestReader Verify.
Import ListNotations.
Open Scope N_scope.

(** host_input_reader.rs:36-63 [HostReaderError]; the wrapped errors of other libraries are
    [HOther]. *)
Inductive HostError :=
| InvalidTrustedCheckpoint
| UnsupportedBlockVersion
| BlockMissing
| HConsensus (e : ConsensusError)
| HOther (code : N).

(** The parts of a beacon block body that are read. Simplification: an attestation is already in the
    core representation; conversions.rs:25-43, which re-encodes it through SSZ, is in Model/BlockJson.v
    (C85_collecting: the collection over blocks as they were read gives the same). *)
Record Block := mkBlock { bl_electra : bool; bl_attestations : list Attestation }.

(** chain_reader.rs:19-37 [ChainReader], as a fixed chain. Only slots are used as state and block
    identifiers, only roots as header identifiers; of a header only the slot is used here. Errors of
    the reader ([anyhow::Error]) are numbers. *)
Record Chain := mkChain {
  ch_state : Slot -> outcome N ConsensusState;
  ch_block : Slot -> outcome N (option Block);
  ch_header_slot : Root -> outcome N (option Slot) }.

(** Lighthouse [Epoch::start_slot] and [Epoch * u64] saturate. *)
Definition sat_mul (a b : N) : N := N.min (a * b) u64_max.
Definition start_slot (cs : ChainSpec) (e : Epoch) : Slot := sat_mul e (slots_per_epoch cs).

(** host_input_reader.rs:231-250 [find_finalization_epoch]. The loop [for epoch in a..] has no
    bound: [fuel] epochs are looked at, [None] means that the search is still going on. *)
Fixpoint find_from (cs : ChainSpec) (ch : Chain) (trusted : Checkpoint) (fuel : nat) (e : Epoch)
  : option (outcome HostError Epoch) :=
  match fuel with
  | O => None
  | S n =>
      match map_err HOther (ch_state ch (start_slot cs e)) with
      | Ok st =>
          if checkpoint_eqb (finalized st) trusted then Some (Ok e)
          else if epoch (finalized st) <? epoch trusted
          then find_from cs ch trusted n (wrap64 (e + 1))
          else Some (Err InvalidTrustedCheckpoint)
      | Err x => Some (Err x)
      | Panic => Some Panic
      end
  end.
Definition find_finalization_epoch (cs : ChainSpec) (ch : Chain) (trusted : Checkpoint) (fuel : nat)
  : option (outcome HostError Epoch) :=
  find_from cs ch trusted fuel (wrap64 (epoch trusted + 1)).

(** host_input_reader.rs:262-283, the loop of [get_justifications_until_new_finality]. *)
Fixpoint justifications_from (cs : ChainSpec) (ch : Chain) (s0 prev : ConsensusState)
         (links : list Link) (fuel : nat) (e : Epoch)
  : option (outcome HostError (ConsensusState * ConsensusState * list Link)) :=
  match fuel with
  | O => None
  | S n =>
      match (cur <- map_err HOther (ch_state ch (start_slot cs e)) ;;
             o <- map_err HConsensus (transition_link prev cur) ;;
             Ok (cur, match o with Some l => links ++ [l] | None => links end)) with
      | Ok (cur, links') =>
          if checkpoint_eqb (finalized cur) (finalized s0)
          then justifications_from cs ch s0 cur links' n (wrap64 (e + 1))
          else Some (Ok (s0, cur, links'))
      | Err x => Some (Err x)
      | Panic => Some Panic
      end
  end.
(** host_input_reader.rs:253-284 [get_justifications_until_new_finality]. *)
Definition get_justifications_until_new_finality (cs : ChainSpec) (ch : Chain) (start : Epoch)
           (fuel : nat) : option (outcome HostError (ConsensusState * ConsensusState * list Link)) :=
  match map_err HOther (ch_state ch (start_slot cs start)) with
  | Ok s0 => justifications_from cs ch s0 s0 [] fuel (wrap64 (start + 1))
  | Err x => Some (Err x)
  | Panic => Some Panic
  end.

(** [HashMap<Link, Vec<Attestation>>]: [entry(l).or_default().push(a)] and [remove(l)]. *)
Definition link_map := list (Link * list Attestation).
Fixpoint lm_push (m : link_map) (l : Link) (a : Attestation) : link_map :=
  match m with
  | [] => [(l, [a])]
  | (k, v) :: r => if link_eqb l k then (k, v ++ [a]) :: r else (k, v) :: lm_push r l a
  end.
Fixpoint lm_remove (m : link_map) (l : Link) : list Attestation * link_map :=
  match m with
  | [] => ([], [])
  | (k, v) :: r => if link_eqb l k then (v, r)
                   else let '(x, r') := lm_remove r l in (x, (k, v) :: r')
  end.

(** host_input_reader.rs:310-328: attestations of all fetched blocks, by link. *)
Definition index_block (m : link_map) (ob : option Block) : outcome HostError link_map :=
  match ob with
  | None => Ok m
  | Some b => if bl_electra b
              then Ok (fold_left (fun m a => lm_push m (att_link a) a) (bl_attestations b) m)
              else Err UnsupportedBlockVersion
  end.
(** host_input_reader.rs:330-336: take the groups out in link order. *)
Fixpoint assemble (m : link_map) (links : list Link) : list Attestation :=
  match links with
  | [] => []
  | l :: r => let '(x, m') := lm_remove m l in x ++ assemble m' r
  end.
Definition min_target (l : Link) (ls : list Link) : Epoch :=
  fold_left (fun m x => N.min m (epoch (target x))) ls (epoch (target l)).
Definition max_target (l : Link) (ls : list Link) : Epoch :=
  fold_left (fun m x => N.max m (epoch (target x))) ls (epoch (target l)).

(** host_input_reader.rs:287-337 [collect_attestations_for_links]. [try_join_all] keeps the order of
    the requests; which of several errors it reports is not modelled (here: the first). *)
Definition collect_attestations_for_links (cs : ChainSpec) (ch : Chain) (links : list Link)
  : outcome HostError (list Attestation) :=
  match links with
  | [] => Ok []
  | l :: r =>
      let start := sat_mul (min_target l r) (slots_per_epoch cs) in
      let stop := sat_mul (sat_add (max_target l r) 1) (slots_per_epoch cs) in
      blocks <- map_outcome (fun sl => map_err HOther (ch_block ch sl)) (epoch_range start stop) ;;
      m <- fold_outcome index_block blocks [] ;;
      Ok (assemble m links)
  end.

(** host_input_reader.rs:82-118 [HostInputReader::new]: the initial consensus state and the
    attestations. [assert_eq!] on the trusted checkpoint. *)
Definition host_new (cs : ChainSpec) (ch : Chain) (trusted : Checkpoint) (fuel : nat)
  : option (outcome HostError (ConsensusState * list Attestation)) :=
  match find_finalization_epoch cs ch trusted fuel with
  | None => None
  | Some (Err x) => Some (Err x)
  | Some Panic => Some Panic
  | Some (Ok e) =>
      match get_justifications_until_new_finality cs ch e fuel with
      | None => None
      | Some r => Some
          ('(s, _, links) <- r ;;
           _ <- assert_ (checkpoint_eqb (finalized s) trusted) ;;
           atts <- collect_attestations_for_links cs ch links ;;
           Ok (s, atts))
      end
  end.
