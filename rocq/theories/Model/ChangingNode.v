(** host/src/input_reader/host_input_reader.rs and host/src/bin/zkasper_cli.rs once more: how an input
    is prepared while the beacon node changes its answers, as it does in a reorganisation. The
    requests of a run are numbered; request number [k] is answered by the [k]-th moment. The functions
    are those of HostChain.v and HostInput.v with a running number; they agree with them when all
    moments are the same. *)
From Coq Require Import List NArith Bool.
From Verif.Model Require Import Base Types ConsensusState GuestReader Verify HostChain HostStore HostInput.
From Verif.Spec Require Import Beacon.
Import ListNotations.
Open Scope N_scope.

(** host_input_reader.rs:231-250 [find_finalization_epoch]; the next number is returned as well. *)
Fixpoint find_over (cs : ChainSpec) (ch : nat -> Chain) (trusted : Checkpoint) (fuel : nat) (k : nat) (e : Epoch)
  : option (outcome HostError (Epoch * nat)) :=
  match fuel with
  | O => None
  | S n =>
      match map_err HOther (ch_state (ch k) (start_slot cs e)) with
      | Ok st =>
          if checkpoint_eqb (finalized st) trusted then Some (Ok (e, S k))
          else if epoch (finalized st) <? epoch trusted
          then find_over cs ch trusted n (S k) (wrap64 (e + 1))
          else Some (Err InvalidTrustedCheckpoint)
      | Err x => Some (Err x)
      | Panic => Some Panic
      end
  end.

(** host_input_reader.rs:262-283, the loop of [get_justifications_until_new_finality]. *)
Fixpoint justifications_over (cs : ChainSpec) (ch : nat -> Chain) (s0 prev : ConsensusState)
         (links : list Link) (fuel : nat) (k : nat) (e : Epoch)
  : option (outcome HostError (ConsensusState * list Link * nat)) :=
  match fuel with
  | O => None
  | S n =>
      match (cur <- map_err HOther (ch_state (ch k) (start_slot cs e)) ;;
             o <- map_err HConsensus (transition_link prev cur) ;;
             Ok (cur, match o with Some l => links ++ [l] | None => links end)) with
      | Ok (cur, links') =>
          if checkpoint_eqb (finalized cur) (finalized s0)
          then justifications_over cs ch s0 cur links' n (S k) (wrap64 (e + 1))
          else Some (Ok (s0, links', S k))
      | Err x => Some (Err x)
      | Panic => Some Panic
      end
  end.
(** host_input_reader.rs:253-284 [get_justifications_until_new_finality]. *)
Definition get_justifications_over (cs : ChainSpec) (ch : nat -> Chain) (start : Epoch) (fuel : nat) (k : nat)
  : option (outcome HostError (ConsensusState * list Link * nat)) :=
  match map_err HOther (ch_state (ch k) (start_slot cs start)) with
  | Ok s0 => justifications_over cs ch s0 s0 [] fuel (S k) (wrap64 (start + 1))
  | Err x => Some (Err x)
  | Panic => Some Panic
  end.

(** The slots of the blocks that are asked for, with the numbers of the requests. *)
Fixpoint numbered {A} (k : nat) (l : list A) : list (nat * A) :=
  match l with [] => [] | x :: r => (k, x) :: numbered (S k) r end.
(** host_input_reader.rs:287-337 [collect_attestations_for_links]. The requests are made at the same
    time; each has its own number, so each can be answered by a different moment. *)
Definition collect_over (cs : ChainSpec) (ch : nat -> Chain) (links : list Link) (k : nat)
  : outcome HostError (list Attestation * nat) :=
  match links with
  | [] => Ok ([], k)
  | l :: r =>
      let start := sat_mul (min_target l r) (slots_per_epoch cs) in
      let stop := sat_mul (sat_add (max_target l r) 1) (slots_per_epoch cs) in
      let slots := epoch_range start stop in
      blocks <- map_outcome (fun x => map_err HOther (ch_block (ch (fst x)) (snd x))) (numbered k slots) ;;
      m <- fold_outcome index_block blocks [] ;;
      Ok (assemble m links, (k + length slots)%nat)
  end.

(** host_input_reader.rs:82-118 [HostInputReader::new]. *)
Definition host_new_over (cs : ChainSpec) (ch : nat -> Chain) (trusted : Checkpoint) (fuel : nat) (k : nat)
  : option (outcome HostError (ConsensusState * list Attestation * nat)) :=
  match find_over cs ch trusted fuel k (wrap64 (epoch trusted + 1)) with
  | None => None
  | Some (Err x) => Some (Err x)
  | Some Panic => Some Panic
  | Some (Ok (e, k1)) =>
      match get_justifications_over cs ch e fuel k1 with
      | None => None
      | Some r => Some
          ('(s, links, k2) <- r ;;
           _ <- assert_ (checkpoint_eqb (finalized s) trusted) ;;
           '(atts, k3) <- collect_over cs ch links k2 ;;
           Ok (s, atts, k3))
      end
  end.

(** What the beacon node answers at one moment. *)
Record Moment := mkMoment {
  mo_chain : Chain;
  mo_blocks : Slot -> outcome N (option Header);
  mo_headers : Root -> outcome N (option Header) }.

(** zkasper_cli.rs:372-415 [prepare_input]. Request 0 is for the block of the trusted checkpoint, then
    come those of [HostInputReader::new], then one header during the preflight run
    (host_input_reader.rs:213-222) and one in [to_input] (preflight_input_reader.rs:158-174). Beacon
    states come from the caching provider (zkasper_cli.rs:188), which gives the same state whenever it
    gives one ([C79_states_do_not_change]), and a state that cannot be had ends the run; so [states]
    is a function. While the search for finality goes on there is no result. *)
Definition prepare_over (X : Externals) (cs : ChainSpec) (pk_deserialize : bytes -> option PublicKey)
           (states : Slot -> answer HState) (m : nat -> Moment) (cfg : Config) (fuel : nat) (finalized_epoch : Epoch)
  : outcome HIError (GuestInput * ConsensusState * ConsensusState * N) :=
  st <- map_err HI_Provider (state_at_epoch_boundary (fun s => st_slot (hs_state s)) (fun s => hd_slot (hs_header s))
                               states cs finalized_epoch) ;;
  o <- map_err HI_Chain (mo_blocks (m 0%nat) (hd_slot (hs_header st))) ;;
  blk <- ok_or o HI_NoBlock ;;
  _ <- assert_ (bytes_eqb (hd_state_root blk) (tree_root X (state_tree (sha256 X) (hs_state st)))) ;;
  let trusted := mkCheckpoint finalized_epoch (tree_root X (header_tree (sha256 X) blk)) in
  '(cst, atts, k) <- map_err HI_Host
     (match host_new_over cs (fun k => mo_chain (m k)) trusted fuel 1 with Some r => r | None => Panic end) ;;
  let reader := fun k => host_reader cs pk_deserialize states (mo_headers (m k)) cst atts in
  '(post, slot) <- map_err HI_Preflight (verify X cfg (preflight_reader trusted (reader k))) ;;
  gi <- to_input X cs pk_deserialize states (mo_headers (m (S k))) trusted (reader (S k)) (recorded_reads X cs atts post) ;;
  Ok (gi, gi_consensus_state gi, post, slot).
