(** C67: what a user expects of the client of the beacon node. *)
From Coq Require Import List NArith.
From Verif.Model Require Import Base Types ConsensusState Verify HostChain HostInput BeaconClient.
From Verif.Spec Require Import Beacon.
Import ListNotations.
Open Scope N_scope.

(** The answer of the node to a request, as the user of the client should see it: [A] is what was asked
    for, [None] that there is no such thing. *)
Inductive seen {B A} (dec : B -> option A) : Reply B -> outcome ClientError (option A) -> Prop :=
| seen_present st b a : ~ (400 <= st < 600) -> dec b = Some a -> seen dec (Replied st b) (Ok (Some a))
| seen_absent b : seen dec (Replied 404 b) (Ok None)
| seen_refused st b : 400 <= st < 600 -> st <> 404 -> seen dec (Replied st b) (Err (CHttp (Some st)))
| seen_garbled st b : ~ (400 <= st < 600) -> dec b = None -> seen dec (Replied st b) (Err (CHttp None))
| seen_unreachable : seen dec NoReply (Err CMiddleware).

(** A node that serves a chain: it answers every request for the finality or the block at a slot with
    what the chain says, with 404 for blocks that do not exist. A chain that cannot say is served by an
    answer that the client reports with the same code. *)
Definition serves_states {B} (D : Decoders B) (node : Request -> Reply B) (ch : Chain) : Prop :=
  forall s, match ch_state ch s with
    | Ok c => exists b p, node (GetFinality (AtSlot s)) = Replied 200 b /\
        dec_finality D b = Some (mkFinality p (current_justified c) (finalized c)) /\ is_valid c = true
    | Err n => exists st b, node (GetFinality (AtSlot s)) = Replied st b /\ 400 <= st < 600 /\ n = 1000 + st
    | Panic => False
    end.
Definition serves_blocks {B} (D : Decoders B) (node : Request -> Reply B) (ch : Chain) : Prop :=
  forall s, match ch_block ch s with
    | Ok (Some blk) => exists b h, node (GetBlock (AtSlot s)) = Replied 200 b /\ dec_block D b = Some (h, blk)
    | Ok None => exists b, node (GetBlock (AtSlot s)) = Replied 404 b
    | Err n => exists st b, node (GetBlock (AtSlot s)) = Replied st b /\ 400 <= st < 600 /\ st <> 404 /\ n = 1000 + st
    | Panic => False
    end.

(** A sequence of requests against a node that changes over time: one node per request. *)
Fixpoint asks {B} (storable : Url -> B -> bool) (c : @Cache B) (l : list ((Url -> Reply B) * Url)) : list (Reply B) :=
  match l with
  | [] => []
  | (node, u) :: r => let '(x, c') := send storable node c u in x :: asks storable c' r
  end.

(** The routes of the beacon node API (ethereum/beacon-APIs), before and after the identifier. *)
From Coq Require Import String.
Definition route (q : Request) : string * string :=
  match q with
  | GetHeader _ => ("eth/v1/beacon/headers/", "")
  | GetBlock _ => ("eth/v2/beacon/blocks/", "")
  | GetState _ => ("eth/v2/debug/beacon/states/", "")
  | GetFinality _ => ("eth/v1/beacon/states/", "/finality_checkpoints")
  end%string.
Definition request_id (q : Request) : Id :=
  match q with GetHeader i | GetBlock i | GetState i | GetFinality i => i end.
(** The text of a path. *)
Fixpoint path_text (segments : list bytes) : bytes :=
  match segments with
  | [] => []
  | [s] => s
  | s :: r => s ++ list_byte_of_string "/" ++ path_text r
  end.
