(** host/src/beacon_client.rs: the client of the beacon node's HTTP interface.
    External and modelled from documentation: [Url::join] (RFC 3986 reference resolution),
    [reqwest::Response::error_for_status] and [json], the [ForceCache] mode of http-cache.
    JSON is abstract: a body is anything and the decoders are parameters. Redirects are not modelled; the
    rate limit (lines 102-141) and times are in Model/RateLimit.v. *)
From Coq Require Import List NArith Bool.
From Coq.Init Require Import Byte.
From Verif.Model Require Import Base Types ConsensusState Verify HostChain HostStore HostInput CliRun.
From Verif.Spec Require Import Beacon.
Import ListNotations.
Open Scope N_scope.

(** ** URLs *)
(** A URL: scheme, host and port; whether references can be resolved against it; the segments of its
    path (the last one is empty if the path ends in a slash); the query. *)
Record Url := mkUrl { u_origin : bytes; u_base : bool; u_segments : list bytes; u_query : option bytes }.
Definition segments_eqb (a b : list bytes) : bool :=
  if list_eq_dec (list_eq_dec Byte.byte_eq_dec) a b then true else false.
Definition url_eqb (a b : Url) : bool :=
  bytes_eqb (u_origin a) (u_origin b) && Bool.eqb (u_base a) (u_base b) && segments_eqb (u_segments a) (u_segments b) &&
  match u_query a, u_query b with Some x, Some y => bytes_eqb x y | None, None => true | _, _ => false end.
(** [Url::join] with a relative path: it replaces the last segment and drops the query. *)
Definition join (base : Url) (rel : list bytes) : option Url :=
  if u_base base then Some (mkUrl (u_origin base) true (removelast (u_segments base) ++ rel) None) else None.

(** What the callers pass as [impl Display]: slots, roots, and the word "head". *)
Inductive Id := AtSlot (s : Slot) | AtRoot (r : Root) | Head.
Definition hex_digit (n : N) : byte := byte_of_N (if n <? 10 then 48 + n else 87 + n).
Definition hex (b : bytes) : bytes := flat_map (fun x => [hex_digit (Byte.to_N x / 16); hex_digit (Byte.to_N x mod 16)]) b.
Definition display (i : Id) : bytes :=
  match i with
  | AtSlot s => decimal s
  | AtRoot r => x30 :: x78 :: hex r                     (* 0x... *)
  | Head => [x68; x65; x61; x64]                        (* head *)
  end.
Definition w_eth := [x65; x74; x68].
Definition w_v1 := [x76; x31].
Definition w_v2 := [x76; x32].
Definition w_beacon := [x62; x65; x61; x63; x6f; x6e].
Definition w_headers := [x68; x65; x61; x64; x65; x72; x73].
Definition w_blocks := [x62; x6c; x6f; x63; x6b; x73].
Definition w_debug := [x64; x65; x62; x75; x67].
Definition w_states := [x73; x74; x61; x74; x65; x73].
Definition w_finality := [x66; x69; x6e; x61; x6c; x69; x74; x79; x5f; x63; x68; x65; x63; x6b; x70; x6f; x69; x6e; x74; x73].
(** The four requests, and the paths of :221, :237, :250 and :269. *)
Inductive Request := GetHeader (i : Id) | GetBlock (i : Id) | GetState (i : Id) | GetFinality (i : Id).
Definition path (q : Request) : list bytes :=
  match q with
  | GetHeader i => [w_eth; w_v1; w_beacon; w_headers; display i]
  | GetBlock i => [w_eth; w_v2; w_beacon; w_blocks; display i]
  | GetState i => [w_eth; w_v2; w_debug; w_beacon; w_states; display i]
  | GetFinality i => [w_eth; w_v1; w_beacon; w_states; display i; w_finality]
  end.

(** ** The client *)
(** :34-46 [Error]. A failed [send] is a middleware error; a status or decoding failure is an HTTP error,
    with a status in the first case only. *)
Inductive ClientError := CUrl | CHttp (status : option N) | CMiddleware | CVersionMismatch.
(** What comes back from the node for a URL. *)
Inductive Reply (B : Type) := NoReply | Replied (status : N) (body : B).
Arguments NoReply {B}.
Arguments Replied {B} status body.
(** :65-70 [CheckpointResponse], :72-77 [FinalizedCheckpointResponse]. *)
Record Finality := mkFinality { f_previous_justified : Checkpoint; f_current_justified : Checkpoint; f_finalized : Checkpoint }.
(** The JSON decoders: of the answers for a header (:52-57, only the header is used), for a block
    (:60-63; the block as the host uses it, in full and as a header), for a state with its version
    (:79-93), and for the checkpoints. *)
Record Decoders (B : Type) := mkDecoders {
  dec_header : B -> option Header;
  dec_block : B -> option (Header * Block);
  dec_state : B -> option (N * HState);
  dec_finality : B -> option Finality;
  version_of : HState -> N }.
Arguments dec_header {B}.
Arguments dec_block {B}.
Arguments dec_state {B}.
Arguments dec_finality {B}.
Arguments version_of {B}.

Section Client.
  Context {B : Type}.
  Variable D : Decoders B.
  (** Which successful answers the cache may keep (the node's cache headers). *)
  Variable storable : Url -> B -> bool.

  (** :161-173 [with_cache], :186-199 [build]: without a cache [None]. *)
  Definition Cache := option (list (Url * Reply B)).
  Fixpoint cached (m : list (Url * Reply B)) (u : Url) : option (Reply B) :=
    match m with
    | [] => None
    | (v, r) :: m' => if url_eqb u v then Some r else cached m' u
    end.
  (** [self.http.get(target).send()]: in [ForceCache] mode a stored answer is used whatever its age;
      otherwise the node is asked and a storable answer with status 200 is stored. *)
  Definition send (node : Url -> Reply B) (c : Cache) (u : Url) : Reply B * Cache :=
    match c with
    | None => (node u, None)
    | Some m =>
        match cached m u with
        | Some r => (r, c)
        | None =>
            let r := node u in
            (r, match r with
                | Replied st b => if (st =? 200) && storable u b then Some ((u, r) :: m) else c
                | NoReply => c
                end)
        end
    end.
  (** [Response::error_for_status] on a status. *)
  Definition is_error_status (st : N) : bool := (400 <=? st) && (st <? 600).
  (** :206-211 [get_json], for the answer received. *)
  Definition read_reply {A} (dec : B -> option A) (r : Reply B) : outcome ClientError A :=
    match r with
    | NoReply => Err CMiddleware
    | Replied st b => if is_error_status st then Err (CHttp (Some st)) else ok_or (dec b) (CHttp None)
    end.
  Definition get_json {A} (endpoint : Url) (node : Url -> Reply B) (c : Cache) (q : Request) (dec : B -> option A)
    : outcome ClientError A * Cache :=
    match join endpoint (path q) with
    | None => (Err CUrl, c)
    | Some u => let '(r, c') := send node c u in (read_reply dec r, c')
    end.
  (** :222-229 and :238-245: the status 404 means that there is none. *)
  Definition or_absent {A} (o : outcome ClientError A) : outcome ClientError (option A) :=
    match o with
    | Ok a => Ok (Some a)
    | Err (CHttp (Some st)) => if st =? 404 then Ok None else Err (CHttp (Some st))
    | Err e => Err e
    | Panic => Panic
    end.

  (** :217-230 [get_block_header] and :283-289 (only the header is passed on). *)
  Definition get_block_header (endpoint : Url) (node : Url -> Reply B) (c : Cache) (i : Id) : outcome ClientError (option Header) * Cache :=
    let '(o, c') := get_json endpoint node c (GetHeader i) (dec_header D) in (or_absent o, c').
  (** :236-246 [get_block], :291-293 *)
  Definition get_block (endpoint : Url) (node : Url -> Reply B) (c : Cache) (i : Id) : outcome ClientError (option (Header * Block)) * Cache :=
    let '(o, c') := get_json endpoint node c (GetBlock i) (dec_block D) in (or_absent o, c').
  (** :249-262 [get_beacon_state] *)
  Definition get_beacon_state (endpoint : Url) (node : Url -> Reply B) (c : Cache) (i : Id) : outcome ClientError HState * Cache :=
    let '(o, c') := get_json endpoint node c (GetState i) (dec_state D) in
    ('(v, st) <- o ;; _ <- ensure (v =? version_of D st) CVersionMismatch ;; Ok st, c').
  (** :265-273 [get_finality_checkpoints] *)
  Definition get_finality_checkpoints (endpoint : Url) (node : Url -> Reply B) (c : Cache) (i : Id) : outcome ClientError Finality * Cache :=
    get_json endpoint node c (GetFinality i) (dec_finality D).
  (** :295-301 [get_consensus_state]; [ConsensusState::new] panics on an invalid state *)
  Definition get_consensus_state (endpoint : Url) (node : Url -> Reply B) (c : Cache) (i : Id) : outcome ClientError ConsensusState * Cache :=
    let '(o, c') := get_finality_checkpoints endpoint node c i in
    (f <- o ;; cs_new (f_current_justified f) (f_finalized f), c').

  (** The command line tool's view of the node (zkasper_cli.rs:174-176 builds the client without a cache).
      [anyhow::Error]s are numbers in Model/HostChain.v; the state directory is not in the way. *)
  Definition error_code (e : ClientError) : N :=
    match e with CUrl => 1 | CMiddleware => 2 | CVersionMismatch => 3 | CHttp None => 4 | CHttp (Some st) => 1000 + st end.
  Definition code {A} (o : outcome ClientError A) : outcome N A := map_err error_code o.
  Definition opt_map {A C} (f : A -> C) (o : outcome N (option A)) : outcome N (option C) := x <- o ;; Ok (option_map f x).
  Definition client_chain (endpoint : Url) (node : Url -> Reply B) : Chain :=
    mkChain
      (fun s => code (fst (get_consensus_state endpoint node None (AtSlot s))))
      (fun s => opt_map snd (code (fst (get_block endpoint node None (AtSlot s)))))
      (fun r => opt_map hd_slot (code (fst (get_block_header endpoint node None (AtRoot r))))).
  Definition client_node (endpoint : Url) (node : Url -> Reply B) (fuel : nat) : Node :=
    mkNode
      (f <- code (fst (get_finality_checkpoints endpoint node None Head)) ;; Ok (epoch (f_finalized f)))
      (fun s => map_err (fun _ => POther 5) (fst (get_beacon_state endpoint node None (AtSlot s))))
      (fun r => code (fst (get_block_header endpoint node None (AtRoot r))))
      (fun s => opt_map fst (code (fst (get_block endpoint node None (AtSlot s)))))
      (client_chain endpoint node) fuel.
End Client.
