(** host/src/bin/zkasper_cli.rs:42-139, 162: the command line. [clap] 4.5 (external, derived from the
    attributes) is written out here from its documentation, for what the attributes use. Words are bytes, the
    program's own name is left out. Every error of [try_parse] is [None]: help and version are such errors.
    The parsers of URLs and of log levels are parameters. *)
From Coq Require Import String List NArith Bool.
From Coq.Init Require Import Byte.
From Verif.Model Require Import Base Types ConsensusState Verify GuestReader HostChain HostStore HostInput Cli CliRun InputCodec ConfigYaml Networks Command.
Import ListNotations.
Open Scope list_scope.
Open Scope N_scope.

(** ** Words to options *)
Definition word : Type := bytes.
(** An option: its long name, its short one, and whether it takes a value. *)
Record opt := mkOpt { o_long : bytes; o_short : option byte; o_value : bool }.
(** An option that was given, with its value (a flag: none). *)
Definition given : Type := (bytes * bytes)%type.
Definition dash : byte := x2d.
Definition equals : byte := x3d.
(** A word that begins like an option is not taken as the value of the option before it. *)
Definition option_like (w : word) : bool := match w with d :: _ :: _ => byte_eqb d dash | _ => false end.
(** The part before the first = and the part after it. *)
Fixpoint split_eq (l : bytes) : bytes * option bytes :=
  match l with
  | [] => ([], None)
  | b :: r => if byte_eqb b equals then ([], Some r) else let '(n, v) := split_eq r in (b :: n, v)
  end.
Definition short_is (c : byte) (o : opt) : bool := match o_short o with Some d => byte_eqb d c | None => false end.
(** The options up to the name of a subcommand, that name, and the words after it. *)
Fixpoint scan (table : list opt) (subs : list word) (ws : list word) : option (list given * option (word * list word)) :=
  let next o rest :=
    match rest with
    | v :: rest' => if option_like v then None
                    else option_map (fun p => ((o_long o, v) :: fst p, snd p)) (scan table subs rest')
    | [] => None
    end in
  match ws with
  | [] => Some ([], None)
  | w :: rest =>
      let put o v := option_map (fun p => ((o_long o, v) :: fst p, snd p)) (scan table subs rest) in
      if existsb (bytes_eqb w) subs then Some ([], Some (w, rest)) else
      match w with
      | a :: b :: body =>
          if negb (byte_eqb a dash) then None
          else if byte_eqb b dash then
            match body with
            | [] => match rest with [] => Some ([], None) | _ => None end                   (* the word -- *)
            | _ =>
                let '(n, attached) := split_eq body in
                match find (fun o => bytes_eqb (o_long o) n) table with
                | Some o => match o_value o, attached with
                            | true, Some v => put o v
                            | true, None => next o rest
                            | false, None => put o []
                            | false, Some _ => None
                            end
                | None => None
                end
            end
          else
            match find (short_is b) table with
            | Some o => match o_value o, body with
                        | true, [] => next o rest
                        | true, c :: v => if byte_eqb c equals then put o v else put o body
                        | false, [] => put o []
                        | false, _ => None    (* more flags in one word: -h, or one that is there already *)
                        end
            | None => None
            end
      | _ => None
      end
  end.

(** ** The options of the program *)
Definition log_level := mkOpt (k "log-level") None true.                                    (* :66, global *)
Definition top_options : list opt :=                                                        (* :45-68 *)
  [mkOpt (k "beacon-api") None true; mkOpt (k "rps") (Some x72) true; mkOpt (k "network") (Some x6e) true;
   mkOpt (k "data-dir") (Some x64) true; log_level].
Definition verify_options : list opt :=                                                     (* :91-100 *)
  [mkOpt (k "mode") None true; mkOpt (k "trusted-epoch") None true; log_level].
Definition sync_options : list opt :=                                                       (* :103-116 *)
  [mkOpt (k "mode") None true; mkOpt (k "start-slot") None true; mkOpt (k "log-path") (Some x6c) true; log_level].
Definition build_options : list opt :=                                                      (* :118-131 *)
  [mkOpt (k "finalized-epoch") None true; mkOpt (k "continuous") (Some x63) false; mkOpt (k "retry-interval") None true; log_level].
(** Besides those of :89-132 [clap] adds help. *)
Definition subcommands : list word := [k "verify"; k "sync"; k "build-input"; k "help"].

(** ** Options to arguments *)
(** An option may be given once. *)
Definition single (gs : list given) (n : bytes) : option (option bytes) :=
  match filter (fun g => bytes_eqb (fst g) n) gs with
  | [] => Some None
  | [(_, v)] => Some (Some v)
  | _ => None
  end.
(** From the command line, or else from the environment, or else the default. *)
Definition value {A} (gs : list given) (n : string) (env : option bytes) (default : option A) (parse : bytes -> option A) : option A :=
  given <~? single gs (k n) ;;
  match given, env with
  | Some v, _ => parse v
  | None, Some v => parse v
  | None, None => default
  end.
(** :134-139, :70-75: [ValueEnum], by the names in lower case. *)
Definition network_of (b : bytes) : option Network :=
  if bytes_eqb b (k "mainnet") then Some Mainnet else if bytes_eqb b (k "sepolia") then Some Sepolia else None.
Definition mode_of (b : bytes) : option ExecMode :=
  if bytes_eqb b (k "native") then Some Native else if bytes_eqb b (k "ssz") then Some Ssz
  else if bytes_eqb b (k "r0vm") then Some R0vm else None.
Definition u32_of (b : bytes) : option N :=
  match parse_u64 b with Some n => if n <? 2 ^ 32 then Some n else None | None => None end.
(** [PathBufValueParser]: any bytes but none. *)
Definition path_of (b : bytes) : option bytes := match b with [] => None | _ => Some b end.
Definition flag (gs : list given) (n : string) : option bool := option_map (fun o => match o with Some _ => true | None => false end) (single gs (k n)).

(** :89-132 [Command], :45-68 [Args] *)
Inductive Sub :=
| SVerify (mode : ExecMode) (trusted_epoch : Epoch)
| SSync (mode : ExecMode) (start_slot : Slot) (log_path : option bytes)
| SBuild (finalized_epoch : Epoch) (continuous : bool) (retry_interval : N).
Record Args := mkArgs { a_url : bytes; a_rps : N; a_network : Network; a_data_dir : bytes; a_level : bytes; a_command : Sub }.
(** What Model/Command.v keeps of it. *)
Definition command_of (s : Sub) : Command :=
  match s with
  | SVerify m e => Verify m e
  | SSync m s log => Sync m s (match log with Some _ => true | None => false end)
  | SBuild e c _ => BuildInput e c
  end.
Definition options_of (sub : word) : list opt :=
  if bytes_eqb sub (k "verify") then verify_options else if bytes_eqb sub (k "sync") then sync_options else build_options.
Definition read_sub (sub : word) (gs : list given) : option Sub :=
  if bytes_eqb sub (k "verify") then
    mode <~? value gs "mode" None (Some Native) mode_of ;;
    e <~? value gs "trusted-epoch" None None parse_u64 ;;
    Some (SVerify mode e)
  else if bytes_eqb sub (k "sync") then
    mode <~? value gs "mode" None (Some Native) mode_of ;;
    s <~? value gs "start-slot" None None parse_u64 ;;
    log <~? value gs "log-path" None (Some None) (fun b => option_map Some (path_of b)) ;;
    Some (SSync mode s log)
  else if bytes_eqb sub (k "build-input") then
    e <~? value gs "finalized-epoch" None None parse_u64 ;;
    c <~? flag gs "continuous" ;;
    i <~? value gs "retry-interval" None (Some 60) parse_u64 ;;
    Some (SBuild e c i)
  else None.                                                                                (* help *)
Section Parse.
  Variable url_ok level_ok : bytes -> bool.
  Definition url_of (b : bytes) : option bytes := if url_ok b then Some b else None.
  Definition level_of (b : bytes) : option bytes := if level_ok b then Some b else None.
  (** :162 [Args::try_parse]. [env_url] and [env_level] are BEACON_RPC_URL and LOG_LEVEL. The global option
      is read on both levels, also from the environment; then the subcommand's is taken unless only the
      other one was on the command line. *)
  Definition parse_args (env_url env_level : option bytes) (ws : list word) : option Args :=
    top <~? scan top_options subcommands ws ;;
    match snd top with
    | None => None
    | Some (sub, rest) =>
        inner <~? scan (options_of sub) [] rest ;;
        let gs := fst top in let gs' := fst inner in
        command <~? read_sub sub gs' ;;
        level' <~? value gs' "log-level" env_level (Some (k "info")) level_of ;;
        url <~? value gs "beacon-api" env_url None url_of ;;
        rps <~? value gs "rps" None (Some 0) u32_of ;;
        net <~? value gs "network" None (Some Sepolia) network_of ;;
        dir <~? value gs "data-dir" None (Some (k "./data")) path_of ;;
        level <~? value gs "log-level" env_level (Some (k "info")) level_of ;;
        inner_level <~? single gs' (k "log-level") ;;
        Some (mkArgs url rps net dir (match inner_level with Some _ => level' | None => level end) command)
    end.
End Parse.

(** :160-308 [main]. [reach] gives the node behind a URL, at each round of requests. A command line that is
    refused ends the program before anything is done. *)
Definition program (X : Externals) (C : Codec) (w : N) (pk_deserialize : bytes -> option bytes) (zk : Zkvm) (url_ok level_ok : bytes -> bool)
    (reach : bytes -> list Node) (env_url env_level : option bytes) (ws : list word) : Run :=
  match parse_args url_ok level_ok env_url env_level ws with
  | None => mkRun [] None None Failure
  | Some a => zkasper X C w pk_deserialize zk (a_network a) (command_of (a_command a)) (reach (a_url a))
  end.
