(** C92: what the words of a command line make the program do. *)
From Coq Require Import String List Arith NArith Bool Lia.
From Coq.Init Require Import Byte.
From Verif.Model Require Import Base Types ConsensusState Verify GuestReader HostChain HostStore HostInput Cli CliRun InputCodec StateJson ConfigYaml Networks Command Args.
From Verif.Spec Require Import CommandLine.
From Verif.Props Require Import CommandProps ArgsProps.
Import ListNotations.
Open Scope list_scope.
Open Scope N_scope.

Section Program.
  Variables (X : Externals) (C : Codec) (w : N) (pkd : bytes -> option bytes) (zk : Zkvm) (url_ok level_ok : bytes -> bool)
    (reach : bytes -> list Node) (env_url env_level : option bytes).
  Notation run := (program X C w pkd zk url_ok level_ok reach env_url env_level).
  Notation tool a cmd := (zkasper X C w pkd zk (a_network a) cmd (reach (a_url a))).
  (** Each subcommand is run with the mode, the epoch, the slot and the switches that the words give it. *)
  Theorem C92_runs : forall ws gs sub gs' a, command_line gs sub gs' ws -> described url_ok level_ok env_url env_level gs sub gs' a ->
    match a_command a with
    | SVerify m e => run ws = tool a (Verify m e)
    | SSync m s None => run ws = tool a (Sync m s false)
    | SSync m s (Some _) => run ws = tool a (Sync m s true)
    | SBuild e c _ => run ws = tool a (BuildInput e c)
    end.
  Proof.
    intros ws gs sub gs' a L D. pose proof (C92_program X C w pkd zk url_ok level_ok reach env_url env_level ws gs sub gs' a L D) as E.
    destruct (a_command a) as [m e|m s [p|]|e c i]; exact E.
  Qed.
  (** A run has a log exactly if the subcommand is [sync] and the words name a file for it. *)
  Theorem C92_log : forall ws gs sub gs' a, command_line gs sub gs' ws -> described url_ok level_ok env_url env_level gs sub gs' a ->
    (ran_log (run ws) <> None <-> sub = ascii "sync" /\ exists v, given_once gs' "log-path" v).
  Proof.
    intros ws gs sub gs' a L D. pose proof (C92_runs ws gs sub gs' a L D) as R. destruct D as (_ & _ & _ & _ & _ & D).
    destruct (a_command a) as [m e|m s o|e c i]; cbn [sub_described] in D.
    - rewrite R. destruct (C88_effects X C w pkd zk (a_network a) (Verify m e) (reach (a_url a))) as (_ & E & _). destruct D as (-> & _).
      rewrite E. split; [congruence|]. intros [Q _]. discriminate.
    - destruct D as (-> & _ & _ & Dl).
      assert (G : o <> None <-> exists v, given_once gs' "log-path" v).
      { destruct Dl as [(v & Hv & p & -> & _)|[(_ & v & Q & _)|(N & _ & Q)]]; [|discriminate|injection Q as <-].
        - split; [intros _; eauto|discriminate].
        - split; [congruence|]. intros (v & x & y & -> & _). exfalso. apply N. rewrite map_app. apply in_app_iff. right. now left. }
      destruct o as [p|]; rewrite R;
        [destruct (C88_effects X C w pkd zk (a_network a) (Sync m s true) (reach (a_url a))) as (_ & _ & E & _)
        |destruct (C88_effects X C w pkd zk (a_network a) (Sync m s false) (reach (a_url a))) as (_ & _ & E & _)]; rewrite E, <- G; split.
      + intros _. split; [reflexivity|discriminate].
      + reflexivity.
      + discriminate.
      + intros [_ Q]. congruence.
    - rewrite R. destruct (C88_effects X C w pkd zk (a_network a) (BuildInput e c) (reach (a_url a))) as (E & _). destruct D as (-> & _).
      rewrite E. split; [congruence|]. intros [Q _]. discriminate.
  Qed.
End Program.

(** Cases that meet the hypotheses: a sync with a log and one without. *)
Definition any (_ : bytes) : bool := true.
Example ex_words : forall X C w pkd zk reach,
  let run := program X C w pkd zk any any (fun u => reach u) None None in
  (reach (ascii "http://n") = []) ->
  ran_log (run (map ascii ["--beacon-api"; "http://n"; "sync"; "--start-slot"; "64"; "--log-path"; "l.csv"]%string)) = Some [] /\
  ran_log (run (map ascii ["--beacon-api"; "http://n"; "sync"; "--start-slot"; "64"]%string)) = None.
Proof.
  intros X C w pkd zk reach run Hr. unfold run, program.
  assert (A : parse_args any any None None (map ascii ["--beacon-api"; "http://n"; "sync"; "--start-slot"; "64"; "--log-path"; "l.csv"]%string)
    = Some (mkArgs (ascii "http://n") 0 Sepolia (ascii "./data") (ascii "info") (SSync Native 64 (Some (ascii "l.csv"))))) by (vm_compute; reflexivity).
  assert (B : parse_args any any None None (map ascii ["--beacon-api"; "http://n"; "sync"; "--start-slot"; "64"]%string)
    = Some (mkArgs (ascii "http://n") 0 Sepolia (ascii "./data") (ascii "info") (SSync Native 64 None))) by (vm_compute; reflexivity).
  rewrite A, B. cbn [a_network a_command a_url command_of zkasper]. rewrite Hr. split; reflexivity.
Qed.

Print Assumptions C92_runs.
Print Assumptions C92_log.
