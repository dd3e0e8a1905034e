(** Command lines, for C92: which words spell which options, and which arguments the options stand for. *)
From Coq Require Import String List NArith Bool.
From Coq.Init Require Import Byte.
From Verif.Model Require Import Base Types Networks Command Args.
From Verif.Spec Require Import StateJsonSpec.
Import ListNotations.
Open Scope list_scope.
Open Scope N_scope.

Definition ascii (s : string) : bytes := list_byte_of_string s.
(** A value in a word of its own: it does not begin like an option. A lone dash does not either. *)
Definition own_word (v : bytes) : Prop := forall c r, v <> x2d :: c :: r.

(** ** The words for one option *)
Inductive spelled (table : list opt) : bytes -> bytes -> list word -> Prop :=
| sp_long : forall n s v, In (mkOpt n s true) table -> own_word v -> spelled table n v [ascii "--" ++ n; v]
| sp_long_eq : forall n s v, In (mkOpt n s true) table -> spelled table n v [ascii "--" ++ n ++ x3d :: v]
| sp_short : forall n c v, In (mkOpt n (Some c) true) table -> own_word v -> spelled table n v [[x2d; c]; v]
| sp_short_eq : forall n c v, In (mkOpt n (Some c) true) table -> spelled table n v [x2d :: c :: x3d :: v]
| sp_short_on : forall n c v, In (mkOpt n (Some c) true) table -> v <> [] -> (forall r, v <> x3d :: r) -> spelled table n v [x2d :: c :: v]
| sp_flag : forall n s, In (mkOpt n s false) table -> spelled table n [] [ascii "--" ++ n]
| sp_flag_short : forall n c, In (mkOpt n (Some c) false) table -> spelled table n [] [[x2d; c]].
Inductive all_spelled (table : list opt) : list given -> list word -> Prop :=
| as_none : all_spelled table [] []
| as_more : forall n v gs ws ws', spelled table n v ws -> all_spelled table gs ws' -> all_spelled table ((n, v) :: gs) (ws ++ ws').
(** The options: long and short name, and whether there is a value. *)
Definition before_sub : list opt :=
  [mkOpt (ascii "beacon-api") None true; mkOpt (ascii "rps") (Some "r"%byte) true; mkOpt (ascii "network") (Some "n"%byte) true;
   mkOpt (ascii "data-dir") (Some "d"%byte) true; mkOpt (ascii "log-level") None true].
Definition behind_sub (sub : string) : list opt :=
  (if String.eqb sub "verify" then [mkOpt (ascii "mode") None true; mkOpt (ascii "trusted-epoch") None true]
   else if String.eqb sub "sync" then [mkOpt (ascii "mode") None true; mkOpt (ascii "start-slot") None true; mkOpt (ascii "log-path") (Some "l"%byte) true]
   else [mkOpt (ascii "finalized-epoch") None true; mkOpt (ascii "continuous") (Some "c"%byte) false; mkOpt (ascii "retry-interval") None true])
  ++ [mkOpt (ascii "log-level") None true].
(** Options, a subcommand, its options, and possibly two dashes. *)
Definition command_line (gs : list given) (sub : word) (gs' : list given) (ws : list word) : Prop :=
  exists a n b e, ws = a ++ sub :: b ++ e /\ all_spelled before_sub gs a /\ sub = ascii n /\ In n ["verify"; "sync"; "build-input"]%string /\
    all_spelled (behind_sub n) gs' b /\ (e = [] \/ e = [ascii "--"]).

(** ** What options stand for *)
Definition given_once (gs : list given) (n : string) (v : bytes) : Prop :=
  exists a b, gs = a ++ (ascii n, v) :: b /\ ~ In (ascii n) (map fst a) /\ ~ In (ascii n) (map fst b).
Definition not_given (gs : list given) (n : string) : Prop := ~ In (ascii n) (map fst gs).
(** The command line goes before the environment, and that before the default. *)
Definition stands_for {A} (gs : list given) (n : string) (env : option bytes) (default : option A) (reads : bytes -> A -> Prop) (x : A) : Prop :=
  (exists v, given_once gs n v /\ reads v x) \/
  (not_given gs n /\ exists v, env = Some v /\ reads v x) \/
  (not_given gs n /\ env = None /\ default = Some x).
(** Numbers: decimal digits, possibly with a plus sign, within the bounds of the type. *)
Definition number (bound : N) (v : bytes) (n : N) : Prop :=
  n < bound /\ ((is_decimal v /\ decimal_value v = n) \/ exists d, v = x2b :: d /\ is_decimal d /\ decimal_value d = n).
Definition names_network (v : bytes) (n : Network) : Prop := v = ascii (match n with Mainnet => "mainnet" | Sepolia => "sepolia" end).
Definition names_mode (v : bytes) (m : ExecMode) : Prop := v = ascii (match m with Native => "native" | Ssz => "ssz" | R0vm => "r0vm" end).
Definition path_text (v p : bytes) : Prop := p = v /\ v <> [].
Definition accepted (ok : bytes -> bool) (v x : bytes) : Prop := x = v /\ ok v = true.
Definition sub_described (sub : word) (gs : list given) (s : Sub) : Prop :=
  match s with
  | SVerify m e => sub = ascii "verify" /\ stands_for gs "mode" None (Some Native) names_mode m /\
      stands_for gs "trusted-epoch" None None (number (2 ^ 64)) e
  | SSync m s log => sub = ascii "sync" /\ stands_for gs "mode" None (Some Native) names_mode m /\
      stands_for gs "start-slot" None None (number (2 ^ 64)) s /\
      stands_for gs "log-path" None (Some None) (fun v o => exists p, o = Some p /\ path_text v p) log
  | SBuild e c i => sub = ascii "build-input" /\ stands_for gs "finalized-epoch" None None (number (2 ^ 64)) e /\
      (if c then exists v, given_once gs "continuous" v else not_given gs "continuous") /\
      stands_for gs "retry-interval" None (Some 60) (number (2 ^ 64)) i
  end.
(** The log level may be given before or behind the subcommand; both are looked at, the latter counts. *)
Definition level_described (ok : bytes -> bool) (env : option bytes) (gs gs' : list given) (level : bytes) : Prop :=
  exists outer inner, stands_for gs "log-level" env (Some (ascii "info")) (accepted ok) outer /\
    stands_for gs' "log-level" env (Some (ascii "info")) (accepted ok) inner /\
    ((not_given gs' "log-level" /\ level = outer) \/ (~ not_given gs' "log-level" /\ level = inner)).
Definition described (url_ok level_ok : bytes -> bool) (env_url env_level : option bytes)
    (gs : list given) (sub : word) (gs' : list given) (a : Args) : Prop :=
  stands_for gs "beacon-api" env_url None (accepted url_ok) (a_url a) /\
  stands_for gs "rps" None (Some 0) (number (2 ^ 32)) (a_rps a) /\
  stands_for gs "network" None (Some Sepolia) names_network (a_network a) /\
  stands_for gs "data-dir" None (Some (ascii "./data")) path_text (a_data_dir a) /\
  level_described level_ok env_level gs gs' (a_level a) /\
  sub_described sub gs' (a_command a).
