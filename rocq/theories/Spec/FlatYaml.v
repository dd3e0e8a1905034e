(** Flat YAML files, for C91: which texts spell a list of entries (the part of YAML 1.2 that the
    configuration files use: a block mapping of plain and single-quoted scalars on lines of their own). *)
From Coq Require Import String List NArith Bool.
From Coq.Init Require Import Byte.
From Verif.Model Require Import Base Types ConfigYaml.
From Verif.Spec Require Import StateJsonSpec.
Import ListNotations.
Open Scope list_scope.
Open Scope N_scope.

Definition code (b : byte) : N := Byte.to_N b.
Definition printable (b : byte) : Prop := 32 <= code b <= 126.
Definition upper_or_digit (b : byte) : Prop := 65 <= code b <= 90 \/ 48 <= code b <= 57.
Definition spaces (w : bytes) : Prop := Forall (fun b => b = x20) w.
Definition comment (c : bytes) : Prop := c = [] \/ exists t, c = x23 :: t /\ Forall printable t.
Definition key (n : bytes) : Prop := n <> [] /\ Forall (fun b => upper_or_digit b \/ b = x5f) n.
Inductive scalar_text : scalar -> bytes -> Prop :=
| sc_plain : forall v, v <> [] -> Forall (fun b => upper_or_digit b \/ 97 <= code b <= 122) v -> scalar_text (Plain v) v
| sc_quoted : forall v, Forall (fun b => printable b /\ b <> x27 /\ b <> x22) v -> scalar_text (Quoted v) (x27 :: v ++ [x27]).
Inductive line_text : list entry -> bytes -> Prop :=
| ln_none : forall w c, spaces w -> comment c -> line_text [] (w ++ c)
| ln_entry : forall n w s v w' c, key n -> spaces w -> w <> [] -> scalar_text s v -> spaces w' -> comment c -> (c <> [] -> w' <> []) ->
    line_text [(n, s)] (n ++ x3a :: w ++ v ++ w' ++ c).
Inductive file_text : list entry -> bytes -> Prop :=
| ft_last : forall es l, line_text es l -> file_text es l
| ft_line : forall es l es' t, line_text es l -> file_text es' t -> file_text (es ++ es') (l ++ x0a :: t).

(** ** What entries say *)
(** There is exactly one entry of that name; there is none; there are several. *)
Definition says (es : list entry) (n : bytes) (s : scalar) : Prop :=
  exists a b, es = a ++ (n, s) :: b /\ ~ In n (map fst a) /\ ~ In n (map fst b).
Definition silent (es : list entry) (n : bytes) : Prop := ~ In n (map fst es).
Definition repeated (es : list entry) (n : bytes) : Prop :=
  exists a s b s' c, es = a ++ (n, s) :: b ++ (n, s') :: c.
Definition name (s : string) : bytes := list_byte_of_string s.
(** [what] is read from the entry; without one it is [default]. *)
Definition gives {A} (es : list entry) (n : string) (default : option A) (read : scalar -> option A) (what : A) : Prop :=
  (exists s, says es (name n) s /\ read s = Some what) \/ (silent es (name n) /\ default = Some what).
Definition fork_name (f : ForkName) : string :=
  match f with
  | BaseFork => "GENESIS" | Altair => "ALTAIR" | Bellatrix => "BELLATRIX" | Capella => "CAPELLA"
  | Deneb => "DENEB" | Electra => "ELECTRA" | Fulu => "FULU" | Gloas => "GLOAS"
  end.
(** The epoch of a fork: genesis is at 0; 2^64 - 1, and for the later forks no entry, is never. *)
Definition epoch_given (es : list entry) (f : ForkName) (e : option Epoch) : Prop :=
  match f with
  | BaseFork => e = Some 0
  | _ => exists n, gives es (fork_name f ++ "_FORK_EPOCH") (match f with Altair => None | _ => Some (2 ^ 64 - 1) end) u64_of n /\
           e = (if n =? 2 ^ 64 - 1 then None else Some n)
  end.
Definition version_given (es : list entry) (f : ForkName) (v : Version) : Prop :=
  gives es (fork_name f ++ "_FORK_VERSION") (match f with BaseFork | Altair => None | _ => Some [xff; xff; xff; xff] end) version_of v.
(** The chain spec that the entries describe. *)
Definition described (es : list entry) (cs : ChainSpec) : Prop :=
  gives es "PRESET_BASE" None (fun s => Some (string_of s)) (name "mainnet") /\
  (forall f, epoch_given es f (cs_fork_epoch cs f)) /\
  (forall f, version_given es f (cs_fork_version cs f)) /\
  gives es "MIN_PER_EPOCH_CHURN_LIMIT_ELECTRA" (Some (128 * 10 ^ 9)) u64_of (min_per_epoch_churn_limit_electra cs) /\
  gives es "CHURN_LIMIT_QUOTIENT" None u64_of (churn_limit_quotient cs) /\
  far_future_epoch cs = 2 ^ 64 - 1 /\ min_seed_lookahead cs = 1 /\ max_seed_lookahead cs = 4 /\ shuffle_round_count cs = 90 /\
  effective_balance_increment cs = 10 ^ 9 /\ min_activation_balance cs = 32 * 10 ^ 9 /\ max_committees_per_slot cs = 64 /\
  target_committee_size cs = 128 /\ domain_beacon_attester cs = 1 /\ slots_per_epoch cs = 32 /\ epochs_per_historical_vector cs = 65536.
(** The same parameters. *)
Definition same_spec (a b : ChainSpec) : Prop :=
  (forall f, cs_fork_epoch a f = cs_fork_epoch b f) /\ (forall f, cs_fork_version a f = cs_fork_version b f) /\
  far_future_epoch a = far_future_epoch b /\ min_seed_lookahead a = min_seed_lookahead b /\
  max_seed_lookahead a = max_seed_lookahead b /\ shuffle_round_count a = shuffle_round_count b /\
  effective_balance_increment a = effective_balance_increment b /\ min_activation_balance a = min_activation_balance b /\
  min_per_epoch_churn_limit_electra a = min_per_epoch_churn_limit_electra b /\ churn_limit_quotient a = churn_limit_quotient b /\
  max_committees_per_slot a = max_committees_per_slot b /\ target_committee_size a = target_committee_size b /\
  domain_beacon_attester a = domain_beacon_attester b /\ slots_per_epoch a = slots_per_epoch b /\
  epochs_per_historical_vector a = epochs_per_historical_vector b.
(** The names that are looked at. *)
Definition looked_at : list bytes :=
  map name (["PRESET_BASE"; "MIN_PER_EPOCH_CHURN_LIMIT_ELECTRA"; "CHURN_LIMIT_QUOTIENT"]%string
    ++ map (fun f => (fork_name f ++ "_FORK_VERSION")%string) [BaseFork; Altair; Bellatrix; Capella; Deneb; Electra; Fulu; Gloas]
    ++ map (fun f => (fork_name f ++ "_FORK_EPOCH")%string) [Altair; Bellatrix; Capella; Deneb; Electra; Fulu; Gloas]).
(** Numbers to the base 16, 8 or 2: the text and its value. *)
Inductive base_number (base : N) : bytes -> N -> Prop :=
| bn_none : base_number base [] 0
| bn_more : forall d n c m, base_number base d n -> hex_is c m -> m < base -> base_number base (d ++ [c]) (base * n + m).
