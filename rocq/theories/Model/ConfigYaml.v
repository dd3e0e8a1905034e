(** chainspec/src/lib.rs:19-37: from the text of a configuration file to the chain spec. [serde_yaml] and
    Lighthouse's [Config] and [ChainSpec::from_config] are external, written out here from their
    documentation. Of YAML only flat files are modelled (Spec/FlatYaml.v): one entry per line, plain or
    quoted, with comments and empty lines; of [Config] only the fields from which something in
    [ChainSpec] (Model/Types.v) comes. The other fields of [Config] must be present and readable as well. *)
From Coq Require Import String List NArith Bool.
From Coq.Init Require Import Byte.
From Verif.Model Require Import Base Types HostStore StateJson.
Import ListNotations.
Open Scope list_scope.
Open Scope N_scope.

(** ** The text *)
Inductive scalar := Plain (b : bytes) | Quoted (b : bytes).
Definition entry : Type := (bytes * scalar)%type.

Definition between (lo hi : N) (b : byte) : bool := (lo <=? Byte.to_N b) && (Byte.to_N b <=? hi).
Definition is_upper := between 65 90.
Definition is_digit := between 48 57.
Definition is_key (b : byte) : bool := is_upper b || is_digit b || byte_eqb b x5f.
Definition is_alnum (b : byte) : bool := is_upper b || between 97 122 b || is_digit b.
(** Printable characters of ASCII. *)
Definition is_text (b : byte) : bool := between 32 126 b.
Definition in_quotes (b : byte) : bool := is_text b && negb (byte_eqb b x27) && negb (byte_eqb b x22).
Definition is_space (b : byte) : bool := byte_eqb b x20.

Fixpoint span_of (p : byte -> bool) (l : bytes) : bytes * bytes :=
  match l with
  | b :: r => if p b then let '(d, r') := span_of p r in (b :: d, r') else ([], l)
  | [] => ([], [])
  end.
(** Nothing, or a comment. *)
Definition is_comment (l : bytes) : bool :=
  match l with [] => true | b :: r => byte_eqb b x23 && forallb is_text r end.
(** Behind a value: spaces, and behind at least one of them a comment. *)
Definition is_tail (l : bytes) : bool :=
  let '(w, c) := span_of is_space l in
  match w, c with [], _ :: _ => false | _, _ => is_comment c end.
Definition read_scalar (l : bytes) : option (scalar * bytes) :=
  match l with
  | [] => None
  | b :: r =>
      if byte_eqb b x27 then
        let '(v, r1) := span_of in_quotes r in
        match r1 with c :: r2 => if byte_eqb c x27 then Some (Quoted v, r2) else None | [] => None end
      else match span_of is_alnum l with ([], _) => None | (v, r1) => Some (Plain v, r1) end
  end.
(** A line: no entry or one. *)
Definition read_line (l : bytes) : option (list entry) :=
  if is_comment (snd (span_of is_space l)) then Some []
  else
    let '(k, r) := span_of is_key l in
    match k, r with
    | _ :: _, c :: r1 =>
        if byte_eqb c x3a then
          let '(w, r2) := span_of is_space r1 in
          match w with
          | [] => None
          | _ => match read_scalar r2 with
                 | Some (s, r3) => if is_tail r3 then Some [(k, s)] else None
                 | None => None
                 end
          end
        else None
    | _, _ => None
    end.
(** The lines, divided by line feeds. *)
Fixpoint lines (l : bytes) : bytes * list bytes :=
  match l with
  | [] => ([], [])
  | b :: r => let '(h, t) := lines r in if byte_eqb b x0a then ([], h :: t) else (b :: h, t)
  end.
Fixpoint read_lines (ls : list bytes) : option (list entry) :=
  match ls with
  | [] => Some []
  | l :: r => match read_line l, read_lines r with Some a, Some b => Some (a ++ b) | _, _ => None end
  end.
Definition read_text (t : bytes) : option (list entry) := let '(h, r) := lines t in read_lines (h :: r).

(** ** The fields *)
(** [u64] from a scalar. Plain: [serde_yaml] reads an integer, also with one of the prefixes 0x, 0o and
    0b, and passes on the rest as a string. Strings: [str::parse]. *)
Definition alnum_val (b : byte) : N :=
  let n := Byte.to_N b in if n <=? 57 then n - 48 else if n <=? 90 then n - 55 else n - 87.
Fixpoint radix_val (base acc : N) (l : bytes) : option N :=
  match l with
  | [] => Some acc
  | b :: r => if alnum_val b <? base then radix_val base (base * acc + alnum_val b) r else None
  end.
Definition below64 (o : option N) : option N := match o with Some n => if n <? two64 then Some n else None | None => None end.
Definition u64_of (s : scalar) : option N :=
  match s with
  | Quoted b => parse_u64 b
  | Plain b =>
      match b with
      | z :: p :: d :: r =>
          if byte_eqb z x30 && byte_eqb p x78 then below64 (radix_val 16 0 (d :: r))
          else if byte_eqb z x30 && byte_eqb p x6f then below64 (radix_val 8 0 (d :: r))
          else if byte_eqb z x30 && byte_eqb p x62 then below64 (radix_val 2 0 (d :: r))
          else parse_u64 b
      | _ => parse_u64 b
      end
  end.
Definition string_of (s : scalar) : bytes := match s with Plain b => b | Quoted b => b end.
(** [bytes_4_hex]: the text of the scalar, 0x and eight digits. *)
Definition version_of (s : scalar) : option Version :=
  match unhex (string_of s) with Some b => if StateFile.blen b =? 4 then Some b else None | None => None end.

(** A field of a derived struct: a repeated one is refused; a missing one is refused unless there is a
    default. *)
Definition field {A} (es : list entry) (key : bytes) (default : option A) (read : scalar -> option A) : option A :=
  match filter (fun e => bytes_eqb (fst e) key) es with
  | [] => default
  | [(_, s)] => read s
  | _ => None
  end.
Definition k (s : string) : bytes := list_byte_of_string s.
(** The names of the forks. Those from Bellatrix on have a default: not scheduled, and the version
    0xffffffff, which is not used. *)
Definition fork_key (f : ForkName) : string :=
  match f with
  | BaseFork => "GENESIS" | Altair => "ALTAIR" | Bellatrix => "BELLATRIX" | Capella => "CAPELLA"
  | Deneb => "DENEB" | Electra => "ELECTRA" | Fulu => "FULU" | Gloas => "GLOAS"
  end.
Definition has_default (f : ForkName) : bool := match f with BaseFork | Altair => false | _ => true end.
Definition no_version : Version := [xff; xff; xff; xff].
Definition read_fork_version (es : list entry) (f : ForkName) : option Version :=
  field es (k (fork_key f ++ "_FORK_VERSION")) (if has_default f then Some no_version else None) version_of.
(** [deserialize_fork_epoch]: FAR_FUTURE_EPOCH stands for not scheduled. *)
Definition read_fork_epoch (es : list entry) (f : ForkName) : option (option Epoch) :=
  field es (k (fork_key f ++ "_FORK_EPOCH")) (if has_default f then Some None else None)
    (fun s => option_map (fun n => if n =? u64_max then None else Some n) (u64_of s)).
Notation "x <~? p ;; q" := (match p with Some x => q | None => None end) (at level 61, p at next level, right associativity).
(** [Config] and [from_config::<MainnetEthSpec>]: the preset must be mainnet's; what the configuration does
    not have is the preset's (the figures in Model/Networks.v). *)
Definition spec_of (es : list entry) : option ChainSpec :=
  preset <~? field es (k "PRESET_BASE") None (fun s => Some (string_of s)) ;;
  v0 <~? read_fork_version es BaseFork ;;
  v1 <~? read_fork_version es Altair ;;
  e1 <~? read_fork_epoch es Altair ;;
  v2 <~? read_fork_version es Bellatrix ;;
  e2 <~? read_fork_epoch es Bellatrix ;;
  v3 <~? read_fork_version es Capella ;;
  e3 <~? read_fork_epoch es Capella ;;
  v4 <~? read_fork_version es Deneb ;;
  e4 <~? read_fork_epoch es Deneb ;;
  v5 <~? read_fork_version es Electra ;;
  e5 <~? read_fork_epoch es Electra ;;
  v6 <~? read_fork_version es Fulu ;;
  e6 <~? read_fork_epoch es Fulu ;;
  v7 <~? read_fork_version es Gloas ;;
  e7 <~? read_fork_epoch es Gloas ;;
  churn <~? field es (k "MIN_PER_EPOCH_CHURN_LIMIT_ELECTRA") (Some 128000000000) u64_of ;;
  quotient <~? field es (k "CHURN_LIMIT_QUOTIENT") None u64_of ;;
  if bytes_eqb preset (k "mainnet") then
    Some (mkChainSpec
      (fun f => match f with
                | BaseFork => Some 0 | Altair => e1 | Bellatrix => e2 | Capella => e3
                | Deneb => e4 | Electra => e5 | Fulu => e6 | Gloas => e7
                end)
      (fun f => match f with
                | BaseFork => v0 | Altair => v1 | Bellatrix => v2 | Capella => v3
                | Deneb => v4 | Electra => v5 | Fulu => v6 | Gloas => v7
                end)
      (2 ^ 64 - 1) 1 4 90 1000000000 32000000000 churn quotient 64 128 1 32 65536)
  else None.
(** lib.rs:21-25, 30-34. Both [expect]s panic. [None]: the file is not flat, nothing is said about it. *)
Definition load (t : bytes) : option (outcome unit ChainSpec) :=
  option_map (fun es => match spec_of es with Some cs => Ok cs | None => Panic end) (read_text t).
