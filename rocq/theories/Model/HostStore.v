(** host/src/state_provider.rs and host/src/state_provider/*.rs: where the host gets beacon states
    from. Beacon states are an abstract type [St]. *)
From Coq Require Import List NArith Bool.
From Coq.Init Require Import Byte.
From Verif.Model Require Import Base Types HostChain.
Import ListNotations.
Open Scope N_scope.

(** state_provider.rs:33-41 [StateProviderError]. *)
Inductive ProviderError := InvalidCheckpoint | NotFound (s : Slot) | POther (code : N).
Notation answer St := (outcome ProviderError St).

(** A provider with internal state [W]: [StateProvider::state_at_slot]. *)
Definition provider (St W : Type) := W -> Slot -> answer St * W.

(** ** cache_provider.rs *)
(** cache_provider.rs:22-25: [FrozenMap<Slot, Arc<BeaconState>>], insertion order is not observable. *)
Definition cache (St : Type) := list (Slot * St).
Definition cache_get {St} (c : cache St) (s : Slot) : option St := bm_get c s.
(** cache_provider.rs:51-60 [state_at_slot]. *)
Definition cached_state_at_slot {St W} (inner : provider St W) : provider St (cache St * W) :=
  fun '(c, w) slot =>
    match cache_get c slot with
    | Some st => (Ok st, (c, w))
    | None =>
        match inner w slot with
        | (Ok st, w') => (Ok st, ((slot, st) :: c, w'))
        | (r, w') => (r, (c, w'))
        end
    end.
(** cache_provider.rs:43-49 [genesis_validators_root]: [values().next()] of a [HashMap] is some
    cached value, chosen by [pick]. *)
Definition cached_genesis_root {St W} (gvr : St -> Root) (pick : cache St -> option St)
           (inner : provider St W) (cw : cache St * W) : answer Root * (cache St * W) :=
  match pick (fst cw) with
  | Some st => (Ok (gvr st), cw)
  | None =>
      match cached_state_at_slot inner cw 0 with
      | (Ok st, cw') => (Ok (gvr st), cw')
      | (Err e, cw') => (Err e, cw')
      | (Panic, cw') => (Panic, cw')
      end
  end.

(** A sequence of requests. *)
Fixpoint requests {St W} (p : provider St W) (w : W) (slots : list Slot) : list (answer St) * W :=
  match slots with
  | [] => ([], w)
  | s :: r => let '(a, w1) := p w s in
              let '(l, w2) := requests p w1 r in (a :: l, w2)
  end.

(** ** file_provider.rs *)
(** A directory: names (UTF-8 bytes) with the content of a file, or a subdirectory. *)
Inductive entry_kind := FileEntry (content : bytes) | DirEntry.
Definition directory := list (bytes * entry_kind).
Definition fs_get (d : directory) (name : bytes) : option entry_kind := rm_get d name.
Definition fs_exists (d : directory) (name : bytes) : bool :=
  match fs_get d name with Some _ => true | None => false end.
(** [fs::read]; reading a directory is an I/O error. *)
Definition fs_read (d : directory) (name : bytes) : answer bytes :=
  match fs_get d name with Some (FileEntry b) => Ok b | _ => Err (POther 1) end.
Fixpoint fs_remove (d : directory) (name : bytes) : directory :=
  match d with
  | [] => []
  | (n, e) :: r => if bytes_eqb name n then fs_remove r name else (n, e) :: fs_remove r name
  end.
(** [fs::write]: creates or truncates. *)
Definition fs_write (d : directory) (name : bytes) (b : bytes) : directory :=
  (name, FileEntry b) :: fs_remove d name.

(** [Display] of a [Slot]: decimal without leading zeros. The number of bits bounds the number of
    digits. *)
Definition digit (n : N) : byte := byte_of_N (48 + n).
Fixpoint decimal_fuel (fuel : nat) (n : N) : bytes :=
  match fuel with
  | O => [digit n]
  | S f => if n <? 10 then [digit n] else decimal_fuel f (n / 10) ++ [digit (n mod 10)]
  end.
Definition decimal (n : N) : bytes := decimal_fuel (N.to_nat (N.size n)) n.
(** file_provider.rs:44 and 83: [format!("{slot}_beacon_state.ssz")]. *)
Definition suffix : bytes :=
  [x5f; x62; x65; x61; x63; x6f; x6e; x5f; x73; x74; x61; x74; x65; x2e; x73; x73; x7a].
Definition file_name (s : Slot) : bytes := decimal s ++ suffix.

(** [u64::from_str]: an optional plus sign, at least one digit, no overflow. *)
Definition digit_val (b : byte) : option N :=
  let n := Byte.to_N b in if (48 <=? n) && (n <=? 57) then Some (n - 48) else None.
Fixpoint digits_val (acc : N) (l : bytes) : option N :=
  match l with
  | [] => Some acc
  | b :: r => match digit_val b with Some v => digits_val (10 * acc + v) r | None => None end
  end.
Definition parse_u64 (l : bytes) : option N :=
  let body := match l with x2b :: r => r | _ => l end in
  match body with
  | [] => None
  | _ => match digits_val 0 body with
         | Some v => if v <? two64 then Some v else None
         | None => None
         end
  end.
(** [split('_').next()]. *)
Fixpoint before_underscore (l : bytes) : bytes :=
  match l with
  | [] => []
  | b :: r => if byte_eqb b x5f then [] else b :: before_underscore r
  end.
Definition name_slot (name : bytes) : option Slot := parse_u64 (before_underscore name).

Section Files.
  Context {St : Type}.
  (** [BeaconState::slot], [ssz_rs::serialize] and [ssz_rs::deserialize]. *)
  Variable slot_of : St -> Slot.
  Variable ser : St -> bytes.
  Variable deser : bytes -> option St.

  (** file_provider.rs:41-53 [save_state]. A write that fails or is interrupted half-way is modelled
      by [save_interrupted] below. *)
  Definition save_state (d : directory) (st : St) : answer unit * directory :=
    let file := file_name (slot_of st) in
    if fs_exists d file then (Err (POther 2), d) else (Ok tt, fs_write d file (ser st)).
  (** A crash during [fs::write] leaves the first [n] bytes. *)
  Definition save_interrupted (n : nat) (d : directory) (st : St) : directory :=
    let file := file_name (slot_of st) in
    if fs_exists d file then d else fs_write d file (firstn n (ser st)).

  (** file_provider.rs:82-94 [state_at_slot]. *)
  Definition file_state_at_slot (d : directory) (slot : Slot) : answer St :=
    let file := file_name slot in
    if negb (fs_exists d file) then Err (NotFound slot) else
    b <- fs_read d file ;;
    ok_or (deser b) (POther 3).

  (** file_provider.rs:62-75: one directory entry; [remove_file] fails on a directory. *)
  Definition clear_entry (start : Slot) (d : directory) (x : bytes * entry_kind) : answer unit * directory :=
    match name_slot (fst x) with
    | Some s => if s <? start
                then match snd x with FileEntry _ => (Ok tt, fs_remove d (fst x)) | DirEntry => (Err (POther 4), d) end
                else (Ok tt, d)
    | None => (Ok tt, d)
    end.
  Fixpoint clear_entries (start : Slot) (d : directory) (l : directory) : answer unit * directory :=
    match l with
    | [] => (Ok tt, d)
    | x :: r => match clear_entry start d x with
                | (Ok _, d') => clear_entries start d' r
                | (e, d') => (e, d')
                end
    end.
  (** file_provider.rs:55-77 [clear_states_before]. [read_dir] lists the entries present at the
      start (simplification: removing an entry does not disturb the listing). *)
  Definition clear_states_before (cs : ChainSpec) (d : directory) (e : Epoch) : answer unit * directory :=
    clear_entries (start_slot cs e) d d.

  (** persistant_api_provider.rs:50-66 [state_at_slot]; [api] is the beacon client, with its own
      state. Every error of the client becomes [Other] ([context] and [?]). *)
  Definition persistent_state_at_slot {W} (api : provider St W) : provider St (directory * W) :=
    fun '(d, w) slot =>
      match file_state_at_slot d slot with
      | Err (NotFound _) =>
          match api w slot with
          | (Ok st, w') =>
              match save_state d st with
              | (Ok _, d') => (Ok st, (d', w'))
              | (Err e, d') => (Err e, (d', w'))
              | (Panic, d') => (Panic, (d', w'))
              end
          | (Err _, w') => (Err (POther 5), (d, w'))
          | (Panic, w') => (Panic, (d, w'))
          end
      | r => (r, (d, w))
      end.
End Files.

(** ** state_provider.rs, default methods *)
Section Boundary.
  Context {St : Type}.
  (** [BeaconState::slot], the slot of [latest_block_header], and the root of that header with the
      state root filled in (state_provider.rs:77-78). *)
  Variable slot_of : St -> Slot.
  Variable header_slot : St -> Slot.
  Variable block_root : St -> Root.
  Variable state_at_slot : Slot -> answer St.

  (** state_provider.rs:89-92 [state_at_epoch]. *)
  Definition state_at_epoch (cs : ChainSpec) (e : Epoch) : answer St := state_at_slot (start_slot cs e).
  (** state_provider.rs:55-70 [state_at_epoch_boundary]. *)
  Definition state_at_epoch_boundary (cs : ChainSpec) (e : Epoch) : answer St :=
    st <- state_at_epoch cs e ;;
    if header_slot st =? slot_of st then Ok st else state_at_slot (header_slot st).
  (** state_provider.rs:73-86 [state_at_checkpoint]. *)
  Definition state_at_checkpoint (cs : ChainSpec) (c : Checkpoint) : answer St :=
    st <- state_at_epoch_boundary cs (epoch c) ;;
    _ <- ensure (bytes_eqb (root c) (block_root st)) InvalidCheckpoint ;;
    Ok st.
End Boundary.
