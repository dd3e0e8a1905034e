(** Shared modelling vocabulary: outcomes, machine arithmetic, bytes, sorted maps.
    These are the conventions of DESIGN.md; they model Rust language features and
    the [safe_arith] / [BTreeMap] APIs, not a particular file of /repo. *)
From Coq Require Import List NArith Bool Lia.
From Coq.Init Require Import Byte.
From Coq.Strings Require Import Byte.
Import ListNotations.
Open Scope N_scope.

(** [Result<A,E>] plus panic. *)
Inductive outcome (E A : Type) : Type :=
| Ok (a : A)
| Err (e : E)
| Panic.
Arguments Ok {E A} a.
Arguments Err {E A} e.
Arguments Panic {E A}.

(** The [?] operator. *)
Definition bind {E A B} (m : outcome E A) (k : A -> outcome E B) : outcome E B :=
  match m with Ok a => k a | Err e => Err e | Panic => Panic end.

Declare Scope outcome_scope.
Delimit Scope outcome_scope with outcome.
Notation "x <- m ;; k" := (bind m (fun x => k))
  (at level 61, m at next level, right associativity) : outcome_scope.
Notation "' p <- m ;; k" := (bind m (fun x => match x with p => k end))
  (at level 61, p pattern, m at next level, right associativity) : outcome_scope.
Open Scope outcome_scope.

(** [Result::map_err]. *)
Definition map_err {E F A} (f : E -> F) (m : outcome E A) : outcome F A :=
  match m with Ok a => Ok a | Err e => Err (f e) | Panic => Panic end.

(** [Result::unwrap]: an [Err] becomes a panic. *)
Definition unwrap {E F A} (m : outcome E A) : outcome F A :=
  match m with Ok a => Ok a | _ => Panic end.

(** [Option::ok_or] followed by [?], and [Option::expect]/[unwrap]. *)
Definition ok_or {E A} (o : option A) (e : E) : outcome E A :=
  match o with Some a => Ok a | None => Err e end.
Definition expect {E A} (o : option A) : outcome E A :=
  match o with Some a => Ok a | None => Panic end.

(** core/src/lib.rs:206-213, the [ensure!] macro. *)
Definition ensure {E} (c : bool) (e : E) : outcome E unit :=
  if c then Ok tt else Err e.
(** [assert!]. *)
Definition assert_ {E} (c : bool) : outcome E unit :=
  if c then Ok tt else Panic.

(** ** u64 arithmetic *)
Definition two64 : N := 2 ^ 64.
Definition u64_max : N := two64 - 1.
Inductive ArithError := Overflow | DivisionByZero.

(** crate [safe_arith]: checked operations. *)
Definition safe_add {E} (f : ArithError -> E) (a b : N) : outcome E N :=
  if a + b <? two64 then Ok (a + b) else Err (f Overflow).
Definition safe_sub {E} (f : ArithError -> E) (a b : N) : outcome E N :=
  if b <=? a then Ok (a - b) else Err (f Overflow).
Definition safe_mul {E} (f : ArithError -> E) (a b : N) : outcome E N :=
  if a * b <? two64 then Ok (a * b) else Err (f Overflow).
Definition safe_div {E} (f : ArithError -> E) (a b : N) : outcome E N :=
  if b =? 0 then Err (f DivisionByZero) else Ok (a / b).
Definition safe_rem {E} (f : ArithError -> E) (a b : N) : outcome E N :=
  if b =? 0 then Err (f DivisionByZero) else Ok (a mod b).

(** Lighthouse [Epoch]/[Slot] operators (feature legacy-arith) saturate. [N] subtraction
    already saturates at 0. *)
Definition sat_add (a b : N) : N := N.min (a + b) u64_max.
Definition sat_sub (a b : N) : N := a - b.

(** Plain operators in release builds wrap. *)
Definition wrap64 (x : N) : N := x mod two64.

(** ** Bytes *)
Definition bytes := list byte.
Definition byte_of_N (x : N) : byte :=
  match Byte.of_N (x mod 256) with Some b => b | None => x00 end.

(** [to_le_bytes] on a [k]-byte unsigned integer. *)
Fixpoint le_bytes (k : nat) (x : N) : bytes :=
  match k with
  | O => []
  | S k' => byte_of_N x :: le_bytes k' (x / 256)
  end.
(** [from_le_bytes]. *)
Fixpoint le_val (bs : bytes) : N :=
  match bs with
  | [] => 0
  | b :: r => Byte.to_N b + 256 * le_val r
  end.
Definition be_bytes (k : nat) (x : N) : bytes := rev (le_bytes k x).
Definition be_val (bs : bytes) : N := le_val (rev bs).

Definition byte_eqb (a b : byte) : bool := Byte.to_N a =? Byte.to_N b.
Fixpoint bytes_eqb (a b : bytes) : bool :=
  match a, b with
  | [], [] => true
  | x :: a', y :: b' => byte_eqb x y && bytes_eqb a' b'
  | _, _ => false
  end.

(** Slice [bs[from .. from+len]]; [None] when out of bounds. *)
Definition slice {A} (bs : list A) (from len : nat) : option (list A) :=
  if Nat.leb (from + len) (length bs) then Some (firstn len (skipn from bs)) else None.

Definition zero_bytes (k : nat) : bytes := repeat x00 k.

(** ** BTreeMap<u64/usize, V>: association list kept sorted by key. *)
Definition bmap (V : Type) := list (N * V).
Fixpoint bm_get {V} (m : bmap V) (k : N) : option V :=
  match m with
  | [] => None
  | (k', v) :: r => if k =? k' then Some v else bm_get r k
  end.
Fixpoint bm_insert {V} (m : bmap V) (k : N) (v : V) : bmap V :=
  match m with
  | [] => [(k, v)]
  | (k', v') :: r =>
      if k <? k' then (k, v) :: m
      else if k =? k' then (k, v) :: r
      else (k', v') :: bm_insert r k v
  end.
(** [iter.collect::<BTreeMap<_,_>>()]: later entries win. *)
Definition bm_of_list {V} (l : list (N * V)) : bmap V :=
  fold_left (fun m kv => bm_insert m (fst kv) (snd kv)) l [].
Definition bm_keys {V} (m : bmap V) : list N := map fst m.
Definition bm_values {V} (m : bmap V) : list V := map snd m.

(** BTreeSet<usize>: strictly sorted list. *)
Fixpoint bs_insert (s : list N) (x : N) : list N :=
  match s with
  | [] => [x]
  | y :: r => if x <? y then x :: s else if x =? y then s else y :: bs_insert r x
  end.
(** [BTreeSet::extend]. *)
Definition bs_extend (s : list N) (l : list N) : list N := fold_left bs_insert l s.

(** BTreeMap<Root, V>; only [insert] and [get] are used, so order is not modelled. *)
Definition rmap (V : Type) := list (bytes * V).
Fixpoint rm_get {V} (m : rmap V) (k : bytes) : option V :=
  match m with
  | [] => None
  | (k', v) :: r => if bytes_eqb k k' then Some v else rm_get r k
  end.
Definition rm_insert {V} (m : rmap V) (k : bytes) (v : V) : rmap V := (k, v) :: m.

(** [iter().map(f).collect::<Result<Vec<_>,_>>()]. *)
Fixpoint map_outcome {E A B} (f : A -> outcome E B) (l : list A) : outcome E (list B) :=
  match l with
  | [] => Ok []
  | a :: r => b <- f a ;; bs <- map_outcome f r ;; Ok (b :: bs)
  end.
(** [for x in l { s = f(s,x)?; }]. *)
Fixpoint fold_outcome {E A S} (f : S -> A -> outcome E S) (l : list A) (s : S) : outcome E S :=
  match l with
  | [] => Ok s
  | a :: r => s' <- f s a ;; fold_outcome f r s'
  end.
