(** What a Rust compiler makes of a file of constant functions, for C93: comments, empty lines, and functions
    of the two forms in this layout. Anything else is [None]. *)
From Coq Require Import String List NArith Bool.
From Coq.Init Require Import Byte.
From Verif.Model Require Import Base HostStore ConfigYaml.
From Verif.Spec Require Import StateJsonSpec.
Import ListNotations.
Open Scope list_scope.
Open Scope N_scope.

Definition s (x : string) : bytes := list_byte_of_string x.
(** A function: a constant, or with CHUNK_OFFSET = a / b, WITHIN_CHUNK = c % d and the rest (base + i) * m * .. *)
Inductive fn :=
| Constant (name : bytes) (v : N)
| Indexed (name : bytes) (a b c d base m : N).
Definition fn_name (f : fn) : bytes := match f with Constant n _ => n | Indexed n _ _ _ _ _ _ => n end.
(** Its value at a validator index, in 64 bits. *)
Definition fn_value (f : fn) (i : N) : N :=
  match f with
  | Constant _ v => v
  | Indexed _ a b c d base m => ((base + i) * m * (a / b) + c mod d) mod 2 ^ 64
  end.

Fixpoint after (p l : bytes) : option bytes :=
  match p, l with
  | [], _ => Some l
  | a :: p', b :: l' => if byte_eqb a b then after p' l' else None
  | _ :: _, [] => None
  end.
Definition ident (b : byte) : bool := between 97 122 b || is_digit b || byte_eqb b x5f.
(** A literal of type u64. *)
Definition literal (l : bytes) : option (N * bytes) :=
  match span_of is_digit l with
  | ([], _) => None
  | (d, r) => match after (s "u64") r with Some r' => Some (decimal_value d, r') | None => None end
  end.
Definition ignored (l : bytes) : bool := match l with [] => true | _ => match after (s "//") l with Some _ => true | None => false end end.
Definition header (l : bytes) : option (bytes * bool) :=
  x <~? after (s "pub(crate) const fn ") l ;;
  let '(n, r) := span_of ident x in
  if bytes_eqb r (s "() -> u64 {") then Some (n, false)
  else if bytes_eqb r (s "(i: crate::ValidatorIndex) -> u64 {") then Some (n, true) else None.
(** A line that has two literals: the texts before, between and behind them. *)
Definition two (p q e l : bytes) : option (N * N) :=
  x <~? after p l ;; a <~? literal x ;; y <~? after q (snd a) ;; b <~? literal y ;;
  if bytes_eqb (snd b) e then Some (fst a, fst b) else None.
Definition constant_body (l : bytes) : option N :=
  x <~? after (s "    ") l ;; a <~? literal x ;; if bytes_eqb (snd a) [] then Some (fst a) else None.
Definition offset_line := two (s "    const CHUNK_OFFSET: u64 = ") (s " / ") (s ";").
Definition within_line := two (s "    const WITHIN_CHUNK: u64 = ") (s " % ") (s ";").
Definition result_line := two (s "    (") (s " + (i as u64)) * ") (s " * CHUNK_OFFSET + WITHIN_CHUNK").
Fixpoint read_fns (ls : list bytes) : option (list fn) :=
  match ls with
  | [] => Some []
  | l :: r =>
      if ignored l then read_fns r
      else if bytes_eqb l (s "#[inline(always)]") then
        match r with
        | h :: r1 =>
            match header h with
            | Some (n, false) =>
                match r1 with
                | b :: c :: r2 =>
                    v <~? constant_body b ;; fs <~? read_fns r2 ;;
                    if bytes_eqb c (s "}") then Some (Constant n v :: fs) else None
                | _ => None
                end
            | Some (n, true) =>
                match r1 with
                | b1 :: b2 :: b3 :: c :: r2 =>
                    x <~? offset_line b1 ;; y <~? within_line b2 ;; z <~? result_line b3 ;; fs <~? read_fns r2 ;;
                    if bytes_eqb c (s "}") then Some (Indexed n (fst x) (snd x) (fst y) (snd y) (fst z) (snd z) :: fs) else None
                | _ => None
                end
            | None => None
            end
        | [] => None
        end
      else None
  end.
(** The functions of a file. *)
Definition read_source (t : bytes) : option (list fn) := let '(h, r) := lines t in read_fns (h :: r).
