(** The body of an answer as text: [reqwest::Response::json] (host/src/beacon_client.rs:206-211) reads it with
    [serde_json::from_slice]. serde_json is external; this is written from RFC 8259 and its documentation: bodies are
    UTF-8, at most 127 arrays and objects are nested, only blanks may follow the value.
    Simplifications: a number that is not a natural below 2^64 is represented like null (no type here reads either);
    numbers too large for a double, which serde_json refuses, are taken; members that a struct skips are read like any
    other. *)
From Coq Require Import String List NArith Bool.
From Coq.Init Require Import Byte.
From Verif.Model Require Import Base Types HostStore BeaconClient StateJson BlockJson CliRun.
From Verif.Model Require InputCodec.
Import ListNotations.
Open Scope list_scope.
Open Scope N_scope.

Definition blank (b : byte) : bool := byte_eqb b x20 || byte_eqb b x09 || byte_eqb b x0a || byte_eqb b x0d.
Fixpoint skip (l : bytes) : bytes := match l with b :: r => if blank b then skip r else l | [] => [] end.
(** The input behind a fixed word. *)
Fixpoint expect_word (w l : bytes) : option bytes :=
  match w, l with
  | [], _ => Some l
  | a :: w', b :: l' => if byte_eqb a b then expect_word w' l' else None
  | _, [] => None
  end.

(** ** Strings *)
(** UTF-8 of a code point. *)
Definition utf8 (u : N) : bytes :=
  if u <? 128 then [byte_of_N u]
  else if u <? 2048 then [byte_of_N (192 + u / 64); byte_of_N (128 + u mod 64)]
  else if u <? 65536 then [byte_of_N (224 + u / 4096); byte_of_N (128 + u / 64 mod 64); byte_of_N (128 + u mod 64)]
  else [byte_of_N (240 + u / 262144); byte_of_N (128 + u / 4096 mod 64); byte_of_N (128 + u / 64 mod 64); byte_of_N (128 + u mod 64)].
(** [str::from_utf8]. *)
Definition within (lo hi : N) (b : byte) : bool := (lo <=? Byte.to_N b) && (Byte.to_N b <=? hi).
Fixpoint utf8_ok (l : bytes) : bool :=
  match l with
  | [] => true
  | a :: r =>
      if Byte.to_N a <? 128 then utf8_ok r
      else match r with
           | [] => false
           | b :: r1 =>
               if within 194 223 a then within 128 191 b && utf8_ok r1
               else match r1 with
                    | [] => false
                    | c :: r2 =>
                        if within 224 239 a then
                          within (if Byte.to_N a =? 224 then 160 else 128) (if Byte.to_N a =? 237 then 159 else 191) b && within 128 191 c && utf8_ok r2
                        else match r2 with
                             | [] => false
                             | d :: r3 =>
                                 within 240 244 a && within (if Byte.to_N a =? 240 then 144 else 128) (if Byte.to_N a =? 244 then 143 else 191) b
                                 && within 128 191 c && within 128 191 d && utf8_ok r3
                             end
                    end
           end
  end.
(** The one-letter escapes. *)
Definition escapes : list (byte * byte) :=
  [(x22, x22); (x5c, x5c); (x2f, x2f); (x62, x08); (x66, x0c); (x6e, x0a); (x72, x0d); (x74, x09)].
Definition escape (e : byte) : option byte := option_map snd (find (fun p => byte_eqb (fst p) e) escapes).
Definition hex4 (a b c d : byte) : option N :=
  match hex_val a, hex_val b, hex_val c, hex_val d with
  | Some w, Some x, Some y, Some z => Some (4096 * w + 256 * x + 16 * y + z)
  | _, _, _, _ => None
  end.
Definition high_surrogate (u : N) : bool := (55296 <=? u) && (u <=? 56319).
Definition low_surrogate (u : N) : bool := (56320 <=? u) && (u <=? 57343).
Definition emit (p : bytes) (o : option (bytes * bytes)) : option (bytes * bytes) :=
  match o with Some (s, r) => Some (p ++ s, r) | None => None end.
(** Behind the opening quote, to the closing one. *)
Fixpoint chars (l : bytes) : option (bytes * bytes) :=
  match l with
  | [] => None
  | c :: r =>
      if byte_eqb c x22 then Some ([], r)
      else if byte_eqb c x5c then
        match r with
        | [] => None
        | e :: r1 =>
            if byte_eqb e x75 then
              match r1 with
              | a1 :: b1 :: c1 :: d1 :: r2 =>
                  match hex4 a1 b1 c1 d1 with
                  | Some u =>
                      if low_surrogate u then None
                      else if high_surrogate u then
                        match r2 with
                        | y1 :: y2 :: a2 :: b2 :: c2 :: d2 :: r3 =>
                            if byte_eqb y1 x5c && byte_eqb y2 x75 then
                              match hex4 a2 b2 c2 d2 with
                              | Some v => if low_surrogate v then emit (utf8 (65536 + (u - 55296) * 1024 + (v - 56320))) (chars r3) else None
                              | None => None
                              end
                            else None
                        | _ => None
                        end
                      else emit (utf8 u) (chars r2)
                  | None => None
                  end
              | _ => None
              end
            else match escape e with Some x => emit [x] (chars r1) | None => None end
        end
      else if Byte.to_N c <? 32 then None
      else emit [c] (chars r)
  end.
Definition a_string (l : bytes) : option (bytes * bytes) :=
  match chars l with Some (s, r) => if utf8_ok s then Some (s, r) else None | None => None end.

(** ** Numbers *)
Fixpoint span (l : bytes) : bytes * bytes :=
  match l with
  | b :: r => if within 48 57 b then let '(d, r') := span r in (b :: d, r') else ([], l)
  | [] => ([], [])
  end.
(** One or more digits, without a leading zero. *)
Definition int_part (d : bytes) : bool :=
  match d with [] => false | [_] => true | b :: _ => negb (byte_eqb b x30) end.
Definition fraction (l : bytes) : option (bool * bytes) :=
  match l with
  | c :: r => if byte_eqb c x2e then match span r with ([], _) => None | (_, r') => Some (true, r') end else Some (false, l)
  | [] => Some (false, [])
  end.
Definition exponent (l : bytes) : option (bool * bytes) :=
  match l with
  | c :: r =>
      if byte_eqb c x65 || byte_eqb c x45 then
        let r1 := match r with s :: r' => if byte_eqb s x2b || byte_eqb s x2d then r' else r | [] => [] end in
        match span r1 with ([], _) => None | (_, r2) => Some (true, r2) end
      else Some (false, l)
  | [] => Some (false, [])
  end.
Definition a_number (l : bytes) : option (json * bytes) :=
  let '(neg, l1) := match l with c :: r => if byte_eqb c x2d then (true, r) else (false, l) | [] => (false, []) end in
  let '(d, l2) := span l1 in
  if int_part d then
    match fraction l2 with
    | Some (fr, l3) =>
        match exponent l3 with
        | Some (ex, l4) =>
            Some (if neg || fr || ex then JNull
                  else match digits_val 0 d with Some n => if n <? 2 ^ 64 then JNum n else JNull | None => JNull end, l4)
        | None => None
        end
    | None => None
    end
  else None.

(** ** Values *)
(** [depth]: how deep the parser may still go ([remaining_depth], 128 at first). [fuel] bounds the number of steps. *)
Fixpoint a_value (fuel depth : nat) (l : bytes) : option (json * bytes) :=
  match fuel with
  | O => None
  | S f =>
      match skip l with
      | [] => None
      | c :: r =>
          if byte_eqb c x6e then option_map (fun r' => (JNull, r')) (expect_word [x75; x6c; x6c] r)
          else if byte_eqb c x74 then option_map (fun r' => (JBool true, r')) (expect_word [x72; x75; x65] r)
          else if byte_eqb c x66 then option_map (fun r' => (JBool false, r')) (expect_word [x61; x6c; x73; x65] r)
          else if byte_eqb c x22 then match a_string r with Some (s, r') => Some (JStr s, r') | None => None end
          else if byte_eqb c x5b then
            match depth with
            | S (S d) =>
                match skip r with
                | x :: r' => if byte_eqb x x5d then Some (JArr [], r')
                             else match a_elements f (S d) r with Some (js, r'') => Some (JArr js, r'') | None => None end
                | [] => None
                end
            | _ => None
            end
          else if byte_eqb c x7b then
            match depth with
            | S (S d) =>
                match skip r with
                | x :: r' => if byte_eqb x x7d then Some (JObj [], r')
                             else match a_members f (S d) r with Some (m, r'') => Some (JObj m, r'') | None => None end
                | [] => None
                end
            | _ => None
            end
          else a_number (c :: r)
      end
  end
(** Values separated by commas, and the closing bracket. *)
with a_elements (fuel depth : nat) (l : bytes) : option (list json * bytes) :=
  match fuel with
  | O => None
  | S f =>
      match a_value f depth l with
      | Some (j, r) =>
          match skip r with
          | c :: r' =>
              if byte_eqb c x2c then match a_elements f depth r' with Some (js, r'') => Some (j :: js, r'') | None => None end
              else if byte_eqb c x5d then Some ([j], r') else None
          | [] => None
          end
      | None => None
      end
  end
(** Names and values separated by commas, and the closing brace. *)
with a_members (fuel depth : nat) (l : bytes) : option (list (string * json) * bytes) :=
  match fuel with
  | O => None
  | S f =>
      match skip l with
      | q :: r0 =>
          if byte_eqb q x22 then
            match a_string r0 with
            | Some (s, r1) =>
                match skip r1 with
                | c :: r2 =>
                    if byte_eqb c x3a then
                      match a_value f depth r2 with
                      | Some (j, r) =>
                          match skip r with
                          | c' :: r' =>
                              if byte_eqb c' x2c then match a_members f depth r' with
                                                      | Some (m, r'') => Some ((string_of_list_byte s, j) :: m, r'')
                                                      | None => None
                                                      end
                              else if byte_eqb c' x7d then Some ([(string_of_list_byte s, j)], r') else None
                          | [] => None
                          end
                      | None => None
                      end
                    else None
                | [] => None
                end
            | None => None
            end
          else None
      | [] => None
      end
  end.
(** [serde_json::from_slice::<Value>]. *)
Definition json_of_text (b : bytes) : option json :=
  match a_value (2 * length b) 128 b with
  | Some (j, r) => match skip r with [] => Some j | _ => None end
  | None => None
  end.

(** ** The node *)
(** An answer with its body read; what is not JSON is as unreadable as null is. *)
Definition read_body (r : Reply bytes) : Reply json :=
  match r with
  | NoReply => NoReply
  | Replied st b => Replied st (match json_of_text b with Some j => j | None => JNull end)
  end.
Definition json_server (server : Url -> Reply bytes) (u : Url) : Reply json := read_body (server u).
(** The node as Model/BlockJson.v has it, behind a server that answers with text. *)
Definition text_node (H : bytes -> bytes) (C : InputCodec.Codec) (endpoint : Url) (server : Url -> Reply bytes) (fuel : nat) : Node :=
  json_node H C endpoint (json_server server) fuel.
