(** The grammar of JSON texts (RFC 8259), for C90: which texts spell a value. *)
From Coq Require Import String List NArith Bool.
From Coq.Init Require Import Byte.
From Verif.Model Require Import Base HostStore StateJson.
Import ListNotations.
Open Scope list_scope.
Open Scope N_scope.

Definition code (b : byte) : N := Byte.to_N b.
(** Space, tab, line feed, carriage return. *)
Definition blanks (w : bytes) : Prop := Forall (fun b => In b [x20; x09; x0a; x0d]) w.

(** ** Characters *)
(** A Unicode scalar value and its UTF-8 encoding (RFC 3629, section 3). *)
Definition scalar (u : N) : Prop := u < 55296 \/ 57344 <= u < 1114112.
Inductive encodes : N -> bytes -> Prop :=
| enc1 : forall u a, u < 128 -> code a = u -> encodes u [a]
| enc2 : forall u a b x y, u = 64 * x + y -> 128 <= u < 2048 -> y < 64 -> code a = 192 + x -> code b = 128 + y -> encodes u [a; b]
| enc3 : forall u a b c x y z, u = 4096 * x + 64 * y + z -> 2048 <= u < 65536 -> y < 64 -> z < 64 ->
    code a = 224 + x -> code b = 128 + y -> code c = 128 + z -> encodes u [a; b; c]
| enc4 : forall u a b c d w x y z, u = 262144 * w + 4096 * x + 64 * y + z -> 65536 <= u < 1114112 -> x < 64 -> y < 64 -> z < 64 ->
    code a = 240 + w -> code b = 128 + x -> code c = 128 + y -> code d = 128 + z -> encodes u [a; b; c; d].
Inductive unicode : bytes -> Prop :=
| uni_nil : unicode []
| uni_cons : forall u a s, scalar u -> encodes u a -> unicode s -> unicode (a ++ s).
(** A character in a string: as it is; by a letter behind a backslash; by four hexadecimal digits; beyond
    the basic plane by two such groups. *)
Definition letter_escapes : list (byte * byte) :=
  [(x22, x22); (x5c, x5c); (x2f, x2f); (x62, x08); (x66, x0c); (x6e, x0a); (x72, x0d); (x74, x09)].
Inductive hex_digit_of : N -> byte -> Prop :=
| hd_num : forall n b, n < 10 -> code b = 48 + n -> hex_digit_of n b
| hd_low : forall n b, 10 <= n < 16 -> code b = 87 + n -> hex_digit_of n b
| hd_up : forall n b, 10 <= n < 16 -> code b = 55 + n -> hex_digit_of n b.
Inductive hex_group : N -> bytes -> Prop :=
| hg : forall p q r s a b c d, hex_digit_of p a -> hex_digit_of q b -> hex_digit_of r c -> hex_digit_of s d ->
    hex_group (4096 * p + 256 * q + 16 * r + s) [a; b; c; d].
Inductive char_text : bytes -> bytes -> Prop :=
| ct_plain : forall b, 32 <= code b -> b <> x22 -> b <> x5c -> char_text [b] [b]
| ct_letter : forall e b, In (e, b) letter_escapes -> char_text [b] [x5c; e]
| ct_code : forall u g s, scalar u -> hex_group u g -> encodes u s -> char_text s (x5c :: x75 :: g)
| ct_pair : forall h l g g' s, h < 1024 -> l < 1024 -> hex_group (55296 + h) g -> hex_group (56320 + l) g' ->
    encodes (65536 + 1024 * h + l) s -> char_text s ((x5c :: x75 :: g) ++ (x5c :: x75 :: g')).
Inductive string_text : bytes -> bytes -> Prop :=
| st_nil : string_text [] []
| st_cons : forall c tc s ts, char_text c tc -> string_text s ts -> string_text (c ++ s) (tc ++ ts).

(** ** Numbers *)
Definition digits (d : bytes) : Prop := d <> [] /\ Forall (fun b => 48 <= code b <= 57) d.
Definition integer (d : bytes) : Prop := digits d /\ (hd x00 d = x30 -> d = [x30]).
Inductive number_text : bool -> bytes -> bytes -> Prop :=
| nt : forall neg d fr ex, integer d ->
    (fr = [] \/ exists f, digits f /\ fr = x2e :: f) ->
    (ex = [] \/ exists e sign f, (e = x65 \/ e = x45) /\ (sign = [] \/ sign = [x2b] \/ sign = [x2d]) /\ digits f /\ ex = e :: sign ++ f) ->
    number_text (negb neg && match fr ++ ex with [] => true | _ => false end) d ((if neg then [x2d] else []) ++ d ++ fr ++ ex).

(** ** Values *)
Inductive spells : json -> bytes -> Prop :=
| sp_null : spells JNull [x6e; x75; x6c; x6c]
| sp_true : spells (JBool true) [x74; x72; x75; x65]
| sp_false : spells (JBool false) [x66; x61; x6c; x73; x65]
| sp_natural : forall n d t, number_text true d t -> digits_val 0 d = Some n -> n < 2 ^ 64 -> spells (JNum n) t
| sp_other_number : forall natural d t, number_text natural d t ->
    (natural = true -> forall n, digits_val 0 d = Some n -> 2 ^ 64 <= n) -> spells JNull t
| sp_string : forall s t, string_text s t -> unicode s -> spells (JStr s) (x22 :: t ++ [x22])
| sp_empty_array : forall w, blanks w -> spells (JArr []) (x5b :: w ++ [x5d])
| sp_array : forall l t, elements l t -> spells (JArr l) (x5b :: t ++ [x5d])
| sp_empty_object : forall w, blanks w -> spells (JObj []) (x7b :: w ++ [x7d])
| sp_object : forall m t, members m t -> spells (JObj m) (x7b :: t ++ [x7d])
with elements : list json -> bytes -> Prop :=
| el_last : forall j w t w', blanks w -> spells j t -> blanks w' -> elements [j] (w ++ t ++ w')
| el_more : forall j w t w' l r, blanks w -> spells j t -> blanks w' -> elements l r -> elements (j :: l) (w ++ t ++ w' ++ x2c :: r)
with members : list (string * json) -> bytes -> Prop :=
| me_last : forall j s ts w w1 w2 t w', blanks w -> string_text s ts -> unicode s -> blanks w1 -> blanks w2 -> spells j t -> blanks w' ->
    members [(string_of_list_byte s, j)] (w ++ (x22 :: ts ++ [x22]) ++ w1 ++ x3a :: w2 ++ t ++ w')
| me_more : forall j s ts w w1 w2 t w' m r, blanks w -> string_text s ts -> unicode s -> blanks w1 -> blanks w2 -> spells j t -> blanks w' ->
    members m r -> members ((string_of_list_byte s, j) :: m) (w ++ (x22 :: ts ++ [x22]) ++ w1 ++ x3a :: w2 ++ t ++ w' ++ x2c :: r).
(** A text is a value between blanks. *)
Definition json_text (j : json) (b : bytes) : Prop := exists w t w', blanks w /\ spells j t /\ blanks w' /\ b = w ++ t ++ w'.
(** How deep arrays and objects are nested. *)
Fixpoint nesting (j : json) : nat :=
  match j with
  | JArr l => S (fold_right (fun x n => Nat.max (nesting x) n) O l)
  | JObj m => S (fold_right (fun kv n => Nat.max (nesting (snd kv)) n) O m)
  | _ => O
  end.

(** ** A way to write every value *)
(** Without blanks; in strings only what has to be escaped is. *)
Definition hex_char (n : N) : byte := if n <? 10 then byte_of_N (48 + n) else byte_of_N (87 + n).
Definition print_char (b : byte) : bytes :=
  if code b <? 32 then [x5c; x75; x30; x30; hex_char (code b / 16); hex_char (code b mod 16)]
  else if byte_eqb b x22 || byte_eqb b x5c then [x5c; b] else [b].
Definition print_string (s : bytes) : bytes := x22 :: flat_map print_char s ++ [x22].
Fixpoint print (j : json) : bytes :=
  match j with
  | JNull => [x6e; x75; x6c; x6c]
  | JBool true => [x74; x72; x75; x65]
  | JBool false => [x66; x61; x6c; x73; x65]
  | JNum n => decimal n
  | JStr s => print_string s
  | JArr l => x5b :: match l with [] => [] | x :: r => print x ++ flat_map (fun y => x2c :: print y) r end ++ [x5d]
  | JObj m =>
      let pair kv := print_string (list_byte_of_string (fst kv)) ++ x3a :: print (snd kv) in
      x7b :: match m with [] => [] | x :: r => pair x ++ flat_map (fun y => x2c :: pair y) r end ++ [x7d]
  end.
(** The values that a text can have: strings and names are Unicode, numbers below 2^64. *)
Fixpoint printable (j : json) : Prop :=
  match j with
  | JNum n => n < 2 ^ 64
  | JStr s => unicode s
  | JArr l => fold_right (fun x P => printable x /\ P) True l
  | JObj m => fold_right (fun kv P => (unicode (list_byte_of_string (fst kv)) /\ printable (snd kv)) /\ P) True m
  | _ => True
  end.
