(** Proofs for C90: every value can be written, and what is written is read again. *)
From Coq Require Import String List Arith NArith ZArith Bool Lia ZifyBool ZifyN ZifyNat.
From Coq.Init Require Import Byte.
From Verif.Model Require Import Base HostStore BeaconClient StateJson JsonText.
From Verif.Spec Require Import JsonSyntax StateJsonSpec BlockSpec.
From Verif.Proof Require Import BaseLemmas HostStoreP StateJsonP JsonTextP.
Import ListNotations.
Open Scope list_scope.
Open Scope N_scope.
Notation length := List.length.

Section JsonInd.
  Variable P : json -> Prop.
  Hypotheses (Hn : P JNull) (Hb : forall b, P (JBool b)) (Hm : forall n, P (JNum n)) (Hs : forall s, P (JStr s))
             (Ha : forall l, Forall P l -> P (JArr l)) (Ho : forall m, Forall (fun kv => P (snd kv)) m -> P (JObj m)).
  Fixpoint json_ind' (j : json) : P j :=
    match j with
    | JNull => Hn | JBool b => Hb b | JNum n => Hm n | JStr s => Hs s
    | JArr l => Ha l ((fix go (l : list json) : Forall P l := match l with [] => Forall_nil _ | x :: r => Forall_cons x (json_ind' x) (go r) end) l)
    | JObj m => Ho m ((fix go (m : list (string * json)) : Forall (fun kv => P (snd kv)) m :=
                         match m with [] => Forall_nil _ | x :: r => Forall_cons x (json_ind' (snd x)) (go r) end) m)
    end.
End JsonInd.

(** ** Strings *)
Lemma ascii_unicode s : Forall (fun b => code b < 128) s -> unicode s.
Proof.
  induction 1 as [|b s Hb _ IH]; [constructor|]. apply (uni_cons (code b) [b]); [left; lia|now constructor|exact IH].
Qed.
Lemma hex_char_ok n : n < 16 -> hex_digit_of n (hex_char n).
Proof.
  intros H. unfold hex_char. destruct (N.ltb_spec n 10).
  - apply hd_num; [lia|apply code_of; lia].
  - apply hd_low; [lia|apply code_of; lia].
Qed.
Lemma print_chars s : string_text s (flat_map print_char s).
Proof.
  induction s as [|b s IH]; [constructor|]. cbn [flat_map]. apply (st_cons [b]); [|exact IH]. unfold print_char. pose proof (code_lt b) as Hb.
  destruct (N.ltb_spec (code b) 32).
  - apply (ct_code (code b)); [left; lia| |constructor; [lia|reflexivity]].
    pose proof (hg 0 0 (code b / 16) (code b mod 16) x30 x30 (hex_char (code b / 16)) (hex_char (code b mod 16))) as G.
    replace (4096 * 0 + 256 * 0 + 16 * (code b / 16) + code b mod 16) with (code b) in G by lia. apply G; try (apply hd_num; [lia|reflexivity]); apply hex_char_ok; lia.
  - destruct (eqb_spec b x22) as [->|]; [apply ct_letter; cbn; auto|]. destruct (eqb_spec b x5c) as [->|]; [apply ct_letter; cbn; auto|]. now apply ct_plain.
Qed.
(** ** Numbers *)
Lemma decimal_fuel_head fuel : forall n, 0 < n -> n < 10 ^ N.of_nat (S fuel) -> exists c t, decimal_fuel fuel n = c :: t /\ c <> x30.
Proof.
  assert (D : forall n, 0 < n -> n < 10 -> digit n <> x30).
  { intros n H1 H2 E. unfold digit in E. apply (f_equal code) in E. rewrite code_of in E by lia. change (code x30) with 48 in E. lia. }
  induction fuel as [|f IH]; intros n H1 H2; cbn [decimal_fuel].
  - exists (digit n), []. split; [reflexivity|]. apply D; [exact H1|exact H2].
  - destruct (N.ltb_spec n 10); [exists (digit n), []; split; [reflexivity|now apply D]|].
    destruct (IH (n / 10)) as (c & t & -> & Hc); [lia| |exists c, (t ++ [digit (n mod 10)]); auto].
    apply N.div_lt_upper_bound; [discriminate|]. rewrite <- N.pow_succ_r'. rewrite <- Nnat.Nat2N.inj_succ. exact H2.
Qed.
Lemma decimal_integer n : integer (decimal n).
Proof.
  split; [exact (proj1 (decimal_ok n))|]. destruct (N.eq_dec n 0) as [->|Hn]; [reflexivity|]. intros E. exfalso. revert E.
  unfold decimal. destruct (decimal_fuel_head (N.to_nat (N.size n)) n) as (c & t & -> & Hc); [lia| |exact Hc].
  rewrite Nnat.Nat2N.inj_succ, N2Nat.id, N.pow_succ_r'. pose proof (N.size_gt n). pose proof (N.pow_le_mono_l 2 10 (N.size n)). lia.
Qed.
Lemma decimal_number n : number_text true (decimal n) (decimal n).
Proof.
  pose proof (nt false (decimal n) [] [] (decimal_integer n) (or_introl eq_refl) (or_introl eq_refl)) as H. cbn [app negb andb] in H. now rewrite app_nil_r in H.
Qed.
(** ** Values *)
Definition print_pair (kv : string * json) : bytes := print_string (list_byte_of_string (fst kv)) ++ x3a :: print (snd kv).
Lemma no_blanks : blanks []. Proof. constructor. Qed.
Theorem print_spells j : printable j -> spells j (print j).
Proof.
  induction j as [ |b|n|s|l IH|m IH] using json_ind'; intros Hp.
  - constructor.
  - destruct b; constructor.
  - apply (sp_natural n (decimal n)); [apply decimal_number|apply decimal_val|exact Hp].
  - constructor; [apply print_chars|exact Hp].
  - destruct l as [|x r]; [apply (sp_empty_array []), no_blanks|]. cbn [print]. apply sp_array. cbn [printable fold_right] in Hp.
    revert x IH Hp. induction r as [|y r IHr]; intros x IH (Hx & Hr); inversion IH as [|? ? Px Pr]; subst; cbn [flat_map].
    + pose proof (el_last x [] (print x) [] no_blanks (Px Hx) no_blanks) as E. cbn [app] in E. exact E.
    + cbn [fold_right] in Hr. pose proof (el_more x [] (print x) [] (y :: r) _ no_blanks (Px Hx) no_blanks (IHr y Pr Hr)) as E. cbn [app] in *. exact E.
  - destruct m as [|x r]; [apply (sp_empty_object []), no_blanks|]. cbn [print]. apply sp_object. cbn [printable fold_right] in Hp.
    change (fun kv => print_string (list_byte_of_string (fst kv)) ++ x3a :: print (snd kv)) with print_pair.
    change (members (x :: r) (print_pair x ++ flat_map (fun y => x2c :: print_pair y) r)).
    revert x IH Hp. induction r as [|y r IHr]; intros x IH ((Hu & Hx) & Hr); inversion IH as [|? ? Px Pr]; subst; cbn [flat_map].
    + pose proof (me_last (snd x) _ _ [] [] [] (print (snd x)) [] no_blanks (print_chars (list_byte_of_string (fst x))) Hu no_blanks no_blanks (Px Hx) no_blanks) as E.
      rewrite string_of_list_byte_of_string in E. rewrite <- surjective_pairing in E. unfold print_pair, print_string. cbn [app] in *. rewrite !app_nil_r in *. exact E.
    + cbn [fold_right] in Hr. pose proof (me_more (snd x) _ _ [] [] [] (print (snd x)) [] (y :: r) _ no_blanks (print_chars (list_byte_of_string (fst x))) Hu no_blanks no_blanks (Px Hx) no_blanks (IHr y Pr Hr)) as E.
      rewrite string_of_list_byte_of_string in E. rewrite <- surjective_pairing in E. unfold print_pair at 1, print_string. repeat (cbn [app] in *; rewrite <- ?app_assoc in * ). exact E.
Qed.
Lemma print_text j : printable j -> json_text j (print j).
Proof. intros H. exists [], (print j), []. rewrite app_nil_r. repeat split; try apply no_blanks. now apply print_spells. Qed.
Theorem print_read j : printable j -> (nesting j <= 127)%nat -> json_of_text (print j) = Some j.
Proof. intros H Hn. apply json_of_text_iff. split; [now apply print_text|exact Hn]. Qed.
(** Only such values have a text. *)
Theorem spells_printable :
  (forall j t, spells j t -> printable j) /\ (forall l t, elements l t -> printable (JArr l)) /\ (forall m t, members m t -> printable (JObj m)).
Proof.
  apply json_mind; intros; cbn [printable fold_right fst snd] in *; auto; rewrite ?list_byte_of_string_of_list_byte; auto.
Qed.

(** ** What a node writes *)
Fixpoint plain_names (k : kind) : bool :=
  match k with
  | Vector k' _ | List_ k' _ => plain_names k'
  | Container fs => forallb (fun f => forallb (fun b => code b <? 128) (list_byte_of_string (fst f)) && plain_names (snd f)) fs
  | _ => true
  end.
Fixpoint depth_of (k : kind) : nat :=
  match k with
  | Vector k' _ | List_ k' _ => S (depth_of k')
  | Container fs => S (fold_right (fun f n => Nat.max (depth_of (snd f)) n) O fs)
  | _ => O
  end.
Lemma hex_ascii b : Forall (fun c => code c < 128) (hex b).
Proof.
  unfold hex. induction b as [|x b IH]; cbn [flat_map]; [constructor|]. pose proof (code_lt x). unfold code in *.
  apply Forall_app. split; [|exact IH]. repeat constructor.
  - destruct (hex_digit_ok (Byte.to_N x / 16)) as [(? & E)|(? & [E|E])]; [lia|unfold code; lia..].
  - destruct (hex_digit_ok (Byte.to_N x mod 16)) as [(? & E)|(? & [E|E])]; [lia|unfold code; lia..].
Qed.
Lemma hex_unicode b : unicode (x30 :: x78 :: hex b).
Proof. apply ascii_unicode. constructor; [reflexivity|]. constructor; [reflexivity|]. apply hex_ascii. Qed.
Lemma decimal_unicode n : unicode (decimal n).
Proof. apply ascii_unicode. destruct (decimal_ok n) as [[_ F] _]. eapply Forall_impl; [|exact F]. unfold code. cbn. lia. Qed.
Lemma write_printable k : plain_names k = true -> forall v, printable (write k v).
Proof.
  induction k as [n| |n|n|k n IH|k n IH|fs IH|n|n] using kind_ind'; intros Hn v; destruct v as [x|b|b|vs|l]; cbn [write]; try exact I; cbn [printable];
    try apply decimal_unicode; try apply hex_unicode.
  - induction vs as [|x vs IHv]; cbn [map fold_right]; auto.
  - induction vs as [|x vs IHv]; cbn [map fold_right]; auto.
  - cbn [plain_names] in Hn. change (fold_right (fun kv P => (unicode (list_byte_of_string (fst kv)) /\ printable (snd kv)) /\ P) True (write_all fs vs)).
    revert vs. induction IH as [|[name k] fs Hk _ IHf]; intros vs; [exact I|]. cbn [forallb fst snd] in *. apply andb_true_iff in Hn as [Hn Hr]. apply andb_true_iff in Hn as [Hn Hn'].
    destruct vs as [|x vs]; [exact I|]. cbn [write_all fold_right fst snd]. split; [split|]; auto.
    apply ascii_unicode, Forall_forall. intros c Hc. rewrite forallb_forall in Hn. apply Hn in Hc. lia.
Qed.
Lemma write_nesting k : forall v, (nesting (write k v) <= depth_of k)%nat.
Proof.
  induction k as [n| |n|n|k n IH|k n IH|fs IH|n|n] using kind_ind'; intros v; destruct v as [x|b|b|vs|l]; cbn [write nesting depth_of]; try lia.
  - apply le_n_S. induction vs as [|x vs IHv]; cbn [map fold_right]; [lia|]. specialize (IH x). lia.
  - apply le_n_S. induction vs as [|x vs IHv]; cbn [map fold_right]; [lia|]. specialize (IH x). lia.
  - apply le_n_S. change (deepest_m (write_all fs vs) <= fold_right (fun f n => Nat.max (depth_of (snd f)) n) O fs)%nat.
    revert vs. induction IH as [|[name k] fs Hk _ IHf]; intros vs; [apply le_n|]. destruct vs as [|x vs]; [cbn; lia|]. cbn [write_all deepest_m fold_right snd] in *. fold (deepest_m (write_all fs vs)).
    specialize (Hk x). specialize (IHf vs). lia.
Qed.
Ltac plain_string := apply ascii_unicode; repeat constructor; reflexivity.
Lemma read_answer k v : plain_names k = true -> (depth_of k <= 100)%nat -> json_of_text (print (answer (write k v) [])) = Some (answer (write k v) []).
Proof.
  intros Hn Hd. pose proof (write_printable k Hn v). pose proof (write_nesting k v). apply print_read.
  - cbn [answer printable fold_right fst snd]. repeat split; auto; plain_string.
  - cbn [answer nesting fold_right snd]. lia.
Qed.
Lemma read_state_answer n k v : plain_names k = true -> (depth_of k <= 100)%nat -> json_of_text (print (state_answer n (write k v) [])) = Some (state_answer n (write k v) []).
Proof.
  intros Hn Hd. pose proof (write_printable k Hn v). pose proof (write_nesting k v). apply print_read.
  - cbn [state_answer printable fold_right fst snd]. repeat split; auto; try plain_string. destruct n; plain_string.
  - cbn [state_answer nesting fold_right snd]. lia.
Qed.
Lemma read_block_answer k v sg : plain_names k = true -> (depth_of k <= 100)%nat -> printable sg -> (nesting sg <= 100)%nat ->
  json_of_text (print (block_answer (write k v) sg [] [])) = Some (block_answer (write k v) sg [] []).
Proof.
  intros Hn Hd Hs Hsn. pose proof (write_printable k Hn v). pose proof (write_nesting k v). apply print_read.
  - cbn [block_answer answer printable fold_right fst snd]. repeat split; auto; plain_string.
  - cbn [block_answer answer nesting fold_right snd]. lia.
Qed.
Lemma state_plain v : plain_names (Container (StateJsonSpec.state_fields v)) = true /\ (depth_of (Container (StateJsonSpec.state_fields v)) <= 100)%nat.
Proof. destruct v; split; vm_compute; try reflexivity; lia. Qed.
Lemma block_plain v : plain_names (BeaconBlock v) = true /\ (depth_of (BeaconBlock v) <= 100)%nat.
Proof. destruct v; split; vm_compute; try reflexivity; lia. Qed.
