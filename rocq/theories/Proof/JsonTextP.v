(** Proofs for C90: the reader of JSON texts accepts exactly the grammar of Spec/JsonSyntax.v. *)
From Coq Require Import String List Arith NArith ZArith Bool Lia ZifyBool ZifyN ZifyNat.
From Coq.Init Require Import Byte.
From Verif.Model Require Import Base HostStore BeaconClient StateJson JsonText.
From Verif.Spec Require Import JsonSyntax.
From Verif.Proof Require Import BaseLemmas.
Import ListNotations.
Open Scope list_scope.
Open Scope N_scope.
Ltac Zify.zify_post_hook ::= Z.div_mod_to_equations.

Lemma code_lt b : code b < 256. Proof. apply byte_to_N_lt. Qed.
Lemma code_inj a b : code a = code b -> a = b.
Proof. unfold code. intros H. rewrite <- (byte_of_N_of_byte a), <- (byte_of_N_of_byte b). now rewrite H. Qed.
Lemma code_of n : n < 256 -> code (byte_of_N n) = n.
Proof. intros H. unfold code. rewrite byte_of_N_to_N. apply N.mod_small. exact H. Qed.
Lemma byte_of b n : code b = n -> b = byte_of_N n.
Proof. intros <-. symmetry. apply byte_of_N_of_byte. Qed.
Lemma eqb_spec a b : reflect (a = b) (byte_eqb a b).
Proof. destruct (byte_eqb a b) eqn:E; constructor; [now apply byte_eqb_eq|]. intros H. apply byte_eqb_eq in H. congruence. Qed.
Lemma within_spec lo hi b : reflect (lo <= code b <= hi) (within lo hi b).
Proof. unfold within, code. destruct (_ && _) eqn:E; constructor; lia. Qed.

(** ** UTF-8 *)
Lemma utf8_encodes u : u < 1114112 -> encodes u (utf8 u).
Proof.
  intros H. unfold utf8. destruct (N.ltb_spec u 128); [constructor 1; [lia|now apply code_of; lia]|].
  destruct (N.ltb_spec u 2048); [apply enc2 with (u / 64) (u mod 64); try (rewrite code_of by lia); lia|].
  destruct (N.ltb_spec u 65536); [apply enc3 with (u / 4096) (u / 64 mod 64) (u mod 64); try (rewrite code_of by lia); lia|].
  apply enc4 with (u / 262144) (u / 4096 mod 64) (u / 64 mod 64) (u mod 64); try (rewrite code_of by lia); lia.
Qed.
Lemma encodes_utf8 u a : encodes u a -> a = utf8 u.
Proof.
  unfold utf8. intros [u' a' H E|u' a' b x y H R Y A B|u' a' b c x y z H R Y Z A B C|u' a' b c d w x y z H R X Y Z A B C D].
  - rewrite (proj2 (N.ltb_lt _ _)) by lia. f_equal. now apply byte_of.
  - rewrite (proj2 (N.ltb_ge _ _)) by lia. rewrite (proj2 (N.ltb_lt u' 2048)) by lia. repeat f_equal; apply byte_of; lia.
  - rewrite !(proj2 (N.ltb_ge _ _)) by lia. rewrite (proj2 (N.ltb_lt u' 65536)) by lia. repeat f_equal; apply byte_of; lia.
  - rewrite !(proj2 (N.ltb_ge _ _)) by lia. repeat f_equal; apply byte_of; lia.
Qed.
Lemma encodes_app u a s : scalar u -> encodes u a -> utf8_ok (a ++ s) = utf8_ok s.
Proof.
  intros S En. revert S. destruct En as [u' a' H E|u' a' b x y H R Y A B|u' a' b c x y z H R Y Z A B C|u' a' b c d w x y z H R X Y Z A B C D];
    intros S; cbn [app utf8_ok]; unfold scalar, code, within in *.
  - rewrite (proj2 (N.ltb_lt _ _)) by lia. reflexivity.
  - rewrite (proj2 (N.ltb_ge _ _)) by lia. replace (_ && _) with true by lia. destruct (utf8_ok s); lia.
  - rewrite (proj2 (N.ltb_ge _ _)) by lia. replace ((194 <=? _) && _) with false by lia. replace ((224 <=? _) && _) with true by lia.
    destruct (utf8_ok s); destruct (N.eqb_spec (Byte.to_N a') 224), (N.eqb_spec (Byte.to_N a') 237); lia.
  - rewrite (proj2 (N.ltb_ge _ _)) by lia. replace ((194 <=? _) && _) with false by lia. replace ((224 <=? _) && _) with false by lia.
    destruct (utf8_ok s); destruct (N.eqb_spec (Byte.to_N a') 240), (N.eqb_spec (Byte.to_N a') 244); lia.
Qed.
Lemma utf8_ok_unicode n : forall s, (length s <= n)%nat -> utf8_ok s = true -> unicode s.
Proof.
  induction n as [|n IH]; intros s L H.
  - destruct s; [constructor|simpl in L; lia].
  - destruct s as [|a r]; [constructor|]. cbn [utf8_ok] in H. cbn [length] in L.
    destruct (N.ltb_spec (Byte.to_N a) 128).
    + apply (uni_cons (Byte.to_N a) [a]); [unfold scalar; lia|now constructor|]. apply IH; [lia|exact H].
    + destruct r as [|b r1]; [discriminate|]. cbn [length] in L. destruct (within_spec 194 223 a).
      * apply andb_true_iff in H as [H1 H2]. destruct (within_spec 128 191 b) as [Wb|]; [|discriminate]. unfold code in *.
        apply (uni_cons (64 * (Byte.to_N a - 192) + (Byte.to_N b - 128)) [a; b]); [unfold scalar; lia| |apply IH; [lia|exact H2]].
        apply enc2 with (Byte.to_N a - 192) (Byte.to_N b - 128); unfold code; lia.
      * destruct r1 as [|c r2]; [discriminate|]. cbn [length] in L. destruct (within_spec 224 239 a).
        -- apply andb_true_iff in H as [H1 H2]. unfold within, code in *.
           apply (uni_cons (4096 * (Byte.to_N a - 224) + 64 * (Byte.to_N b - 128) + (Byte.to_N c - 128)) [a; b; c]);
             [| |apply IH; [lia|exact H2]]; destruct (N.eqb_spec (Byte.to_N a) 224), (N.eqb_spec (Byte.to_N a) 237).
           all: try (unfold scalar; lia).
           all: apply enc3 with (Byte.to_N a - 224) (Byte.to_N b - 128) (Byte.to_N c - 128); unfold code; lia.
        -- destruct r2 as [|d r3]; [discriminate|]. cbn [length] in L. apply andb_true_iff in H as [H1 H2]. unfold within, code in *.
           apply (uni_cons (262144 * (Byte.to_N a - 240) + 4096 * (Byte.to_N b - 128) + 64 * (Byte.to_N c - 128) + (Byte.to_N d - 128)) [a; b; c; d]);
             [| |apply IH; [lia|exact H2]]; destruct (N.eqb_spec (Byte.to_N a) 240), (N.eqb_spec (Byte.to_N a) 244).
           all: try (unfold scalar; lia).
           all: apply enc4 with (Byte.to_N a - 240) (Byte.to_N b - 128) (Byte.to_N c - 128) (Byte.to_N d - 128); unfold code; lia.
Qed.
Lemma utf8_ok_iff s : utf8_ok s = true <-> unicode s.
Proof.
  split; [now apply (utf8_ok_unicode (length s))|]. induction 1 as [|u a s S E U IH]; [reflexivity|]. now rewrite (encodes_app u).
Qed.

(** ** Strings *)
Lemma hex_val_iff b n : hex_val b = Some n <-> hex_digit_of n b.
Proof.
  unfold hex_val. fold (code b). split.
  - destruct (_ && _) eqn:E1; [intros [= <-]; apply hd_num; lia|]. destruct (_ && _) eqn:E2 in |- *; [intros [= <-]; apply hd_low; lia|].
    destruct (_ && _) eqn:E3 in |- *; [intros [= <-]; apply hd_up; lia|discriminate].
  - intros [m c L E|m c L E|m c L E]; rewrite E.
    + replace (_ && _) with true by lia. f_equal. lia.
    + replace ((48 <=? 87 + m) && _) with false by lia. replace (_ && _) with true by lia. f_equal. lia.
    + replace ((48 <=? 55 + m) && _) with false by lia. replace ((97 <=? 55 + m) && _) with false by lia. replace (_ && _) with true by lia. f_equal. lia.
Qed.
Lemma hex4_iff a b c d u : hex4 a b c d = Some u <-> hex_group u [a; b; c; d].
Proof.
  unfold hex4. split.
  - destruct (hex_val a) as [p|] eqn:E1, (hex_val b) as [q|] eqn:E2, (hex_val c) as [r|] eqn:E3, (hex_val d) as [s|] eqn:E4; try discriminate.
    apply hex_val_iff in E1, E2, E3, E4. intros [= <-]. now constructor.
  - intros H. inversion H as [p q r s ? ? ? ? H1 H2 H3 H4]; subst. apply hex_val_iff in H1, H2, H3, H4. now rewrite H1, H2, H3, H4.
Qed.
Lemma hex_digit_lt n b : hex_digit_of n b -> n < 16.
Proof. intros []; lia. Qed.
Lemma hex_group_lt u g : hex_group u g -> u < 65536 /\ exists a b c d, g = [a; b; c; d].
Proof. intros [p q r s a b c d H1 H2 H3 H4]. apply hex_digit_lt in H1, H2, H3, H4. split; [lia|eauto]. Qed.
Lemma escape_iff e b : escape e = Some b <-> In (e, b) letter_escapes.
Proof.
  unfold escape, escapes, letter_escapes. cbn [find fst]. split.
  - repeat match goal with |- context [if byte_eqb ?x e then _ else _] => destruct (eqb_spec x e) as [<-|] end; cbn [option_map snd]; intros [= <-]; cbn [In]; auto 10.
  - cbn [In]. intros H. repeat destruct H as [[= <- <-]|H]; try reflexivity. contradiction.
Qed.
Lemma chars_char c tc rest : char_text c tc -> chars (tc ++ rest) = emit c (chars rest).
Proof.
  intros [b H1 H2 H3|e b H|u g s S G E|h l g g' s Hh Hl G G' E]; cbn [app].
  - cbn [chars]. destruct (eqb_spec b x22); [contradiction|]. destruct (eqb_spec b x5c); [contradiction|].
    fold (code b). rewrite (proj2 (N.ltb_ge _ _)) by exact H1. reflexivity.
  - cbn [chars]. change (byte_eqb x5c x22) with false. change (byte_eqb x5c x5c) with true. cbn iota.
    destruct (eqb_spec e x75) as [->|]; [exfalso; cbn [In letter_escapes] in H; repeat destruct H as [H|H]; try discriminate; contradiction|].
    apply escape_iff in H. now rewrite H.
  - destruct (hex_group_lt _ _ G) as (L & a0 & b0 & c0 & d0 & ->). cbn [app chars]. change (byte_eqb x5c x22) with false. change (byte_eqb x5c x5c) with true. change (byte_eqb x75 x75) with true. cbn iota.
    apply hex4_iff in G. rewrite G. unfold low_surrogate, high_surrogate. unfold scalar in S.
    replace ((56320 <=? u) && _) with false by lia. replace ((55296 <=? u) && _) with false by lia. now rewrite (encodes_utf8 _ _ E).
  - destruct (hex_group_lt _ _ G) as (L & a0 & b0 & c0 & d0 & ->). destruct (hex_group_lt _ _ G') as (L' & a' & b' & c' & d' & ->).
    cbn [app chars]. change (byte_eqb x5c x22) with false. change (byte_eqb x5c x5c) with true. change (byte_eqb x75 x75) with true. cbn iota. cbn [andb].
    apply hex4_iff in G, G'. rewrite G, G'. unfold low_surrogate, high_surrogate.
    replace ((56320 <=? 55296 + h) && _) with false by lia. replace ((55296 <=? 55296 + h) && _) with true by lia.
    replace ((56320 <=? 56320 + l) && _) with true by lia. rewrite (encodes_utf8 _ _ E). do 2 f_equal. lia.
Qed.
Lemma chars_complete s t rest : string_text s t -> chars (t ++ x22 :: rest) = Some (s, rest).
Proof.
  induction 1 as [|c tc s ts Hc Hs IH]; [reflexivity|]. rewrite <- app_assoc, (chars_char c) by exact Hc. now rewrite IH.
Qed.
Lemma emit_some p o s r : emit p o = Some (s, r) -> exists s', o = Some (s', r) /\ s = p ++ s'.
Proof. destruct o as [[s' r']|]; cbn [emit]; [|discriminate]. intros [= <- <-]. eauto. Qed.
Lemma chars_sound n : forall l s r, (length l <= n)%nat -> chars l = Some (s, r) -> exists t, l = t ++ x22 :: r /\ string_text s t.
Proof.
  induction n as [|n IH]; intros l s r L H.
  - destruct l; [discriminate|simpl in L; lia].
  - assert (Step : forall c tc o rest, char_text c tc -> l = tc ++ rest -> (length rest <= n)%nat -> o = chars rest ->
      emit c o = Some (s, r) -> exists t, l = t ++ x22 :: r /\ string_text s t).
    { intros c tc o rest Hc -> Lr -> He. apply emit_some in He as (s' & He & ->). apply IH in He as (t & -> & Ht); [|exact Lr].
      exists (tc ++ t). split; [now rewrite <- app_assoc|now constructor]. }
    destruct l as [|c l]; [discriminate|]. cbn [length] in L. cbn [chars] in H.
    destruct (eqb_spec c x22) as [->|N1].
    { injection H as <- <-. exists []. split; [reflexivity|constructor]. }
    destruct (eqb_spec c x5c) as [->|N2].
    + destruct l as [|e r1]; [discriminate|]. cbn [length] in L. destruct (eqb_spec e x75) as [->|N3].
      * destruct r1 as [|a1 [|b1 [|c1 [|d1 r2]]]]; try discriminate. cbn [length] in L.
        destruct (hex4 a1 b1 c1 d1) as [u|] eqn:E; [|discriminate]. pose proof E as G. apply hex4_iff in G. destruct (hex_group_lt _ _ G) as [Lu _].
        destruct (low_surrogate u) eqn:El; [discriminate|]. unfold low_surrogate in El. destruct (high_surrogate u) eqn:Eh; unfold high_surrogate in Eh.
        -- destruct r2 as [|y1 [|y2 [|a2 [|b2 [|c2 [|d2 r3]]]]]]; try discriminate. cbn [length] in L.
           destruct (eqb_spec y1 x5c) as [->|]; [|discriminate]. destruct (eqb_spec y2 x75) as [->|]; [|discriminate]. cbn [andb] in H.
           destruct (hex4 a2 b2 c2 d2) as [v|] eqn:E'; [|discriminate]. pose proof E' as G'. apply hex4_iff in G'. destruct (hex_group_lt _ _ G') as [Lv _].
           destruct (low_surrogate v) eqn:El'; [|discriminate]. unfold low_surrogate in El'.
           apply (Step _ ([x5c; x75; a1; b1; c1; d1] ++ [x5c; x75; a2; b2; c2; d2]) _ r3) in H; auto; [|lia].
           apply (ct_pair (u - 55296) (v - 56320) [a1; b1; c1; d1] [a2; b2; c2; d2]); [lia|lia| | |].
           ++ replace (55296 + (u - 55296)) with u by lia. exact G.
           ++ replace (56320 + (v - 56320)) with v by lia. exact G'.
           ++ replace (65536 + 1024 * (u - 55296) + (v - 56320)) with (65536 + (u - 55296) * 1024 + (v - 56320)) by lia. apply utf8_encodes. lia.
        -- apply (Step _ [x5c; x75; a1; b1; c1; d1] _ r2) in H; auto; [|lia].
           apply (ct_code u [a1; b1; c1; d1]); [unfold scalar; lia|exact G|apply utf8_encodes; lia].
      * destruct (escape e) as [x|] eqn:E; [|discriminate]. apply escape_iff in E.
        apply (Step _ [x5c; e] _ r1) in H; auto; [now constructor|lia].
    + destruct (N.ltb_spec (Byte.to_N c) 32); [discriminate|]. apply (Step _ [c] _ l) in H; auto; [now constructor|lia].
Qed.
Lemma a_string_iff l s r : a_string l = Some (s, r) <-> exists t, l = t ++ x22 :: r /\ string_text s t /\ unicode s.
Proof.
  unfold a_string. split.
  - destruct (chars l) as [[s' r']|] eqn:E; [|discriminate]. destruct (utf8_ok s') eqn:U; [|discriminate]. intros [= <- <-].
    apply (chars_sound (length l)) in E as (t & -> & Ht); [|lia]. apply utf8_ok_iff in U. eauto.
  - intros (t & -> & Ht & U). rewrite (chars_complete s) by exact Ht. apply utf8_ok_iff in U. now rewrite U.
Qed.

(** ** Numbers *)
Definition plain_digit (b : byte) : Prop := 48 <= code b <= 57.
Definition no_digit (r : bytes) : Prop := match r with [] => True | c :: _ => ~ plain_digit c end.
Lemma span_complete d r : Forall plain_digit d -> no_digit r -> span (d ++ r) = (d, r).
Proof.
  induction 1 as [|b d Hb Hd IH]; intros Hr; cbn [app].
  - destruct r as [|c r]; [reflexivity|]. cbn [span]. destruct (within_spec 48 57 c); [contradiction|reflexivity].
  - cbn [span]. destruct (within_spec 48 57 b); [|contradiction]. now rewrite IH.
Qed.
Lemma span_sound l : forall d r, span l = (d, r) -> l = d ++ r /\ Forall plain_digit d /\ no_digit r.
Proof.
  induction l as [|b l IH]; intros d r H; cbn [span] in H.
  - injection H as <- <-. repeat split; constructor.
  - destruct (within_spec 48 57 b) as [W|W].
    + destruct (span l) as [d' r'] eqn:E. injection H as <- <-. destruct (IH _ _ eq_refl) as (-> & F & Nd). repeat split; auto.
    + injection H as <- <-. repeat split; [constructor|exact W].
Qed.
Definition stops (r : bytes) : Prop := match r with [] => True | c :: _ => In c [x20; x09; x0a; x0d; x2c; x5d; x7d] end.
Lemma stops_cases c r : stops (c :: r) -> ~ plain_digit c /\ c <> x2e /\ c <> x65 /\ c <> x45.
Proof.
  cbn [stops In]. unfold plain_digit. intros H. repeat destruct H as [<-|H]; try contradiction; (split; [vm_compute; intros [A B]; first [now apply A|now apply B]|repeat split; discriminate]).
Qed.
Lemma stops_no_digit r : stops r -> no_digit r.
Proof. destruct r as [|c r]; [auto|]. intros H. now apply stops_cases in H. Qed.
Lemma int_part_iff d : Forall plain_digit d -> int_part d = true <-> integer d.
Proof.
  intros F. unfold integer, digits, int_part. destruct d as [|b [|b' d]].
  - split; [discriminate|]. intros [[H _] _]. contradiction.
  - split; [|auto]. intros _. repeat split; [discriminate|exact F|]. cbn [hd]. now intros ->.
  - cbn [hd]. split.
    + intros H. repeat split; [discriminate|exact F|]. intros ->. discriminate.
    + intros [_ H]. destruct (eqb_spec b x30) as [->|]; [|reflexivity]. specialize (H eq_refl). discriminate.
Qed.
Lemma digits_val_some d : Forall plain_digit d -> forall acc, exists n, digits_val acc d = Some n.
Proof.
  induction 1 as [|b d Hb Hd IH]; intros acc; cbn [digits_val]; [eauto|]. unfold plain_digit in Hb.
  destruct (digit_val b) as [v|] eqn:E; [apply IH|]. exfalso. revert E. unfold digit_val. fold (code b). destruct (_ && _) eqn:E; [discriminate|lia].
Qed.
Lemma fraction_complete fr r : (fr = [] \/ exists f, digits f /\ fr = x2e :: f) -> no_digit r -> (fr = [] -> match r with [] => True | c :: _ => c <> x2e end) ->
  fraction (fr ++ r) = Some (match fr with [] => false | _ => true end, r).
Proof.
  intros [->|(f & (Hn & Hf) & ->)] Hr Hd; cbn [app].
  - specialize (Hd eq_refl). destruct r as [|c r]; [reflexivity|]. cbn [fraction]. destruct (eqb_spec c x2e); [contradiction|reflexivity].
  - cbn [fraction]. change (byte_eqb x2e x2e) with true. cbn iota. rewrite span_complete by auto. destruct f; [contradiction|reflexivity].
Qed.
Definition exponent_text (ex : bytes) : Prop :=
  ex = [] \/ exists e sign f, (e = x65 \/ e = x45) /\ (sign = [] \/ sign = [x2b] \/ sign = [x2d]) /\ digits f /\ ex = e :: sign ++ f.
Lemma exponent_complete ex r : exponent_text ex -> stops r -> exponent (ex ++ r) = Some (match ex with [] => false | _ => true end, r).
Proof.
  intros [->|(e & sign & f & He & Hs & (Hn & Hf) & ->)] Hr; cbn [app].
  - destruct r as [|c r]; [reflexivity|]. apply stops_cases in Hr as (_ & _ & H1 & H2). cbn [exponent].
    destruct (eqb_spec c x65); [contradiction|]. destruct (eqb_spec c x45); [contradiction|]. reflexivity.
  - cbn [exponent]. replace (byte_eqb e x65 || byte_eqb e x45) with true by (destruct He as [-> | ->]; reflexivity).
    replace (match (sign ++ f) ++ r with s :: r' => if byte_eqb s x2b || byte_eqb s x2d then r' else (sign ++ f) ++ r | [] => [] end) with (f ++ r).
    + rewrite span_complete by (auto using stops_no_digit). destruct f; [contradiction|reflexivity].
    + destruct Hs as [-> | [-> | ->]]; cbn [app]; try reflexivity. destruct f as [|b f]; [contradiction|]. cbn [app].
      inversion Hf as [|? ? Hb _]; subst. unfold plain_digit in Hb. destruct (eqb_spec b x2b) as [->|]; [vm_compute in Hb; destruct Hb as [A _]; now destruct A|].
      destruct (eqb_spec b x2d) as [->|]; [vm_compute in Hb; destruct Hb as [A _]; now destruct A|]. reflexivity.
Qed.
Definition number_value (natural : bool) (d : bytes) : json :=
  if natural then match digits_val 0 d with Some n => if n <? 2 ^ 64 then JNum n else JNull | None => JNull end else JNull.
Lemma a_number_complete natural d t r : number_text natural d t -> stops r -> a_number (t ++ r) = Some (number_value natural d, r).
Proof.
  intros [neg d' fr ex Hi Hfr Hex] Hr. pose proof Hi as ((Hn & Hd) & _). unfold a_number.
  match goal with |- (let '(_, _) := ?m in _) = _ => replace m with (neg, d' ++ fr ++ ex ++ r) end.
  2:{ destruct neg; cbn [app]; rewrite <- !app_assoc; [reflexivity|]. destruct d' as [|b d']; [contradiction|]. cbn [app].
      inversion Hd as [|? ? Hb _]; subst. destruct (eqb_spec b x2d) as [->|]; [vm_compute in Hb; destruct Hb as [A _]; now destruct A|reflexivity]. }
  assert (N1 : no_digit (ex ++ r)).
  { destruct Hex as [->|(e & sign & f & [-> | ->] & _ & _ & ->)]; cbn [app]; [now apply stops_no_digit| |]; cbn [no_digit]; unfold plain_digit; vm_compute; intros [_ A]; now apply A. }
  cbv beta iota. rewrite span_complete.
  2: exact Hd.
  2:{ destruct Hfr as [->|(f & _ & ->)]; cbn [app]; [exact N1|]. cbn [no_digit]. unfold plain_digit. vm_compute. intros [A _]. now apply A. }
  rewrite (proj2 (int_part_iff d' Hd) Hi). rewrite fraction_complete; [|exact Hfr|exact N1|].
  2:{ intros ->. destruct Hex as [->|(e & sign & f & [-> | ->] & _ & _ & ->)]; cbn [app]; try discriminate. destruct r as [|c r]; [exact I|]. now apply stops_cases in Hr. }
  rewrite exponent_complete by (try exact Hr; exact Hex). unfold number_value. do 2 f_equal. destruct neg, fr, ex; reflexivity.
Qed.
Lemma a_number_sound l j r : a_number l = Some (j, r) -> exists natural d t, l = t ++ r /\ number_text natural d t /\ j = number_value natural d.
Proof.
  unfold a_number. intros H.
  match type of H with (let '(_, _) := ?m in _) = _ => assert (exists neg l1, m = (neg, l1) /\ l = (if neg then [x2d] else []) ++ l1) as (neg & l1 & E & El) end.
  { destruct l as [|c l]; [exists false, []; auto|]. destruct (eqb_spec c x2d) as [->|]; [exists true, l; auto|exists false, (c :: l); auto]. }
  rewrite E in H. clear E. subst l. cbv beta iota in H. destruct (span l1) as [d l2] eqn:E1. apply span_sound in E1 as (-> & Fd & _).
  destruct (int_part d) eqn:Ei; [|discriminate]. apply int_part_iff in Ei; [|exact Fd].
  destruct (fraction l2) as [[fr l3]|] eqn:E2; [|discriminate]. destruct (exponent l3) as [[ex l4]|] eqn:E3; [|discriminate]. injection H as <- <-.
  assert (exists frt, l2 = frt ++ l3 /\ (frt = [] \/ exists f, digits f /\ frt = x2e :: f) /\ fr = match frt with [] => false | _ => true end) as (frt & -> & Hfr & ->).
  { unfold fraction in E2. destruct l2 as [|c l2]; [injection E2 as <- <-; exists []; auto|]. destruct (eqb_spec c x2e) as [->|].
    - destruct (span l2) as [f l5] eqn:E. apply span_sound in E as (-> & Ff & _). destruct f as [|b f]; [discriminate|]. injection E2 as <- <-.
      exists (x2e :: b :: f). split; [reflexivity|]. split; [|reflexivity]. right. exists (b :: f). repeat split; [discriminate|exact Ff].
    - injection E2 as <- <-. exists []. auto. }
  assert (exists ext, l3 = ext ++ l4 /\ exponent_text ext /\ ex = match ext with [] => false | _ => true end) as (ext & -> & Hex & ->).
  { unfold exponent in E3. destruct l3 as [|c l3]; [injection E3 as <- <-; exists []; repeat split; now left|].
    destruct (byte_eqb c x65 || byte_eqb c x45) eqn:Ec.
    - assert (Hc : c = x65 \/ c = x45) by (destruct (eqb_spec c x65), (eqb_spec c x45); auto; discriminate).
      assert (exists sign rest, (match l3 with s :: r' => if byte_eqb s x2b || byte_eqb s x2d then r' else l3 | [] => [] end) = rest /\ l3 = sign ++ rest /\ (sign = [] \/ sign = [x2b] \/ sign = [x2d])) as (sign & rest & Es & -> & Hs).
      { destruct l3 as [|s l3]; [exists [], []; auto|]. destruct (eqb_spec s x2b) as [->|]; [exists [x2b], l3; auto|]. destruct (eqb_spec s x2d) as [->|]; [exists [x2d], l3; auto|]. exists [], (s :: l3). auto. }
      rewrite Es in E3. destruct (span rest) as [f l5] eqn:E. apply span_sound in E as (-> & Ff & _). destruct f as [|b f]; [discriminate|]. injection E3 as <- <-.
      exists (c :: sign ++ b :: f). split; [cbn [app]; now rewrite <- app_assoc|]. split; [|reflexivity]. right. exists c, sign, (b :: f). repeat split; auto. discriminate.
    - injection E3 as <- <-. exists []. repeat split. now left. }
  exists (negb neg && match frt ++ ext with [] => true | _ => false end), d, ((if neg then [x2d] else []) ++ d ++ frt ++ ext).
  split; [now rewrite <- !app_assoc|]. split; [now constructor|]. unfold number_value. destruct neg, frt, ext; reflexivity.
Qed.
Lemma number_value_spells natural d t : number_text natural d t -> spells (number_value natural d) t.
Proof.
  intros H. unfold number_value. destruct natural; [|apply (sp_other_number false d); [exact H|discriminate]].
  assert (exists n, digits_val 0 d = Some n) as [n En].
  { inversion H as [? ? ? ? (Hd & _)]; subst. apply digits_val_some, Hd. }
  rewrite En. destruct (N.ltb_spec n (2 ^ 64)); [now apply (sp_natural n d)|]. apply (sp_other_number true d); [exact H|]. intros _ m Em. congruence.
Qed.

(** ** Blanks *)
Definition a_blank (b : byte) : Prop := In b [x20; x09; x0a; x0d].
Lemma blank_spec b : reflect (a_blank b) (blank b).
Proof.
  unfold blank, a_blank. cbn [In]. destruct (eqb_spec b x20), (eqb_spec b x09), (eqb_spec b x0a), (eqb_spec b x0d); subst; cbn [orb]; constructor; auto 6.
  intros [H|[H|[H|[H|[]]]]]; congruence.
Qed.
Lemma skip_blanks w l : blanks w -> skip (w ++ l) = skip l.
Proof. induction 1 as [|b w Hb Hw IH]; cbn [app skip]; [reflexivity|]. destruct (blank_spec b); [exact IH|contradiction]. Qed.
Lemma skip_head c l : ~ a_blank c -> skip (c :: l) = c :: l.
Proof. cbn [skip]. destruct (blank_spec c); [contradiction|reflexivity]. Qed.
Lemma skip_to w c l : blanks w -> ~ a_blank c -> skip (w ++ c :: l) = c :: l.
Proof. intros. rewrite skip_blanks by auto. now apply skip_head. Qed.
Lemma skip_sound l : exists w, blanks w /\ l = w ++ skip l.
Proof.
  induction l as [|b l (w & Hw & El)]; [exists []; split; [constructor|reflexivity]|]. cbn [skip]. destruct (blank_spec b).
  - exists (b :: w). split; [now constructor|]. cbn [app]. now f_equal.
  - exists []. split; [constructor|reflexivity].
Qed.
Lemma skip_all l : skip l = [] <-> blanks l.
Proof.
  split.
  - intros E. destruct (skip_sound l) as (w & Hw & El). rewrite E, app_nil_r in El. now subst.
  - intros H. rewrite <- (app_nil_r l), skip_blanks by auto. reflexivity.
Qed.
Lemma skip_cons l c r : skip l = c :: r -> exists w, blanks w /\ l = w ++ c :: r.
Proof. intros E. destruct (skip_sound l) as (w & Hw & El). rewrite E in El. eauto. Qed.
Lemma stops_blanks w c r : blanks w -> In c [x2c; x5d; x7d] -> stops (w ++ c :: r).
Proof.
  intros Hw Hc. inversion Hw as [|b w' Hb _]; subst; cbn [app stops In].
  - cbn [In] in Hc. intuition.
  - cbn [In] in Hb. intuition.
Qed.
Lemma stops_blank_end w : blanks w -> stops w.
Proof. intros Hw. inversion Hw as [|b w' Hb _]; subst; cbn [stops In]; [exact I|]. cbn [In] in Hb. intuition. Qed.
Lemma expect_word_iff w l r : expect_word w l = Some r <-> l = w ++ r.
Proof.
  revert l. induction w as [|a w IH]; intros l; cbn [expect_word app].
  - split; [now intros [= ->]|now intros ->].
  - destruct l as [|b l]; [split; discriminate|]. destruct (eqb_spec a b) as [->|Hn].
    + rewrite IH. split; [now intros ->|now intros [= ->]].
    + split; [discriminate|]. intros [= <- _]. now contradict Hn.
Qed.

(** ** Values *)
Ltac byte_is c := unfold a_blank; cbn [In]; intuition discriminate.
(** How a value begins: never with a blank, and never with a closing bracket or brace. *)
Lemma number_head natural d t : number_text natural d t -> exists c t', t = c :: t' /\ (c = x2d \/ plain_digit c).
Proof.
  intros [neg d' fr ex ((Hn & Hd) & _) _ _]. destruct neg; cbn [app]; [eauto|]. destruct d' as [|b d']; [contradiction|]. inversion Hd; subst. cbn [app]. eauto.
Qed.
Lemma number_head_other c : (c = x2d \/ plain_digit c) -> ~ In c [x20; x09; x0a; x0d; x6e; x74; x66; x22; x5b; x7b; x5d; x7d].
Proof.
  intros Hc Hi. cbn [In] in Hi. unfold plain_digit in Hc.
  repeat destruct Hi as [<-|Hi]; try contradiction; (destruct Hc as [Hc|Hc]; [discriminate|vm_compute in Hc; destruct Hc as [A B]; first [now apply A|now apply B]]).
Qed.
Lemma spells_head j t : spells j t -> exists c t', t = c :: t' /\ ~ In c [x20; x09; x0a; x0d; x5d; x7d].
Proof.
  intros H. destruct H as [ | | | n d t H _ _|natural d t H _|s t _ _|w _|l t _|w _|m t _]; try (eexists _, _; split; [reflexivity|byte_is c]).
  all: destruct (number_head _ _ _ H) as (c & t' & -> & Hc); exists c, t'; (split; [reflexivity|]); apply number_head_other in Hc; cbn [In] in *; intuition.
Qed.
Lemma elements_head l t r : elements l t -> exists c t', skip (t ++ r) = c :: t' /\ c <> x5d.
Proof.
  assert (K : forall w j t rest, blanks w -> spells j t -> exists c t', skip (w ++ t ++ rest) = c :: t' /\ c <> x5d).
  { intros w j t' rest Hw Hs. destruct (spells_head _ _ Hs) as (c & t'' & -> & Hc). exists c, (t'' ++ rest). cbn [app]. cbn [In] in Hc.
    rewrite skip_to; [split; [reflexivity|]; intros ->; intuition|exact Hw|]. unfold a_blank. cbn [In]. intuition. }
  intros [j w t' w' Hw Hs _|j w t' w' l' r' Hw Hs _ _]; rewrite <- !app_assoc; eauto.
Qed.
Lemma members_head m t r : members m t -> exists t', skip (t ++ r) = x22 :: t'.
Proof.
  intros [j s ts w w1 w2 t' w' Hw _ _ _ _ _ _|j s ts w w1 w2 t' w' m' r' Hw _ _ _ _ _ _ _]; rewrite <- !app_assoc; cbn [app]; rewrite skip_to; eauto; byte_is c.
Qed.
Scheme spells_mind := Minimality for spells Sort Prop
  with elements_mind := Minimality for elements Sort Prop
  with members_mind := Minimality for members Sort Prop.
Combined Scheme json_mind from spells_mind, elements_mind, members_mind.
Definition deepest (l : list json) : nat := fold_right (fun x n => Nat.max (nesting x) n) O l.
Definition deepest_m (m : list (string * json)) : nat := fold_right (fun kv n => Nat.max (nesting (snd kv)) n) O m.
Lemma a_string_of s ts r : string_text s ts -> unicode s -> a_string (ts ++ x22 :: r) = Some (s, r).
Proof. intros. apply a_string_iff. eauto. Qed.
Lemma value_number f d natural dg t r w : number_text natural dg t -> stops r -> blanks w -> (0 < f)%nat -> a_value f d (w ++ t ++ r) = Some (number_value natural dg, r).
Proof.
  intros H Hr Hw Hf. destruct f as [|f]; [lia|]. destruct (number_head _ _ _ H) as (c & t' & Et & Hc). pose proof (a_number_complete _ _ _ _ H Hr) as En.
  rewrite Et in *. cbn [app] in *. apply number_head_other in Hc. cbn [In] in Hc. cbn [a_value]. rewrite skip_to; [|exact Hw|unfold a_blank; cbn [In]; intuition].
  repeat match goal with |- context [byte_eqb c ?x] => destruct (eqb_spec c x); [exfalso; subst; intuition|] end. exact En.
Qed.
Ltac lengths H := repeat (cbn [length app] in H; rewrite ?app_length in H).
Theorem values_complete :
  (forall j t, spells j t -> forall f d w r, (2 * length t <= f)%nat -> (nesting j < d)%nat -> blanks w -> stops r -> a_value f d (w ++ t ++ r) = Some (j, r)) /\
  (forall l t, elements l t -> forall f d r, (2 * length t + 1 <= f)%nat -> (deepest l < d)%nat -> a_elements f d (t ++ x5d :: r) = Some (l, r)) /\
  (forall m t, members m t -> forall f d r, (2 * length t + 1 <= f)%nat -> (deepest_m m < d)%nat -> a_members f d (t ++ x7d :: r) = Some (m, r)).
Proof.
  apply json_mind.
  - intros f d w r Hf _ Hw _. destruct f as [|f]; [cbn in Hf; lia|]. cbn [a_value app]. rewrite skip_to by (auto; byte_is c). reflexivity.
  - intros f d w r Hf _ Hw _. destruct f as [|f]; [cbn in Hf; lia|]. cbn [a_value app]. rewrite skip_to by (auto; byte_is c). reflexivity.
  - intros f d w r Hf _ Hw _. destruct f as [|f]; [cbn in Hf; lia|]. cbn [a_value app]. rewrite skip_to by (auto; byte_is c). reflexivity.
  - intros n dg t H En Hn f d w r Hf _ Hw Hr. rewrite (value_number f d true dg) by (auto; destruct (number_head _ _ _ H) as (c & t' & -> & _); cbn in Hf; lia).
    unfold number_value. rewrite En. destruct (N.ltb_spec n (2 ^ 64)); [reflexivity|lia].
  - intros natural dg t H Hbig f d w r Hf _ Hw Hr. rewrite (value_number f d natural dg) by (auto; destruct (number_head _ _ _ H) as (c & t' & -> & _); cbn in Hf; lia).
    unfold number_value. destruct natural; [|reflexivity]. destruct (digits_val 0 dg) as [n|] eqn:E; [|reflexivity]. specialize (Hbig eq_refl n eq_refl). destruct (N.ltb_spec n (2 ^ 64)); [lia|reflexivity].
  - intros s t Hs Hu f d w r Hf _ Hw _. destruct f as [|f]; [cbn in Hf; lia|]. cbn [a_value app]. rewrite skip_to by (auto; byte_is c).
    cbn [byte_eqb Byte.eqb]. rewrite <- app_assoc. cbn [app]. change (byte_eqb x22 x6e) with false. change (byte_eqb x22 x74) with false. change (byte_eqb x22 x66) with false. change (byte_eqb x22 x22) with true.
    cbn iota. now rewrite (a_string_of s t r).
  - intros w0 Hw0 f d w r Hf Hd Hw _. destruct f as [|f]; [cbn in Hf; lia|]. cbn [nesting fold_right] in Hd. destruct d as [|[|d]]; try lia. cbn [a_value app]. rewrite skip_to by (auto; byte_is c).
    change (byte_eqb x5b x6e) with false. change (byte_eqb x5b x74) with false. change (byte_eqb x5b x66) with false. change (byte_eqb x5b x22) with false. change (byte_eqb x5b x5b) with true. cbn iota.
    rewrite <- app_assoc. cbn [app]. rewrite skip_to by (auto; byte_is c). reflexivity.
  - intros l t H IH f d w r Hf Hd Hw _. destruct f as [|f]; [cbn in Hf; lia|]. cbn [nesting] in Hd. fold (deepest l) in Hd. destruct d as [|[|d]]; try lia. cbn [a_value app]. rewrite skip_to by (auto; byte_is c).
    change (byte_eqb x5b x6e) with false. change (byte_eqb x5b x74) with false. change (byte_eqb x5b x66) with false. change (byte_eqb x5b x22) with false. change (byte_eqb x5b x5b) with true. cbn iota.
    rewrite <- app_assoc. cbn [app]. destruct (elements_head _ _ (x5d :: r) H) as (c & t' & -> & Hc). destruct (eqb_spec c x5d); [contradiction|].
    rewrite IH; [reflexivity| |lia]. cbn [length] in Hf. rewrite app_length in Hf. cbn [length] in Hf. lia.
  - intros w0 Hw0 f d w r Hf Hd Hw _. destruct f as [|f]; [cbn in Hf; lia|]. cbn [nesting fold_right] in Hd. destruct d as [|[|d]]; try lia. cbn [a_value app]. rewrite skip_to by (auto; byte_is c).
    change (byte_eqb x7b x6e) with false. change (byte_eqb x7b x74) with false. change (byte_eqb x7b x66) with false. change (byte_eqb x7b x22) with false. change (byte_eqb x7b x5b) with false. change (byte_eqb x7b x7b) with true. cbn iota.
    rewrite <- app_assoc. cbn [app]. rewrite skip_to by (auto; byte_is c). reflexivity.
  - intros m t H IH f d w r Hf Hd Hw _. destruct f as [|f]; [cbn in Hf; lia|]. cbn [nesting] in Hd. fold (deepest_m m) in Hd. destruct d as [|[|d]]; try lia. cbn [a_value app]. rewrite skip_to by (auto; byte_is c).
    change (byte_eqb x7b x6e) with false. change (byte_eqb x7b x74) with false. change (byte_eqb x7b x66) with false. change (byte_eqb x7b x22) with false. change (byte_eqb x7b x5b) with false. change (byte_eqb x7b x7b) with true. cbn iota.
    rewrite <- app_assoc. cbn [app]. destruct (members_head _ _ (x7d :: r) H) as (t' & ->). change (byte_eqb x22 x7d) with false. cbn iota.
    rewrite IH; [reflexivity| |lia]. cbn [length] in Hf. rewrite app_length in Hf. cbn [length] in Hf. lia.
  - intros j w t w' Hw H IH Hw' f d r Hf Hd. destruct f as [|f]; [lia|]. rewrite !app_length in Hf. cbn [deepest fold_right] in Hd. cbn [a_elements]. rewrite <- ?app_assoc.
    rewrite IH; [|lia|lia|exact Hw|now apply stops_blanks; cbn; auto]. rewrite skip_to by (auto; byte_is c). reflexivity.
  - intros j w t w' l r0 Hw H IH Hw' H2 IH2 f d r Hf Hd. destruct f as [|f]; [lia|]. lengths Hf. cbn [deepest fold_right] in Hd. fold (deepest l) in Hd. cbn [a_elements]. rewrite <- ?app_assoc. cbn [app].
    rewrite IH; [|lia|lia|exact Hw|now apply stops_blanks; cbn; auto]. rewrite skip_to by (auto; byte_is c). change (byte_eqb x2c x2c) with true. cbn iota. rewrite IH2 by lia. reflexivity.
  - intros j s ts w w1 w2 t w' Hw Hs Hu Hw1 Hw2 H IH Hw' f d r Hf Hd. destruct f as [|f]; [lia|]. lengths Hf. cbn [deepest_m fold_right snd] in Hd. cbn [a_members].
    rewrite <- ?app_assoc. cbn [app]. rewrite skip_to by (auto; byte_is c). change (byte_eqb x22 x22) with true. cbn iota. rewrite <- ?app_assoc. cbn [app]. rewrite (a_string_of s ts) by auto.
    rewrite skip_to by (auto; byte_is c). change (byte_eqb x3a x3a) with true. cbn iota. rewrite <- ?app_assoc. rewrite IH; [|lia|lia|exact Hw2|now apply stops_blanks; cbn; auto]. rewrite skip_to by (auto; byte_is c). reflexivity.
  - intros j s ts w w1 w2 t w' m r0 Hw Hs Hu Hw1 Hw2 H IH Hw' H2 IH2 f d r Hf Hd. destruct f as [|f]; [lia|].
    lengths Hf. cbn [deepest_m fold_right snd] in Hd. fold (deepest_m m) in Hd. cbn [a_members].
    rewrite <- ?app_assoc. cbn [app]. rewrite skip_to by (auto; byte_is c). change (byte_eqb x22 x22) with true. cbn iota. rewrite <- ?app_assoc. cbn [app]. rewrite (a_string_of s ts) by auto.
    rewrite skip_to by (auto; byte_is c). change (byte_eqb x3a x3a) with true. cbn iota. rewrite <- ?app_assoc. cbn [app]. rewrite IH; [|lia|lia|exact Hw2|now apply stops_blanks; cbn; auto]. rewrite skip_to by (auto; byte_is c).
    change (byte_eqb x2c x2c) with true. cbn iota. rewrite IH2 by lia. reflexivity.
Qed.
Theorem values_sound f :
  (forall d l j r, (0 < d)%nat -> a_value f d l = Some (j, r) -> (nesting j < d)%nat /\ exists w t, blanks w /\ spells j t /\ l = w ++ t ++ r) /\
  (forall d l js r, (0 < d)%nat -> a_elements f d l = Some (js, r) -> (deepest js < d)%nat /\ exists t, elements js t /\ l = t ++ x5d :: r) /\
  (forall d l m r, (0 < d)%nat -> a_members f d l = Some (m, r) -> (deepest_m m < d)%nat /\ exists t, members m t /\ l = t ++ x7d :: r).
Proof.
  induction f as [|f (IHv & IHe & IHm)]; [repeat split; discriminate|]. split; [|split].
  - intros d l j r Hd H. cbn [a_value] in H. destruct (skip l) as [|c l1] eqn:Es; [discriminate|]. apply skip_cons in Es as (w & Hw & ->).
    destruct (eqb_spec c x6e) as [->|].
    { destruct (expect_word _ l1) eqn:E; [|discriminate]. injection H as <- <-. apply expect_word_iff in E as ->. split; [exact Hd|]. exists w, [x6e; x75; x6c; x6c]. repeat split; [exact Hw|constructor]. }
    destruct (eqb_spec c x74) as [->|].
    { destruct (expect_word _ l1) eqn:E; [|discriminate]. injection H as <- <-. apply expect_word_iff in E as ->. split; [exact Hd|]. exists w, [x74; x72; x75; x65]. repeat split; [exact Hw|constructor]. }
    destruct (eqb_spec c x66) as [->|].
    { destruct (expect_word _ l1) eqn:E; [|discriminate]. injection H as <- <-. apply expect_word_iff in E as ->. split; [exact Hd|]. exists w, [x66; x61; x6c; x73; x65]. repeat split; [exact Hw|constructor]. }
    destruct (eqb_spec c x22) as [->|].
    { destruct (a_string l1) as [[s r']|] eqn:E; [|discriminate]. injection H as <- <-. apply a_string_iff in E as (t & -> & Hs & Hu). split; [exact Hd|]. exists w, (x22 :: t ++ [x22]).
      repeat split; [exact Hw|now constructor|]. cbn [app]. now rewrite <- app_assoc. }
    destruct (eqb_spec c x5b) as [->|].
    { destruct d as [|[|d]]; try discriminate. destruct (skip l1) as [|x l2] eqn:Es; [discriminate|]. destruct (eqb_spec x x5d) as [->|].
      - injection H as <- <-. apply skip_cons in Es as (w0 & Hw0 & ->). split; [cbn; lia|]. exists w, (x5b :: w0 ++ [x5d]). repeat split; [exact Hw|now constructor|]. cbn [app]. now rewrite <- app_assoc.
      - destruct (a_elements f (S d) l1) as [[js r']|] eqn:E; [|discriminate]. injection H as <- <-. apply IHe in E as (Hn & t & He & ->); [|lia]. split; [cbn [nesting]; fold (deepest js); lia|].
        exists w, (x5b :: t ++ [x5d]). repeat split; [exact Hw|now constructor|]. cbn [app]. now rewrite <- app_assoc. }
    destruct (eqb_spec c x7b) as [->|].
    { destruct d as [|[|d]]; try discriminate. destruct (skip l1) as [|x l2] eqn:Es; [discriminate|]. destruct (eqb_spec x x7d) as [->|].
      - injection H as <- <-. apply skip_cons in Es as (w0 & Hw0 & ->). split; [cbn; lia|]. exists w, (x7b :: w0 ++ [x7d]). repeat split; [exact Hw|now constructor|]. cbn [app]. now rewrite <- app_assoc.
      - destruct (a_members f (S d) l1) as [[m r']|] eqn:E; [|discriminate]. injection H as <- <-. apply IHm in E as (Hn & t & He & ->); [|lia]. split; [cbn [nesting]; fold (deepest_m m); lia|].
        exists w, (x7b :: t ++ [x7d]). repeat split; [exact Hw|now constructor|]. cbn [app]. now rewrite <- app_assoc. }
    apply a_number_sound in H as (natural & dg & t & El & Ht & ->). split.
    + unfold number_value. destruct natural, (digits_val 0 dg) as [n'|]; try destruct (n' <? 2 ^ 64); exact Hd.
    + exists w, t. rewrite El. repeat split; [exact Hw|]. now apply number_value_spells.
  - intros d l js r Hd H. cbn [a_elements] in H. destruct (a_value f d l) as [[j r1]|] eqn:E; [|discriminate]. apply IHv in E as (Hn & w & t & Hw & Hs & ->); [|exact Hd].
    destruct (skip r1) as [|c r2] eqn:Es; [discriminate|]. apply skip_cons in Es as (w' & Hw' & ->). destruct (eqb_spec c x2c) as [->|].
    + destruct (a_elements f d r2) as [[js' r3]|] eqn:E2; [|discriminate]. injection H as <- <-. apply IHe in E2 as (Hn2 & t2 & He & ->); [|exact Hd].
      split; [cbn [deepest fold_right]; fold (deepest js'); lia|]. exists (w ++ t ++ w' ++ x2c :: t2). split; [now constructor|]. rewrite <- !app_assoc. cbn [app]. reflexivity.
    + destruct (eqb_spec c x5d) as [->|]; [|discriminate]. injection H as <- <-. split; [cbn [deepest fold_right]; lia|]. exists (w ++ t ++ w'). split; [now constructor|]. now rewrite <- !app_assoc.
  - intros d l m r Hd H. cbn [a_members] in H. destruct (skip l) as [|q r0] eqn:Es; [discriminate|]. apply skip_cons in Es as (w & Hw & ->). destruct (eqb_spec q x22) as [->|]; [|discriminate].
    destruct (a_string r0) as [[s r1]|] eqn:E; [|discriminate]. apply a_string_iff in E as (ts & -> & Hs & Hu). destruct (skip r1) as [|c r2] eqn:Es; [discriminate|]. apply skip_cons in Es as (w1 & Hw1 & ->).
    destruct (eqb_spec c x3a) as [->|]; [|discriminate]. destruct (a_value f d r2) as [[j r3]|] eqn:E; [|discriminate]. apply IHv in E as (Hn & w2 & t & Hw2 & Hj & ->); [|exact Hd].
    destruct (skip r3) as [|c' r4] eqn:Es; [discriminate|]. apply skip_cons in Es as (w' & Hw' & ->). destruct (eqb_spec c' x2c) as [->|].
    + destruct (a_members f d r4) as [[m' r5]|] eqn:E2; [|discriminate]. injection H as <- <-. apply IHm in E2 as (Hn2 & t2 & He & ->); [|exact Hd].
      split; [cbn [deepest_m fold_right snd]; fold (deepest_m m'); lia|]. exists (w ++ (x22 :: ts ++ [x22]) ++ w1 ++ x3a :: w2 ++ t ++ w' ++ x2c :: t2). split; [now constructor|].
      repeat (cbn [app]; rewrite <- ?app_assoc). reflexivity.
    + destruct (eqb_spec c' x7d) as [->|]; [|discriminate]. injection H as <- <-. split; [cbn [deepest_m fold_right snd]; lia|].
      exists (w ++ (x22 :: ts ++ [x22]) ++ w1 ++ x3a :: w2 ++ t ++ w'). split; [now constructor|]. repeat (cbn [app]; rewrite <- ?app_assoc). reflexivity.
Qed.

(** ** Texts *)
Lemma json_text_parses j b f d : json_text j b -> (2 * length b <= f)%nat -> (nesting j < d)%nat -> exists w, blanks w /\ a_value f d b = Some (j, w).
Proof.
  intros (w & t & w' & Hw & Hs & Hw' & ->) Hf Hd. exists w'. split; [exact Hw'|]. rewrite !app_length in Hf. apply (proj1 values_complete); auto; [lia|now apply stops_blank_end].
Qed.
Theorem json_of_text_iff b j : json_of_text b = Some j <-> json_text j b /\ (nesting j <= 127)%nat.
Proof.
  unfold json_of_text. split.
  - destruct (a_value _ _ b) as [[j' r]|] eqn:E; [|discriminate]. destruct (skip r) eqn:Es; [|discriminate]. intros [= <-]. apply skip_all in Es.
    apply (proj1 (values_sound _)) in E as (Hn & w & t & Hw & Hs & ->); [|lia]. split; [exists w, t, r; auto|lia].
  - intros (Ht & Hn). destruct (json_text_parses j b (2 * length b) 128 Ht) as (w & Hw & ->); [lia|lia|]. now rewrite (proj2 (skip_all w) Hw).
Qed.
Theorem json_text_functional b j j' : json_text j b -> json_text j' b -> j = j'.
Proof.
  intros H H'. destruct (json_text_parses j b (2 * length b) (S (nesting j + nesting j')) H) as (w & _ & E); [lia|lia|].
  destruct (json_text_parses j' b (2 * length b) (S (nesting j + nesting j')) H') as (w' & _ & E'); [lia|lia|]. congruence.
Qed.
(** An object ends with its closing brace whatever comes behind it. *)
Lemma object_complete m t f d w r : spells (JObj m) t -> (2 * length t <= f)%nat -> (nesting (JObj m) < d)%nat -> blanks w -> a_value f d (w ++ t ++ r) = Some (JObj m, r).
Proof.
  intros H Hf Hd Hw. destruct f as [|f]; [destruct (spells_head _ _ H) as (c & t' & -> & _); cbn in Hf; lia|].
  assert (H' : (m = [] /\ exists w0, blanks w0 /\ t = x7b :: w0 ++ [x7d]) \/ (exists t0, members m t0 /\ t = x7b :: t0 ++ [x7d])) by (inversion H; subst; eauto 7).
  cbn [nesting] in Hd. fold (deepest_m m) in Hd. destruct d as [|[|d]]; try lia.
  destruct H' as [(-> & w0 & Hw0 & ->)|(t0 & Hm & ->)]; cbn [a_value app]; rewrite skip_to by (auto; byte_is c);
    change (byte_eqb x7b x6e) with false; change (byte_eqb x7b x74) with false; change (byte_eqb x7b x66) with false; change (byte_eqb x7b x22) with false; change (byte_eqb x7b x5b) with false; change (byte_eqb x7b x7b) with true; cbn iota; rewrite <- app_assoc; cbn [app].
  - rewrite skip_to by (auto; byte_is c). reflexivity.
  - destruct (members_head _ _ (x7d :: r) Hm) as (t' & ->). change (byte_eqb x22 x7d) with false. cbn iota.
    rewrite (proj2 (proj2 values_complete) _ _ Hm); [reflexivity| |lia]. lengths Hf. lia.
Qed.
Lemma object_head m t : spells (JObj m) t -> exists t', t = x7b :: t'.
Proof. intros H. inversion H; subst; eauto. Qed.
Lemma spells_brace j t : spells j (x7b :: t) -> exists m, j = JObj m.
Proof.
  intros H. inversion H; subst; eauto; exfalso;
    match goal with N : number_text _ _ _ |- _ => destruct (number_head _ _ _ N) as (c & t' & E & Hc); injection E as <- _; apply number_head_other in Hc; cbn [In] in Hc; intuition end.
Qed.
Theorem truncated m b p q : json_text (JObj m) b -> b = p ++ q -> ~ blanks q -> forall j, ~ json_text j p.
Proof.
  intros (w & t & w' & Hw & Ht & Hw' & ->) E Hq j (v & s & v' & Hv & Hs & Hv' & ->).
  assert (exists m', j = JObj m') as (m' & ->).
  { destruct (spells_head _ _ Hs) as (c & s' & -> & Hc). destruct (object_head _ _ Ht) as (t' & ->).
    assert (S1 : skip (w ++ (x7b :: t') ++ w') = x7b :: t' ++ w') by (cbn [app]; apply skip_to; [exact Hw|byte_is c]).
    assert (S2 : skip ((v ++ (c :: s') ++ v') ++ q) = c :: s' ++ v' ++ q).
    { rewrite <- !app_assoc. cbn [app]. apply skip_to; [exact Hv|]. unfold a_blank. cbn [In] in *. intuition. }
    rewrite <- E, S1 in S2. injection S2 as <- _. now apply spells_brace in Hs. }
  pose proof (object_complete m t (2 * length (t ++ s)) (S (nesting (JObj m) + nesting (JObj m'))) w w' Ht ltac:(rewrite app_length; lia) ltac:(lia) Hw) as P1.
  pose proof (object_complete m' s (2 * length (t ++ s)) (S (nesting (JObj m) + nesting (JObj m'))) v (v' ++ q) Hs ltac:(rewrite app_length; lia) ltac:(lia) Hv) as P2.
  rewrite E in P1. rewrite <- !app_assoc in P1. rewrite P1 in P2. injection P2 as _ E2. subst w'. apply Hq. unfold blanks in *. apply Forall_app in Hw' as [_ Hw']. exact Hw'.
Qed.
