(** Proofs for C91: the reader of configuration files accepts exactly the flat files of Spec/FlatYaml.v. *)
From Coq Require Import String List Arith NArith ZArith Bool Lia ZifyBool ZifyN ZifyNat.
From Coq.Init Require Import Byte.
From Verif.Model Require Import Base ConfigYaml.
From Verif.Spec Require Import FlatYaml.
From Verif.Proof Require Import BaseLemmas.
Import ListNotations.
Open Scope list_scope.
Open Scope N_scope.

(** ** Characters *)
Lemma eqb_true a b : byte_eqb a b = true <-> a = b. Proof. apply byte_eqb_eq. Qed.
Lemma is_space_iff b : is_space b = true <-> b = x20. Proof. apply eqb_true. Qed.
Lemma upper_or_digit_iff b : is_upper b || is_digit b = true <-> upper_or_digit b.
Proof. unfold is_upper, is_digit, between, upper_or_digit, code. lia. Qed.
Lemma is_key_iff b : is_key b = true <-> upper_or_digit b \/ b = x5f.
Proof. unfold is_key. now rewrite orb_true_iff, upper_or_digit_iff, eqb_true. Qed.
Lemma is_alnum_iff b : is_alnum b = true <-> upper_or_digit b \/ 97 <= code b <= 122.
Proof.
  unfold is_alnum. rewrite !orb_true_iff, <- upper_or_digit_iff, orb_true_iff. unfold between, code. rewrite andb_true_iff, !N.leb_le. tauto.
Qed.
Lemma is_text_iff b : is_text b = true <-> printable b. Proof. unfold is_text, between, printable, code. lia. Qed.
Lemma in_quotes_iff b : in_quotes b = true <-> printable b /\ b <> x27 /\ b <> x22.
Proof. unfold in_quotes. rewrite !andb_true_iff, !negb_true_iff, <- !not_true_iff_false, !eqb_true, is_text_iff. tauto. Qed.
Lemma forallb_iff (p : byte -> bool) (P : byte -> Prop) l : (forall b, p b = true <-> P b) -> forallb p l = true <-> Forall P l.
Proof. intros H. rewrite forallb_forall, Forall_forall. now setoid_rewrite H. Qed.

(** ** Spans *)
Definition stops (p : byte -> bool) (l : bytes) : Prop := match l with b :: _ => p b = false | [] => True end.
Lemma span_sound p l : forall d r, span_of p l = (d, r) -> l = d ++ r /\ forallb p d = true /\ stops p r.
Proof.
  induction l as [|b l IH]; intros d r; cbn [span_of]; [intros [= <- <-]; cbn; auto|].
  destruct (p b) eqn:E; [|intros [= <- <-]; cbn; auto]. destruct (span_of p l) as [d' r'] eqn:E'.
  intros [= <- <-]. destruct (IH _ _ eq_refl) as (-> & H1 & H2). cbn [forallb app]. now rewrite E, H1.
Qed.
Lemma span_complete p d r : forallb p d = true -> stops p r -> span_of p (d ++ r) = (d, r).
Proof.
  intros H S. induction d as [|b d IH]; cbn [app].
  - destruct r as [|b r]; [reflexivity|]. cbn in S |- *. now rewrite S.
  - cbn [forallb] in H. apply andb_true_iff in H as [Hb Hd]. cbn [span_of]. now rewrite Hb, (IH Hd).
Qed.

(** ** Lines *)
Lemma comment_iff c : is_comment c = true <-> comment c.
Proof.
  unfold comment. destruct c as [|b r]; cbn [is_comment]; [intuition|].
  rewrite andb_true_iff, eqb_true, (forallb_iff is_text printable) by apply is_text_iff. split.
  - intros [-> H]. right. eauto.
  - intros [[=]|(t & [= -> ->] & H)]. auto.
Qed.
Lemma comment_stops c : comment c -> stops is_space c.
Proof. intros [->|(t & -> & _)]; cbn; reflexivity. Qed.
Lemma spaces_iff w : forallb is_space w = true <-> spaces w.
Proof. apply forallb_iff, is_space_iff. Qed.
Lemma tail_iff l : is_tail l = true <-> exists w c, l = w ++ c /\ spaces w /\ comment c /\ (c <> [] -> w <> []).
Proof.
  unfold is_tail. split.
  - destruct (span_of is_space l) as [w c] eqn:E. apply span_sound in E as (-> & Hw & _). apply spaces_iff in Hw.
    destruct w as [|b w], c as [|a c]; try discriminate; intros H.
    + exists [], []. cbn. intuition. now left.
    + exists (b :: w), []. intuition. now left.
    + apply comment_iff in H. exists (b :: w), (a :: c). intuition discriminate.
  - intros (w & c & -> & Hw & Hc & H). rewrite span_complete by (now apply spaces_iff || now apply comment_stops).
    apply comment_iff in Hc. destruct w, c; auto. exfalso. now apply H.
Qed.
Lemma scalar_sound l s r : read_scalar l = Some (s, r) -> exists v, l = v ++ r /\ scalar_text s v.
Proof.
  unfold read_scalar. destruct l as [|b l]; [discriminate|]. destruct (byte_eqb b x27) eqn:Eb.
  - apply eqb_true in Eb as ->. destruct (span_of in_quotes l) as [v r1] eqn:E. apply span_sound in E as (-> & Hv & _).
    destruct r1 as [|c r2]; [discriminate|]. destruct (byte_eqb c x27) eqn:Ec; [|discriminate]. apply eqb_true in Ec as ->.
    intros [= <- <-]. exists (x27 :: v ++ [x27]). split; [cbn [app]; now rewrite <- app_assoc|]. constructor.
    revert Hv. apply forallb_iff, in_quotes_iff.
  - destruct (span_of is_alnum (b :: l)) as [v r1] eqn:E. apply span_sound in E as (-> & Hv & _).
    destruct v as [|c v]; [discriminate|]. intros [= <- <-]. exists (c :: v). split; [reflexivity|].
    constructor; [discriminate|]. revert Hv. apply forallb_iff, is_alnum_iff.
Qed.
Lemma scalar_complete s v r : scalar_text s v -> stops is_alnum r -> read_scalar (v ++ r) = Some (s, r).
Proof.
  intros [v0 N H|v0 H] S.
  - destruct v0 as [|b v0]; [contradiction|]. cbn [app read_scalar]. apply (forallb_iff is_alnum) in H; [|apply is_alnum_iff].
    destruct (byte_eqb b x27) eqn:Eb; [apply eqb_true in Eb as ->; discriminate H|].
    change (b :: v0 ++ r) with ((b :: v0) ++ r). now rewrite span_complete.
  - cbn [app read_scalar]. change (byte_eqb x27 x27) with true. cbn iota. rewrite <- app_assoc. cbn [app].
    rewrite span_complete; [reflexivity| |reflexivity]. revert H. apply forallb_iff, in_quotes_iff.
Qed.
Lemma line_sound l es : read_line l = Some es -> line_text es l.
Proof.
  unfold read_line. destruct (span_of is_space l) as [w0 c0] eqn:E0. cbn [snd]. destruct (is_comment c0) eqn:Ec.
  - intros [= <-]. apply span_sound in E0 as (-> & Hw & _). constructor; [now apply spaces_iff|now apply comment_iff].
  - clear E0 Ec. destruct (span_of is_key l) as [n r] eqn:E. apply span_sound in E as (-> & Hn & _).
    destruct n as [|n0 n]; [discriminate|]. destruct r as [|c r1]; [discriminate|].
    destruct (byte_eqb c x3a) eqn:Ec; [|discriminate]. apply eqb_true in Ec as ->.
    destruct (span_of is_space r1) as [w r2] eqn:E. apply span_sound in E as (-> & Hw & _).
    destruct w as [|w0' w]; [discriminate|]. destruct (read_scalar r2) as [[s r3]|] eqn:E; [|discriminate].
    apply scalar_sound in E as (v & -> & Hv). destruct (is_tail r3) eqn:Et; [|discriminate]. intros [= <-].
    apply tail_iff in Et as (w' & c' & -> & Hw' & Hc' & H). constructor; auto; try discriminate.
    + split; [discriminate|]. revert Hn. apply forallb_iff, is_key_iff.
    + now apply spaces_iff.
Qed.
Lemma key_first n : key n -> exists b r, n = b :: r /\ is_space b = false /\ byte_eqb b x23 = false.
Proof.
  intros [N F]. destruct n as [|b r]; [contradiction|]. exists b, r. split; [reflexivity|].
  inversion F as [|? ? Hb _]; subst. apply is_key_iff in Hb. split; apply not_true_iff_false; intros X; apply eqb_true in X as ->; discriminate Hb.
Qed.
Lemma line_complete l es : line_text es l -> read_line l = Some es.
Proof.
  intros [w c Hw Hc|n w s v w' c Hn Hw Nw Hv Hw' Hc H]; unfold read_line.
  - rewrite span_complete by (now apply spaces_iff || now apply comment_stops). cbn [snd]. apply comment_iff in Hc. now rewrite Hc.
  - destruct (key_first n Hn) as (b & r & En & Hb & Hb').
    assert (E0 : is_comment (snd (span_of is_space (n ++ x3a :: w ++ v ++ w' ++ c))) = false).
    { rewrite En. cbn [app span_of]. rewrite Hb. cbn [snd is_comment]. now rewrite Hb'. }
    rewrite E0. rewrite span_complete; [|destruct Hn as [_ F]; revert F; apply forallb_iff, is_key_iff|reflexivity].
    rewrite En. change (byte_eqb x3a x3a) with true. cbn iota.
    assert (Sv : stops is_space (v ++ w' ++ c)).
    { destruct Hv as [v N F|v F]; [|reflexivity]. destruct v as [|a v]; [contradiction|]. cbn [app stops].
      inversion F as [|? ? Ha _]; subst. apply is_alnum_iff in Ha. apply not_true_iff_false. intros X. apply is_space_iff in X as ->. discriminate Ha. }
    rewrite span_complete by (auto; now apply spaces_iff). destruct w as [|a w]; [contradiction|].
    rewrite (scalar_complete s v (w' ++ c)); [|exact Hv|].
    + rewrite (proj2 (tail_iff (w' ++ c))) by eauto 7. reflexivity.
    + destruct w' as [|a' w'].
      * destruct Hc as [->|(t & -> & _)]; [exact I|]. exfalso. apply H; [discriminate|reflexivity].
      * inversion Hw' as [|? ? E _]; subst. reflexivity.
Qed.

(** ** Files *)
Definition no_feed (l : bytes) : Prop := Forall (fun b => b <> x0a) l.
Lemma no_feed_of (p : byte -> bool) l : p x0a = false -> forallb p l = true -> no_feed l.
Proof. intros H F. rewrite forallb_forall in F. apply Forall_forall. intros b Hb ->. rewrite (F _ Hb) in H. discriminate. Qed.
Lemma spaces_feed w : spaces w -> no_feed w.
Proof. intros H. apply (no_feed_of is_space); [reflexivity|now apply spaces_iff]. Qed.
Lemma comment_feed c : comment c -> no_feed c.
Proof.
  intros [->|(t & -> & H)]; constructor; [discriminate|]. apply (no_feed_of is_text); [reflexivity|].
  revert H. apply forallb_iff, is_text_iff.
Qed.
Lemma line_feed es l : line_text es l -> no_feed l.
Proof.
  intros [w c Hw Hc|n w s v w' c Hn Hw _ Hv Hw' Hc _]; unfold no_feed; rewrite ?Forall_app.
  - split; [now apply spaces_feed|now apply comment_feed].
  - split; [apply (no_feed_of is_key); [reflexivity|]; destruct Hn as [_ F]; revert F; apply forallb_iff, is_key_iff|].
    constructor; [discriminate|]. rewrite !Forall_app. repeat split; try (now apply spaces_feed); try (now apply comment_feed).
    destruct Hv as [v _ F|v F].
    + apply (no_feed_of is_alnum); [reflexivity|]. revert F. apply forallb_iff, is_alnum_iff.
    + constructor; [discriminate|]. apply Forall_app. split; [|repeat constructor; discriminate].
      apply (no_feed_of in_quotes); [reflexivity|]. revert F. apply forallb_iff, in_quotes_iff.
Qed.
Lemma lines_last l : no_feed l -> lines l = (l, []).
Proof.
  induction 1 as [|b l Hb _ IH]; [reflexivity|]. cbn [lines]. rewrite IH.
  destruct (byte_eqb b x0a) eqn:E; [|reflexivity]. apply eqb_true in E. contradiction.
Qed.
Lemma lines_app l t : no_feed l -> lines (l ++ x0a :: t) = (l, fst (lines t) :: snd (lines t)).
Proof.
  induction 1 as [|b l Hb _ IH]; cbn [app lines].
  - destruct (lines t). reflexivity.
  - rewrite IH. destruct (byte_eqb b x0a) eqn:E; [|reflexivity]. apply eqb_true in E. contradiction.
Qed.
Lemma read_text_app l t : no_feed l ->
  read_text (l ++ x0a :: t) = match read_line l, read_text t with Some a, Some b => Some (a ++ b) | _, _ => None end.
Proof. intros H. unfold read_text. rewrite lines_app by exact H. destruct (lines t). reflexivity. Qed.
Lemma read_text_last l : no_feed l -> read_text l = read_line l.
Proof. intros H. unfold read_text. rewrite lines_last by exact H. cbn [read_lines]. destruct (read_line l); [now rewrite app_nil_r|reflexivity]. Qed.
Lemma text_cases t : no_feed t \/ exists l t', t = l ++ x0a :: t' /\ no_feed l.
Proof.
  induction t as [|b t IH]; [left; constructor|]. destruct (byte_eqb b x0a) eqn:E.
  - apply eqb_true in E as ->. right. exists [], t. split; [reflexivity|constructor].
  - assert (Hb : b <> x0a) by (intros X; apply eqb_true in X; congruence).
    destruct IH as [H|(l & t' & -> & H)]; [left; now constructor|right]. exists (b :: l), t'. split; [reflexivity|now constructor].
Qed.
Theorem read_text_iff t es : read_text t = Some es <-> file_text es t.
Proof.
  split.
  - remember (length t) as m eqn:Em. assert (Hm : (length t <= m)%nat) by lia. clear Em. revert t Hm es.
    induction m as [m IH] using (well_founded_induction lt_wf). intros t Hm es.
    destruct (text_cases t) as [H|(l & t' & -> & H)].
    + rewrite read_text_last by exact H. intros E. constructor. now apply line_sound.
    + rewrite read_text_app by exact H. destruct (read_line l) as [a|] eqn:Ea; [|discriminate].
      destruct (read_text t') as [b|] eqn:Eb; [|discriminate]. intros [= <-]. rewrite app_length in Hm. cbn [length] in Hm.
      constructor; [now apply line_sound|]. apply (IH (length t')); [lia|lia|exact Eb].
  - induction 1 as [es l H|es l es' t H _ IH].
    + rewrite read_text_last by (eapply line_feed; eauto). now apply line_complete.
    + rewrite read_text_app by (eapply line_feed; eauto). now rewrite (line_complete l es H), IH.
Qed.
