(** The reader of command lines against Spec/CommandLine.v. *)
From Coq Require Import String List Arith NArith ZArith Bool Lia ZifyBool ZifyN ZifyNat.
From Coq.Init Require Import Byte.
From Verif.Model Require Import Base Types HostStore StateJson ConfigYaml Networks Command Args.
From Verif.Spec Require Import StateJsonSpec CommandLine.
From Verif.Proof Require Import BaseLemmas HostStoreP StateJsonP.
Import ListNotations.
Open Scope list_scope.
Open Scope N_scope.

Lemma beqb a b : byte_eqb a b = true <-> a = b. Proof. apply byte_eqb_eq. Qed.
Lemma beqb_refl a : byte_eqb a a = true. Proof. now apply beqb. Qed.
Lemma bneqb a b : a <> b -> byte_eqb a b = false. Proof. intros H. apply not_true_iff_false. now rewrite beqb. Qed.
Lemma eqb_refl (n : bytes) : bytes_eqb n n = true. Proof. now apply bytes_eqb_eq. Qed.

(** ** Words *)
Lemma own_word_iff v : option_like v = false <-> own_word v.
Proof.
  unfold option_like, own_word, dash. destruct v as [|d [|c r]].
  - split; [intros _ c r; discriminate|reflexivity].
  - split; [intros _ x r; discriminate|reflexivity].
  - split.
    + intros H x y [= -> _ _]. discriminate.
    + intros H. apply not_true_iff_false. rewrite beqb. intros ->. exact (H c r eq_refl).
Qed.
Lemma split_plain n : ~ In x3d n -> split_eq n = (n, None).
Proof.
  induction n as [|b n IH]; [reflexivity|]. cbn [In split_eq]. intros H. unfold equals. rewrite bneqb by (intros ->; tauto).
  now rewrite IH by tauto.
Qed.
Lemma split_at n v : ~ In x3d n -> split_eq (n ++ x3d :: v) = (n, Some v).
Proof.
  induction n as [|b n IH]; cbn [app In split_eq]; [reflexivity|]. intros H. unfold equals in *. rewrite bneqb by (intros ->; tauto).
  now rewrite IH by tauto.
Qed.
Lemma split_sound l : forall n o, split_eq l = (n, o) -> match o with None => l = n | Some v => l = n ++ x3d :: v end.
Proof.
  induction l as [|b l IH]; cbn [split_eq]; intros n o.
  - intros [= <- <-]. reflexivity.
  - unfold equals. destruct (byte_eqb b x3d) eqn:E.
    + apply beqb in E as ->. intros [= <- <-]. reflexivity.
    + destruct (split_eq l) as [m p]. intros [= <- <-]. specialize (IH m p eq_refl). destruct p; rewrite IH; reflexivity.
Qed.

Definition good_table (t : list opt) : Prop :=
  (forall o, In o t -> o_long o <> [] /\ ~ In x3d (o_long o) /\ o_short o <> Some x2d) /\
  (forall o o', In o t -> In o' t -> o_long o = o_long o' -> o = o') /\
  (forall o o' c, In o t -> In o' t -> o_short o = Some c -> o_short o' = Some c -> o = o').
Definition good_subs (subs : list word) : Prop := forall s, In s subs -> forall r, s <> x2d :: r.

Lemma find_long t o : good_table t -> In o t -> find (fun o' => bytes_eqb (o_long o') (o_long o)) t = Some o.
Proof.
  intros (_ & U & _) Hi. destruct (find _ t) as [o'|] eqn:F.
  - apply find_some in F as [Hi' E]. apply bytes_eqb_eq in E. f_equal. now apply U.
  - apply find_none with (x := o) in F; [|exact Hi]. now rewrite eqb_refl in F.
Qed.
Lemma find_short t o c : good_table t -> In o t -> o_short o = Some c -> find (short_is c) t = Some o.
Proof.
  intros (_ & _ & U) Hi Hc. destruct (find _ t) as [o'|] eqn:F.
  - apply find_some in F as [Hi' E]. unfold short_is in E. destruct (o_short o') as [d|] eqn:E'; [|discriminate]. apply beqb in E as ->. f_equal. now apply (U o' o c).
  - apply find_none with (x := o) in F; [|exact Hi]. unfold short_is in F. rewrite Hc, beqb_refl in F. discriminate.
Qed.
Lemma not_sub subs r : good_subs subs -> existsb (bytes_eqb (x2d :: r)) subs = false.
Proof.
  intros H. apply not_true_iff_false. rewrite existsb_exists. intros (s & Hs & E). apply bytes_eqb_eq in E. symmetry in E. now apply (H s Hs r).
Qed.
Definition put (n v : bytes) (p : list given * option (word * list word)) : list given * option (word * list word) := ((n, v) :: fst p, snd p).
Section Scan.
  Context (t : list opt) (subs : list word) (Ht : good_table t) (Hs : good_subs subs).
  Lemma scan_long n s v body rest : In (mkOpt n s v) t -> body = n \/ (exists x, body = n ++ x3d :: x) ->
    scan t subs ((x2d :: x2d :: body) :: rest) =
    match v, snd (split_eq body) with
    | true, Some x => option_map (put n x) (scan t subs rest)
    | true, None => match rest with x :: rest' => if option_like x then None else option_map (put n x) (scan t subs rest') | [] => None end
    | false, None => option_map (put n []) (scan t subs rest)
    | false, Some _ => None
    end.
  Proof.
    intros Hi Hb. destruct (proj1 Ht _ Hi) as (Hn & He & _). cbn [o_long] in *.
    assert (S : split_eq body = (n, snd (split_eq body))) by (destruct Hb as [->|[x ->]]; [now rewrite split_plain|now rewrite split_at]).
    assert (B : exists b r, body = b :: r) by (destruct n as [|b r]; [contradiction|]; destruct Hb as [->|[x ->]]; cbn [app]; eauto).
    destruct B as (b & r & B). cbn [scan]. rewrite (not_sub _ _ Hs). cbv beta iota. unfold dash. rewrite beqb_refl. cbn [negb].
    rewrite B in *. rewrite S. pose proof (find_long t _ Ht Hi) as F. cbn [o_long] in F. rewrite F. cbn [o_value o_long snd]. reflexivity.
  Qed.
  Lemma scan_short n c v body rest : In (mkOpt n (Some c) v) t ->
    scan t subs ((x2d :: c :: body) :: rest) =
    match v, body with
    | true, [] => match rest with x :: rest' => if option_like x then None else option_map (put n x) (scan t subs rest') | [] => None end
    | true, d :: x => if byte_eqb d x3d then option_map (put n x) (scan t subs rest) else option_map (put n body) (scan t subs rest)
    | false, [] => option_map (put n []) (scan t subs rest)
    | false, _ => None
    end.
  Proof.
    intros Hi. destruct (proj1 Ht _ Hi) as (_ & _ & Hc). cbn [o_short] in Hc. cbn [scan]. rewrite (not_sub _ _ Hs). unfold dash. rewrite beqb_refl. cbn [negb].
    rewrite bneqb by (intros ->; contradiction). rewrite (find_short t _ c Ht Hi) by reflexivity. cbn [o_value o_long]. reflexivity.
  Qed.
  Lemma scan_one n v ws rest : spelled t n v ws -> scan t subs (ws ++ rest) = option_map (put n v) (scan t subs rest).
  Proof.
    intros [n0 s v0 Hi Hv|n0 s v0 Hi|n0 c v0 Hi Hv|n0 c v0 Hi|n0 c v0 Hi Hn He|n0 s Hi|n0 c Hi]; cbn [app].
    - change (ascii "--" ++ n0) with (x2d :: x2d :: n0). rewrite (scan_long n0 s true n0) by auto.
      rewrite split_plain by (apply (proj1 Ht _ Hi)). cbn [snd]. apply own_word_iff in Hv. now rewrite Hv.
    - change (ascii "--" ++ n0 ++ x3d :: v0) with (x2d :: x2d :: (n0 ++ x3d :: v0)). rewrite (scan_long n0 s true) by eauto.
      now rewrite split_at by (apply (proj1 Ht _ Hi)).
    - rewrite (scan_short n0 c true) by exact Hi. apply own_word_iff in Hv. now rewrite Hv.
    - rewrite (scan_short n0 c true) by exact Hi. now rewrite beqb_refl.
    - rewrite (scan_short n0 c true) by exact Hi. destruct v0 as [|d r]; [contradiction|]. rewrite bneqb; [reflexivity|]. intros ->. now apply (He r).
    - change (ascii "--" ++ n0) with (x2d :: x2d :: n0). rewrite (scan_long n0 s false n0) by auto.
      now rewrite split_plain by (apply (proj1 Ht _ Hi)).
    - now rewrite (scan_short n0 c false) by exact Hi.
  Qed.
  Lemma scan_complete gs ws rest : all_spelled t gs ws ->
    scan t subs (ws ++ rest) = option_map (fun p => (gs ++ fst p, snd p)) (scan t subs rest).
  Proof.
    induction 1 as [|n v gs ws ws' H _ IH]; cbn [app].
    - destruct (scan t subs rest) as [[x y]|]; reflexivity.
    - rewrite <- app_assoc, (scan_one _ _ _ _ H), IH. destruct (scan t subs rest) as [[x y]|]; reflexivity.
  Qed.
  Definition ended (ws a : list word) (e : option (word * list word)) : Prop :=
    match e with
    | Some (sub, r) => In sub subs /\ ws = a ++ sub :: r
    | None => ws = a \/ ws = a ++ [ascii "--"]
    end.
  Lemma scan_sound : forall m ws gs e, (length ws <= m)%nat -> scan t subs ws = Some (gs, e) ->
    exists a, all_spelled t gs a /\ ended ws a e.
  Proof.
    assert (G : forall n v ws rest gs e, spelled t n v ws -> (exists a, all_spelled t gs a /\ ended rest a e) ->
                exists a, all_spelled t ((n, v) :: gs) a /\ ended (ws ++ rest) a e).
    { intros n v ws rest gs e H (a & Ha & He). exists (ws ++ a). split; [now constructor|]. unfold ended in *. destruct e as [[sub r]|].
      - destruct He as [Hi ->]. split; [exact Hi|]. now rewrite app_assoc.
      - destruct He as [->| ->]; [now left|right; now rewrite app_assoc]. }
    induction m as [|m IH]; intros ws gs e Hl.
    { destruct ws; [|cbn in Hl; lia]. cbn [scan]. intros [= <- <-]. exists []. split; [constructor|now left]. }
    destruct ws as [|w rest]; [cbn [scan]; intros [= <- <-]; exists []; split; [constructor|now left]|].
    cbn in Hl.
    assert (P : forall n v w', spelled t n v [w'] -> option_map (put n v) (scan t subs rest) = Some (gs, e) ->
                exists a, all_spelled t gs a /\ ended (w' :: rest) a e).
    { intros n v w' S H. destruct (scan t subs rest) as [[gs1 e1]|] eqn:E; [|discriminate]. injection H as <- <-.
      apply (G n v [w'] rest gs1 e1 S). apply IH; [lia|exact E]. }
    assert (Q : forall n w', (forall v, own_word v -> spelled t n v [w'; v]) ->
                match rest with x :: rest' => if option_like x then None else option_map (put n x) (scan t subs rest') | [] => None end = Some (gs, e) ->
                exists a, all_spelled t gs a /\ ended (w' :: rest) a e).
    { intros n w' S H. destruct rest as [|x rest']; [discriminate|]. destruct (option_like x) eqn:O; [discriminate|]. apply own_word_iff in O.
      destruct (scan t subs rest') as [[gs1 e1]|] eqn:E; [|discriminate]. injection H as <- <-.
      apply (G n x [w'; x] rest' gs1 e1 (S x O)). apply IH; [cbn in Hl; lia|exact E]. }
    destruct (existsb (bytes_eqb w) subs) eqn:Es.
    { cbn [scan]. rewrite Es. intros [= <- <-]. exists []. split; [constructor|]. split; [|reflexivity].
      apply existsb_exists in Es as (s & Hi & E). now apply bytes_eqb_eq in E as ->. }
    destruct w as [|a [|b body]]; [cbn [scan]; rewrite Es; discriminate..|].
    cbn [scan]. rewrite Es. unfold dash at 1 2. destruct (byte_eqb a x2d) eqn:Ea; [|discriminate]. apply beqb in Ea as ->. cbn [negb].
    destruct (byte_eqb b x2d) eqn:Eb.
    - apply beqb in Eb as ->. destruct body as [|b body].
      { destruct rest; [|discriminate]. intros [= <- <-]. exists []. split; [constructor|now right]. }
      destruct (split_eq (b :: body)) as [n att] eqn:S. apply split_sound in S.
      destruct (find _ t) as [[n' s v]|] eqn:F; [|discriminate]. apply find_some in F as [Hi E]. cbn [o_long] in E. apply bytes_eqb_eq in E as ->.
      cbn [o_value o_long]. destruct v, att as [x|]; try discriminate; rewrite S.
      + apply P. apply (sp_long_eq t n s x Hi).
      + apply Q. intros v Hv. apply (sp_long t n s v Hi Hv).
      + apply P. apply (sp_flag t n s Hi).
    - destruct (find (short_is b) t) as [[n s v]|] eqn:F; [|discriminate]. apply find_some in F as [Hi E]. unfold short_is in E. cbn [o_short] in E.
      destruct s as [d|]; [|discriminate]. apply beqb in E as ->. cbn [o_value o_long]. destruct v.
      + destruct body as [|c x]; [apply Q; intros v Hv; now apply (sp_short t n b v)|]. unfold equals. destruct (byte_eqb c x3d) eqn:Ec.
        * apply beqb in Ec as ->. apply P. now apply sp_short_eq.
        * apply P. apply (sp_short_on t n b (c :: x) Hi); [discriminate|]. intros r [= -> _]. discriminate.
      + destruct body; [|discriminate]. apply P. now apply sp_flag_short.
  Qed.
End Scan.
Lemma top_good : good_table top_options.
Proof.
  split; [|split].
  - intros o H. repeat (destruct H as [<-|H]); try contradiction; vm_compute; (split; [discriminate|split; [intuition discriminate|discriminate]]).
  - intros o o' H H'. repeat (destruct H as [<-|H]); try contradiction; repeat (destruct H' as [<-|H']); try contradiction; try reflexivity; vm_compute; discriminate.
  - intros o o' c H H'. repeat (destruct H as [<-|H]); try contradiction; repeat (destruct H' as [<-|H']); try contradiction; try reflexivity; vm_compute; congruence.
Qed.
Lemma options_good sub : good_table (options_of sub).
Proof.
  unfold options_of. destruct (bytes_eqb sub (k "verify")); [|destruct (bytes_eqb sub (k "sync"))];
  (split; [|split];
  [intros o H; repeat (destruct H as [<-|H]); try contradiction; vm_compute; (split; [discriminate|split; [intuition discriminate|discriminate]])
  |intros o o' H H'; repeat (destruct H as [<-|H]); try contradiction; repeat (destruct H' as [<-|H']); try contradiction; try reflexivity; vm_compute; discriminate
  |intros o o' c H H'; repeat (destruct H as [<-|H]); try contradiction; repeat (destruct H' as [<-|H']); try contradiction; try reflexivity; vm_compute; congruence]).
Qed.
Lemma subs_good : good_subs subcommands.
Proof. intros s H r. repeat (destruct H as [<-|H]); try contradiction; vm_compute; discriminate. Qed.
Lemma none_good : good_subs []. Proof. intros s []. Qed.

(** ** Values *)
Lemma digits_sound s : forall acc v, digits_val acc s = Some v -> Forall (fun c => 48 <= Byte.to_N c <= 57) s.
Proof.
  induction s as [|c s IH]; cbn [digits_val]; intros acc v; [constructor|]. unfold digit_val.
  destruct ((48 <=? Byte.to_N c) && (Byte.to_N c <=? 57)) eqn:E; [|discriminate]. intros H. constructor; [lia|]. eapply IH, H.
Qed.
Definition body_of (v : bytes) : bytes := match v with x2b :: r => r | _ => v end.
Lemma parse_body v n : parse_u64 v = Some n <-> is_decimal (body_of v) /\ decimal_value (body_of v) = n /\ n < 2 ^ 64.
Proof.
  unfold parse_u64. fold (body_of v). change two64 with (2 ^ 64). split.
  - intros H. destruct (body_of v) as [|c r] eqn:E; [discriminate|]. destruct (digits_val 0 (c :: r)) as [x|] eqn:D; [|discriminate].
    pose proof (digits_sound _ _ _ D) as F. rewrite (digits_val_fold _ _ F) in D. injection D as D.
    destruct (x <? 2 ^ 64) eqn:L; [|discriminate]. injection H as <-. split; [split; [discriminate|exact F]|]. split; [exact D|]. now apply N.ltb_lt.
  - intros ([Hn F] & <- & L). destruct (body_of v) as [|c r]; [congruence|]. rewrite (digits_val_fold _ _ F).
    fold (decimal_value (c :: r)). now rewrite (proj2 (N.ltb_lt _ _)).
Qed.
Lemma body_decimal v : is_decimal v -> body_of v = v.
Proof. intros [_ Hd]. destruct v as [|c r]; auto. inversion Hd; subst. destruct c; auto. cbn in *. lia. Qed.
Lemma body_cases v : body_of v = v \/ v = x2b :: body_of v.
Proof. destruct v as [|c r]; [now left|]. destruct c; auto. Qed.
Lemma u64_iff v n : parse_u64 v = Some n <-> number (2 ^ 64) v n.
Proof.
  rewrite parse_body. unfold number. split.
  - intros (D & V & L). split; [exact L|]. destruct (body_cases v) as [E|E]; [left; rewrite E in *; auto|right; exists (body_of v); auto].
  - intros (L & [[D V]|(d & -> & D & V)]); [rewrite (body_decimal _ D); auto|]. cbn [body_of]. auto.
Qed.
Lemma u32_iff v n : u32_of v = Some n <-> number (2 ^ 32) v n.
Proof.
  unfold u32_of. split.
  - destruct (parse_u64 v) as [x|] eqn:E; [|discriminate]. apply u64_iff in E as [_ E]. destruct (x <? 2 ^ 32) eqn:L; [|discriminate].
    intros [= <-]. split; [now apply N.ltb_lt|exact E].
  - intros [L H]. assert (E : parse_u64 v = Some n) by (apply u64_iff; split; [|exact H]; eapply N.lt_trans; [exact L|reflexivity]).
    rewrite E. now rewrite (proj2 (N.ltb_lt _ _)).
Qed.
Lemma network_iff v n : network_of v = Some n <-> names_network v n.
Proof.
  unfold network_of, names_network. destruct (bytes_eqb v (k "mainnet")) eqn:E1; [apply bytes_eqb_eq in E1 as ->; destruct n; split; intros H; try reflexivity; discriminate|].
  destruct (bytes_eqb v (k "sepolia")) eqn:E2; [apply bytes_eqb_eq in E2 as ->; destruct n; split; intros H; try reflexivity; discriminate|].
  split; [discriminate|]. intros ->. destruct n; [rewrite eqb_refl in E1|rewrite eqb_refl in E2]; discriminate.
Qed.
Lemma mode_iff v m : mode_of v = Some m <-> names_mode v m.
Proof.
  unfold mode_of, names_mode. destruct (bytes_eqb v (k "native")) eqn:E1; [apply bytes_eqb_eq in E1 as ->; destruct m; split; intros H; try reflexivity; discriminate|].
  destruct (bytes_eqb v (k "ssz")) eqn:E2; [apply bytes_eqb_eq in E2 as ->; destruct m; split; intros H; try reflexivity; discriminate|].
  destruct (bytes_eqb v (k "r0vm")) eqn:E3; [apply bytes_eqb_eq in E3 as ->; destruct m; split; intros H; try reflexivity; discriminate|].
  split; [discriminate|]. intros ->. destruct m; [rewrite eqb_refl in E1|rewrite eqb_refl in E2|rewrite eqb_refl in E3]; discriminate.
Qed.
Lemma path_iff v p : path_of v = Some p <-> path_text v p.
Proof. unfold path_of, path_text. destruct v; split; [discriminate|intros []; congruence|intros [= <-]; split; [reflexivity|discriminate]|intros [-> _]; reflexivity]. Qed.
Lemma accepted_iff (ok : bytes -> bool) v x : (if ok v then Some v else None) = Some x <-> accepted ok v x.
Proof. unfold accepted. destruct (ok v); split; [intros [= <-]; auto|intros [-> _]; reflexivity|discriminate|intros [_ H]; discriminate]. Qed.

(** ** Options *)
Definition opt_eq_dec (a b : bytes) : {a = b} + {a <> b}.
Proof. destruct (bytes_eqb a b) eqn:E; [left; now apply bytes_eqb_eq|right; intros X; apply bytes_eqb_eq in X; congruence]. Defined.
Lemma filter_none (gs : list given) n : ~ In n (map fst gs) -> filter (fun g => bytes_eqb (fst g) n) gs = [].
Proof.
  induction gs as [|[m v] gs IH]; [reflexivity|]. cbn [map fst In filter]. intros H.
  destruct (bytes_eqb m n) eqn:E; [apply bytes_eqb_eq in E; tauto|]. apply IH. tauto.
Qed.
Lemma single_none gs n : single gs (ascii n) = Some None <-> not_given gs n.
Proof.
  unfold single, not_given, given in *. split.
  - match goal with |- context [filter ?p gs] => destruct (filter p gs) as [|[m v] [|? ?]] eqn:F end; try discriminate. intros _ H. apply in_map_iff in H as ([m v] & E & H). cbn in E. subst m.
    assert (X : In (ascii n, v) (filter (fun g : bytes * bytes => bytes_eqb (fst g) (ascii n)) gs)) by (apply filter_In; split; [exact H|apply eqb_refl]).
    rewrite F in X. destruct X.
  - intros H. now rewrite filter_none.
Qed.
Lemma single_some gs n v : single gs (ascii n) = Some (Some v) <-> given_once gs n v.
Proof.
  unfold single, given_once, given in *. split.
  - induction gs as [|[m x] gs IH]; [discriminate|]. cbn [filter fst]. destruct (bytes_eqb m (ascii n)) eqn:E.
    + apply bytes_eqb_eq in E as ->. match goal with |- context [filter ?p gs] => destruct (filter p gs) as [|? ?] eqn:F end; [|discriminate]. intros [= ->].
      exists [], gs. split; [reflexivity|]. split; [intros []|]. apply single_none. unfold single. now rewrite F.
    + intros H. destruct (IH H) as (a & b & -> & Ha & Hb). exists ((m, x) :: a), b. split; [reflexivity|]. split; [|exact Hb]. cbn [map fst In].
      intros [X|X]; [subst m; rewrite eqb_refl in E; discriminate|contradiction].
  - intros (a & b & -> & Ha & Hb). rewrite filter_app. cbn [filter fst]. rewrite eqb_refl, !filter_none by assumption. reflexivity.
Qed.
Lemma value_iff {A} gs n env d p (reads : bytes -> A -> Prop) x : (forall v y, p v = Some y <-> reads v y) ->
  (value gs n env d p = Some x <-> stands_for gs n env d reads x).
Proof.
  intros R. unfold value, stands_for. change (k n) with (ascii n). split.
  - destruct (single gs (ascii n)) as [[v|]|] eqn:E; [|destruct env as [v|]|discriminate].
    + apply single_some in E. intros H. left. exists v. split; [exact E|now apply R].
    + apply single_none in E. intros H. right. left. split; [exact E|]. exists v. split; [reflexivity|now apply R].
    + apply single_none in E. intros H. right. right. auto.
  - intros [(v & E & H)|[(E & v & -> & H)|(E & -> & ->)]].
    + apply single_some in E. rewrite E. now apply R.
    + apply single_none in E. rewrite E. now apply R.
    + apply single_none in E. rewrite E. reflexivity.
Qed.
