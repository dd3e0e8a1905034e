(** C92: the command line. *)
From Coq Require Import String List Arith NArith Bool Lia Permutation.
From Coq.Init Require Import Byte.
From Verif.Model Require Import Base Types ConsensusState Verify GuestReader HostChain HostStore HostInput Cli CliRun InputCodec StateJson ConfigYaml Networks Command Args.
From Verif.Spec Require Import StateJsonSpec CommandLine.
From Verif.Proof Require Import BaseLemmas HostStoreP StateJsonP ArgsP.
Import ListNotations.
Open Scope list_scope.
Open Scope N_scope.

(** ** Reading *)
Lemma inner_scan sub gs b e : all_spelled (options_of sub) gs b -> e = [] \/ e = [ascii "--"] ->
  scan (options_of sub) [] (b ++ e) = Some (gs, None).
Proof.
  intros H He. rewrite (scan_complete _ _ (options_good sub) none_good _ _ _ H). destruct He as [-> | ->]; cbn; now rewrite app_nil_r.
Qed.
Lemma outer_scan gs sub a r : all_spelled top_options gs a -> In sub subcommands ->
  scan top_options subcommands (a ++ sub :: r) = Some (gs, Some (sub, r)).
Proof.
  intros H Hs. rewrite (scan_complete _ _ top_good subs_good _ _ _ H).
  assert (E : existsb (bytes_eqb sub) subcommands = true) by (apply existsb_exists; exists sub; split; [exact Hs|apply eqb_refl]).
  cbn [scan]. rewrite E. cbn [option_map fst snd]. now rewrite app_nil_r.
Qed.
Definition line_of (gs : list given) (sub : word) (gs' : list given) (ws : list word) : Prop :=
  exists a b e, ws = a ++ sub :: b ++ e /\ all_spelled top_options gs a /\ In sub (map ascii ["verify"; "sync"; "build-input"]%string) /\
    all_spelled (options_of sub) gs' b /\ (e = [] \/ e = [ascii "--"]).
Lemma same_options n : In n ["verify"; "sync"; "build-input"]%string -> options_of (ascii n) = behind_sub n.
Proof. intros [<-|[<-|[<-|[]]]]; reflexivity. Qed.
Lemma line_iff gs sub gs' ws : command_line gs sub gs' ws <-> line_of gs sub gs' ws.
Proof.
  split.
  - intros (a & n & b & e & E & Ha & -> & Hn & Hb & He). exists a, b, e. split; [exact E|]. split; [exact Ha|]. split; [now apply in_map|].
    split; [now rewrite same_options|exact He].
  - intros (a & b & e & E & Ha & Hs & Hb & He). apply in_map_iff in Hs as (n & <- & Hn). exists a, n, b, e. rewrite same_options in Hb by exact Hn. auto 8.
Qed.
Lemma sub_known sub : In sub (map ascii ["verify"; "sync"; "build-input"]%string) -> In sub subcommands.
Proof. intros [<-|[<-|[<-|[]]]]; [now left|right; now left|right; right; now left]. Qed.
Lemma sub_iff sub gs s : read_sub sub gs = Some s <-> sub_described sub gs s.
Proof.
  pose proof (fun n d x => value_iff gs n None d parse_u64 (number (2 ^ 64)) x u64_iff) as Vn.
  pose proof (fun n d x => value_iff gs n None d mode_of names_mode x mode_iff) as Vm.
  assert (Vp : forall n d x, value gs n None d (fun b => option_map Some (path_of b)) = Some x <->
                stands_for gs n None d (fun v o => exists p, o = Some p /\ path_text v p) x).
  { intros n d x. apply value_iff. intros v y. split.
    - destruct (path_of v) as [p|] eqn:E; [|discriminate]. intros [= <-]. exists p. split; [reflexivity|now apply path_iff].
    - intros (p & -> & H). apply path_iff in H as ->. reflexivity. }
  unfold read_sub. split.
  - destruct (bytes_eqb sub (k "verify")) eqn:E1; [apply bytes_eqb_eq in E1 as ->|destruct (bytes_eqb sub (k "sync")) eqn:E2; [apply bytes_eqb_eq in E2 as ->|
      destruct (bytes_eqb sub (k "build-input")) eqn:E3; [apply bytes_eqb_eq in E3 as ->|discriminate]]].
    + destruct (value gs "mode" _ _ _) as [m|] eqn:A; [|discriminate]. destruct (value gs "trusted-epoch" _ _ _) as [e|] eqn:B; [|discriminate].
      intros [= <-]. cbn. split; [reflexivity|]. split; [now apply Vm|now apply Vn].
    + destruct (value gs "mode" _ _ _) as [m|] eqn:A; [|discriminate]. destruct (value gs "start-slot" _ _ _) as [e|] eqn:B; [|discriminate].
      destruct (value gs "log-path" _ _ _) as [l|] eqn:D; [|discriminate].
      intros [= <-]. cbn. split; [reflexivity|]. split; [now apply Vm|]. split; [now apply Vn|now apply Vp].
    + destruct (value gs "finalized-epoch" _ _ _) as [e|] eqn:A; [|discriminate]. destruct (flag gs "continuous") as [c|] eqn:B; [|discriminate].
      destruct (value gs "retry-interval" _ _ _) as [i|] eqn:D; [|discriminate].
      intros [= <-]. cbn. split; [reflexivity|]. split; [now apply Vn|]. split; [|now apply Vn].
      unfold flag in B. change k with ascii in B. destruct (single gs (ascii "continuous")) as [[v|]|] eqn:S; [| |discriminate]; injection B as <-.
      * exists v. now apply single_some.
      * now apply single_none.
  - destruct s as [m e|m s l|e c i]; cbn [sub_described].
    + intros (-> & A & B). apply Vm in A. apply Vn in B. cbn -[value mode_of]. now rewrite A, B.
    + intros (-> & A & B & D). apply Vm in A. apply Vn in B. apply Vp in D. cbn -[value mode_of path_of]. now rewrite A, B, D.
    + intros (-> & A & B & D). apply Vn in A. apply Vn in D. cbn -[value flag]. rewrite A, D. unfold flag. change k with ascii.
      destruct c; [destruct B as [v B]; apply single_some in B|apply single_none in B]; rewrite B; reflexivity.
Qed.
(** What the words mean: a command line is accepted if and only if it spells options that stand for
    arguments, and these are the arguments. *)
Theorem C92_read : forall url_ok level_ok env_url env_level ws a,
  parse_args url_ok level_ok env_url env_level ws = Some a <->
  exists gs sub gs', command_line gs sub gs' ws /\ described url_ok level_ok env_url env_level gs sub gs' a.
Proof.
  intros uok lok eu el ws a.
  pose proof (fun gs n env d x => value_iff gs n env d (level_of lok) (accepted lok) x (accepted_iff lok)) as Vl.
  pose proof (fun gs n env d x => value_iff gs n env d (url_of uok) (accepted uok) x (accepted_iff uok)) as Vu.
  pose proof (fun gs n env d x => value_iff gs n env d u32_of (number (2 ^ 32)) x u32_iff) as V3.
  pose proof (fun gs n env d x => value_iff gs n env d network_of names_network x network_iff) as Vn.
  pose proof (fun gs n env d x => value_iff gs n env d path_of path_text x path_iff) as Vp.
  unfold parse_args. split.
  - destruct (scan top_options subcommands ws) as [[gs [[sub r]|]]|] eqn:S; [|discriminate..]. cbn [fst snd].
    destruct (scan (options_of sub) [] r) as [[gs' e]|] eqn:S'; [|discriminate]. cbn [fst snd].
    destruct (read_sub sub gs') as [c|] eqn:R; [|discriminate].
    destruct (value gs' "log-level" _ _ _) as [l'|] eqn:L'; [|discriminate].
    destruct (value gs "beacon-api" _ _ _) as [u|] eqn:U; [|discriminate].
    destruct (value gs "rps" _ _ _) as [rps|] eqn:P; [|discriminate].
    destruct (value gs "network" _ _ _) as [n|] eqn:N; [|discriminate].
    destruct (value gs "data-dir" _ _ _) as [d|] eqn:D; [|discriminate].
    destruct (value gs "log-level" _ _ _) as [l|] eqn:L; [|discriminate].
    destruct (single gs' (k "log-level")) as [il|] eqn:I; [|discriminate]. intros [= <-].
    apply (scan_sound _ _ _ ws gs _ (le_n _)) in S as (x & Hx & Hs & ->).
    apply (scan_sound _ _ _ r gs' _ (le_n _)) in S' as (y & Hy & He).
    exists gs, sub, gs'. split.
    + apply line_iff. assert (Hsub : In sub (map ascii ["verify"; "sync"; "build-input"]%string)).
      { destruct Hs as [<-|[<-|[<-|[<-|[]]]]]; [now left|right; now left|right; right; now left|]. cbn in R. discriminate. }
      destruct e as [[sub' r']|]; [destruct He as [[] _]|]. destruct He as [-> | ->].
      * exists x, y, []. rewrite app_nil_r. auto 8.
      * exists x, y, [ascii "--"]. auto 8.
    + unfold described. cbn [a_url a_rps a_network a_data_dir a_level a_command]. apply Vl in L, L'. apply Vu in U. apply V3 in P. apply Vn in N. apply Vp in D.
      split; [exact U|]. split; [exact P|]. split; [exact N|]. split; [exact D|]. split; [|now apply sub_iff].
      exists l, l'. split; [exact L|]. split; [exact L'|]. change k with ascii in I. destruct il as [v|].
      * right. split; [|reflexivity]. intros X. apply single_none in X. congruence.
      * left. split; [|reflexivity]. now apply single_none.
  - intros (gs & sub & gs' & (x & y & e & -> & Hx & Hsub & Hy & He)%line_iff & (U & P & N & D & (l & l' & L & L' & Q) & R)).
    rewrite (outer_scan gs) by (auto using sub_known).
    cbn [fst snd]. rewrite (inner_scan sub gs' y e Hy He). cbn [fst snd]. apply sub_iff in R. rewrite R.
    apply Vl in L, L'. apply Vu in U. apply V3 in P. apply Vn in N. apply Vp in D. change k with ascii. rewrite L', U, P, N, D, L.
    assert (I : exists il, single gs' (ascii "log-level") = Some il).
    { unfold value in L'. change k with ascii in L'. destruct (single gs' (ascii "log-level")) as [il|]; [eauto|discriminate]. }
    destruct I as (il & I). rewrite I. f_equal. destruct a as [p1 p2 p3 p4 p5 p6]. cbn [a_url a_rps a_network a_data_dir a_level a_command] in *. f_equal. destruct il as [v|].
    + destruct Q as [[Q _]|[_ ->]]; [|reflexivity]. apply single_none in Q. congruence.
    + apply single_none in I. destruct Q as [[_ ->]|[Q _]]; [reflexivity|contradiction].
Qed.
(** So a command line means one thing at most. *)
Theorem C92_unambiguous : forall url_ok level_ok env_url env_level ws gs sub gs' a hs sub' hs' b,
  command_line gs sub gs' ws -> described url_ok level_ok env_url env_level gs sub gs' a ->
  command_line hs sub' hs' ws -> described url_ok level_ok env_url env_level hs sub' hs' b -> a = b.
Proof.
  intros uok lok eu el ws gs sub gs' a hs sub' hs' b H1 D1 H2 D2.
  assert (A : parse_args uok lok eu el ws = Some a) by (apply C92_read; exists gs, sub, gs'; auto).
  assert (B : parse_args uok lok eu el ws = Some b) by (apply C92_read; exists hs, sub', hs'; auto). congruence.
Qed.

Lemma spelled_named t gs ws : all_spelled t gs ws -> forall n, In n (map fst gs) -> In n (map o_long t).
Proof.
  induction 1 as [|n v gs ws ws' H _ IH]; intros m; [intros []|]. cbn [map fst In]. intros [<-|Hm]; [|now apply IH].
  destruct H; now match goal with Hi : In (mkOpt ?a _ _) _ |- _ => apply (in_map o_long) in Hi end.
Qed.
(** ** Order and spelling *)
Lemma single_perm gs hs n : Permutation gs hs -> single gs n = single hs n.
Proof.
  intros P. unfold single, given in *.
  assert (Q : Permutation (filter (fun g : bytes * bytes => bytes_eqb (fst g) n) gs) (filter (fun g : bytes * bytes => bytes_eqb (fst g) n) hs)).
  { induction P as [|a l l' P IH|a b l|l l' l'' P1 IH1 P2 IH2]; cbn [filter]; auto.
    - destruct (bytes_eqb (fst a) n); auto.
    - destruct (bytes_eqb (fst a) n), (bytes_eqb (fst b) n); auto. constructor.
    - etransitivity; eassumption. }
  revert Q. generalize (filter (fun g : bytes * bytes => bytes_eqb (fst g) n) gs) (filter (fun g : bytes * bytes => bytes_eqb (fst g) n) hs). intros u v Q.
  destruct u as [|a [|b l]].
  - apply Permutation_nil in Q. now rewrite Q.
  - apply Permutation_length_1_inv in Q. now rewrite Q.
  - pose proof (Permutation_length Q) as L. destruct v as [|a' [|b' l']]; try discriminate. destruct a, a'. reflexivity.
Qed.
Lemma value_perm {A} gs hs n env (d : option A) p : Permutation gs hs -> value gs n env d p = value hs n env d p.
Proof. intros P. unfold value. now rewrite (single_perm gs hs). Qed.
Lemma parse_scanned uok lok eu el gs sub gs' ws : command_line gs sub gs' ws ->
  scan top_options subcommands ws <> None /\ parse_args uok lok eu el ws =
  match read_sub sub gs', value gs' "log-level" el (Some (k "info")) (level_of lok), value gs "beacon-api" eu None (url_of uok),
        value gs "rps" None (Some 0) u32_of, value gs "network" None (Some Sepolia) network_of,
        value gs "data-dir" None (Some (k "./data")) path_of, value gs "log-level" el (Some (k "info")) (level_of lok), single gs' (k "log-level") with
  | Some c, Some l', Some u, Some r, Some n, Some d, Some l, Some il => Some (mkArgs u r n d (match il with Some _ => l' | None => l end) c)
  | _, _, _, _, _, _, _, _ => None
  end.
Proof.
  intros (x & y & e & -> & Hx & Hsub & Hy & He)%line_iff. unfold parse_args.
  rewrite (outer_scan gs) by (auto using sub_known).
  split; [discriminate|]. cbn [fst snd]. rewrite (inner_scan sub gs' y e Hy He). reflexivity.
Qed.
(** The order of the options on each side of the subcommand does not matter, nor how each is spelled. *)
Theorem C92_order : forall url_ok level_ok env_url env_level gs hs sub gs' hs' ws ws',
  command_line gs sub gs' ws -> command_line hs sub hs' ws' -> Permutation gs hs -> Permutation gs' hs' ->
  parse_args url_ok level_ok env_url env_level ws = parse_args url_ok level_ok env_url env_level ws'.
Proof.
  intros uok lok eu el gs hs sub gs' hs' ws ws' H H' P P'.
  rewrite (proj2 (parse_scanned uok lok eu el _ _ _ _ H)), (proj2 (parse_scanned uok lok eu el _ _ _ _ H')).
  assert (R : read_sub sub gs' = read_sub sub hs').
  { unfold read_sub, flag. now rewrite !(value_perm gs' hs'), (single_perm gs' hs') by exact P'. }
  now rewrite R, !(value_perm gs hs), (value_perm gs' hs'), (single_perm gs' hs') by assumption.
Qed.

(** ** Refusals *)
Section Program.
  Variables (X : Externals) (C : Codec) (w : N) (pkd : bytes -> option bytes) (zk : Zkvm) (url_ok level_ok : bytes -> bool)
    (reach : bytes -> list Node) (env_url env_level : option bytes).
  Notation run := (program X C w pkd zk url_ok level_ok reach env_url env_level).
  Notation parse := (parse_args url_ok level_ok env_url env_level).
  Notation refused ws := (run ws = mkRun [] None None Failure).
  (** The program runs the command on the network and the node that the words name. *)
  Theorem C92_program : forall ws gs sub gs' a, command_line gs sub gs' ws -> described url_ok level_ok env_url env_level gs sub gs' a ->
    run ws = zkasper X C w pkd zk (a_network a) (command_of (a_command a)) (reach (a_url a)).
  Proof.
    intros ws gs sub gs' a H D. unfold program. assert (E : parse ws = Some a) by (apply C92_read; exists gs, sub, gs'; auto). now rewrite E.
  Qed.
  (** Any other command line fails: nothing is built, logged or reported, whatever the node would answer. *)
  Theorem C92_refused : forall ws,
    (forall gs sub gs' a, command_line gs sub gs' ws -> ~ described url_ok level_ok env_url env_level gs sub gs' a) -> refused ws.
  Proof.
    intros ws H. unfold program. destruct (parse ws) as [a|] eqn:E; [|reflexivity]. apply C92_read in E as (gs & sub & gs' & L & D). now apply H in D.
  Qed.
  Lemma refused_of ws gs sub gs' : command_line gs sub gs' ws -> (forall a, ~ described url_ok level_ok env_url env_level gs sub gs' a) -> refused ws.
  Proof.
    intros L H. unfold program. destruct (parse ws) as [a|] eqn:E; [|reflexivity]. exfalso.
    assert (E' := E). rewrite (proj2 (parse_scanned url_ok level_ok env_url env_level _ _ _ _ L)) in E'. apply (H a).
    apply C92_read in E as (hs & sub' & hs' & L' & D).
    assert (Q : hs = gs /\ sub' = sub /\ hs' = gs').
    { apply line_iff in L as (x & y & e & -> & Hx & Hsub & Hy & He). apply line_iff in L' as (x' & y' & e' & E1 & Hx' & Hsub' & Hy' & He').
      assert (S1 : scan top_options subcommands (x ++ sub :: y ++ e) = Some (gs, Some (sub, y ++ e)))
        by (apply outer_scan; auto using sub_known).
      assert (S2 : scan top_options subcommands (x' ++ sub' :: y' ++ e') = Some (hs, Some (sub', y' ++ e')))
        by (apply outer_scan; auto using sub_known).
      rewrite <- E1, S1 in S2. injection S2 as -> -> E2. pose proof (inner_scan sub' gs' y e Hy He) as I1. pose proof (inner_scan sub' hs' y' e' Hy' He') as I2.
      rewrite E2, I2 in I1. injection I1 as ->. auto. }
    destruct Q as (-> & -> & ->). exact D.
  Qed.
  Lemma twice_never {A} gs n env d (reads : bytes -> A -> Prop) x a v b v' c :
    gs = a ++ (ascii n, v) :: b ++ (ascii n, v') :: c -> ~ stands_for gs n env d reads x.
  Proof.
    intros -> H. assert (G : In (ascii n) (map fst (a ++ (ascii n, v) :: b ++ (ascii n, v') :: c))).
    { rewrite map_app. apply in_app_iff. right. now left. }
    destruct H as [(y & H & _)|[[H _]|[H _]]]; [|contradiction..].
    apply single_some in H. unfold single, given in *. rewrite filter_app in H. cbn [filter fst] in H. rewrite eqb_refl, filter_app in H. cbn [filter fst] in H. rewrite eqb_refl in H.
    revert H. generalize (filter (fun g : bytes * bytes => bytes_eqb (fst g) (ascii n)) a) (filter (fun g : bytes * bytes => bytes_eqb (fst g) (ascii n)) b).
    intros [|[] [|? ?]] [|[] ?]; discriminate.
  Qed.
  (** An option is given once at most. *)
  Theorem C92_twice : forall ws gs sub gs' n a v b v' c, command_line gs sub gs' ws ->
    (In n ["beacon-api"; "rps"; "network"; "data-dir"; "log-level"]%string /\ gs = a ++ (ascii n, v) :: b ++ (ascii n, v') :: c) \/
    (In n ["mode"; "trusted-epoch"; "start-slot"; "log-path"; "finalized-epoch"; "continuous"; "retry-interval"; "log-level"]%string /\
     gs' = a ++ (ascii n, v) :: b ++ (ascii n, v') :: c) ->
    refused ws.
  Proof.
    intros ws gs sub gs' n a v b v' c L H. apply (refused_of ws gs sub gs' L). intros ar (U & P & N & D & (l & l' & Lo & Li & _) & S).
    destruct H as [[Hn E]|(Hn & E)]; [|assert (Ho : In (ascii n) (map o_long (options_of sub)))].
    - destruct Hn as [<-|[<-|[<-|[<-|[<-|[]]]]]]; revert U P N D Lo; intros; eapply twice_never; eauto.
    - apply line_iff in L as (x & y & z & _ & _ & _ & Hy & _). apply (spelled_named _ _ _ Hy). rewrite E, map_app. apply in_app_iff. right. now left.
    - destruct (a_command ar) as [m e|m s lp|e ct i]; cbn [sub_described] in S.
      + destruct S as (-> & A & B). cbn in Ho. destruct Hn as [<-|[<-|[<-|[<-|[<-|[<-|[<-|[<-|[]]]]]]]]];
          try (exfalso; vm_compute in Ho; intuition discriminate);
          [eapply (twice_never _ _ _ _ _ _ _ _ _ _ _ E A)|eapply (twice_never _ _ _ _ _ _ _ _ _ _ _ E B)|eapply (twice_never _ _ _ _ _ _ _ _ _ _ _ E Li)].
      + destruct S as (-> & A & B & F). cbn in Ho. destruct Hn as [<-|[<-|[<-|[<-|[<-|[<-|[<-|[<-|[]]]]]]]]];
          try (exfalso; vm_compute in Ho; intuition discriminate);
          [eapply (twice_never _ _ _ _ _ _ _ _ _ _ _ E A)|eapply (twice_never _ _ _ _ _ _ _ _ _ _ _ E B)|eapply (twice_never _ _ _ _ _ _ _ _ _ _ _ E F)|eapply (twice_never _ _ _ _ _ _ _ _ _ _ _ E Li)].
      + destruct S as (-> & A & B & F). cbn in Ho. destruct Hn as [<-|[<-|[<-|[<-|[<-|[<-|[<-|[<-|[]]]]]]]]];
          try (exfalso; vm_compute in Ho; intuition discriminate);
          [eapply (twice_never _ _ _ _ _ _ _ _ _ _ _ E A)| |eapply (twice_never _ _ _ _ _ _ _ _ _ _ _ E F)|eapply (twice_never _ _ _ _ _ _ _ _ _ _ _ E Li)].
        assert (G : stands_for gs' "continuous" None (Some tt) (fun _ _ => True) tt).
        { destruct ct; [destruct B as [z B]; left; eauto|right; right; auto]. }
        eapply (twice_never _ _ _ _ _ _ _ _ _ _ _ E G).
  Qed.
  (** The node's URL and the epoch or slot to start from have no default. *)
  Theorem C92_missing : forall ws gs sub gs', command_line gs sub gs' ws ->
    (not_given gs "beacon-api" /\ env_url = None) \/
    (sub = ascii "verify" /\ not_given gs' "trusted-epoch") \/
    (sub = ascii "sync" /\ not_given gs' "start-slot") \/
    (sub = ascii "build-input" /\ not_given gs' "finalized-epoch") -> refused ws.
  Proof.
    intros ws gs sub gs' L H. apply (refused_of ws gs sub gs' L). intros ar (U & _ & _ & _ & _ & S).
    assert (G : forall A hs n (reads : bytes -> A -> Prop) x, not_given hs n -> ~ stands_for hs n None None reads x).
    { intros A hs n reads x Hn [(v & (p & q & -> & _) & _)|[(_ & v & Hv & _)|(_ & _ & Hv)]]; [|discriminate..].
      apply Hn. rewrite map_app. apply in_app_iff. right. now left. }
    destruct H as [[Hn He]|[[-> Hn]|[[-> Hn]|[-> Hn]]]].
    - rewrite He in U. now apply G in U.
    - destruct (a_command ar); cbn [sub_described] in S; try (destruct S as [S _]; vm_compute in S; discriminate). destruct S as (_ & _ & S). now apply G in S.
    - destruct (a_command ar); cbn [sub_described] in S; try (destruct S as [S _]; vm_compute in S; discriminate). destruct S as (_ & _ & S & _). now apply G in S.
    - destruct (a_command ar); cbn [sub_described] in S; try (destruct S as [S _]; vm_compute in S; discriminate). destruct S as (_ & S & _). now apply G in S.
  Qed.
  (** Asking for help or for the version is a failure, too. *)
  Theorem C92_help : forall gs a h b, all_spelled before_sub gs a -> In h (map ascii ["--help"; "-h"; "--version"; "-V"; "help"]%string) ->
    refused (a ++ h :: b).
  Proof.
    intros gs a h b Ha Hh. unfold program, parse_args. rewrite (scan_complete _ _ top_good subs_good _ _ _ Ha).
    assert (Z : ascii "help" = h \/ scan top_options subcommands (h :: b) = None).
    { destruct Hh as [<-|[<-|[<-|[<-|[<-|[]]]]]]; [right; reflexivity..|now left]. }
    destruct Z as [<-|Z]; [|rewrite Z; reflexivity]. cbn. destruct (scan _ [] b) as [[? ?]|]; reflexivity.
  Qed.
  (** A log level in the environment that is none spoils the run unless the option is given on both sides. *)
  Theorem C92_bad_level : forall ws gs sub gs' bad, command_line gs sub gs' ws -> env_level = Some bad -> level_ok bad = false ->
    not_given gs "log-level" \/ not_given gs' "log-level" -> refused ws.
  Proof.
    intros ws gs sub gs' bad L He Hb H. apply (refused_of ws gs sub gs' L). intros ar (_ & _ & _ & _ & (l & l' & Lo & Li & _) & _).
    assert (G : forall hs x, not_given hs "log-level" -> ~ stands_for hs "log-level" env_level (Some (ascii "info")) (accepted level_ok) x).
    { intros hs x Hn [(v & (p & q & -> & _) & _)|[(_ & v & Hv & [_ Q])|(_ & Hv & _)]].
      - apply Hn. rewrite map_app. apply in_app_iff. right. now left.
      - congruence.
      - congruence. }
    destruct H as [H|H]; [now apply (G gs l H)|now apply (G gs' l' H)].
  Qed.
End Program.
(** The environment has no say about an option that is given. *)
Theorem C92_environment : forall url_ok level_ok env_url env_url' env_level ws gs sub gs' v, command_line gs sub gs' ws -> given_once gs "beacon-api" v ->
  parse_args url_ok level_ok env_url env_level ws = parse_args url_ok level_ok env_url' env_level ws.
Proof.
  intros uok lok eu eu' el ws gs sub gs' v L H. rewrite (proj2 (parse_scanned uok lok eu el _ _ _ _ L)), (proj2 (parse_scanned uok lok eu' el _ _ _ _ L)).
  apply single_some in H. unfold value. change k with ascii. rewrite H. reflexivity.
Qed.
(** What is not said: Sepolia, natively, in ./data, at any rate. *)
Theorem C92_defaults : forall url_ok level_ok url e, own_word url -> url_ok url = true -> e < 2 ^ 64 ->
  parse_args url_ok level_ok None None [ascii "--beacon-api"; url; ascii "verify"; ascii "--trusted-epoch"; decimal e]
    = Some (mkArgs url 0 Sepolia (ascii "./data") (ascii "info") (SVerify Native e)) /\
  parse_args url_ok level_ok None None [ascii "--beacon-api"; url; ascii "sync"; ascii "--start-slot"; decimal e]
    = Some (mkArgs url 0 Sepolia (ascii "./data") (ascii "info") (SSync Native e None)) /\
  parse_args url_ok level_ok None None [ascii "--beacon-api"; url; ascii "build-input"; ascii "--finalized-epoch"; decimal e]
    = Some (mkArgs url 0 Sepolia (ascii "./data") (ascii "info") (SBuild e false 60)).
Proof.
  intros uok lok url e Ow Uk He.
  assert (D : own_word (decimal e)).
  { destruct (decimal_ok e) as [[_ Dd] _]. intros c r E. rewrite E in Dd. inversion Dd as [|? ? X]; subst. cbn in X. lia. }
  assert (V : number (2 ^ 64) (decimal e) e) by (destruct (decimal_ok e) as [Dd Dv]; split; [exact He|left; auto]).
  assert (T : all_spelled top_options [(ascii "beacon-api", url)] [ascii "--beacon-api"; url]).
  { apply (as_more _ _ _ [] [ascii "--beacon-api"; url] []); [|constructor]. apply (sp_long top_options (ascii "beacon-api") None url); [now left|exact Ow]. }
  assert (U : stands_for [(ascii "beacon-api", url)] "beacon-api" None None (accepted uok) url).
  { left. exists url. split; [exists [], []; auto|split; auto]. }
  assert (NG : forall m n x, ascii m <> ascii n -> not_given [(ascii n, x)] m) by (intros m n x H [H'|[]]; now symmetry in H').
  assert (G : forall sub n s, In sub (map ascii ["verify"; "sync"; "build-input"]%string) -> In (mkOpt (ascii n) None true) (options_of sub) ->
    ascii "log-level" <> ascii n -> sub_described sub [(ascii n, decimal e)] s ->
    parse_args uok lok None None [ascii "--beacon-api"; url; sub; ascii "--" ++ ascii n; decimal e]
    = Some (mkArgs url 0 Sepolia (ascii "./data") (ascii "info") s)).
  { intros sub n s Hs Ho Hl Hd. apply C92_read. exists [(ascii "beacon-api", url)], sub, [(ascii n, decimal e)]. split.
    - apply line_iff. exists [ascii "--beacon-api"; url], [ascii "--" ++ ascii n; decimal e], []. rewrite app_nil_r. split; [reflexivity|]. split; [exact T|]. split; [exact Hs|].
      split; [|now left]. apply (as_more _ _ _ [] [ascii "--" ++ ascii n; decimal e] []); [|constructor]. now apply (sp_long _ _ None).
    - unfold described. cbn [a_url a_rps a_network a_data_dir a_level a_command]. split; [exact U|].
      split; [right; right; split; [apply NG; discriminate|auto]|]. split; [right; right; split; [apply NG; discriminate|auto]|].
      split; [right; right; split; [apply NG; discriminate|auto]|]. split; [|exact Hd].
      exists (ascii "info"), (ascii "info"). split; [right; right; split; [apply NG; discriminate|auto]|]. split; [right; right; split; [now apply NG|auto]|].
      left. split; [now apply NG|reflexivity]. }
  split; [|split].
  - apply (G (ascii "verify") "trusted-epoch"%string); [now left|right; now left|discriminate|]. cbn [sub_described]. split; [reflexivity|].
    split; [right; right; split; [apply NG; discriminate|auto]|left; exists (decimal e); split; [exists [], []; auto|exact V]].
  - apply (G (ascii "sync") "start-slot"%string); [right; now left|right; now left|discriminate|]. cbn [sub_described]. split; [reflexivity|].
    split; [right; right; split; [apply NG; discriminate|auto]|]. split; [left; exists (decimal e); split; [exists [], []; auto|exact V]|].
    right; right; split; [apply NG; discriminate|auto].
  - apply (G (ascii "build-input") "finalized-epoch"%string); [right; right; now left|now left|discriminate|]. cbn [sub_described]. split; [reflexivity|].
    split; [left; exists (decimal e); split; [exists [], []; auto|exact V]|]. split; [apply NG; discriminate|]. right; right; split; [apply NG; discriminate|auto].
Qed.

(** ** Cases *)
Definition any (b : bytes) : bool := true.
Example C92_case : parse_args any any None (Some (ascii "debug"))
    (map ascii ["-nmainnet"; "--rps=+5"; "-d"; "-"; "--beacon-api"; "http://localhost:5052"; "build-input"; "-c"; "--finalized-epoch"; "0042"; "--log-level=warn"; "--"]%string)
  = Some (mkArgs (ascii "http://localhost:5052") 5 Mainnet (ascii "-") (ascii "warn") (SBuild 42 true 60)).
Proof. vm_compute. reflexivity. Qed.
Example C92_nonvacuous : exists gs sub gs' a,
  command_line gs sub gs' (map ascii ["-nmainnet"; "--beacon-api=u"; "verify"; "--trusted-epoch"; "7"]%string) /\
  described any any None None gs sub gs' a /\ a_network a = Mainnet.
Proof.
  destruct (parse_args any any None None (map ascii ["-nmainnet"; "--beacon-api=u"; "verify"; "--trusted-epoch"; "7"]%string)) as [a|] eqn:E; [|vm_compute in E; discriminate].
  assert (N : a_network a = Mainnet) by (vm_compute in E; now injection E as <-).
  apply C92_read in E as (gs & sub & gs' & L & D). exists gs, sub, gs', a. auto.
Qed.
(** Options of the program come before the subcommand, those of the subcommand behind it. *)
Example C92_misplaced : parse_args any any None None (map ascii ["--beacon-api"; "u"; "verify"; "--trusted-epoch"; "7"; "--network"; "mainnet"]%string) = None /\
  parse_args any any None None (map ascii ["--beacon-api"; "u"; "--trusted-epoch"; "7"; "verify"]%string) = None.
Proof. vm_compute. auto. Qed.
Example C92_out_of_range : parse_args any any None None (map ascii ["--beacon-api"; "u"; "verify"; "--trusted-epoch"; "18446744073709551616"]%string) = None /\
  parse_args any any None None (map ascii ["--beacon-api"; "u"; "-r"; "4294967296"; "verify"; "--trusted-epoch"; "1"]%string) = None /\
  parse_args any any None None (map ascii ["--beacon-api"; "u"; "-n"; "Mainnet"; "verify"; "--trusted-epoch"; "1"]%string) = None.
Proof. vm_compute. auto. Qed.

Print Assumptions C92_read.
Print Assumptions C92_unambiguous.
Print Assumptions C92_order.
Print Assumptions C92_program.
Print Assumptions C92_refused.
Print Assumptions C92_twice.
Print Assumptions C92_missing.
Print Assumptions C92_help.
Print Assumptions C92_bad_level.
Print Assumptions C92_environment.
Print Assumptions C92_defaults.
