(** C86: processes that build inputs in the same data directory. *)
From Coq Require Import List NArith Bool Arith Lia.
From Coq.Init Require Import Byte.
From Verif.Model Require Import Base Types ConsensusState Verify GuestReader Guest HostChain HostStore HostInput Cli CliRun BeaconClient Networks Shared DataDir.
From Verif.Spec Require Import VerifySpec ReproSpec DataDirSpec.
From Verif.Proof Require Import BaseLemmas HostStoreP DataDirP.
From Verif.Props Require Import VerifyProps.
From Verif.Props Require Import CliRunProps ReproProps GuestToy.
Import ListNotations.
Local Open Scope nat_scope.

(** Different files have different paths: of different networks, of different epochs, input and journal;
    and none of them is the path of a state file. *)
Theorem C86_paths : forall n m,
  (forall f g, cli_path n f = cli_path m g -> n = m /\ f = g) /\
  (forall s t, state_path n s = state_path m t -> n = m /\ s = t) /\
  (forall f s, cli_path n f <> state_path m s).
Proof.
  intros n m. split; [apply cli_path_inj|]. split.
  - intros s t H. unfold state_path in H. assert (E : decimal s ++ suffix = decimal t ++ suffix) by (unfold file_name in H; congruence).
    apply app_inv_tail, decimal_inj in E. assert (network_name n = network_name m) by congruence. split; [now apply network_name_inj|exact E].
  - intros [e|e] s H; unfold state_path in H; cbn [cli_path] in H; injection H as _ H; discriminate.
Qed.

(** ** The work of a process on one path *)
Lemma network_dec (n m : Network) : {n = m} + {n <> m}. Proof. decide equality. Qed.
Lemma proj_app p l1 l2 : proj p (l1 ++ l2) = proj p l1 ++ proj p l2.
Proof. apply filter_app. Qed.
Lemma path_neq a b : a <> b -> path_eqb a b = false.
Proof. intros H. destruct (path_eqb a b) eqn:E; [apply path_eqb_eq in E; contradiction|reflexivity]. Qed.
Lemma proj_epoch encode n f m b : proj (cli_path n f) (epoch_acts encode m b) =
  if network_dec m n then match file_bytes encode b f with Some c => [Opening (cli_path n f); Putting (cli_path n f) c 0] | None => [] end else [].
Proof.
  unfold epoch_acts, proj. cbn [filter on_path].
  destruct (network_dec m n) as [->|Hn].
  2:{ rewrite !path_neq; [reflexivity| |]; intros E; apply cli_path_inj in E as [E _]; contradiction. }
  destruct f as [e|e]; cbn [file_bytes]; destruct (N.eqb_spec e (b_epoch b)) as [->|He].
  - rewrite path_eqb_refl, path_neq; [reflexivity|]. intros E. apply cli_path_inj in E as [_ E]. discriminate.
  - rewrite !path_neq; [reflexivity| |]; intros E; apply cli_path_inj in E as [_ E]; congruence.
  - rewrite path_eqb_refl, path_neq; [reflexivity|]. intros E. apply cli_path_inj in E as [_ E]. discriminate.
  - rewrite !path_neq; [reflexivity| |]; intros E; apply cli_path_inj in E as [_ E]; congruence.
Qed.
Lemma proj_foreign encode p m b : (forall n f, p <> cli_path n f) -> proj p (epoch_acts encode m b) = [].
Proof. intros H. unfold epoch_acts, proj. cbn [filter on_path]. rewrite !path_neq; [reflexivity| |]; intros E; symmetry in E; now apply H in E. Qed.
Lemma proj_none encode p m bs : (forall b, In b bs -> proj p (epoch_acts encode m b) = []) -> proj p (flat_map (epoch_acts encode m) bs) = [].
Proof.
  induction bs as [|b bs IH]; intros H; [reflexivity|]. cbn [flat_map]. rewrite proj_app, H by now left. apply IH. intros b' Hb. apply H. now right.
Qed.
Lemma proj_closed encode n f R m bs : (forall b c, m = n -> In b bs -> file_bytes encode b f = Some c -> c = R) ->
  closed (cli_path n f) R (proj (cli_path n f) (flat_map (epoch_acts encode m) bs)).
Proof.
  induction bs as [|b bs IH]; intros H; [constructor|]. cbn [flat_map]. rewrite proj_app, proj_epoch.
  assert (C : closed (cli_path n f) R (proj (cli_path n f) (flat_map (epoch_acts encode m) bs))) by (apply IH; intros b' c E Hb; apply H; auto; now right).
  destruct (network_dec m n) as [E|_]; [|exact C]. destruct (file_bytes encode b f) as [c|] eqn:Ef; [|exact C].
  cbn [app]. rewrite (H b c E (or_introl eq_refl) Ef). now constructor.
Qed.
Lemma proj_wanted encode n f bs b c : In b bs -> file_bytes encode b f = Some c -> proj (cli_path n f) (flat_map (epoch_acts encode n) bs) <> [].
Proof.
  induction bs as [|b' bs IH]; intros Hb Hf; [easy|]. cbn [flat_map]. rewrite proj_app, proj_epoch. destruct (network_dec n n) as [_|E]; [|contradiction].
  destruct Hb as [->|Hb]; [rewrite Hf; discriminate|]. intros H. apply app_eq_nil in H as [_ H]. now apply IH in H.
Qed.
Lemma start_nth encode d ps i q : nth_error (snd (start_builds encode d ps)) i = Some q <->
  exists n bs, nth_error ps i = Some (n, bs) /\ q = Working (flat_map (epoch_acts encode n) bs).
Proof.
  unfold start_builds. cbn [snd]. rewrite nth_error_map. destruct (nth_error ps i) as [[n bs]|]; cbn [option_map fst snd]; split.
  - intros [= <-]. eauto.
  - intros (n' & bs' & [= <- <-] & ->). reflexivity.
  - discriminate.
  - intros (n' & bs' & E & _). discriminate.
Qed.
(** A file that nobody builds. *)
Lemma nobody p sched : forall w, (forall i q, nth_error (snd w) i = Some q -> proj p (work_of q) = []) ->
  fst (fold_left call sched w) p = fst w p.
Proof.
  induction sched as [|[i k] sched IH]; intros w H; [reflexivity|]. cbn [fold_left].
  assert (G : fst (call w (i, k)) p = fst w p /\ forall j q, nth_error (snd (call w (i, k))) j = Some q -> proj p (work_of q) = []).
  { unfold call. cbn [fst snd]. destruct (nth_error (snd w) i) as [[l|l]|] eqn:E; try (split; [reflexivity|exact H]).
    pose proof (H _ _ E) as Hl. cbn [work_of] in Hl.
    assert (S : forall d q, d p = fst w p -> proj p (work_of q) = [] -> fst (d, set_nth (snd w) i q) p = fst w p /\
      forall j q', nth_error (snd (d, set_nth (snd w) i q)) j = Some q' -> proj p (work_of q') = []).
    { intros d q Hd Hq. split; [exact Hd|]. cbn [snd]. intros j q'. rewrite (nth_set_nth _ _ _ _ _ E). destruct (i =? j); [intros [= <-]; exact Hq|apply H]. }
    destruct l as [|[a|a b off] r]; cbn [act_step].
    - apply S; reflexivity.
    - cbn [proj filter on_path] in Hl. destruct (path_eqb a p) eqn:Ea; [discriminate|]. fold (proj p r) in Hl.
      destruct k as [|k]; apply S; auto; [cbn [work_of proj filter on_path]; now rewrite Ea|]. apply put_there. intros <-. now rewrite path_eqb_refl in Ea.
    - cbn [proj filter on_path] in Hl. destruct (path_eqb a p) eqn:Ea; [discriminate|]. fold (proj p r) in Hl.
      destruct (skipn off b); [now apply S|]. destruct k as [|k]; apply S; auto; try (cbn [work_of proj filter on_path]; now rewrite Ea).
      destruct (fst w a); [|reflexivity]. apply put_there. intros <-. now rewrite path_eqb_refl in Ea. }
  destruct G as [G1 G2]. rewrite IH by exact G2. exact G1.
Qed.

(** Who builds a file. *)
Lemma in_built_for n ps b : In b (built_for n ps) <-> exists bs, In (n, bs) ps /\ In b bs.
Proof.
  unfold built_for. rewrite in_flat_map. split.
  - intros ([m bs] & H1 & H2). cbn [fst snd] in H2. destruct m, n; try destruct H2; eauto.
  - intros (bs & H1 & H2). exists (n, bs). split; [exact H1|]. cbn [fst snd]. destruct n; exact H2.
Qed.
Lemma builder_dec encode ps n f : (exists b c, In b (built_for n ps) /\ file_bytes encode b f = Some c) \/ (forall b, In b (built_for n ps) -> file_bytes encode b f = None).
Proof.
  induction (built_for n ps) as [|b l IH]; [right; intros ? []|]. destruct (file_bytes encode b f) as [c|] eqn:E; [left; exists b, c; split; [now left|exact E]|].
  destruct IH as [(b' & c & H1 & H2)|IH]; [left; exists b', c; split; [now right|exact H2]|right]. intros b' [<-|Hb]; auto.
Qed.
Lemma file_bytes_epoch encode b f c : file_bytes encode b f = Some c -> files_of (b_epoch b) f.
Proof. destruct f as [e|e]; cbn [file_bytes]; destruct (N.eqb_spec e (b_epoch b)) as [->|]; intros; try discriminate; [now left|now right]. Qed.
Lemma file_bytes_none encode b f : file_bytes encode b f = None -> ~ files_of (b_epoch b) f.
Proof. intros H [->| ->]; cbn [file_bytes] in H; rewrite N.eqb_refl in H; discriminate. Qed.
Lemma same_content encode b b' f c c' : (b_epoch b = b_epoch b' -> b = b') -> file_bytes encode b f = Some c -> file_bytes encode b' f = Some c' -> c = c'.
Proof.
  intros H E E'. assert (b_epoch b = b_epoch b').
  { apply file_bytes_epoch in E, E'. destruct E as [->| ->], E' as [E'|E']; congruence. }
  rewrite (H H0) in E. congruence.
Qed.
Lemma build_disk_wanted encode f c : forall l d b, (forall x y, In x l -> In y l -> b_epoch x = b_epoch y -> x = y) ->
  In b l -> file_bytes encode b f = Some c -> build_disk encode d l f = Some c.
Proof.
  induction l as [|a l IH]; intros d b U Hb Hf; [easy|]. rewrite build_disk_cons.
  assert (D : (exists b', In b' l /\ b_epoch b' = b_epoch b) \/ (forall b', In b' l -> b_epoch b' <> b_epoch b)).
  { clear. induction l as [|x l IH]; [right; intros ? []|]. destruct (N.eq_dec (b_epoch x) (b_epoch b)) as [E|E]; [left; exists x; split; [now left|exact E]|].
    destruct IH as [(y & H1 & H2)|IH]; [left; exists y; split; [now right|exact H2]|right]. intros y [<-|Hy]; auto. }
  destruct D as [(b' & Hb' & E)|D].
  - assert (b' = b) as -> by (apply U; auto; now right). apply (IH _ b); auto. intros x y Hx Hy. apply U; now right.
  - assert (a = b) as -> by (destruct Hb as [->|Hb]; [reflexivity|now apply D in Hb]).
    rewrite build_disk_other.
    + destruct (build_ops_here encode d b) as [G1 G2]. destruct f as [e|e]; cbn [file_bytes] in Hf; destruct (N.eqb_spec e (b_epoch b)) as [->|]; try discriminate; congruence.
    + intros b' Hb' Hf'. apply file_bytes_epoch in Hf. apply (D b' Hb'). destruct Hf as [->| ->], Hf' as [E|E]; congruence.
Qed.

(** ** What the schedule can do to a file *)
Section Runs.
  Variables (encode : GuestInput -> bytes) (d : tree) (ps : list (Network * list Built)) (sched : list (nat * nat)).
  Hypothesis Same : same_inputs ps.
  Let w := run_builds encode d ps sched.
  Let init := snd (start_builds encode d ps).
  Lemma same_built n b b' : In b (built_for n ps) -> In b' (built_for n ps) -> b_epoch b = b_epoch b' -> b = b'.
  Proof. rewrite !in_built_for. intros (bs & H1 & H2) (bs' & H3 & H4). exact (Same n bs bs' b b' H1 H3 H2 H4). Qed.
  Lemma run_inv n f b R : In b (built_for n ps) -> file_bytes encode b f = Some R -> path_inv (cli_path n f) R d init w.
  Proof.
    intros Hb Hf. unfold w, run_builds. apply calls_inv. apply (start_inv (cli_path n f) R d init). intros i q Hq.
    apply start_nth in Hq as (m & bs & Hq & ->). cbn [work_of]. apply proj_closed. intros b' c -> Hb' Hc.
    eapply same_content; [|exact Hc|exact Hf]. apply (same_built n); [|exact Hb]. apply in_built_for. exists bs. split; [now apply nth_error_In in Hq|exact Hb'].
  Qed.
  Lemma run_nobody n f : (forall b, In b (built_for n ps) -> file_bytes encode b f = None) -> fst w (cli_path n f) = d (cli_path n f).
  Proof.
    intros H. unfold w, run_builds. rewrite nobody; [reflexivity|]. intros i q Hq. apply start_nth in Hq as (m & bs & Hq & ->). cbn [work_of].
    apply proj_none. intros b Hb. rewrite proj_epoch. destruct (network_dec m n) as [->|_]; [|reflexivity].
    rewrite H; [reflexivity|]. apply in_built_for. exists bs. split; [now apply nth_error_In in Hq|exact Hb].
  Qed.
  Lemma run_foreign p : (forall n f, p <> cli_path n f) -> fst w p = d p.
  Proof.
    intros H. unfold w, run_builds. rewrite nobody; [reflexivity|]. intros i q Hq. apply start_nth in Hq as (m & bs & Hq & ->). cbn [work_of].
    apply proj_none. intros b Hb. now apply proj_foreign.
  Qed.
End Runs.

(** At every moment of every schedule, with calls that fail and processes that are killed: a file is as
    it was before the processes started, or every byte of it is the right byte or zero. Files that no
    process builds, those of the other network among them, the state files and everything else in the
    data directory are not touched. *)
Theorem C86_any_time : forall encode d ps sched, same_inputs ps ->
  let now := fst (run_builds encode d ps sched) in
  (forall n f, now (cli_path n f) = d (cli_path n f) \/
     exists right c, builds encode ps n f right /\ now (cli_path n f) = Some c /\ right_or_zeros right c) /\
  (forall n f, (forall c, ~ builds encode ps n f c) -> now (cli_path n f) = d (cli_path n f)) /\
  (forall p, (forall n f, p <> cli_path n f) -> now p = d p).
Proof.
  intros encode d ps sched Same now. split; [|split].
  - intros n f. destruct (builder_dec encode ps n f) as [(b & R & Hb & Hf)|H]; [|left; now apply run_nobody].
    destruct (run_inv encode d ps sched Same n f b R Hb Hf) as (_ & [[U _]|(c & T1 & T2 & _)] & _); [now left|right].
    exists R, c. split; [|auto]. apply in_built_for in Hb as (bs & H1 & H2). exists bs, b. auto.
  - intros n f H. apply run_nobody. intros b Hb. apply in_built_for in Hb as (bs & H1 & H2). destruct (file_bytes encode b f) as [c|] eqn:E; [|reflexivity].
    exfalso. apply (H c). exists bs, b. auto.
  - intros p Hp. now apply run_foreign.
Qed.
(** When nobody has a file open, it is as it was before, or exactly right. *)
Theorem C86_quiet : forall encode d ps sched n f, same_inputs ps ->
  let w := run_builds encode d ps sched in
  (forall q, In q (snd w) -> ~ has_open (cli_path n f) q) ->
  fst w (cli_path n f) = d (cli_path n f) \/
  exists right, builds encode ps n f right /\ fst w (cli_path n f) = Some right.
Proof.
  intros encode d ps sched n f Same w Q. destruct (builder_dec encode ps n f) as [(b & R & Hb & Hf)|H]; [|left; now apply run_nobody].
  destruct (run_inv encode d ps sched Same n f b R Hb Hf) as (_ & [[U _]|(c & T1 & T2 & T3)] & _); [now left|right].
  exists R. split; [apply in_built_for in Hb as (bs & H1 & H2); exists bs, b; auto|]. destruct T3 as [T3|(i & q & off & T3 & T4 & _)].
  - rewrite <- (upto_full R c T2 T3). exact T1.
  - exfalso. apply (Q q); [eapply nth_error_In; exact T3|]. unfold has_open. apply open_iff. destruct T4 as (r & T4 & _). eauto.
Qed.
(** When all processes are through, the files of each network are what they would be had the processes run one
    after the other. *)
Theorem C86_finished : forall encode d ps sched, same_inputs ps ->
  let w := run_builds encode d ps sched in
  all_finished w ->
  (forall n f, fst w (cli_path n f) = build_disk encode (fun g => d (cli_path n g)) (built_for n ps) f) /\
  (forall p, (forall n f, p <> cli_path n f) -> fst w p = d p).
Proof.
  intros encode d ps sched Same w Fin. split; [|intros p Hp; now apply run_foreign].
  intros n f. destruct (builder_dec encode ps n f) as [(b & R & Hb & Hf)|H].
  - rewrite (build_disk_wanted encode f R _ _ b) by (auto; intros x y; now apply same_built).
    destruct (run_inv encode d ps sched Same n f b R Hb Hf) as (_ & [[U1 U2]|(c & T1 & T2 & T3)] & _).
    + exfalso. apply in_built_for in Hb as (bs & H1 & H2). apply In_nth_error in H1 as (i & H1).
      assert (L : length (snd w) = length ps).
      { unfold w, run_builds. clear. assert (G : forall s w0, length (snd (fold_left call s w0)) = length (snd w0)).
        { induction s as [|[i k] s IH]; intros w0; [reflexivity|]. cbn [fold_left]. rewrite IH. unfold call. cbn [fst snd].
          destruct (nth_error (snd w0) i) as [[l|l]|]; try reflexivity. destruct (act_step _ _ _) as [d' q]. cbn [snd].
          generalize (snd w0) as l0. clear. induction i as [|i IH]; intros [|x l0]; cbn [set_nth length]; auto. }
        rewrite G. unfold start_builds. cbn [snd]. apply map_length. }
      destruct (nth_error (snd w) i) as [q|] eqn:Eq.
      2:{ apply nth_error_None in Eq. assert (i < length ps) by (apply nth_error_Some; congruence). lia. }
      destruct (U2 _ _ Eq) as (q0 & G1 & G2). apply start_nth in G1 as (m & bs' & G1 & ->). rewrite H1 in G1. injection G1 as <- <-.
      rewrite (Fin q) in G2 by (eapply nth_error_In; eauto). cbn [work_of] in G2. symmetry in G2. now apply (proj_wanted encode n f bs b R H2 Hf) in G2.
    + unfold w; rewrite T1. f_equal. apply upto_full; [exact T2|]. destruct T3 as [T3|(i & q & off & T3 & (r & T4 & _) & _)]; [exact T3|].
      rewrite (Fin q) in T4 by (eapply nth_error_In; eauto). discriminate.
  - rewrite build_disk_other; [now apply run_nobody|]. intros b Hb. apply (file_bytes_none encode). auto.
Qed.
(** So after any interruption a process that gets through alone repairs the files of its epochs. *)
Theorem C86_repaired : forall encode d n bs sched, NoDup (map b_epoch bs) ->
  let w := run_builds encode d [(n, bs)] sched in
  all_finished w -> forall b, In b bs ->
  fst w (cli_path n (InputFile (b_epoch b))) = Some (encode_input_stdin (encode (b_input b))) /\
  fst w (cli_path n (JournalFile (b_epoch b))) = Some (journal_encode (b_pre b) (b_post b) (b_slot b)).
Proof.
  intros encode d n bs sched U w Fin b Hb.
  assert (Same : same_inputs [(n, bs)]).
  { intros m l l' x y [E|[]] [E'|[]] Hx Hy Ee. injection E as <- <-. injection E' as <-. clear -U Hx Hy Ee.
    induction bs as [|a l IH]; [easy|]. inversion U as [|? ? Ua Ul]; subst.
    destruct Hx as [->|Hx], Hy as [->|Hy]; auto; exfalso; apply Ua; [rewrite Ee|rewrite <- Ee]; now apply in_map. }
  destruct (C86_finished encode d [(n, bs)] sched Same Fin) as [F _]. rewrite !F.
  assert (In b (built_for n [(n, bs)])) by (apply in_built_for; exists bs; split; [now left|exact Hb]).
  split; (eapply build_disk_wanted; [intros x y; now apply same_built|eassumption|cbn [file_bytes]; now rewrite N.eqb_refl]).
Qed.

(** ** Every process gets through *)
Definition weight (l : list act) : nat := list_sum (map (fun a => match a with Opening _ => 1 | Putting _ b off => S (length b - off) end) l).
Lemma weight_cons a l : weight (a :: l) = match a with Opening _ => 1 | Putting _ b off => S (length b - off) end + weight l.
Proof. reflexivity. Qed.
Lemma step_weight d l k : k <> 0 -> exists r, snd (act_step d l k) = Working r /\ (weight r < weight l \/ (l = [] /\ r = [])).
Proof.
  intros Hk. destruct k as [|k]; [contradiction|]. destruct l as [|[a|a b off] r]; cbn [act_step].
  - exists []. auto.
  - exists r. split; [reflexivity|left]. rewrite weight_cons. lia.
  - destruct (skipn off b) as [|x rest] eqn:Es.
    + exists r. split; [reflexivity|left]. rewrite weight_cons. lia.
    + eexists. split; [reflexivity|left]. rewrite !weight_cons.
      assert (off < length b). { apply (f_equal (@length _)) in Es. rewrite skipn_length in Es. cbn in Es. lia. }
      cbn [firstn length]. lia.
Qed.
Theorem C86_every_process_ends : forall encode d ps sched i n bs, nth_error ps i = Some (n, bs) ->
  no_failure i sched -> enough_turns encode bs <= turns_of i sched ->
  nth_error (snd (run_builds encode d ps sched)) i = Some (Working []).
Proof.
  intros encode d ps sched i n bs Hi Nf Ht.
  assert (W : weight (flat_map (epoch_acts encode n) bs) = enough_turns encode bs).
  { clear. induction bs as [|b bs IH]; [reflexivity|]. cbn [flat_map]. unfold epoch_acts at 1. cbn [app]. rewrite !weight_cons, IH.
    unfold enough_turns. cbn [map]. change (list_sum (?x :: ?l)) with (x + list_sum l). lia. }
  assert (G : forall sched w l, no_failure i sched -> nth_error (snd w) i = Some (Working l) -> weight l <= turns_of i sched ->
    nth_error (snd (fold_left call sched w)) i = Some (Working [])).
  { clear. induction sched as [|[j k] sched IH]; intros w l Nf E Hw.
    - cbn [fold_left]. destruct l as [|[a|a b off] r]; [exact E|exfalso|exfalso]; unfold turns_of, weight in Hw; cbn in Hw; lia.
    - cbn [fold_left]. assert (Nf' : no_failure i sched) by (intros k' H; apply Nf; now right).
      unfold turns_of in Hw. cbn [filter fst] in Hw. destruct (Nat.eqb_spec j i) as [->|Hj].
      + destruct (step_weight (fst w) l k) as (r & E1 & E2); [apply Nf; now left|].
        apply (IH _ r Nf').
        * unfold call. cbn [fst snd]. rewrite E. destruct (act_step (fst w) l k) as [d' q]. cbn [snd] in *. subst q. rewrite (nth_set_nth _ _ _ _ _ E), Nat.eqb_refl. reflexivity.
        * cbn [length] in Hw. unfold turns_of. destruct E2 as [E2|[-> ->]]; [lia|cbn; lia].
      + apply (IH _ l Nf'); [|exact Hw]. unfold call. cbn [fst snd]. destruct (nth_error (snd w) j) as [[l'|l']|] eqn:Ej; try exact E.
        destruct (act_step (fst w) l' k) as [d' q]. cbn [snd]. rewrite (nth_set_nth _ _ _ _ _ Ej). apply Nat.eqb_neq in Hj. now rewrite Hj. }
  unfold run_builds. eapply G; [exact Nf| |].
  - apply start_nth. exists n, bs. auto.
  - rewrite W. exact Ht.
Qed.

(** ** Processes that follow the same chain *)
Lemma inputs_built build e bs : inputs_from build e bs -> forall b, In b bs -> build (b_epoch b) = Ok (b_input b, b_pre b, b_post b, b_slot b).
Proof. induction 1 as [e|e gi pre post slot r Hb Hr IH]; intros b Hin; [destruct Hin|]. destruct Hin as [<-|Hin]; [exact Hb|auto]. Qed.
(** Processes for the same network, started at any epochs, polling any nodes at any times: if the nodes
    show the one chain of the network in the windows of the inputs, the inputs agree (C80), so that the
    theorems above hold. *)
Theorem C86_same_chain : forall X pk_deserialize (chain : Network -> Node) ps,
  (forall n, sane_spec X (network_spec n)) ->
  (forall n bs, In (n, bs) ps -> exists continuous nodes e st, (e + 1 < 2 ^ 64)%N /\
     Forall (shows X (network_spec n) pk_deserialize (config_for n) (chain n) e) nodes /\
     build_loop continuous (map (CliRun.view X (network_spec n) pk_deserialize (config_for n)) nodes) e = (bs, st)) ->
  same_inputs ps.
Proof.
  intros X pkd chain ps Sane H n bs bs' b b' H1 H2 Hb Hb' E.
  assert (G : forall l x, In (n, l) ps -> In x l -> vw_prepare (CliRun.view X (network_spec n) pkd (config_for n) (chain n)) (b_epoch x) = Ok (b_input x, b_pre x, b_post x, b_slot x)).
  { intros l x Hl Hx. destruct (H n l Hl) as (co & nodes & e & st & He & Hs & Hr).
    eapply inputs_built; [|exact Hx]. eapply (C80_runs_build_the_chains_inputs X (network_spec n) pkd (config_for n) (chain n) co nodes e l st); auto.
    destruct n; cbn; lia. }
  pose proof (G bs b H1 Hb) as G1. pose proof (G bs' b' H2 Hb') as G2. rewrite E in G1. rewrite G1 in G2.
  destruct b, b'. cbn in *. congruence.
Qed.

(** ** Non-vacuity *)
Definition w_encode (gi : GuestInput) : bytes := concat (gi_public_keys gi).
Definition w_b9 : Built := mkBuilt 9 g_input g_trusted (mkCS (mkCheckpoint 12 g_root12) (mkCheckpoint 10 (toy_root 10))) 20.
Definition w_b10 : Built := mkBuilt 10 g_input (mkCS (mkCheckpoint 12 g_root12) (mkCheckpoint 10 (toy_root 10)))
  (mkCS (mkCheckpoint 13 (toy_root 13)) (mkCheckpoint 12 g_root12)) 24.
(** Another input for epoch 9, as from a node on another chain. *)
Definition w_other : GuestInput :=
  mkGuestInput g_block_proof g_state_proof g_validators_proof (map g_key [7; 6; 5; 4; 3; 2; 1; 0; 50]%N) g_patches g_trusted g_atts [g_slot_proof].
Definition w_b9' : Built := mkBuilt 9 w_other g_trusted (mkCS (mkCheckpoint 12 g_root) (mkCheckpoint 10 (toy_root 10))) 20.
(** Two processes for Sepolia, one of which starts an epoch later, and one for Mainnet. *)
Definition w_ps : list (Network * list Built) := [(Sepolia, [w_b9; w_b10]); (Sepolia, [w_b10]); (Mainnet, [w_b9'])].
Definition w_d : tree := fun p => if path_eqb p (cli_path Sepolia (JournalFile 10)) then Some [x01; x02] else
  if path_eqb p (state_path Sepolia 5) then Some [x03] else None.
Definition w_round : list (nat * nat) := [(0, 90); (1, 300); (2, 100); (2, 200)].
Definition w_sched : list (nat * nat) := concat (repeat w_round 20).
Lemma w_same : same_inputs w_ps.
Proof.
  intros n bs bs' b b' H1 H2 Hb Hb' E. cbn [w_ps In] in H1, H2.
  destruct H1 as [H1|[H1|[H1|[]]]], H2 as [H2|[H2|[H2|[]]]]; injection H1 as <- <-; (try discriminate H2); injection H2 as <-;
    cbn [In] in Hb, Hb'; repeat match goal with H : _ \/ _ |- _ => destruct H | H : False |- _ => destruct H end; subst; try reflexivity; discriminate.
Qed.
Example C86_nonvacuous :
  same_inputs w_ps /\ all_finished (run_builds w_encode w_d w_ps w_sched) /\
  let now := fst (run_builds w_encode w_d w_ps w_sched) in
  now (cli_path Sepolia (InputFile 9)) = Some (encode_input_stdin (w_encode g_input)) /\
  now (cli_path Mainnet (InputFile 9)) = Some (encode_input_stdin (w_encode w_other)) /\
  now (cli_path Sepolia (JournalFile 10)) = Some (journal_encode (b_pre w_b10) (b_post w_b10) 24) /\
  now (cli_path Mainnet (InputFile 10)) = None /\ now (state_path Sepolia 5) = Some [x03].
Proof.
  split; [exact w_same|]. split.
  - intros q. assert (E : snd (run_builds w_encode w_d w_ps w_sched) = [Working []; Working []; Working []]) by (vm_compute; reflexivity).
    rewrite E. cbn [In]. intros H. repeat match goal with H : _ \/ _ |- _ => destruct H end; congruence || contradiction.
  - vm_compute. repeat split; reflexivity.
Qed.
(** Half way: process 0 has written half of the journal of epoch 9, process 1 was killed after half of the journal of
    epoch 10, process 2 has failed. *)
Definition w_half : list (nat * nat) := [(1, 1); (0, 1); (1, 1); (2, 1); (0, 1); (2, 0); (1, 50); (1, 1); (0, 9); (1, 100); (2, 9); (0, 9); (0, 9); (0, 100)].
Example C86_nonvacuous_half :
  let w := run_builds w_encode w_d w_ps w_half in
  fst w (cli_path Sepolia (JournalFile 10)) = Some (firstn 100 (journal_encode (b_pre w_b10) (b_post w_b10) 24)) /\
  fst w (cli_path Sepolia (JournalFile 9)) = Some (firstn 100 (journal_encode (b_pre w_b9) (b_post w_b9) 20)) /\
  fst w (cli_path Sepolia (InputFile 9)) = Some (encode_input_stdin (w_encode g_input)) /\
  (forall q, In q (snd w) -> ~ has_open (cli_path Sepolia (InputFile 9)) q) /\
  fst w (cli_path Mainnet (InputFile 9)) = Some [] /\ fst w (cli_path Mainnet (JournalFile 9)) = None.
Proof.
  repeat split; try (vm_compute; reflexivity). intros q.
  assert (E : map (fun q => proj (cli_path Sepolia (InputFile 9)) (work_of q)) (snd (run_builds w_encode w_d w_ps w_half)) = [[]; []; []]) by (vm_compute; reflexivity).
  intros Hq Ho. apply open_iff in Ho as (b & off & r & Ho). apply (in_map (fun q => proj (cli_path Sepolia (InputFile 9)) (work_of q))) in Hq.
  rewrite E, Ho in Hq. cbn [In] in Hq. repeat (destruct Hq as [Hq|Hq]; [discriminate|]). exact Hq.
Qed.
Example C86_every_process_ends_nonvacuous :
  no_failure 1 (repeat (1, 1) 400) /\ enough_turns w_encode [w_b10] <= turns_of 1 (repeat (1, 1) 400).
Proof. split; [intros k H; apply repeat_spec in H; congruence|]. vm_compute. repeat constructor. Qed.

(** ** What does not hold *)
(** That a pair of files, once complete with nobody writing, stays complete: a process that comes to
    the epoch later empties the files before it writes them again. *)
Definition complete_pair_stays : Prop := forall encode d ps sched sched' n b, same_inputs ps ->
  let complete w := fst w (cli_path n (InputFile (b_epoch b))) = Some (encode_input_stdin (encode (b_input b))) /\
                    fst w (cli_path n (JournalFile (b_epoch b))) = Some (journal_encode (b_pre b) (b_post b) (b_slot b)) in
  In b (built_for n ps) ->
  complete (run_builds encode d ps sched) -> complete (run_builds encode d ps (sched ++ sched')).
Theorem C86_complete_pair_stays_refuted : ~ complete_pair_stays.
Proof.
  intros H. destruct (H w_encode w_d [(Sepolia, [w_b10]); (Sepolia, [w_b10])] (repeat (0, 300) 6) [(1, 1)] Sepolia w_b10) as [G _].
  - intros n bs bs' b b' H1 H2 Hb Hb' E. destruct H1 as [H1|[H1|[]]], H2 as [H2|[H2|[]]]; injection H1 as <- <-; injection H2 as <-;
      destruct Hb as [<-|[]], Hb' as [<-|[]]; reflexivity.
  - left. reflexivity.
  - split; vm_compute; reflexivity.
  - vm_compute in G. discriminate G.
Qed.
(** That the two files of an epoch are of one process even when the processes do not agree on the input:
    two interleaved processes can leave the input of one with the journal of the other. *)
Definition pair_of_one_process : Prop := forall encode d ps sched n e,
  (exists b, In b (built_for n ps) /\ b_epoch b = e) ->
  all_finished (run_builds encode d ps sched) ->
  let now := fst (run_builds encode d ps sched) in
  exists b, In b (built_for n ps) /\ b_epoch b = e /\
    now (cli_path n (InputFile e)) = Some (encode_input_stdin (encode (b_input b))) /\
    now (cli_path n (JournalFile e)) = Some (journal_encode (b_pre b) (b_post b) (b_slot b)).
Theorem C86_pair_of_one_process_refuted : ~ pair_of_one_process.
Proof.
  intros H. pose (ps := [(Sepolia, [w_b9]); (Sepolia, [w_b9'])]).
  pose (s := [(0, 1); (0, 1); (1, 1); (1, 1); (0, 99); (1, 99); (1, 1); (1, 999); (0, 1); (0, 999); (0, 1); (1, 1)]).
  destruct (H w_encode w_d ps s Sepolia 9%N) as (b & Hb & _ & Hi & Hj).
  - exists w_b9. split; [left; reflexivity|reflexivity].
  - intros q. assert (E : snd (run_builds w_encode w_d ps s) = [Working []; Working []]) by (vm_compute; reflexivity).
    rewrite E. intros [<-|[<-|[]]]; reflexivity.
  - destruct Hb as [<-|[<-|[]]]; [vm_compute in Hi; discriminate Hi|vm_compute in Hj; discriminate Hj].
Qed.

Print Assumptions C86_paths.
Print Assumptions C86_any_time.
Print Assumptions C86_quiet.
Print Assumptions C86_finished.
Print Assumptions C86_repaired.
Print Assumptions C86_every_process_ends.
Print Assumptions C86_same_chain.
Print Assumptions C86_complete_pair_stays_refuted.
Print Assumptions C86_pair_of_one_process_refuted.
