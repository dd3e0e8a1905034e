(** C95: the log file of [sync] can be read back, cut or not. *)
From Coq Require Import String List Arith NArith ZArith Bool Lia ZifyBool ZifyNat ZifyN.
From Coq.Init Require Import Byte.
From Verif.Model Require Import Base Types ConsensusState HostStore StateJson GuestReader Guest HostChain HostInput Cli CliRun InputCodec Networks Command BeaconClient SyncLog.
From Verif.Spec Require Import StateJsonSpec GenSource SyncReader.
From Verif.Proof Require Import BaseLemmas HostStoreP StateJsonP FlatYamlP GenTextP.
From Verif.Props Require Import CliRunProps HostToy InputCodecProps HonestProps NetworkRunProps CommandProps.
From Verif.Spec Require Import CliSpec InputCodecSpec PlatformSpec CommandSpec NetworkRun Honest.
From Verif.Model Require Import ConfigYaml GenText.
Import ListNotations.
Open Scope list_scope.
Open Scope N_scope.

(** ** Specification *)
(** What a line of the run means to the reader. *)
Definition entry_of (why : CliError -> bytes) (l : SyncLine) : SyncReader.entry :=
  mkEntry (sl_from l) (sl_to l)
    (match sl_msg l with SyncOk => Confirmed | SyncMismatch got => Differs (sl_to l) got | SyncFailed e => SyncReader.Failed (why e) end).
(** The texts of errors have neither ends of lines nor tabs. *)
Definition plain (why : CliError -> bytes) : Prop := forall e, Forall (fun b => b <> x0a /\ b <> x09) (why e).

Example contexts_plain : plain contexts.
Proof. intros e. destruct e; apply Forall_forall; intros b Hb; repeat (destruct Hb as [<-|Hb]; [split; discriminate|]); contradiction. Qed.

(** ** Reading what was printed *)
Lemma hex_letters b : forallb hex_letter (hex b) = true.
Proof.
  unfold hex. induction b as [|x b IH]; [reflexivity|]. cbn [flat_map app forallb]. rewrite IH.
  pose proof (Byte.to_N_bounded x) as B.
  assert (D : forall n, n < 16 -> hex_letter (hex_digit n) = true).
  { intros n H. destruct (hex_digit_ok n H) as [[L E]|[L E]]; unfold hex_letter, is_digit, between, hex_digit in *; rewrite ?E in *;
      rewrite !byte_of_N_to_N in *; destruct (N.ltb_spec n 10); rewrite ?N.mod_small in * by lia; lia. }
  rewrite !D; [reflexivity|apply N.mod_lt; lia|apply N.div_lt_upper_bound; lia].
Qed.
Lemma unhex_printed b : unhex_digits (hex b) = Some b.
Proof. destruct (hex_ok b) as (d & E & H). injection E as ->. now apply unhex_hex. Qed.
Lemma checkpoint_back c r : read_checkpoint (debug_checkpoint c ++ r) = Some (c, r).
Proof.
  unfold read_checkpoint, debug_checkpoint. rewrite <- !app_assoc. change (str "Checkpoint(Checkpoint { epoch: Epoch(") with (s "Checkpoint(Checkpoint { epoch: Epoch(").
  rewrite after_app, span_complete; [|apply decimal_is_digits|reflexivity]. change (str "), root: 0x") with (s "), root: 0x").
  rewrite after_app, span_complete; [|apply hex_letters|reflexivity]. rewrite unhex_printed. change (str " })") with (s " })"). rewrite after_app.
  destruct (decimal_ok (epoch c)) as [[Hn _] V]. destruct (decimal (epoch c)) as [|x d] eqn:E; [contradiction|]. rewrite V. destruct c; reflexivity.
Qed.
Lemma state_back v r : read_state (debug_state v ++ r) = Some (v, r).
Proof.
  unfold read_state, debug_state. rewrite <- !app_assoc.
  change (str "ConsensusState { current_justified_checkpoint: ") with (s "ConsensusState { current_justified_checkpoint: ").
  rewrite after_app, checkpoint_back. cbn [fst snd]. change (str ", finalized_checkpoint: ") with (s ", finalized_checkpoint: ").
  rewrite after_app, checkpoint_back. cbn [fst snd]. change (str " }") with (s " }"). rewrite after_app. destruct v; reflexivity.
Qed.
Lemma entry_back why l : read_entry (log_line why l) = Some (entry_of why l).
Proof.
  unfold read_entry, log_line. rewrite state_back. cbn [fst snd]. change (str " -> ") with (s " -> "). rewrite after_app, state_back. cbn [fst snd app].
  change (byte_eqb x09 x09) with true. cbn iota. unfold entry_of. destruct (sl_msg l) as [|got|e]; cbn [message].
  - reflexivity.
  - unfold read_verdict. change (str "New state mismatch: expected ") with (s "New state mismatch: expected ").
    assert (Q : bytes_eqb (s "New state mismatch: expected " ++ debug_state (sl_to l) ++ str ", got " ++ debug_state got) (s "Ok") = false) by reflexivity.
    rewrite Q, after_app, state_back. cbn [fst snd]. change (str ", got ") with (s ", got "). rewrite after_app, <- (app_nil_r (debug_state got)), state_back. reflexivity.
  - unfold read_verdict. change (str "Verification failed: ") with (s "Verification failed: ").
    assert (Q : bytes_eqb (s "Verification failed: " ++ why e) (s "Ok") = false) by reflexivity.
    assert (Q' : after (s "New state mismatch: expected ") (s "Verification failed: " ++ why e) = None) by reflexivity.
    rewrite Q, Q', after_app. reflexivity.
Qed.
Lemma entries_back why ls : read_entries (map (log_line why) ls) = Some (map (entry_of why) ls).
Proof. induction ls as [|l ls IH]; [reflexivity|]. cbn [map read_entries]. now rewrite entry_back, IH. Qed.

(** ** Lines *)
Definition clean (l : bytes) : Prop := Forall (fun b => b <> x0a /\ b <> x09) l.
Lemma clean_str x : forallb (fun b => negb (byte_eqb b x0a) && negb (byte_eqb b x09)) x = true -> clean x.
Proof. intros H. rewrite forallb_forall in H. apply Forall_forall. intros b Hb. specialize (H b Hb). split; intros ->; discriminate. Qed.
Lemma clean_of (p : byte -> bool) x : p x0a = false -> p x09 = false -> forallb p x = true -> clean x.
Proof. intros A B F. rewrite forallb_forall in F. apply Forall_forall. intros b Hb. specialize (F b Hb). split; intros ->; congruence. Qed.
Lemma clean_app a b : clean a -> clean b -> clean (a ++ b). Proof. intros. now apply Forall_app. Qed.
Lemma clean_checkpoint c : clean (debug_checkpoint c).
Proof.
  unfold debug_checkpoint. repeat match goal with |- clean (_ ++ _) => apply clean_app end; try (now apply clean_str).
  - apply (clean_of is_digit); [reflexivity|reflexivity|apply decimal_is_digits].
  - apply (clean_of hex_letter); [reflexivity|reflexivity|apply hex_letters].
Qed.
Ltac cleans := repeat match goal with
  | |- clean (_ ++ _) => apply clean_app
  | |- clean (debug_checkpoint _) => apply clean_checkpoint
  | |- clean (str _) => now apply clean_str
  end.
Lemma clean_state v : clean (debug_state v).
Proof. unfold debug_state. cleans. Qed.
Lemma clean_message why to m : plain why -> clean (message why to m).
Proof. intros H. destruct m as [|got|e]; cbn [message]; cleans; try apply clean_state. apply H. Qed.
Lemma line_no_feed why l : plain why -> no_feed (log_line why l).
Proof.
  intros H. unfold log_line.
  assert (C : forall x, clean x -> no_feed x) by (intros x Hx; eapply Forall_impl; [|exact Hx]; cbn; tauto).
  repeat match goal with |- no_feed (_ ++ _) => apply feed_app end; try (apply C; apply clean_state); try (now apply closed_feed). now apply C, clean_message.
Qed.
Lemma text_unlines why ls : log_text why ls = unlines (map (log_line why) ls).
Proof. unfold log_text, unlines. now rewrite map_map. Qed.
Lemma cut_at : forall ls n, Forall no_feed ls -> exists j q, lines' (firstn n (unlines ls)) = firstn j ls ++ [q] /\ (j <= length ls)%nat /\
  (length (unlines (firstn j ls)) <= n)%nat /\ (j < length ls -> n < length (unlines (firstn (S j) ls)))%nat.
Proof.
  induction ls as [|l ls IH]; intros n H.
  - exists 0%nat, []. cbn. rewrite firstn_nil. repeat split; lia.
  - inversion H as [|? ? Hl Hls]; subst.
    assert (U : forall ls', unlines (l :: ls') = l ++ x0a :: unlines ls') by (intros; unfold unlines; cbn [map concat]; now rewrite <- app_assoc).
    rewrite U. destruct (le_lt_dec n (length l)) as [L|L].
    + exists 0%nat, (firstn n l). rewrite firstn_app. replace (n - length l)%nat with 0%nat by lia. cbn [firstn app]. rewrite app_nil_r. split.
      * unfold lines'. rewrite lines_last by (now apply firstn_no_feed). reflexivity.
      * split; [lia|]. split; [cbn; lia|]. intros _. rewrite U. rewrite app_length. cbn. lia.
    + destruct (IH (n - length l - 1)%nat Hls) as (j & q & E & J & A & B). exists (S j), q. split.
      * rewrite firstn_app, firstn_all2 by lia. replace (n - length l)%nat with (S (n - length l - 1)) by lia. cbn [firstn].
        unfold lines' at 1. rewrite lines_app by exact Hl. cbn [fst snd firstn app]. f_equal. exact E.
      * split; [cbn; lia|]. change (firstn (S j) (l :: ls)) with (l :: firstn j ls). change (firstn (S (S j)) (l :: ls)) with (l :: firstn (S j) ls).
        rewrite !U, !app_length. cbn [length]. split; [lia|]. intros X. specialize (B ltac:(lia)). lia.
Qed.

(** ** The file *)
(** Whoever has the file has every step of the run, in order, with its outcome. *)
Theorem C95_reads_back : forall why ls, plain why -> read_log (log_text why ls) = Some (map (entry_of why) ls).
Proof.
  intros why ls H. unfold read_log. rewrite text_unlines.
  assert (F : Forall no_feed (map (log_line why) ls)) by (apply Forall_forall; intros x Hx; apply in_map_iff in Hx as (l & <- & _); now apply line_no_feed).
  pose proof (lines_unlines (map (log_line why) ls) [] F) as E. rewrite app_nil_r in E. unfold lines' in E. destruct (lines (unlines _)) as [h r].
  cbn [fst snd] in E. rewrite E. cbn [lines fst snd]. rewrite removelast_last. apply entries_back.
Qed.
(** However many bytes of it there are, the file has exactly the steps whose lines are complete. *)
Theorem C95_cut : forall why ls n, plain why -> exists j, (j <= length ls)%nat /\
  read_log (firstn n (log_text why ls)) = Some (map (entry_of why) (firstn j ls)) /\
  (length (log_text why (firstn j ls)) <= n)%nat /\ (j < length ls -> n < length (log_text why (firstn (S j) ls)))%nat.
Proof.
  intros why ls n H.
  assert (F : Forall no_feed (map (log_line why) ls)) by (apply Forall_forall; intros x Hx; apply in_map_iff in Hx as (l & <- & _); now apply line_no_feed).
  destruct (cut_at (map (log_line why) ls) n F) as (j & q & E & J & A & B). rewrite map_length in *. rewrite !firstn_map, <- text_unlines in *.
  exists j. split; [exact J|]. split; [|split; [exact A|]].
  - unfold read_log. rewrite text_unlines. unfold lines' in E. rewrite <- text_unlines in *. destruct (lines (firstn n _)) as [h r]. cbn [fst snd] in E. rewrite E, removelast_last. apply entries_back.
  - exact B.
Qed.
Lemma split_tab : forall a b c d, clean a -> clean b -> a ++ x09 :: b = c ++ x09 :: d -> a = c /\ b = d.
Proof.
  induction a as [|x a IH]; intros b c d Ha Hb E.
  - destruct c as [|y c]; cbn in E; [now injection E as ->|]. injection E as <- ->. exfalso. unfold clean in Hb. rewrite Forall_forall in Hb.
    destruct (Hb x09) as [_ X]; [apply in_app_iff; right; now left|]. now apply X.
  - inversion Ha as [|? ? [_ Hx] Ha']; subst. destruct c as [|y c]; cbn in E; [injection E as -> _; now elim Hx|]. injection E as -> E.
    destruct (IH b c d Ha' Hb E) as [-> ->]. auto.
Qed.
(** A line that ends in a tab and Ok is one whose step was verified with the expected state, and no other is. *)
Theorem C95_ok : forall why l, plain why -> ((exists p, log_line why l = p ++ x09 :: list_byte_of_string "Ok") <-> sl_msg l = SyncOk).
Proof.
  intros why l H. unfold log_line. split.
  - intros (p & E). rewrite !app_assoc in E. rewrite <- app_assoc in E. cbn [app] in E.
    apply split_tab in E as [_ E]; [|cleans; apply clean_state|now apply clean_message].
    destruct (sl_msg l); [reflexivity|discriminate|discriminate].
  - intros ->. eexists. rewrite !app_assoc. rewrite <- app_assoc. reflexivity.
Qed.
(** What the run does to the file. Without a log path nothing; if it cannot be created, nothing, and the run fails;
    if there is room, the whole log; if there is not, the run fails and the steps that fitted are there. What the
    file held is gone in every other case. *)
Theorem C95_file : forall why f before r, plain why ->
  (ran_log r = None -> logged why f before r = (before, ran_end r)) /\
  forall ls, ran_log r = Some ls ->
    (f = NoLog -> logged why f before r = (before, Failure)) /\
    (f <> NoLog -> exists file e j, logged why f before r = (Some file, e) /\ (j <= length ls)%nat /\
       read_log file = Some (map (entry_of why) (firstn j ls)) /\
       (forall k, f = Room (Some k) -> (length file <= k)%nat /\ ((j < length ls)%nat -> e = Failure /\ (k < length (log_text why (firstn (S j) ls)))%nat) /\
         (j = length ls -> e = ran_end r /\ file = log_text why ls)) /\
       (f = Room None -> e = ran_end r /\ file = log_text why ls)).
Proof.
  intros why f before r H. unfold logged. split; [now intros ->|]. intros ls ->. split; [now intros ->|]. intros Hf.
  assert (Full : read_log (log_text why ls) = Some (map (entry_of why) (firstn (length ls) ls))) by (rewrite firstn_all; now apply C95_reads_back).
  destruct f as [|[k|]]; [contradiction| |].
  - destruct (Nat.ltb_spec k (length (log_text why ls))) as [L|L].
    + destruct (C95_cut why ls k H) as (j & J & R & A & B). exists (firstn k (log_text why ls)), Failure, j.
      split; [reflexivity|]. split; [exact J|]. split; [exact R|]. split; [|discriminate].
      intros k' Q. injection Q as <-. split; [rewrite firstn_length; lia|]. split; [auto|]. intros Ej. rewrite Ej, firstn_all in A. lia.
    + exists (log_text why ls), (ran_end r), (length ls). split; [reflexivity|]. split; [lia|]. split; [exact Full|].
      split; [|discriminate]. intros k' Q. injection Q as <-. split; [lia|]. split; [lia|auto].
  - exists (log_text why ls), (ran_end r), (length ls). split; [reflexivity|]. split; [lia|]. split; [exact Full|].
    split; [discriminate|auto].
Qed.
(** ** Runs *)
(** Whatever room there was and wherever the run stopped, the file of a run of [sync] reads as one path from the
    state the node gave for the slot asked for: every step starts where the last one ended, and finalizes a later epoch. *)
Theorem C95_path : forall X C w pkd zk n mode slot nd later f before why st, plain why -> f <> NoLog -> ch_state (nd_chain nd) slot = Ok st ->
  exists file es, fst (logged why f before (zkasper X C w pkd zk n (Sync mode slot true) (nd :: later))) = Some file /\ read_log file = Some es /\
    (forall e r, es = e :: r -> e_from e = st) /\ (forall p a b r, es = p ++ a :: b :: r -> e_from b = e_to a) /\
    (forall e, In e es -> epoch (finalized (e_from e)) < epoch (finalized (e_to e))).
Proof.
  intros X C w pkd zk n mode slot nd later f before why st H Hf Hs. cbn [zkasper]. rewrite Hs.
  destruct (sync_loop _ _ _ st) as [ls s] eqn:E. apply C60_log in E as (L1 & L2 & L3).
  destruct (C95_file why f before (mkRun [] (Some ls) None (ending_of s)) H) as [_ F].
  destruct (F ls eq_refl) as [_ F']. destruct (F' Hf) as (file & e & j & E & J & R & _). exists file, (map (entry_of why) (firstn j ls)).
  rewrite E. split; [reflexivity|]. split; [exact R|].
  assert (Sp : ls = firstn j ls ++ skipn j ls) by (symmetry; apply firstn_skipn). split; [|split].
  - intros x r Q. destruct (firstn j ls) as [|l q]; [discriminate|]. cbn [map] in Q. injection Q as <- _. cbn [entry_of e_from]. eapply L1. exact Sp.
  - intros p a b r Q. apply map_eq_app in Q as (p' & q & E1 & _ & E2). destruct q as [|a' [|b' q]]; try discriminate E2. cbn [map] in E2. injection E2 as <- <- _.
    cbn [entry_of e_from e_to]. apply (L2 p' a' b' (q ++ skipn j ls)). rewrite Sp at 1. rewrite E1, <- app_assoc. reflexivity.
  - intros x Hx. apply in_map_iff in Hx as (l & <- & Hl). cbn [entry_of e_from e_to]. apply L3. rewrite Sp. apply in_app_iff. now left.
Qed.
(** A run that cannot even get its first state has emptied the log of the run before. *)
Theorem C95_lost : forall X C w pkd zk n mode slot nd later f before why, f <> NoLog -> (forall st, ch_state (nd_chain nd) slot <> Ok st) ->
  logged why f before (zkasper X C w pkd zk n (Sync mode slot true) (nd :: later)) = (Some [], Failure).
Proof.
  intros X C w pkd zk n mode slot nd later f before why Hf Hs. cbn [zkasper].
  destruct (ch_state (nd_chain nd) slot) as [st| |]; [now elim (Hs st)|..]; destruct f as [|[k|]]; try contradiction; reflexivity.
Qed.
(** Only [sync] with a log path touches the file. *)
Theorem C95_others : forall X C w pkd zk n cmd nodes f before why, (forall mode slot, cmd <> Sync mode slot true) ->
  fst (logged why f before (zkasper X C w pkd zk n cmd nodes)) = before.
Proof.
  intros X C w pkd zk n cmd nodes f before why Hc. unfold logged. pose proof (C88_effects X C w pkd zk n cmd nodes) as E. cbv zeta in E.
  destruct (ran_log _) as [ls|] eqn:Q; [|reflexivity]. exfalso.
  destruct cmd as [mode e|mode slot log|e c]; [destruct E as (_ & E & _); congruence| |destruct E as (E & _); congruence].
  destruct E as (_ & _ & E & _). destruct log; [now apply (Hc mode slot)|]. destruct E as [E _]. assert (X1 : false = true) by (apply E; congruence). discriminate.
Qed.
(** The steps of a path of states. *)
Fixpoint steps_of (st : ConsensusState) (ts : list ConsensusState) : list SyncReader.entry :=
  match ts with [] => [] | x :: r => mkEntry st x Confirmed :: steps_of x r end.
Lemma steps_ok why st ts : map (entry_of why) (ok_log st ts) = steps_of st ts.
Proof. revert st. induction ts as [|x ts IH]; intros st; [reflexivity|]. cbn [ok_log map steps_of]. now rewrite IH. Qed.
(** A chain that finalizes on and nodes that answer: the file reads as every step from the state asked for, all confirmed. *)
Theorem C95_honest : forall n X0 C pkd, sane_codec C -> mainnet_limits C -> signatures_by_bytes X0 ->
  forall mode slot nd later st ts why before, plain why -> ch_state (nd_chain nd) slot = Ok st -> network_follow n (host_side X0) C pkd later st ts ->
  exists file, logged why (Room None) before (zkasper (host_side X0) C 64 pkd (faithful X0 C) n (Sync mode slot true) (nd :: later)) = (Some file, Ongoing) /\
    read_log file = Some (steps_of st ts).
Proof.
  intros n X0 C pkd Sc Ml Sb mode slot nd later st ts why before H Hs F.
  exists (log_text why (ok_log st ts)). rewrite (C88_honest_sync n X0 C pkd Sc Ml Sb mode slot nd later st ts Hs F). split; [reflexivity|].
  rewrite C95_reads_back by exact H. now rewrite steps_ok.
Qed.

(** ** Cases that meet the hypotheses *)
Definition x_at (e : N) : ConsensusState := mkCS (mkCheckpoint (e + 1) (repeat xa5 32)) (mkCheckpoint e (repeat x3c 32)).
Definition x_lines : list SyncLine :=
  [mkSyncLine (x_at 7) (x_at 8) SyncOk; mkSyncLine (x_at 8) (x_at 10) (SyncMismatch (x_at 9)); mkSyncLine (x_at 10) (x_at 11) (SyncFailed GuestFailed)].
Example ex_text : log_text contexts (firstn 1 x_lines) = list_byte_of_string
  "ConsensusState { current_justified_checkpoint: Checkpoint(Checkpoint { epoch: Epoch(8), root: 0xa5a5a5a5a5a5a5a5a5a5a5a5a5a5a5a5a5a5a5a5a5a5a5a5a5a5a5a5a5a5a5a5 }), finalized_checkpoint: Checkpoint(Checkpoint { epoch: Epoch(7), root: 0x3c3c3c3c3c3c3c3c3c3c3c3c3c3c3c3c3c3c3c3c3c3c3c3c3c3c3c3c3c3c3c3c }) } -> ConsensusState { current_justified_checkpoint: Checkpoint(Checkpoint { epoch: Epoch(9), root: 0xa5a5a5a5a5a5a5a5a5a5a5a5a5a5a5a5a5a5a5a5a5a5a5a5a5a5a5a5a5a5a5a5 }), finalized_checkpoint: Checkpoint(Checkpoint { epoch: Epoch(8), root: 0x3c3c3c3c3c3c3c3c3c3c3c3c3c3c3c3c3c3c3c3c3c3c3c3c3c3c3c3c3c3c3c3c }) }"
  ++ [x09] ++ list_byte_of_string "Ok" ++ [x0a].
Proof. vm_compute. reflexivity. Qed.
Example ex_back : map e_verdict (match read_log (log_text contexts x_lines) with Some es => es | None => [] end)
  = [Confirmed; Differs (x_at 10) (x_at 9); SyncReader.Failed (contexts GuestFailed)].
Proof. vm_compute. reflexivity. Qed.
Example ex_cut : option_map (@length _) (read_log (firstn 2500%nat (log_text contexts x_lines))) = Some 2%nat /\
  logged contexts (Room (Some 1000%nat)) (Some [x41]) (mkRun [] (Some x_lines) None Ongoing) = (Some (firstn 1000%nat (log_text contexts x_lines)), Failure).
Proof. vm_compute. auto. Qed.
(** An honest run on the toy network (HostToy.v). *)
Example ex_honest : exists file,
  logged contexts (Room None) (Some [x41]) (zkasper (host_side z_X0) n_codec 64 h_deserialize (faithful z_X0 n_codec) Mainnet (Sync Native 7 true) [o_node; u_node (u_T + 1)])
    = (Some file, Ongoing) /\ read_log file = Some [mkEntry o_start (u_at (u_T + 3)) Confirmed].
Proof.
  exists (log_text contexts [mkSyncLine o_start (u_at (u_T + 3)) SyncOk]). rewrite o_run. split; [reflexivity|]. now rewrite C95_reads_back by exact contexts_plain.
Qed.

Print Assumptions C95_reads_back.
Print Assumptions C95_cut.
Print Assumptions C95_ok.
Print Assumptions C95_file.
Print Assumptions C95_path.
Print Assumptions C95_lost.
Print Assumptions C95_others.
Print Assumptions C95_honest.
