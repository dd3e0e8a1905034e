(** C42, C43, C49, C50: state cache, state directory, interrupted saves, checkpoint states. *)
From Coq Require Import List ZArith NArith Bool Lia.
From Coq Require Import ZifyBool ZifyNat ZifyN.
From Coq.Init Require Import Byte.
From Coq.Strings Require Import Byte.
From Verif.Model Require Import Base Types HostChain HostStore.
From Verif.Spec Require Import StoreSpec.
From Verif.Proof Require Import BaseLemmas HostChainP HostStoreP.
From Verif.Props Require Import VerifyProps.
Import ListNotations.
Open Scope N_scope.

(** ** C42: the cache *)
(** A fresh cache asks the underlying provider exactly for the requests without an earlier success,
    in order, and passes its answers on unchanged. *)
Theorem C42_asks_only_misses St W (inner : provider St W) w rs answers c' w' :
  requests (cached_state_at_slot inner) ([], w) rs = (answers, (c', w')) ->
  length answers = length rs /\
  requests inner w (map fst (misses (fun _ => false) (combine rs answers))) =
    (map snd (misses (fun _ => false) (combine rs answers)), w').
Proof.
  intros H. destruct (memo_run _ _ _ _ _ (cache_memoizes inner) rs [] w (fun _ => false) answers c' w') as (L1 & _ & L2 & _); auto.
  - now apply Forall_forall.
Qed.
(** A request after a success for the same slot gets the same state. *)
Theorem C42_success_is_final St W (inner : provider St W) w rs answers c' w' :
  requests (cached_state_at_slot inner) ([], w) rs = (answers, (c', w')) ->
  forall i j s st, nth_error rs i = Some s -> nth_error rs j = Some s -> (i < j)%nat ->
    nth_error answers i = Some (Ok st) -> nth_error answers j = Some (Ok st).
Proof.
  intros H i j s st Hi Hj Hij Ha.
  (* split the run after the success *)
  pose proof (nth_error_split rs i Hi) as (r1 & r2 & -> & Hl1).
  assert (G : forall p w0 l1 l2 as0 wz, @requests St (cache St * W) p w0 (l1 ++ l2) = (as0, wz) ->
    exists a1 w1 a2, requests p w0 l1 = (a1, w1) /\ requests p w1 l2 = (a2, wz) /\ as0 = a1 ++ a2 /\ length a1 = length l1).
  { clear. intros p w0 l1. revert w0. induction l1 as [|x l1 IH]; intros w0 l2 as0 wz H; cbn [requests app] in H |- *.
    - exists [], w0, as0. auto.
    - destruct (p w0 x) as [a w1]. destruct (requests p w1 (l1 ++ l2)) as [l wl] eqn:E. injection H as <- <-.
      destruct (IH _ _ _ _ E) as (a1 & w2 & a2 & H1 & H2 & H3 & H4). rewrite H1.
      exists (a :: a1), w2, a2. subst l. cbn. repeat split; auto. }
  replace (r1 ++ s :: r2) with ((r1 ++ [s]) ++ r2) in * by (now rewrite <- app_assoc).
  destruct (G _ _ _ _ _ _ H) as (a1 & [c1 w1] & a2 & H1 & H2 & -> & Hl).
  rewrite app_length in Hl. cbn in Hl.
  rewrite nth_error_app1 in Ha by lia.
  destruct (memo_run _ _ _ _ _ (cache_memoizes inner) (r1 ++ [s]) [] w (fun _ => false) a1 c1 w1)
    as (_ & _ & _ & _ & L5 & _); auto.
  { now apply Forall_forall. }
  assert (Hlook : cache_get c1 s = Some st).
  { apply L5. assert (E : nth_error (combine (r1 ++ [s]) a1) i = Some (s, Ok st)).
    { clear - Hl Ha Hl1. subst i. revert a1 Hl Ha. induction r1 as [|x r1 IH]; intros [|b a1] Hl Ha; cbn in *; try lia; try discriminate.
      - congruence.
      - apply IH; auto. }
    eapply nth_error_In; eauto. }
  rewrite nth_error_app2 by lia.
  rewrite nth_error_app2 in Hj by (rewrite app_length; cbn; lia). rewrite app_length in Hj. cbn in Hj. rewrite Hl.
  remember (j - (length r1 + 1))%nat as m eqn:Em. clear Em H1 G.
  clear L5 Ha Hi H. revert c1 w1 a2 H2 Hlook m Hj. clear - inner.
  induction r2 as [|x r2 IH]; intros c1 w1 a2 H2 Hlook m Hj; [destruct m; discriminate|].
  cbn [requests] in H2. destruct (cached_state_at_slot inner (c1, w1) x) as [a [c2 w2]] eqn:E1.
  destruct (requests (cached_state_at_slot inner) (c2, w2) r2) as [l [c3 w3]] eqn:E2. injection H2 as <- <- <-.
  pose proof (cache_memoizes inner _ _ _ _ _ _ I I E1) as Hm.
  destruct m as [|m]; cbn in Hj |- *.
  - injection Hj as ->. rewrite Hlook in Hm. destruct Hm as [-> _]. reflexivity.
  - eapply IH; [exact E2| |exact Hj]. destruct (cache_get c1 x) eqn:Ex.
    + destruct Hm as (_ & -> & _). exact Hlook.
    + destruct Hm as (_ & _ & Hm). rewrite (Hm s I). destruct (N.eqb_spec s x) as [Es|]; auto. congruence.
Qed.
(** The genesis validators root is the one of a beacon state of the chain, whichever cached state is
    picked. *)
Theorem C42_genesis_root St W (inner : provider St W) gvr pick g w rs answers c' w' :
  (forall c, pick c = None <-> c = []) -> (forall c st, pick c = Some st -> exists s, In (s, st) c) ->
  (forall w s st w', inner w s = (Ok st, w') -> gvr st = g) ->
  requests (cached_state_at_slot inner) ([], w) rs = (answers, (c', w')) ->
  match cached_genesis_root gvr pick inner (c', w') with
  | (Ok r, _) => r = g
  | (Err e, _) => c' = [] /\ exists w2, inner w' 0 = (Err e, w2)
  | (Panic, _) => c' = [] /\ exists w2, inner w' 0 = (Panic, w2)
  end.
Proof.
  intros Hn Hp Hg H.
  assert (Inv : forall s st, In (s, st) c' -> gvr st = g).
  { assert (G : forall rs c w answers c' w', requests (cached_state_at_slot inner) (c, w) rs = (answers, (c', w')) ->
      (forall s st, In (s, st) c -> gvr st = g) -> forall s st, In (s, st) c' -> gvr st = g).
    { clear - Hg. induction rs as [|x rs IH]; intros c w answers c' w' H Hc; cbn [requests] in H.
      - injection H as <- <- <-. exact Hc.
      - destruct (cached_state_at_slot inner (c, w) x) as [a [c1 w1]] eqn:E1.
        destruct (requests (cached_state_at_slot inner) (c1, w1) rs) as [l [c3 w3]] eqn:E2. injection H as <- <- <-.
        eapply IH; [exact E2|]. unfold cached_state_at_slot in E1. destruct (cache_get c x); [now injection E1 as <- <- <-|].
        destruct (inner w x) as [[st|e|] w2] eqn:Ei; injection E1 as <- <- <-; auto.
        intros s' st' [E|Hin]; [|eauto]. injection E as <- <-. eapply Hg; eauto. }
    eapply G; [exact H|]. intros s st []. }
  unfold cached_genesis_root. cbn [fst]. destruct (pick c') as [st|] eqn:Ep.
  - destruct (Hp _ _ Ep) as [s Hs]. eapply Inv; eauto.
  - apply Hn in Ep. subst c'. unfold cached_state_at_slot. cbn [cache_get bm_get].
    change (cache_get (@nil (Slot * St)) 0) with (@None St). cbn iota.
    destruct (inner w' 0) as [[st|e|] w2] eqn:Ei; [eapply Hg; eauto|eauto|eauto].
Qed.

(** Toy provider: fails on the first request of every slot, then answers 10 * slot. *)
Definition flaky : provider N (list Slot) :=
  fun seen s => if existsb (N.eqb s) seen then (Ok (10 * s), seen) else (Err (POther 9), s :: seen).
Example C42_nonvacuous :
  requests (cached_state_at_slot flaky) ([], []) [3; 3; 5; 3; 5; 5] =
    ([Err (POther 9); Ok 30; Err (POther 9); Ok 30; Ok 50; Ok 50], ([(5, 50); (3, 30)], [5; 3])) /\
  map fst (misses (fun _ => false) (combine [3; 3; 5; 3; 5; 5] [Err (POther 9); Ok 30; Err (POther 9); Ok 30; Ok 50; Ok 50])) = [3; 3; 5; 5].
Proof. split; vm_compute; reflexivity. Qed.
Example C42_genesis_nonvacuous :
  cached_genesis_root (fun _ => []) (fun c => match c with [] => None | (_, st) :: _ => Some st end) flaky ([], [0]) =
    (Ok [], ([(0, 0)], [0])).
Proof. reflexivity. Qed.

(** ** C43: the state directory *)
(** Any sequence of saves, clears and reads on a directory without state files gives exactly the
    answers of a slot-indexed store: a saved state is read back at its slot, a save never
    overwrites, and clearing drops exactly the slots before the epoch's first slot. Other entries of
    the directory are allowed as long as none is a subdirectory whose name begins with a number. *)
Theorem C43_directory_is_a_store St (slot_of : St -> Slot) ser deser cs d os :
  (forall st, deser (ser st) = Some st) ->
  (forall s, fs_get d (file_name s) = None) -> (forall n, In (n, DirEntry) d -> name_slot n = None) ->
  Forall (op_in_range slot_of (slots_per_epoch cs)) os ->
  dir_ops slot_of ser deser cs d os = map Some (spec_ops slot_of (slots_per_epoch cs) (fun _ => None) os).
Proof.
  intros Hrt Hn Hd Ho. apply represents_run; auto. split; auto.
Qed.
(** On an arbitrary directory. *)
Theorem C43_save_then_read St (slot_of : St -> Slot) ser deser d st d' :
  deser (ser st) = Some st -> save_state slot_of ser d st = (Ok tt, d') ->
  file_state_at_slot deser d' (slot_of st) = Ok st /\
  fs_get d (file_name (slot_of st)) = None /\
  forall n, n <> file_name (slot_of st) -> fs_get d' n = fs_get d n.
Proof.
  intros Hrt H. unfold save_state, fs_exists in H. destruct (fs_get d (file_name (slot_of st))) eqn:E; [discriminate|].
  injection H as <-. split; [|split; auto].
  - unfold file_state_at_slot, fs_exists, fs_read. rewrite fs_get_write, bytes_eqb_refl. cbn. now rewrite Hrt.
  - intros n Hne. rewrite fs_get_write. now rewrite (proj2 (bytes_eqb_neq _ _) Hne).
Qed.
Theorem C43_never_overwrites St (slot_of : St -> Slot) ser d st e :
  fs_get d (file_name (slot_of st)) = Some e ->
  exists x, save_state slot_of ser d st = (Err x, d).
Proof. intros E. unfold save_state, fs_exists. rewrite E. eauto. Qed.
Theorem C43_clear_exact cs d e d' : e * slots_per_epoch cs < 2 ^ 64 ->
  clear_states_before cs d e = (Ok tt, d') ->
  forall n, fs_get d' n = match name_slot n with
                          | Some s => if s <? e * slots_per_epoch cs then None else fs_get d n
                          | None => fs_get d n
                          end.
Proof.
  intros Hb H n. rewrite (clear_spec cs d e d' Hb H n). unfold old. destruct (name_slot n); auto.
Qed.
Theorem C43_names_are_slots s s' : s < 2 ^ 64 ->
  name_slot (file_name s) = Some s /\ (file_name s = file_name s' -> s = s').
Proof. intros H. split; [now apply name_slot_file|apply file_name_inj]. Qed.
(** A file that merely begins with a number is cleared too: "7_notes" goes with the states before
    slot 8. *)
Theorem C43_clear_spares_others_refuted :
  exists d d', fs_get d [x37; x5f; x6e] = Some (FileEntry [x01]) /\
    (forall s, file_name s <> [x37; x5f; x6e]) /\
    clear_states_before toy_cs d 4 = (Ok tt, d') /\ fs_get d' [x37; x5f; x6e] = None.
Proof.
  exists [([x37; x5f; x6e], FileEntry [x01])], []. split; [reflexivity|]. split; [|split; vm_compute; reflexivity].
  intros s E. apply (f_equal (@length byte)) in E. unfold file_name in E. rewrite app_length in E. cbn in E. lia.
Qed.

(** *** Fetching over several runs of the program *)
(** Each run starts with an empty cache over the directory left by the previous run. *)
Fixpoint lives {St W} (p : provider St (directory * W)) (dw : directory * W) (runs : list (list Slot))
  : list (list (answer St)) * (directory * W) :=
  match runs with
  | [] => ([], dw)
  | rs :: r => let '(a, (_, dw1)) := requests (cached_state_at_slot p) ([], dw) rs in
               let '(l, dw2) := lives p dw1 r in (a :: l, dw2)
  end.
Definition log_of {St} (runs : list (list Slot)) (answers : list (list (answer St))) : list (Slot * answer St) :=
  concat (map (fun x => combine (fst x) (snd x)) (combine runs answers)).

(** Over any number of runs: the client is asked [asked], each slot successfully at most once and
    never for a slot already on disk; all answers for a slot are the same state, on disk or fetched. *)
Theorem C43_fetched_once St W (slot_of : St -> Slot) ser deser (api : provider St W) d w runs answers d' w' :
  (forall st, deser (ser st) = Some st) ->
  (forall w s st w', api w s = (Ok st, w') -> slot_of st = s) ->
  intact deser d ->
  lives (persistent_state_at_slot slot_of ser deser api) (d, w) runs = (answers, (d', w')) ->
  exists asked : list (Slot * answer St),
    requests (reported api) w (map fst asked) = (map snd asked, w') /\
    NoDup (map fst (filter (fun x => success (snd x)) asked)) /\
    (forall s a, In (s, a) asked -> dir_look deser d s = None) /\
    consistent (log_of runs answers) /\
    (forall s st, In (s, Ok st) (log_of runs answers) ->
       dir_look deser d s = Some st \/ dir_look deser d s = None /\ In (s, Ok st) asked) /\
    (forall s st, In (s, Ok st) (log_of runs answers) -> dir_look deser d' s = Some st) /\
    intact deser d'.
Proof.
  intros Hrt Hsl Hd H. pose proof (persistent_memoizes slot_of ser deser api Hrt Hsl) as Hmp.
  set (p := persistent_state_at_slot slot_of ser deser api) in *.
  (* one long run of the persistent provider *)
  assert (G : exists rs as', requests p (d, w) rs = (as', (d', w')) /\ length as' = length rs /\
     forall s st, In (s, Ok st) (log_of runs answers) -> In (s, Ok st) (combine rs as')).
  { clear Hmp. clearbody p. clear Hd Hsl Hrt. revert d w answers H. induction runs as [|rs runs IH]; intros d w answers H; cbn [lives] in H.
    - injection H as <- <- <-. exists [], []. cbn. repeat split; auto.
    - destruct (requests (cached_state_at_slot p) ([], (d, w)) rs) as [a [c [d1 w1]]] eqn:E1.
      destruct (lives p (d1, w1) runs) as [l [d2 w2]] eqn:E2. injection H as <- <- <-.
      destruct (IH _ _ _ E2) as (rs2 & as2 & R2 & L2 & I2).
      destruct (memo_run _ _ _ _ _ (cache_memoizes p) rs [] (d, w) (fun _ => false) a c (d1, w1)) as (L1 & _ & R1 & _ & L5 & L6); auto.
      { now apply Forall_forall. }
      set (ms := misses (fun _ => false) (combine rs a)) in *.
      exists (map fst ms ++ rs2), (map snd ms ++ as2). split; [eapply requests_app; eauto|].
      split; [rewrite !app_length, !map_length; lia|].
      intros s st Hin. unfold log_of in Hin. cbn [combine map concat fst snd] in Hin. apply in_app_or in Hin as [Hin|Hin].
      + apply L5 in Hin. apply L6 in Hin as [Hin|Hin]; auto; [discriminate|].
        clear - Hin. assert (E : combine (map fst ms ++ rs2) (map snd ms ++ as2) = ms ++ combine rs2 as2).
        { clear. induction ms as [|[x y] ms IH]; cbn; auto. now rewrite IH. }
        rewrite E. apply in_or_app. auto.
      + apply I2 in Hin. assert (E : combine (map fst ms ++ rs2) (map snd ms ++ as2) = ms ++ combine rs2 as2).
        { clear. induction ms as [|[x y] ms IH]; cbn; auto. now rewrite IH. }
        rewrite E. apply in_or_app. auto. }
  destruct G as (rs & as' & R & L & Hin).
  destruct (memo_run _ _ _ _ _ Hmp rs d w (fun s => match dir_look deser d s with Some _ => true | None => false end) as' d' w')
    as (_ & Hg' & R' & L4 & L5 & L6); auto.
  { now apply Forall_forall. }
  eexists. split; [exact R'|]. split; [apply misses_once|]. split; [|split; [|split; [|split]]]; auto.
  - intros s a Ha. apply misses_In in Ha as [_ Ha]. cbn in Ha. destruct (dir_look deser d s); [discriminate|auto].
  - intros s st1 st2 H1 H2. apply Hin in H1, H2. apply L5 in H1, H2. congruence.
  - intros s st Hs. apply Hin in Hs. apply L5 in Hs. apply L6 in Hs as [Hs|Hs]; auto. right. split; auto.
    apply misses_In in Hs as [_ Hs]. cbn in Hs. destruct (dir_look deser d s); [discriminate|auto].
Qed.

(** A toy serialization: the decimal digits and a newline. *)
Definition t_ser (n : N) : bytes := decimal n ++ [x0a].
Definition t_deser (b : bytes) : option N :=
  if byte_eqb (last b x00) x0a then digits_val 0 (removelast b) else None.
Lemma t_round st : t_deser (t_ser st) = Some st.
Proof. unfold t_deser, t_ser. rewrite last_last, removelast_last. cbn. apply decimal_val. Qed.
Lemma t_prefix st m : (m < length (t_ser st))%nat -> t_deser (firstn m (t_ser st)) = None.
Proof.
  intros H. unfold t_ser in *. rewrite app_length in H. cbn in H. unfold t_deser.
  rewrite firstn_app. replace (m - length (decimal st))%nat with 0%nat by lia. cbn [firstn]. rewrite app_nil_r.
  destruct (byte_eqb (last (firstn m (decimal st)) x00) x0a) eqn:E; auto. exfalso. apply byte_eqb_eq in E.
  pose proof (decimal_digits st) as Hd. set (l := firstn m (decimal st)) in *.
  destruct (list_eq_dec Byte.byte_eq_dec l []) as [En|En]; [rewrite En in E; discriminate|].
  assert (Hin : In (last l x00) (decimal st)).
  { rewrite <- (firstn_skipn m (decimal st)). apply in_or_app. left. fold l.
    destruct (exists_last En) as (l' & x & ->). rewrite last_last. apply in_or_app. right. left. auto. }
  rewrite Forall_forall in Hd. destruct (Hd _ Hin) as (v & Hv & Ev). rewrite E in Ev. symmetry in Ev. revert Ev.
  apply digit_not; auto. left. vm_compute. reflexivity.
Qed.
Definition t_api : provider N nat := fun w s => if s =? 4 then (Err (NotFound 4), S w) else (Ok s, S w).
Example C43_store_nonvacuous :
  dir_ops (fun n => n) t_ser t_deser toy_cs [([x61], DirEntry)]
    [Save 9; Save 12; Save 9; Read 9; Clear 5; Read 9; Read 12; Save 9; Read 9]
  = map Some [Done; Done; Refused; Found 9; Done; Missing; Found 12; Done; Found 9] /\
  (forall st, t_deser (t_ser st) = Some st) /\ (forall s, fs_get [([x61], DirEntry)] (file_name s) = None).
Proof.
  split; [vm_compute; reflexivity|]. split; [apply t_round|]. intros s. unfold fs_get. cbn [rm_get].
  rewrite (proj2 (bytes_eqb_neq _ _)); auto. intros E. apply (f_equal (@length byte)) in E.
  unfold file_name in E. rewrite app_length in E. cbn in E. lia.
Qed.
Example C43_fetched_once_nonvacuous :
  exists d w, lives (persistent_state_at_slot (fun n => n) t_ser t_deser t_api) ([], O) [[7; 4; 7]; [7; 4; 8]] =
    ([[Ok 7; Err (POther 5); Ok 7]; [Ok 7; Err (POther 5); Ok 8]], (d, w)) /\ w = 4%nat.
Proof. do 2 eexists. split; vm_compute; reflexivity. Qed.

(** A client answering with a state of another slot: the first request succeeds and every later one
    fails. *)
Theorem C43_foreign_slot_refuted :
  exists (api : provider N unit) d1 d2,
    persistent_state_at_slot (fun n => n) t_ser t_deser api ([], tt) 7 = (Ok 6, (d1, tt)) /\
    persistent_state_at_slot (fun n => n) t_ser t_deser api (d1, tt) 7 = (Err (POther 2), (d2, tt)).
Proof. exists (fun w s => (Ok 6, w)). do 2 eexists. split; vm_compute; reflexivity. Qed.

(** ** C49: a crash while saving *)
(** The file left by a save interrupted after [n] bytes is either complete, or never taken for a
    state if no proper prefix of a serialization decodes. *)
Theorem C49_no_wrong_state St (slot_of : St -> Slot) ser deser n d st :
  deser (ser st) = Some st ->
  (forall st m, (m < length (ser st))%nat -> deser (firstn m (ser st)) = None) ->
  fs_get d (file_name (slot_of st)) = None ->
  let d' := save_interrupted slot_of ser n d st in
  (file_state_at_slot deser d' (slot_of st) = Ok st /\ (length (ser st) <= n)%nat \/
   (exists x, file_state_at_slot deser d' (slot_of st) = Err (POther x)) /\ (n < length (ser st))%nat) /\
  forall s, s <> slot_of st -> file_state_at_slot deser d' s = file_state_at_slot deser d s.
Proof.
  intros Hrt Hp E. cbn zeta. unfold save_interrupted, fs_exists. rewrite E. split.
  - unfold file_state_at_slot, fs_exists, fs_read. rewrite fs_get_write, bytes_eqb_refl. cbn.
    destruct (Nat.le_gt_cases (length (ser st)) n) as [Hl|Hl].
    + left. rewrite firstn_all2 by exact Hl. now rewrite Hrt.
    + right. rewrite Hp by exact Hl. cbn. eauto.
  - intros s Hs. unfold file_state_at_slot, fs_exists, fs_read. rewrite fs_get_write.
    rewrite (proj2 (bytes_eqb_neq _ _)); auto. intros E'. apply file_name_inj in E'. congruence.
Qed.
(** But the slot stays unavailable: after the crash every request for it fails, without asking the
    client again, and it cannot be saved again, until the file is removed. *)
Theorem C49_slot_blocked St W (slot_of : St -> Slot) ser deser (api : provider St W) n d w st :
  (n < length (ser st))%nat -> deser (firstn n (ser st)) = None ->
  fs_get d (file_name (slot_of st)) = None ->
  let d' := save_interrupted slot_of ser n d st in
  (exists x, persistent_state_at_slot slot_of ser deser api (d', w) (slot_of st) = (Err (POther x), (d', w))) /\
  (exists x, save_state slot_of ser d' st = (Err x, d')).
Proof.
  intros Hn Hd E. cbn zeta. unfold save_interrupted, fs_exists. rewrite E. split.
  - unfold persistent_state_at_slot, file_state_at_slot, fs_exists, fs_read. rewrite fs_get_write, bytes_eqb_refl. cbn.
    rewrite Hd. cbn. eauto.
  - unfold save_state, fs_exists. rewrite fs_get_write, bytes_eqb_refl. eauto.
Qed.
(** Clearing repairs it. *)
Theorem C49_clear_repairs St W (slot_of : St -> Slot) ser deser (api : provider St W) cs n d d2 w w' st e :
  deser (ser st) = Some st -> slot_of st < 2 ^ 64 ->
  e * slots_per_epoch cs < 2 ^ 64 -> slot_of st < e * slots_per_epoch cs ->
  clear_states_before cs (save_interrupted slot_of ser n d st) e = (Ok tt, d2) ->
  api w (slot_of st) = (Ok st, w') ->
  exists d3, persistent_state_at_slot slot_of ser deser api (d2, w) (slot_of st) = (Ok st, (d3, w')) /\
             file_state_at_slot deser d3 (slot_of st) = Ok st.
Proof.
  intros Hrt Hs He Hlt Hc Ha. pose proof (clear_spec _ _ _ _ He Hc (file_name (slot_of st))) as G.
  unfold old in G. rewrite name_slot_file in G by exact Hs. replace (slot_of st <? e * slots_per_epoch cs) with true in G by lia.
  unfold persistent_state_at_slot, file_state_at_slot at 1, fs_exists. rewrite G. cbn. rewrite Ha.
  unfold save_state, fs_exists. rewrite G. eexists. split; [reflexivity|].
  unfold file_state_at_slot, fs_exists, fs_read. rewrite fs_get_write, bytes_eqb_refl. cbn. now rewrite Hrt.
Qed.
Example C49_nonvacuous :
  (forall st m, (m < length (t_ser st))%nat -> t_deser (firstn m (t_ser st)) = None) /\
  let d := save_interrupted (fun n : N => n) t_ser 1 [] 9 in
  file_state_at_slot t_deser d 9 = Err (POther 3) /\
  exists d2, clear_states_before toy_cs d 5 = (Ok tt, d2) /\ file_state_at_slot t_deser d2 9 = Err (NotFound 9).
Proof. split; [apply t_prefix|]. split; [vm_compute; reflexivity|]. eexists. split; vm_compute; reflexivity. Qed.

(** ** C50: the state of a checkpoint *)
(** The state returned for a checkpoint has the checkpoint's block root, and is the state of the
    last block at or before the epoch's first slot when the provider answers consistently. *)
Theorem C50_checkpoint_root St slot_of header_slot block_root (state_at_slot : Slot -> answer St) cs c st :
  state_at_checkpoint slot_of header_slot block_root state_at_slot cs c = Ok st -> block_root st = root c.
Proof.
  unfold state_at_checkpoint. intros H. apply bind_ok in H as (st' & _ & H). apply bind_ok in H as (u & He & H).
  injection H as ->. unfold ensure in He. destruct (bytes_eqb (root c) (block_root st)) eqn:E; [|discriminate].
  apply bytes_eqb_eq in E. auto.
Qed.
(** A linear chain: [block_slot s] is the slot of the latest block at or before [s]; every provider
    answer at [s] is the state at [s], and it records that block. *)
Definition linear {St} (slot_of header_slot : St -> Slot) (block_root : St -> Root) (state_at_slot : Slot -> answer St)
           (block_slot : Slot -> Slot) (root_at : Slot -> Root) : Prop :=
  (forall s st, state_at_slot s = Ok st -> slot_of st = s /\ header_slot st = block_slot s /\ block_root st = root_at (block_slot s)) /\
  (forall s, block_slot s <= s) /\ (forall s, block_slot (block_slot s) = block_slot s).
Theorem C50_boundary_state St slot_of header_slot block_root (state_at_slot : Slot -> answer St) block_slot root_at cs c st :
  linear slot_of header_slot block_root state_at_slot block_slot root_at ->
  epoch c * slots_per_epoch cs < 2 ^ 64 ->
  state_at_checkpoint slot_of header_slot block_root state_at_slot cs c = Ok st ->
  let b := block_slot (epoch c * slots_per_epoch cs) in
  state_at_slot b = Ok st /\ slot_of st = b /\ header_slot st = b /\ b <= epoch c * slots_per_epoch cs /\ root c = root_at b.
Proof.
  intros (H1 & H2 & H3) Hb H. cbn zeta. pose proof (C50_checkpoint_root _ _ _ _ _ _ _ _ H) as Hr.
  unfold state_at_checkpoint in H. apply bind_ok in H as (st' & H & He). apply bind_ok in He as (u & _ & He). injection He as ->.
  unfold state_at_epoch_boundary, state_at_epoch in H. rewrite start_slot_exact in H by exact Hb.
  apply bind_ok in H as (s0 & Hs0 & H). destruct (H1 _ _ Hs0) as (A1 & A2 & A3).
  set (s := epoch c * slots_per_epoch cs) in *.
  destruct (N.eqb_spec (header_slot s0) (slot_of s0)) as [E|E].
  - injection H as ->. rewrite A2, A1 in E. rewrite E in *. repeat split; auto; try lia. rewrite <- Hr. exact A3.
  - rewrite A2 in H. destruct (H1 _ _ H) as (B1 & B2 & B3). rewrite H3 in B2, B3. repeat split; auto. congruence.
Qed.
(** Conversely the checkpoint of the chain is served whenever the two states are available. *)
Theorem C50_served St slot_of header_slot block_root (state_at_slot : Slot -> answer St) block_slot root_at cs c s0 st :
  linear slot_of header_slot block_root state_at_slot block_slot root_at ->
  epoch c * slots_per_epoch cs < 2 ^ 64 ->
  state_at_slot (epoch c * slots_per_epoch cs) = Ok s0 ->
  state_at_slot (block_slot (epoch c * slots_per_epoch cs)) = Ok st ->
  root c = root_at (block_slot (epoch c * slots_per_epoch cs)) ->
  state_at_checkpoint slot_of header_slot block_root state_at_slot cs c = Ok st.
Proof.
  intros (H1 & H2 & H3) Hb Hs0 Hst Hr. unfold state_at_checkpoint, state_at_epoch_boundary, state_at_epoch.
  rewrite start_slot_exact by exact Hb. set (s := epoch c * slots_per_epoch cs) in *. rewrite Hs0. cbn [bind].
  destruct (H1 _ _ Hs0) as (A1 & A2 & A3). destruct (H1 _ _ Hst) as (B1 & B2 & B3). rewrite H3 in B3.
  destruct (N.eqb_spec (header_slot s0) (slot_of s0)) as [E|E].
  - rewrite A2, A1 in E. rewrite E in Hst. rewrite Hst in Hs0. injection Hs0 as <-. cbn [bind].
    rewrite Hr, B3, bytes_eqb_refl. reflexivity.
  - rewrite A2, Hst. cbn [bind]. rewrite Hr, B3, bytes_eqb_refl. reflexivity.
Qed.
(** Toy: slots 8 and 9 are empty. A state is its slot. *)
Definition b_slot (s : Slot) : Slot := if (8 <=? s) && (s <=? 9) then 7 else s.
Example C50_nonvacuous :
  let at_slot := fun s : Slot => Ok s : answer N in
  linear (fun s => s) b_slot (fun s => le_bytes 32 (b_slot s)) at_slot b_slot (le_bytes 32) /\
  state_at_checkpoint (fun s => s) b_slot (fun s => le_bytes 32 (b_slot s)) at_slot toy_cs {| epoch := 4; root := le_bytes 32 7 |} = Ok 7 /\
  state_at_checkpoint (fun s => s) b_slot (fun s => le_bytes 32 (b_slot s)) at_slot toy_cs {| epoch := 4; root := le_bytes 32 8 |} = Err InvalidCheckpoint.
Proof.
  cbn zeta. split; [|split; vm_compute; reflexivity]. unfold linear. split; [|split].
  - intros s st [= ->]. unfold b_slot. destruct ((8 <=? st) && (st <=? 9)) eqn:E; auto.
  - intros s. unfold b_slot. destruct ((8 <=? s) && (s <=? 9)) eqn:E; lia.
  - intros s. unfold b_slot. destruct ((8 <=? s) && (s <=? 9)) eqn:E; [reflexivity|]. now rewrite E.
Qed.

Print Assumptions C42_asks_only_misses.
Print Assumptions C42_success_is_final.
Print Assumptions C42_genesis_root.
Print Assumptions C43_directory_is_a_store.
Print Assumptions C43_save_then_read.
Print Assumptions C43_never_overwrites.
Print Assumptions C43_clear_exact.
Print Assumptions C43_names_are_slots.
Print Assumptions C43_clear_spares_others_refuted.
Print Assumptions C43_fetched_once.
Print Assumptions C43_foreign_slot_refuted.
Print Assumptions C49_no_wrong_state.
Print Assumptions C49_slot_blocked.
Print Assumptions C49_clear_repairs.
Print Assumptions C50_checkpoint_root.
Print Assumptions C50_boundary_state.
Print Assumptions C50_served.
