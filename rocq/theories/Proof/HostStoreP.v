(** Proofs about the state stores. *)
From Coq Require Import List ZArith NArith Bool Lia.
From Coq Require Import ZifyBool ZifyNat ZifyN.
From Coq.Init Require Import Byte.
From Coq.Strings Require Import Byte.
From Verif.Model Require Import Base Types HostChain HostStore.
From Verif.Spec Require Import StoreSpec.
From Verif.Proof Require Import BaseLemmas HostChainP.
Import ListNotations.
Open Scope N_scope.

(** ** Decimal names *)
Lemma digit_val_digit n : n < 10 -> digit_val (digit n) = Some n.
Proof.
  intros H. unfold digit_val, digit. rewrite byte_of_N_to_N.
  rewrite N.mod_small by lia. replace ((48 <=? 48 + n) && (48 + n <=? 57)) with true by lia. f_equal. lia.
Qed.
Lemma digits_val_app a b : forall acc, digits_val acc (a ++ b) =
  match digits_val acc a with Some v => digits_val v b | None => None end.
Proof. induction a as [|x a IH]; intros acc; cbn [digits_val app]; auto. destruct (digit_val x); auto. Qed.
Lemma decimal_fuel_val fuel : forall n, n < 10 ^ N.of_nat (S fuel) -> digits_val 0 (decimal_fuel fuel n) = Some n.
Proof.
  induction fuel as [|f IH]; intros n Hn; cbn [decimal_fuel].
  - change (10 ^ N.of_nat 1) with 10 in Hn. cbn [digits_val]. rewrite digit_val_digit by exact Hn. reflexivity.
  - destruct (N.ltb_spec n 10) as [Hl|Hl].
    + cbn [digits_val]. rewrite digit_val_digit by exact Hl. reflexivity.
    + rewrite digits_val_app, IH.
      * cbn [digits_val]. rewrite digit_val_digit by (apply N.mod_lt; lia). f_equal.
        pose proof (N.div_mod n 10). lia.
      * apply N.div_lt_upper_bound; [lia|]. rewrite <- N.pow_succ_r'. replace (N.succ (N.of_nat (S f))) with (N.of_nat (S (S f))) by lia. exact Hn.
Qed.
Lemma decimal_val n : digits_val 0 (decimal n) = Some n.
Proof.
  unfold decimal. apply decimal_fuel_val. rewrite Nnat.Nat2N.inj_succ, N2Nat.id, N.pow_succ_r'.
  apply N.lt_le_trans with (2 ^ N.size n); [apply N.size_gt|].
  apply N.le_trans with (10 ^ N.size n).
  - apply N.pow_le_mono_l. lia.
  - generalize (10 ^ N.size n). intros. lia.
Qed.
Definition is_digit (b : byte) : Prop := exists v, v < 10 /\ b = digit v.
Lemma decimal_digits n : Forall is_digit (decimal n).
Proof.
  unfold decimal. assert (H : forall fuel n, n < 10 ^ N.of_nat (S fuel) -> Forall is_digit (decimal_fuel fuel n)).
  { induction fuel as [|f IH]; intros m Hm; cbn [decimal_fuel].
    - constructor; [|constructor]. exists m. split; auto.
    - destruct (N.ltb_spec m 10).
      + constructor; [|constructor]. exists m. auto.
      + apply Forall_app. split.
        * apply IH. apply N.div_lt_upper_bound; [lia|]. rewrite <- N.pow_succ_r'.
          replace (N.succ (N.of_nat (S f))) with (N.of_nat (S (S f))) by lia. exact Hm.
        * constructor; [|constructor]. exists (m mod 10). split; [apply N.mod_lt; lia|auto]. }
  apply H. rewrite Nnat.Nat2N.inj_succ, N2Nat.id, N.pow_succ_r'.
  apply N.lt_le_trans with (2 ^ N.size n); [apply N.size_gt|].
  apply N.le_trans with (10 ^ N.size n).
  - apply N.pow_le_mono_l. lia.
  - generalize (10 ^ N.size n). intros. lia.
Qed.
Lemma decimal_nonempty n : decimal n <> [].
Proof.
  unfold decimal. destruct (N.to_nat (N.size n)); cbn [decimal_fuel]; [discriminate|].
  destruct (n <? 10); [discriminate|]. destruct (decimal_fuel _ _); discriminate.
Qed.
Lemma digit_N v : v < 10 -> Byte.to_N (digit v) = 48 + v.
Proof. intros. unfold digit. rewrite byte_of_N_to_N. apply N.mod_small. lia. Qed.
Lemma digit_not b v : v < 10 -> Byte.to_N b < 48 \/ 57 < Byte.to_N b -> digit v <> b.
Proof. intros Hv Hb E. pose proof (digit_N v Hv) as H. rewrite E in H. lia. Qed.

Lemma before_underscore_digits l r : Forall is_digit l -> before_underscore (l ++ x5f :: r) = l.
Proof.
  induction 1 as [|b l (v & Hv & ->) H IH]; cbn [before_underscore app]; auto.
  destruct (byte_eqb (digit v) x5f) eqn:E.
  - apply byte_eqb_eq in E. exfalso. revert E. apply digit_not; auto. right. vm_compute. reflexivity.
  - now rewrite IH.
Qed.
Lemma name_slot_file s : s < 2 ^ 64 -> name_slot (file_name s) = Some s.
Proof.
  intros Hs. unfold name_slot, file_name, suffix. rewrite before_underscore_digits by apply decimal_digits.
  unfold parse_u64. pose proof (decimal_nonempty s) as Hne. pose proof (decimal_digits s) as Hd.
  assert (Hbody : (match decimal s with x2b :: r => r | _ => decimal s end) = decimal s).
  { destruct (decimal s) as [|b r]; auto. inversion Hd as [|? ? (v & Hv & Eb) _]; subst.
    destruct (digit v) eqn:E; auto. exfalso. revert E. apply digit_not; auto. left. vm_compute. reflexivity. }
  rewrite Hbody. rewrite decimal_val. unfold two64. destruct (decimal s); [congruence|].
  replace (s <? 2 ^ 64) with true by lia. reflexivity.
Qed.
Lemma file_name_inj a b : file_name a = file_name b -> a = b.
Proof.
  unfold file_name. intros H. apply app_inv_tail in H. pose proof (decimal_val a) as Ha. rewrite H, decimal_val in Ha. congruence.
Qed.

(** ** Directories *)
Lemma fs_get_remove d n n' : fs_get (fs_remove d n) n' = if bytes_eqb n' n then None else fs_get d n'.
Proof.
  unfold fs_get. induction d as [|[k e] d IH]; cbn [fs_remove rm_get].
  - destruct (bytes_eqb n' n); reflexivity.
  - destruct (bytes_eqb n k) eqn:E.
    + apply bytes_eqb_eq in E as <-. rewrite IH. destruct (bytes_eqb n' n); reflexivity.
    + cbn [rm_get]. destruct (bytes_eqb n' k) eqn:E2.
      * apply bytes_eqb_eq in E2 as ->. apply bytes_eqb_neq in E. rewrite (proj2 (bytes_eqb_neq k n)) by congruence. reflexivity.
      * exact IH.
Qed.
Lemma fs_get_write d n b n' : fs_get (fs_write d n b) n' = if bytes_eqb n' n then Some (FileEntry b) else fs_get d n'.
Proof.
  unfold fs_write, fs_get. cbn [rm_get]. destruct (bytes_eqb n' n) eqn:E; auto.
  change (fs_get (fs_remove d n) n' = fs_get d n'). rewrite fs_get_remove, E. reflexivity.
Qed.
Lemma fs_get_In d n e : fs_get d n = Some e -> In (n, e) d.
Proof.
  unfold fs_get. induction d as [|[k v] d IH]; cbn; [discriminate|].
  destruct (bytes_eqb n k) eqn:E; auto. apply bytes_eqb_eq in E as <-. intros [= ->]. auto.
Qed.
Lemma fs_remove_incl d n x : In x (fs_remove d n) -> In x d /\ fst x <> n.
Proof.
  induction d as [|[k e] d IH]; cbn [fs_remove]; [intros []|].
  destruct (bytes_eqb n k) eqn:E.
  - intros H. apply IH in H as [H1 H2]. split; [right|]; auto.
  - apply bytes_eqb_neq in E. intros [<-|H]; [split; [left; auto|simpl; congruence]|].
    apply IH in H as [H1 H2]. split; [right|]; auto.
Qed.

(** An entry is old when its name starts with the number of a slot before [start]. *)
Definition old (start : Slot) (name : bytes) : bool :=
  match name_slot name with Some s => s <? start | None => false end.
Lemma clear_entries_spec start l : forall d d',
  clear_entries start d l = (Ok tt, d') ->
  forall n, fs_get d' n = if old start n && existsb (fun x => bytes_eqb n (fst x)) l then None else fs_get d n.
Proof.
  induction l as [|[k e] l IH]; intros d d' H n; cbn [clear_entries existsb] in *.
  { injection H as <-. now rewrite andb_false_r. }
  unfold clear_entry in H. cbn [fst snd] in *. unfold old in *.
  destruct (name_slot k) as [s|] eqn:Ek.
  2:{ rewrite (IH d d' H n). destruct (bytes_eqb n k) eqn:E; auto. apply bytes_eqb_eq in E as ->. now rewrite Ek. }
  destruct (s <? start) eqn:Es.
  - destruct e; [|discriminate]. rewrite (IH _ _ H n), fs_get_remove.
    destruct (bytes_eqb n k) eqn:E; auto. apply bytes_eqb_eq in E as ->. rewrite Ek, Es. cbn.
    now destruct (existsb _ l).
  - rewrite (IH _ _ H n). destruct (bytes_eqb n k) eqn:E; auto. apply bytes_eqb_eq in E as ->. now rewrite Ek, Es.
Qed.
Lemma clear_entries_ok start l : forall d,
  (forall n, In (n, DirEntry) l -> old start n = false) -> exists d', clear_entries start d l = (Ok tt, d').
Proof.
  induction l as [|[k e] l IH]; intros d H; cbn [clear_entries]; [eauto|].
  unfold clear_entry. cbn [fst snd].
  assert (Hl : forall n, In (n, DirEntry) l -> old start n = false) by (intros; apply H; right; auto).
  destruct (name_slot k) as [s|] eqn:Ek; [|apply IH; auto].
  destruct (s <? start) eqn:Es; [|apply IH; auto].
  destruct e; [apply IH; auto|]. exfalso. specialize (H k (or_introl eq_refl)). unfold old in H. rewrite Ek in H. congruence.
Qed.
Lemma clear_spec cs d e d' : e * slots_per_epoch cs < 2 ^ 64 ->
  clear_states_before cs d e = (Ok tt, d') ->
  forall n, fs_get d' n = if old (e * slots_per_epoch cs) n then None else fs_get d n.
Proof.
  intros Hb H n. unfold clear_states_before in H. rewrite start_slot_exact in H by exact Hb.
  rewrite (clear_entries_spec _ _ _ _ H n). destruct (old _ n); auto. cbn [andb].
  destruct (existsb _ d) eqn:Ex; auto. destruct (fs_get d n) eqn:G; auto.
  apply fs_get_In in G. assert (existsb (fun x => bytes_eqb n (fst x)) d = true); [|congruence].
  apply existsb_exists. exists (n, e0). split; auto. apply bytes_eqb_refl.
Qed.

(** ** Refinement of the abstract store *)
Section Refine.
  Context {St : Type}.
  Variables (slot_of : St -> Slot) (ser : St -> bytes) (deser : bytes -> option St).
  Hypothesis round_trip : forall st, deser (ser st) = Some st.
  Variable cs : ChainSpec.

  (** The directory holds exactly the states of [m]; there is no directory entry to clear. *)
  Definition represents (d : directory) (m : store St) : Prop :=
    (forall s, s < 2 ^ 64 ->
       fs_get d (file_name s) = match m s with Some st => Some (FileEntry (ser st)) | None => None end) /\
    (forall n, In (n, DirEntry) d -> name_slot n = None).

  Lemma represents_step d m o : represents d m -> op_in_range slot_of (slots_per_epoch cs) o ->
    fst (dir_op slot_of ser deser cs d o) = Some (fst (spec_op slot_of (slots_per_epoch cs) m o)) /\
    represents (snd (dir_op slot_of ser deser cs d o)) (snd (spec_op slot_of (slots_per_epoch cs) m o)).
  Proof.
    intros [Hr Hd] Ho. destruct o as [st|e|s]; cbn [dir_op spec_op op_in_range] in *.
    - unfold save_state, fs_exists. rewrite (Hr (slot_of st) Ho). destruct (m (slot_of st)) eqn:Em; cbn [fst snd].
      + split; [reflexivity|split; auto].
      + split; [reflexivity|]. split.
        * intros s Hs. rewrite fs_get_write. destruct (N.eqb_spec s (slot_of st)) as [Es|Hne].
          { subst s. now rewrite bytes_eqb_refl. }
          { rewrite (proj2 (bytes_eqb_neq _ _)) by (intros E; apply file_name_inj in E; congruence). auto. }
        * intros n [Hn|Hn]; [discriminate|]. apply fs_remove_incl in Hn as [Hn _]. auto.
    - destruct (clear_states_before cs d e) as [a d'] eqn:Ec. cbn [fst snd].
      assert (Hok : exists d2, clear_states_before cs d e = (Ok tt, d2)).
      { unfold clear_states_before. apply clear_entries_ok. intros n Hn. unfold old. now rewrite (Hd n Hn). }
      destruct Hok as [d2 Hok]. rewrite Hok in Ec. injection Ec as <- <-. split; [reflexivity|].
      pose proof (clear_spec cs d e d2 Ho Hok) as Hc. split.
      + intros s Hs. rewrite Hc. unfold old. rewrite name_slot_file by exact Hs.
        destruct (s <? e * slots_per_epoch cs); auto.
      + intros n Hn. apply Hd. clear - Hok Hn. unfold clear_states_before in Hok.
        assert (G : forall l d0 d1, clear_entries (start_slot cs e) d0 l = (Ok tt, d1) -> incl d1 d0).
        { clear. induction l as [|[k v] l IH]; intros d0 d1 H; cbn [clear_entries] in H.
          - injection H as <-. apply incl_refl.
          - unfold clear_entry in H. cbn [fst snd] in H. destruct (name_slot k); [|eauto].
            destruct (_ <? _); [|eauto]. destruct v; [|discriminate].
            intros x Hx. apply (IH _ _ H) in Hx. now apply fs_remove_incl in Hx. }
        apply (G _ _ _ Hok). exact Hn.
    - split; [|split; auto]. unfold file_state_at_slot, fs_exists, fs_read. rewrite (Hr s Ho).
      destruct (m s) as [st|]; cbn; [|reflexivity]. now rewrite round_trip.
  Qed.
  Lemma represents_run os : forall d m, represents d m -> Forall (op_in_range slot_of (slots_per_epoch cs)) os ->
    dir_ops slot_of ser deser cs d os = map Some (spec_ops slot_of (slots_per_epoch cs) m os).
  Proof.
    induction os as [|o os IH]; intros d m Hr Ho; cbn [dir_ops spec_ops map]; auto.
    inversion Ho as [|? ? Ho1 Ho2]; subst. destruct (represents_step d m o Hr Ho1) as [H1 H2].
    destruct (dir_op slot_of ser deser cs d o) as [a d']. destruct (spec_op slot_of (slots_per_epoch cs) m o) as [b m'].
    cbn [fst snd] in *. subst a. cbn [map]. f_equal. now apply IH.
  Qed.
End Refine.

(** ** Remembering providers *)
Section Memo.
  Context {St W K : Type}.
  Variables (look : K -> Slot -> option St) (good : K -> Prop) (range : Slot -> Prop).
  Variables (inner : provider St W) (p : provider St (K * W)).

  (** [p] answers from what it remembers, and otherwise asks [inner] and remembers successes. *)
  Definition memoizes : Prop := forall k w s a k' w', range s -> good k -> p (k, w) s = (a, (k', w')) ->
    match look k s with
    | Some st => a = Ok st /\ k' = k /\ w' = w
    | None => inner w s = (a, w') /\ good k' /\
              forall s', range s' -> look k' s' = if s' =? s then match a with Ok st => Some st | _ => None end else look k s'
    end.
  Hypothesis Hmemo : memoizes.

  Lemma memo_run rs : forall k w known as' k' w', Forall range rs -> good k ->
    (forall s, range s -> known s = match look k s with Some _ => true | None => false end) ->
    requests p (k, w) rs = (as', (k', w')) ->
    length as' = length rs /\ good k' /\
    requests inner w (map fst (misses known (combine rs as'))) = (map snd (misses known (combine rs as')), w') /\
    (forall s st, range s -> look k s = Some st -> look k' s = Some st) /\
    (forall s st, In (s, Ok st) (combine rs as') -> look k' s = Some st) /\
    (forall s st, range s -> look k' s = Some st -> look k s = Some st \/ In (s, Ok st) (misses known (combine rs as'))).
  Proof.
    induction rs as [|s rs IH]; intros k w known as' k' w' Hf Hg Hk H; cbn [requests] in H.
    { injection H as <- <- <-. cbn. repeat split; auto. intros s st []. }
    inversion Hf as [|? ? Hs Hf']; subst.
    destruct (p (k, w) s) as [a [k1 w1]] eqn:E1.
    destruct (requests p (k1, w1) rs) as [l [k2 w2]] eqn:E2.
    injection H as <- <- <-. cbn [combine misses fst].
    pose proof (Hmemo _ _ _ _ _ _ Hs Hg E1) as Hm. rewrite (Hk s Hs). destruct (look k s) as [st|] eqn:El.
    - destruct Hm as (-> & -> & ->). destruct (IH _ _ _ _ _ _ Hf' Hg Hk E2) as (L1 & L2 & L3 & L4 & L5 & L6).
      split; [cbn; lia|]. split; [exact L2|]. split; [exact L3|]. split; [exact L4|]. split; [|exact L6].
      intros s' st' [E|Hi]; [|auto]. injection E as <- <-. auto.
    - destruct Hm as (Hi & Hg1 & Hl).
      assert (Hk1 : forall s', range s' -> known s' || (success a && (s' =? s)) = match look k1 s' with Some _ => true | None => false end).
      { intros s' Hs'. rewrite (Hk s' Hs'), (Hl s' Hs'). destruct (N.eqb_spec s' s) as [Es|Hne].
        - subst s'. rewrite El. destruct a; reflexivity.
        - now rewrite andb_false_r, orb_false_r. }
      destruct (IH _ _ _ _ _ _ Hf' Hg1 Hk1 E2) as (L1 & L2 & L3 & L4 & L5 & L6).
      split; [cbn; lia|]. split; [exact L2|]. cbn [map fst snd requests]. rewrite Hi, L3. split; [reflexivity|]. split; [|split].
      + intros s' st' Hs' G. apply L4; auto. rewrite (Hl s' Hs'). destruct (N.eqb_spec s' s) as [Es|Hne]; auto. subst. congruence.
      + intros s' st' [E|Hin]; [|auto]. injection E as <- ->. apply L4; auto. rewrite (Hl s Hs), N.eqb_refl. reflexivity.
      + intros s' st' Hs' G. apply L6 in G as [G|G]; auto; [|right; right; auto].
        rewrite (Hl s' Hs') in G. destruct (N.eqb_spec s' s) as [Es|Hne]; auto. subst s'.
        destruct a; try discriminate. injection G as ->. right. left. reflexivity.
  Qed.
End Memo.
Arguments memoizes {St W K}.

Lemma requests_app {St W} (p : provider St W) r1 : forall r2 w a1 w1 a2 w2,
  requests p w r1 = (a1, w1) -> requests p w1 r2 = (a2, w2) -> requests p w (r1 ++ r2) = (a1 ++ a2, w2).
Proof.
  induction r1 as [|s r1 IH]; intros r2 w a1 w1 a2 w2 H1 H2; cbn [requests app] in *.
  - injection H1 as <- <-. rewrite H2. reflexivity.
  - destruct (p w s) as [a w']. destruct (requests p w' r1) as [l wl] eqn:E. injection H1 as <- <-.
    rewrite (IH r2 _ _ _ _ _ E H2). reflexivity.
Qed.

Lemma cache_memoizes {St W} (inner : provider St W) :
  memoizes cache_get (fun _ => True) (fun _ => True) inner (cached_state_at_slot inner).
Proof.
  intros c w s a c' w' _ _ H. unfold cached_state_at_slot in H. destruct (cache_get c s) as [st|] eqn:E.
  - injection H as <- <- <-. auto.
  - destruct (inner w s) as [[st|x|] w1]; injection H as <- <- <-; split; auto; split; auto; intros s' _;
      unfold cache_get in *; cbn [bm_get]; destruct (N.eqb_spec s' s) as [Es|Hne]; subst; auto.
Qed.

Section Persist.
  Context {St W : Type}.
  Variables (slot_of : St -> Slot) (ser : St -> bytes) (deser : bytes -> option St).
  Variable api : provider St W.
  (** What the directory holds for a slot. *)
  Definition dir_look (d : directory) (s : Slot) : option St :=
    match fs_get d (file_name s) with Some (FileEntry b) => deser b | _ => None end.
  (** Every state file of the directory decodes. *)
  Definition intact (d : directory) : Prop :=
    forall s e, fs_get d (file_name s) = Some e -> exists b st, e = FileEntry b /\ deser b = Some st.
  (** The client with its errors as the provider reports them. *)
  Definition reported (w : W) (s : Slot) : answer St * W :=
    match api w s with (Err _, w') => (Err (POther 5), w') | r => r end.
  Hypothesis round_trip : forall st, deser (ser st) = Some st.
  Hypothesis right_slot : forall w s st w', api w s = (Ok st, w') -> slot_of st = s.

  Lemma persistent_memoizes :
    memoizes dir_look intact (fun _ => True) reported (persistent_state_at_slot slot_of ser deser api).
  Proof.
    intros d w s a d' w' _ Hg H. unfold persistent_state_at_slot, file_state_at_slot, fs_exists, fs_read in H.
    unfold dir_look, reported. destruct (fs_get d (file_name s)) as [e|] eqn:E.
    - destruct (Hg _ _ E) as (b & st & -> & Hb). cbn in H. rewrite Hb in *. cbn in H. injection H as <- <- <-. auto.
    - cbn in H. destruct (api w s) as [[st|x|] w1] eqn:Ea.
      + pose proof (right_slot _ _ _ _ Ea) as Hsl. unfold save_state, fs_exists in H. rewrite Hsl, E in H.
        injection H as <- <- <-. split; auto. split.
        * intros s' e' H'. rewrite fs_get_write in H'. destruct (bytes_eqb (file_name s') (file_name s)); eauto.
          injection H' as <-. eauto.
        * intros s' _. rewrite fs_get_write. destruct (N.eqb_spec s' s) as [Es|Hne].
          { subst s'. now rewrite bytes_eqb_refl. }
          { rewrite (proj2 (bytes_eqb_neq _ _)); auto. intros E'. apply file_name_inj in E'. congruence. }
      + injection H as <- <- <-. split; auto. split; auto. intros s' _.
        destruct (N.eqb_spec s' s) as [Es|Hne]; auto. subst. now rewrite E.
      + injection H as <- <- <-. split; auto. split; auto. intros s' _.
        destruct (N.eqb_spec s' s) as [Es|Hne]; auto. subst. now rewrite E.
  Qed.
End Persist.

(** ** Facts about misses *)
Lemma misses_In {St} (log : list (Slot * answer St)) : forall known x, In x (misses known log) -> In x log /\ known (fst x) = false.
Proof.
  induction log as [|[s a] log IH]; intros known x H; cbn [misses] in H; [destruct H|].
  destruct (known s) eqn:E.
  - apply IH in H as [H1 H2]. split; [right|]; auto.
  - destruct H as [<-|H]; [split; [left|]; auto|]. apply IH in H as [H1 H2]. split; [right; auto|].
    apply orb_false_iff in H2 as [H2 _]. exact H2.
Qed.
Lemma misses_once {St} (log : list (Slot * answer St)) : forall known,
  NoDup (map fst (filter (fun x => success (snd x)) (misses known log))).
Proof.
  induction log as [|[s a] log IH]; intros known; cbn [misses]; [constructor|].
  destruct (known s) eqn:E; [apply IH|]. cbn [filter snd]. destruct (success a) eqn:Ea; [|apply IH].
  cbn [map fst]. constructor; [|apply IH]. intros Hin. apply in_map_iff in Hin as ([s' a'] & Es & Hin). cbn in Es. subst s'.
  apply filter_In in Hin as [Hin _]. apply misses_In in Hin as [_ Hin]. cbn in Hin.
  rewrite N.eqb_refl in Hin. cbn in Hin. now rewrite orb_true_r in Hin.
Qed.
