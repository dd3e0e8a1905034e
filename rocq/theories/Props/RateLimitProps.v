(** C94: the rate limit holds for every schedule, delays requests and does nothing else. *)
From Coq Require Import String List Arith NArith ZArith Bool Lia ZifyBool ZifyNat ZifyN Permutation Sorted.
From Coq.Init Require Import Byte.
From Verif.Model Require Import Base RateLimit.
From Verif.Model Require Args.
From Verif.Spec Require CommandLine.
From Verif.Props Require ArgsProps.
From Verif.Proof Require Import BaseLemmas.
Import ListNotations.
Open Scope list_scope.
Open Scope N_scope.

(** ** Specification *)
(** What the calls of the builder ask for: the last rate that was given, 0 for none; a cache if there was one. *)
Definition limit_of (cs : list call) : N := fold_left (fun a c => match c with WithRateLimit n => n | WithCache => a end) cs 0.
Definition cache_of (cs : list call) : bool := existsb (fun c => match c with WithCache => true | _ => false end) cs.
(** The client that these calls build. *)
Definition client (cs : list call) : list middleware := match @applied unit new cs with Ok b => build b | _ => [] end.
(** Time does not run backwards. *)
Definition in_time (es : list (N * event)) : Prop := StronglySorted N.le (map fst es).
(** How many requests reached the node from [a] to [a + w]. *)
Definition between (a w : N) (x : N * request) : bool := (a <=? fst x) && (fst x <=? a + w).
Definition count (p : N * request -> bool) (l : list (N * request)) : N := N.of_nat (length (filter p l)).
(** The requests that the program made, numbered. *)
Fixpoint numbered (k : nat) (es : list (N * event)) : list request :=
  match es with
  | [] => []
  | (_, Ask u) :: es' => (k, u) :: numbered (S k) es'
  | _ :: es' => numbered k es'
  end.

(** ** Building *)
Lemma applied_spec E cs : forall b, @applied E b cs =
  Ok (mkBuilder (b_cache b || cache_of cs)
        (let n := fold_left (fun a c => match c with WithRateLimit n => n | WithCache => a end) cs (match b_limit b with Some n => n | None => 0 end) in
         if n =? 0 then None else Some n)) \/ b_limit b = Some 0.
Proof.
  induction cs as [|c cs IH]; intros [bc bl]; cbn [applied b_cache b_limit].
  - destruct bl as [n|]; cbn; [|left; now rewrite orb_false_r]. destruct (N.eqb_spec n 0) as [->|H]; [now right|left]. now rewrite orb_false_r.
  - destruct c as [|n]; cbn [apply bind cache_of existsb fold_left b_cache b_limit].
    + destruct (IH (mkBuilder true bl)) as [H|H]; [left|right; exact H]. rewrite H. cbn [b_cache b_limit]. now rewrite orb_true_r.
    + fold (cache_of cs). destruct (N.eqb_spec n 0) as [->|Hn]; cbn [bind].
      * destruct (IH (mkBuilder bc None)) as [H|H]; [left|discriminate]. rewrite H. reflexivity.
      * unfold limiting. destruct (N.eqb_spec n 0) as [X|_]; [contradiction|]. cbn [bind].
        destruct (IH (mkBuilder bc (Some n))) as [H|H]; [left|cbn in H; congruence]. rewrite H. reflexivity.
Qed.
(** Building never panics; only the last rate counts, 0 means no limit, and whatever the order of the calls the cache
    is in front of the limit. *)
Theorem C94_built : forall (E : Type) cs,
  (exists b, @applied E new cs = Ok b) /\
  client cs = (if cache_of cs then [Caching] else []) ++ (if limit_of cs =? 0 then [] else [Limiting (limit_of cs)]).
Proof.
  intros E cs. split.
  - destruct (applied_spec E cs new) as [H|H]; [eauto|discriminate].
  - unfold client. destruct (applied_spec unit cs new) as [-> |H]; [|discriminate]. unfold build. cbn [b_cache b_limit new orb].
    unfold limit_of. destruct (fold_left _ cs 0 =? 0); reflexivity.
Qed.

(** ** Invariants *)
Lemma enter_arrival ms now r s : arrival (enter ms now r s) = arrival s.
Proof. induction ms as [|[|n] ms IH]; cbn [enter]; auto. destruct (existsb _ _); auto. Qed.
Definition stack (c : bool) (n : N) : list middleware := (if c then [Caching] else []) ++ [Limiting n].
Record inv (n : N) (last : N) (s : client_state) : Prop := {
  i_wait : Forall (fun x => snd x = (n, [])) (waiting s);
  i_past : Forall (fun x => fst x <= last) (sent s);
  i_after : forall a, 0 < count (fun x => a <=? fst x) (sent s) ->
    exists v, arrival s = Some v /\ a + count (fun x => a <=? fst x) (sent s) * interval n <= v;
  i_window : forall a w, count (between a w) (sent s) * interval n <= w + burst_time n + interval n;
  i_recent : match arrival s with None => sent s = [] | Some v => exists x, In x (sent s) /\ v <= fst x + burst_time n + interval n end
}.
Lemma inv_later n l l' s : l <= l' -> inv n l s -> inv n l' s.
Proof. intros H [A B C D R]. constructor; auto. eapply Forall_impl; [|exact B]. cbn. lia. Qed.
Lemma pick_some k l x rest : pick k l = Some (x, rest) -> Permutation l (x :: rest) /\ fst (fst x) = k.
Proof.
  revert rest. induction l as [|y l IH]; intros rest; cbn [pick]; [discriminate|]. destruct (Nat.eqb_spec (fst (fst y)) k) as [E|E].
  - intros [= <- <-]. auto.
  - destruct (pick k l) as [[z m]|]; [|discriminate]. intros [= -> <-]. destruct (IH m eq_refl) as [P F]. split; [|exact F].
    rewrite P. apply perm_swap.
Qed.
Lemma count_cons p x l : count p (x :: l) = (if p x then 1 else 0) + count p l.
Proof. unfold count. cbn [filter]. destruct (p x); cbn [length]; lia. Qed.
Lemma count_window l a w last : Forall (fun x : N * request => fst x <= last) l -> last <= a + w ->
  count (between a w) l = count (fun x => a <=? fst x) l.
Proof.
  intros F H. induction F as [|x l Hx _ IH]; [reflexivity|]. rewrite !count_cons, IH. f_equal. unfold between.
  destruct (N.leb_spec (fst x) (a + w)); [now rewrite andb_true_r|lia].
Qed.
Lemma count_none p l : (forall x, In x l -> p x = false) -> count p l = 0.
Proof. induction l as [|x l IH]; intros H; [reflexivity|]. rewrite count_cons, H by (now left). rewrite IH; [reflexivity|]. intros y Hy. apply H. now right. Qed.
Lemma interval_le n : n <> 0 -> interval n <= burst_time n.
Proof. intros H. unfold burst_time. nia. Qed.
Lemma inv_step c n last s now e : n <> 0 -> last <= now -> inv n last s -> inv n now (step (stack c n) s (now, e)).
Proof.
  intros Hn Hl I. apply (inv_later _ _ _ _ Hl) in I. destruct e as [u|k|u]; cbn [step].
  - assert (X : forall s', inv n now s' -> inv n now (enter [Limiting n] now (asked s, u) s')).
    { intros s' [A B C D R]. constructor; auto. cbn [enter waiting]. apply Forall_app. split; [exact A|repeat constructor]. }
    assert (I' : inv n now (mkState (arrival s) (waiting s) (sent s) (served s) (kept s) (S (asked s)))) by (destruct I; constructor; auto).
    unfold stack. destruct c; [|now apply X]. cbn [app enter]. destruct (existsb _ _); [destruct I; constructor; auto|now apply X].
  - destruct (pick k (waiting s)) as [[[r [m ms']] rest]|] eqn:P; [|exact I]. apply pick_some in P as [P _].
    destruct I as [A B C D R]. assert (A' : Forall (fun x => snd x = (n, [])) ((r, (m, ms')) :: rest)) by (eapply Permutation_Forall; eassumption).
    inversion A' as [|? ? H1 H2]; subst. injection H1 as -> ->.
    unfold check. set (v := match arrival s with Some v => v | None => now + interval n end). pose proof (interval_le n Hn) as Ht.
    destruct (N.ltb_spec now (v - burst_time n)) as [Y|Y]; [constructor; auto|]. cbn [enter]. constructor; cbn [waiting sent arrival]; auto.
    + constructor; [cbn; lia|exact B].
    + intros a Hc. eexists. split; [reflexivity|]. rewrite count_cons in *. cbn [fst] in *.
      destruct (N.eq_dec (count (fun x => a <=? fst x) (sent s)) 0) as [Z|Z].
      * rewrite Z in *. destruct (N.leb_spec a now); lia.
      * destruct (C a ltac:(lia)) as (v' & Ev & Hv). assert (v = v') as -> by (subst v; now rewrite Ev). destruct (a <=? now); lia.
    + intros a w. rewrite count_cons. unfold between at 1. cbn [fst]. destruct (N.leb_spec a now) as [L1|L1]; cbn [andb]; [|apply D].
      destruct (N.leb_spec now (a + w)) as [L2|L2]; [|apply D]. rewrite (count_window _ a w now) by assumption.
      destruct (N.eq_dec (count (fun x => a <=? fst x) (sent s)) 0) as [Z|Z]; [rewrite Z; lia|].
      destruct (C a ltac:(lia)) as (v' & Ev & Hv). assert (v = v') as -> by (subst v; now rewrite Ev). lia.
    + exists (now, r). split; [now left|]. cbn [fst]. subst v. destruct (arrival s); lia.
  - destruct (existsb _ _); [|exact I]. destruct I; constructor; auto.
Qed.
Lemma inv_start n : inv n 0 start.
Proof. constructor; cbn; auto; try constructor; try (intros; unfold count in *; cbn in *; lia). Qed.
Lemma inv_fold c n es : n <> 0 -> forall last s, inv n last s -> StronglySorted N.le (map fst es) -> Forall (N.le last) (map fst es) ->
  forall later, Forall (fun x => x <= later) (map fst es) -> last <= later -> inv n later (fold_left (step (stack c n)) es s).
Proof.
  intros Hn. induction es as [|[now e] es IH]; intros last s I S F later Fl L; cbn [fold_left map fst] in *; [eapply inv_later; eassumption|].
  inversion S as [|? ? S1 S2]; inversion F; inversion Fl; subst. apply (IH now); auto. now apply (inv_step c n last).
Qed.
Lemma client_stack cs n : limit_of cs = n -> n <> 0 -> client cs = stack (cache_of cs) n.
Proof. intros H Hn. rewrite (proj2 (C94_built unit cs)), H. destruct (N.eqb_spec n 0); [contradiction|reflexivity]. Qed.
Lemma inv_run cs n es later : limit_of cs = n -> n <> 0 -> in_time es -> Forall (fun x => x <= later) (map fst es) -> inv n later (run (client cs) es).
Proof.
  intros H Hn S F. rewrite (client_stack cs n H Hn). apply (inv_fold _ _ _ Hn 0); auto; [apply inv_start| |lia].
  apply Forall_forall. lia.
Qed.
Lemma bounded (l : list N) : exists m, Forall (fun x => x <= m) l.
Proof.
  induction l as [|a l [m H]]; [exists 0; constructor|]. exists (a + m). constructor; [lia|]. eapply Forall_impl; [|exact H]. cbn. lia.
Qed.

(** ** The rate *)
(** In no stretch of time, whatever the program asks and however the waiting requests are scheduled, do more requests
    reach the node than one per interval and n + 1. *)
Theorem C94_rate : forall cs n es a w, limit_of cs = n -> n <> 0 -> in_time es ->
  count (between a w) (sent (run (client cs) es)) * (1000000000 / n) <= w + (n + 1) * (1000000000 / n).
Proof.
  change (forall cs n es a w, limit_of cs = n -> n <> 0 -> in_time es ->
    count (between a w) (sent (run (client cs) es)) * interval n <= w + (n + 1) * interval n).
  intros cs n es a w H Hn S. destruct (bounded (map fst es)) as [m F]. pose proof (i_window _ _ _ (inv_run cs n es m H Hn S F) a w) as X.
  unfold burst_time in X. lia.
Qed.
(** In particular at most 2 n + 1 in a second, for every n that divides a second into nanoseconds, and never more than
    3 n + 1 for a limit up to a billion. *)
Theorem C94_second : forall cs n es a, limit_of cs = n -> 0 < n <= 1000000000 -> in_time es ->
  count (between a 1000000000) (sent (run (client cs) es)) <= 3 * n + 1 /\
  (1000000000 mod n = 0 -> count (between a 1000000000) (sent (run (client cs) es)) <= 2 * n + 1).
Proof.
  intros cs n es a H Hn S. pose proof (C94_rate cs n es a 1000000000 H ltac:(lia) S) as R. fold (interval n) in R.
  remember (count _ _) as c eqn:E. clear E. assert (D := N.div_mod 1000000000 n ltac:(lia)). assert (M := N.mod_lt 1000000000 n ltac:(lia)).
  fold (interval n) in D. assert (P : 1 <= interval n) by (unfold interval; apply N.div_le_lower_bound; lia).
  remember 1000000000 as G. clear HeqG. split; [nia|]. intros Z. nia.
Qed.

(** ** Nothing else than delay *)
Lemma numbered_app k es es' : numbered k (es ++ es') = numbered k es ++ numbered (k + length (numbered k es)) es'.
Proof.
  revert k. induction es as [|[now e] es IH]; intros k; cbn [app numbered length]; [now rewrite Nat.add_0_r|].
  destruct e; cbn [app length]; rewrite IH; [|reflexivity|reflexivity]. now rewrite Nat.add_succ_r.
Qed.
Definition everywhere (s : client_state) : list request := map fst (waiting s) ++ map snd (sent s) ++ served s.
Lemma enter_everywhere ms now r s : Permutation (everywhere (enter ms now r s)) (r :: everywhere s).
Proof.
  unfold everywhere. induction ms as [|[|n] ms IH]; cbn [enter].
  - cbn [waiting sent served map snd]. cbn [app]. symmetry. apply Permutation_middle.
  - destruct (existsb _ _); [|exact IH]. cbn [waiting sent served]. rewrite !app_assoc. symmetry. apply Permutation_middle.
  - cbn [waiting sent served]. rewrite map_app. cbn [map fst]. rewrite <- app_assoc. cbn [app]. symmetry. apply Permutation_middle.
Qed.
Lemma enter_asked ms now r s : asked (enter ms now r s) = asked s.
Proof. induction ms as [|[|n] ms IH]; cbn [enter]; auto. destruct (existsb _ _); auto. Qed.
Lemma step_everywhere ms s now e : Permutation (everywhere (step ms s (now, e))) (everywhere s ++ numbered (asked s) [(now, e)]) /\
  asked (step ms s (now, e)) = (asked s + length (numbered (asked s) [(now, e)]))%nat.
Proof.
  destruct e as [u|k|u]; cbn [step numbered length].
  - rewrite enter_everywhere, enter_asked. cbn [asked]. split; [|lia]. apply Permutation_cons_append.
  - rewrite app_nil_r. destruct (pick k (waiting s)) as [[[r [n ms']] rest]|] eqn:P; [|split; [reflexivity|lia]]. apply pick_some in P as [P _].
    destruct (check _ _ _ _); [|split; [reflexivity|lia]]. rewrite enter_everywhere, enter_asked. cbn [asked]. split; [|lia].
    unfold everywhere. cbn [waiting sent served]. apply (Permutation_map fst) in P. rewrite P. reflexivity.
  - rewrite app_nil_r. destruct (existsb _ ms); (split; [reflexivity|cbn [asked]; lia]).
Qed.
Lemma everywhere_run ms es : Permutation (everywhere (run ms es)) (numbered 0 es) /\ asked (run ms es) = length (numbered 0 es).
Proof.
  induction es as [|[now e] es [IH1 IH2]] using rev_ind; [split; reflexivity|]. unfold run in *. rewrite fold_left_app. cbn [fold_left].
  destruct (step_everywhere ms (fold_left (step ms) es start) now e) as [P A]. rewrite P, A, IH1, IH2, numbered_app, app_length. split; reflexivity.
Qed.
(** Every request that was made is in exactly one place: waiting, at the node, or answered from the cache; it is at
    the node once at most, and nothing reaches the node that was not asked for. *)
Theorem C94_accounted : forall cs es, let s := run (client cs) es in
  Permutation (map fst (waiting s) ++ map snd (sent s) ++ served s) (numbered 0 es) /\
  NoDup (map fst (map fst (waiting s) ++ map snd (sent s) ++ served s)).
Proof.
  intros cs es s. pose proof (everywhere_run (client cs) es) as [P _]. split; [exact P|].
  apply (Permutation_map fst) in P. eapply Permutation_NoDup; [symmetry; exact P|].
  assert (X : forall k, Forall (fun i => k <= i)%nat (map fst (numbered k es)) /\ NoDup (map fst (numbered k es))).
  { clear. induction es as [|[now e] es IH]; intros k; cbn [numbered]; [split; constructor|]. destruct e; auto. cbn [map fst].
    destruct (IH (S k)) as [F N]. split; constructor; auto.
    - eapply Forall_impl; [|exact F]. cbn. lia.
    - intros H. rewrite Forall_forall in F. specialize (F _ H). lia. }
  apply X.
Qed.
Lemma nodup_left {A} (a b : list A) : NoDup (a ++ b) -> NoDup a.
Proof.
  induction a as [|x a IH]; intros H; [constructor|]. cbn in H. inversion H as [|? ? N1 N2]; subst. constructor; [|auto].
  intros X. apply N1. apply in_app_iff. now left.
Qed.
(** A waiting request gets through as soon as one interval has passed since the last one: nothing waits for ever. *)
Theorem C94_wait : forall cs n es now r ms, limit_of cs = n -> n <> 0 -> in_time (es ++ [(now, Try (fst r))]) ->
  In (r, ms) (waiting (run (client cs) es)) ->
  (forall x, In x (sent (run (client cs) es)) -> fst x + 1000000000 / n <= now) ->
  sent (run (client cs) (es ++ [(now, Try (fst r))])) = (now, r) :: sent (run (client cs) es).
Proof.
  intros cs n es now r ms H Hn S W Q. fold (interval n) in Q.
  assert (ND : NoDup (map (fun x => fst (fst x)) (waiting (run (client cs) es)))).
  { pose proof (proj2 (C94_accounted cs es)) as N0. cbn zeta in N0. rewrite map_app, map_map in N0. exact (nodup_left _ _ N0). }
  destruct (bounded (map fst es)) as [m F].
  assert (S' : in_time es).
  { unfold in_time in *. rewrite map_app in S. clear - S. induction (map fst es) as [|x l IH]; [constructor|]. cbn in S. inversion S; subst.
    constructor; [auto|]. now apply Forall_app in H2. }
  pose proof (inv_run cs n es m H Hn S' F) as [A _ _ _ R]. unfold run in *. rewrite fold_left_app. cbn [fold_left]. set (s := fold_left _ es start) in *.
  rewrite (client_stack cs n H Hn). cbn [step].
  assert (P : exists rest, pick (fst r) (waiting s) = Some ((r, ms), rest)).
  { clear - W ND. induction (waiting s) as [|x l IH]; [contradiction|]. cbn [pick map] in *. inversion ND as [|? ? N1 N2]; subst.
    destruct (Nat.eqb_spec (fst (fst x)) (fst r)) as [E|E].
    - destruct W as [-> |W]; [eauto|]. exfalso. apply N1. exact (eq_ind_r (fun k => In k _) (in_map (fun x => fst (fst x)) _ _ W) E).
    - destruct W as [-> |W]; [now elim E|]. destruct (IH W N2) as [rest ->]. eauto. }
  destruct P as [rest ->]. rewrite Forall_forall in A. specialize (A _ W). cbn in A. subst ms. unfold check.
  pose proof (interval_le n Hn) as Ht.
  assert (Y : (now <? match arrival s with Some v => v | None => now + interval n end - burst_time n) = false).
  { destruct (arrival s) as [v|]; [|lia]. destruct R as (x & Hx & Hv). specialize (Q x Hx). lia. }
  rewrite Y. reflexivity.
Qed.
(** Without a limit nothing waits: a request that the cache does not answer is at the node at once. *)
Theorem C94_no_limit : forall cs es now u, limit_of cs = 0 ->
  waiting (run (client cs) es) = [] /\
  (cache_of cs = false \/ ~ In u (kept (run (client cs) es)) ->
   sent (run (client cs) (es ++ [(now, Ask u)])) = (now, (length (numbered 0 es), u)) :: sent (run (client cs) es)).
Proof.
  intros cs es now u H. rewrite (proj2 (C94_built unit cs)), H. change (0 =? 0) with true. cbn iota. rewrite app_nil_r.
  set (ms := if cache_of cs then [Caching] else []). split.
  - unfold run. assert (X : forall l s, waiting s = [] -> waiting (fold_left (step ms) l s) = []).
    { induction l as [|[x e] l IH]; intros s Hs; [exact Hs|]. cbn [fold_left]. apply IH. destruct e as [v|k|v]; cbn [step].
      - subst ms. destruct (cache_of cs); cbn [enter]; [destruct (existsb _ _)|]; exact Hs.
      - rewrite Hs. exact Hs.
      - destruct (existsb _ ms); exact Hs. }
    now apply X.
  - intros K. pose proof (everywhere_run ms es) as [_ A]. unfold run in *. rewrite fold_left_app. cbn [fold_left step]. rewrite A.
    subst ms. destruct (cache_of cs); [|reflexivity]. destruct K as [K|K]; [discriminate|]. cbn [enter kept snd].
    destruct (existsb (bytes_eqb u) _) eqn:E; [|reflexivity]. apply existsb_exists in E as (x & Hx & E). apply bytes_eqb_eq in E as <-. contradiction.
Qed.
(** A request whose answer the cache keeps is answered from there, whatever its age, and does not touch the limit. *)
Theorem C94_cached : forall cs es now u, cache_of cs = true -> (exists x, In (x, Keep u) es) ->
  let s := run (client cs) es in let s' := run (client cs) (es ++ [(now, Ask u)]) in
  sent s' = sent s /\ waiting s' = waiting s /\ arrival s' = arrival s /\ served s' = (length (numbered 0 es), u) :: served s.
Proof.
  intros cs es now u H (x & Hx) s s'.
  assert (M : exists ms, client cs = Caching :: ms) by (rewrite (proj2 (C94_built unit cs)), H; cbn; eauto). destruct M as [ms M].
  pose proof (everywhere_run (client cs) es) as [_ A]. subst s s'. unfold run in *. rewrite fold_left_app. cbn [fold_left step]. rewrite A, M.
  assert (K : forall l s0, In u (kept s0) \/ In (x, Keep u) l -> In u (kept (fold_left (step (Caching :: ms)) l s0))).
  { assert (EK : forall ms' t0 r s1, kept (enter ms' t0 r s1) = kept s1).
    { clear. induction ms' as [|[|n] ms' IH]; intros; cbn [enter]; auto. destruct (existsb _ _); auto. }
    induction l as [|[y e] l IH]; intros s0 [K|K]; cbn [fold_left]; try contradiction; auto.
    - apply IH. left. destruct e as [v|k|v]; cbn [step].
      + rewrite EK. exact K.
      + destruct (pick k _) as [[[r [n ms']] rest]|]; [|exact K]. destruct (check _ _ _ _); [rewrite EK|]; exact K.
      + cbn [existsb orb kept]. now right.
    - destruct K as [K|K]; [|apply IH; now right]. injection K as -> ->. apply IH. left. now left. }
  specialize (K es start (or_intror Hx)). cbn [enter kept snd].
  assert (E : existsb (bytes_eqb u) (kept (fold_left (step (Caching :: ms)) es start)) = true).
  { apply existsb_exists. exists u. split; [exact K|]. now apply bytes_eqb_eq. }
  rewrite E. cbn. auto.
Qed.
(** Without a cache nothing is answered from it. *)
Theorem C94_no_cache : forall cs es, cache_of cs = false -> served (run (client cs) es) = [].
Proof.
  intros cs es H. rewrite (proj2 (C94_built unit cs)), H. cbn [app]. set (ms := if limit_of cs =? 0 then [] else _).
  assert (N1 : ~ In Caching ms) by (subst ms; destruct (limit_of cs =? 0); cbn; intuition discriminate).
  assert (EN : forall ms' t0 r s1, ~ In Caching ms' -> served (enter ms' t0 r s1) = served s1).
  { clear. induction ms' as [|[|n] ms' IH]; intros t0 r s1 N; cbn [enter]; auto. elim N. now left. }
  unfold run. assert (X : forall l s, served s = [] /\ Forall (fun x => ~ In Caching (snd (snd x))) (waiting s) ->
    served (fold_left (step ms) l s) = []); [|apply X; cbn; auto].
  induction l as [|[x e] l IH]; intros s [Hs Hw]; [exact Hs|]. cbn [fold_left]. apply IH.
  assert (EW : forall ms' t0 r s1, ~ In Caching ms' -> Forall (fun x => ~ In Caching (snd (snd x))) (waiting s1) ->
    Forall (fun x => ~ In Caching (snd (snd x))) (waiting (enter ms' t0 r s1))).
  { clear. intros [|[|n] ms'] t0 r s1 N F; cbn [enter waiting]; auto; [elim N; now left|]. apply Forall_app. split; [exact F|].
    repeat constructor. cbn [snd]. intros K. apply N. now right. }
  destruct e as [v|k|v]; cbn [step].
  - rewrite EN by exact N1. split; [exact Hs|]. now apply EW.
  - destruct (pick k (waiting s)) as [[[r [n ms']] rest]|] eqn:P; [|auto]. apply pick_some in P as [P _].
    assert (F : Forall (fun x => ~ In Caching (snd (snd x))) ((r, (n, ms')) :: rest)) by (eapply Permutation_Forall; eassumption).
    inversion F as [|? ? F1 F2]; subst. cbn [snd] in F1. destruct (check _ _ _ _); [|auto]. rewrite EN by exact F1. split; [exact Hs|]. now apply EW.
  - destruct (existsb _ ms); auto.
Qed.
(** At once, from a fresh client, exactly n requests get through. *)
Definition volley (now : N) (k : nat) : list (N * event) := map (fun _ => (now, Ask [])) (seq 0 k) ++ map (fun i => (now, Try i)) (seq 0 k).
Theorem C94_burst : forall cs n now k, limit_of cs = n -> 0 < n <= 1000000000 -> cache_of cs = false ->
  length (sent (run (client cs) (volley now k))) = Nat.min k (N.to_nat n).
Proof.
  intros cs n now k H Hn Hc. rewrite (client_stack cs n H ltac:(lia)), Hc. unfold stack. cbn [app].
  assert (P : 1 <= interval n) by (unfold interval; apply N.div_le_lower_bound; lia). set (ms := [Limiting n]).
  assert (E1 : forall j i s, asked s = i -> fold_left (step ms) (map (fun _ => (now, Ask [])) (seq i j)) s =
    mkState (arrival s) (waiting s ++ map (fun i => ((i, []), (n, []))) (seq i j)) (sent s) (served s) (kept s) (i + j)).
  { induction j as [|j IH]; intros i s Hi; cbn [seq map fold_left].
    - rewrite app_nil_r, Nat.add_0_r. destruct s; cbn in *. now subst.
    - cbn [step]. rewrite (IH (S i)) by (subst ms; cbn [enter asked]; lia). subst ms. cbn [enter arrival waiting sent served kept]. rewrite Hi, <- app_assoc.
      f_equal. lia. }
  unfold run, volley. rewrite fold_left_app, (E1 k 0%nat start) by reflexivity. cbn [start arrival waiting sent served kept app plus].
  assert (E2 : forall j i s, waiting s = map (fun i => ((i, []), (n, []))) (seq i j) ->
    arrival s = (if Nat.eqb i 0 then None else Some (now + (N.of_nat i + 1) * interval n)) -> length (sent s) = i -> (N.of_nat i <= n) ->
    length (sent (fold_left (step ms) (map (fun i => (now, Try i)) (seq i j)) s)) = Nat.min (i + j) (N.to_nat n)).
  { induction j as [|j IH]; intros i s Hw Ha Hs Hi; cbn [seq map fold_left]; [rewrite Hs; lia|].
    cbn [step]. rewrite Hw. cbn [seq map pick fst]. rewrite Nat.eqb_refl. unfold check. rewrite Ha.
    destruct (N.eq_dec (N.of_nat i) n) as [Ei|Ei].
    - (* the limit is reached: nothing more passes *)
      destruct (Nat.eqb_spec i 0) as [Z|Z]; [lia|].
      assert (Blk : (now <? now + (N.of_nat i + 1) * interval n - burst_time n) = true).
      { unfold burst_time. assert ((N.of_nat i + 1) * interval n = interval n * n + interval n) by (rewrite Ei; lia). lia. }
      assert (St : forall l s', arrival s' = arrival s -> length (sent s') = i -> Forall (fun x => snd x = (n, [])) (waiting s') ->
        length (sent (fold_left (step ms) (map (fun i => (now, Try i)) l) s')) = i).
      { induction l as [|q l IHl]; intros s' Ea El Ew; [exact El|]. cbn [map fold_left step].
        destruct (pick q (waiting s')) as [[[r [m ms']] rest]|] eqn:Pk; [|now apply IHl].
        apply pick_some in Pk as [Pk _]. assert (F : Forall (fun x => snd x = (n, [])) ((r, (m, ms')) :: rest)) by (eapply Permutation_Forall; eassumption).
        inversion F as [|? ? F1 F2 [F3 F4]]. cbn in F1. injection F1 as -> ->. unfold check. rewrite Ea, Ha, Blk.
        now apply IHl. }
      rewrite Blk, St; auto; [lia|]. rewrite Hw. apply Forall_forall. intros y Hy. apply in_map_iff in Hy as (z & <- & _). reflexivity.
    - assert (Y : (now <? (match (if Nat.eqb i 0 then None else Some (now + (N.of_nat i + 1) * interval n)) with Some v => v | None => now + interval n end) - burst_time n) = false).
      { unfold burst_time. destruct (Nat.eqb i 0); nia. }
      rewrite Y. rewrite (IH (S i)); [f_equal; lia|reflexivity| | |lia].
      + cbn [enter arrival Nat.eqb]. f_equal. destruct (Nat.eqb_spec i 0) as [->|]; [change (N.of_nat 1) with 1; lia|].
        rewrite N.max_l by apply N.le_add_r. rewrite Nat2N.inj_succ. lia.
      + cbn [enter sent length]. lia. }
  rewrite E2; cbn; auto. lia.
Qed.

(** The command line tool limits its requests to what --rps stands for, nothing if it is not given or 0, and has no
    cache: every request of a run reaches the node or waits. *)
Theorem C94_command : forall url_ok level_ok env_url env_level gs sub gs' a,
  CommandLine.described url_ok level_ok env_url env_level gs sub gs' a ->
  exists n, CommandLine.stands_for gs "rps" None (Some 0) (CommandLine.number (2 ^ 32)) n /\
    limit_of (program_calls a) = n /\
    client (program_calls a) = (if n =? 0 then [] else [Limiting n]) /\
    forall es, served (run (client (program_calls a)) es) = [] /\ (n = 0 -> waiting (run (client (program_calls a)) es) = []).
Proof.
  intros uok lok eu el gs sub gs' a D. exists (Args.a_rps a). split; [apply D|]. split; [reflexivity|]. split.
  - rewrite (proj2 (C94_built unit _)). reflexivity.
  - intros es. split; [now apply C94_no_cache|]. intros Z. now apply (C94_no_limit (program_calls a) es 0 []).
Qed.

(** ** Concrete cases *)
Definition two_per_second : list call := [WithRateLimit 7; WithCache; WithRateLimit 2].
Example built_two : client two_per_second = [Caching; Limiting 2]. Proof. reflexivity. Qed.
Definition second : N := 1000000000.
(** Three requests at once: two get through, the third half a second later; the answer to the first is kept, and asking
    for it again reaches nobody. *)
Definition busy : list (N * event) :=
  [(0, Ask [x61]); (0, Ask [x62]); (0, Ask [x63]); (0, Try 0%nat); (0, Try 1%nat); (0, Try 2%nat); (5, Keep [x61]); (499999999, Try 2%nat);
   (500000000, Try 2%nat); (500000001, Ask [x61])].
Example busy_in_time : in_time busy. Proof. unfold in_time, busy. cbn [map fst]. repeat constructor; lia. Qed.
Example busy_run : let s := run (client two_per_second) busy in
  map (fun x => (fst x, fst (snd x))) (sent s) = [(500000000, 2%nat); (0, 1%nat); (0, 0%nat)] /\ waiting s = [] /\ served s = [(3%nat, [x61])].
Proof. vm_compute. auto. Qed.
(** After a rest one more than the limit gets through at once: the bound of C94_rate is reached. *)
Example burst_after_rest : count (between (10 * second) 0) (sent (run (client [WithRateLimit 2])
  ([(0, Ask []); (0, Try 0%nat)] ++ map (fun _ => (10 * second, Ask [])) (seq 1 5) ++ map (fun i => (10 * second, Try i)) (seq 1 5)))) = 3.
Proof. vm_compute. reflexivity. Qed.
(** More than a billion a second is no limit. *)
Example no_interval : interval 1000000001 = 0. Proof. reflexivity. Qed.
(** A command line with a limit of five. *)
Example five : exists gs sub gs' a, CommandLine.described ArgsProps.any ArgsProps.any None None gs sub gs' a /\ client (program_calls a) = [Limiting 5].
Proof.
  destruct (Args.parse_args ArgsProps.any ArgsProps.any None None (map CommandLine.ascii ["--rps=5"; "--beacon-api=u"; "verify"; "--trusted-epoch"; "7"]%string)) as [a|] eqn:E;
    [|vm_compute in E; discriminate].
  assert (N : Args.a_rps a = 5) by (vm_compute in E; now injection E as <-).
  apply ArgsProps.C92_read in E as (gs & sub & gs' & _ & D). exists gs, sub, gs', a. split; [exact D|]. unfold program_calls. now rewrite N.
Qed.

Print Assumptions C94_built.
Print Assumptions C94_rate.
Print Assumptions C94_second.
Print Assumptions C94_wait.
Print Assumptions C94_accounted.
Print Assumptions C94_no_limit.
Print Assumptions C94_cached.
Print Assumptions C94_no_cache.
Print Assumptions C94_burst.
Print Assumptions C94_command.
