(** Lemmas about processes that share a data directory. *)
From Coq Require Import List NArith Bool Arith Lia.
From Coq.Init Require Import Byte.
From Verif.Model Require Import Base Types HostStore Cli CliRun ConsensusState GuestReader Guest BeaconClient Networks Shared DataDir.
From Verif.Spec Require Import SharedSpec DataDirSpec.
From Verif.Proof Require Import BaseLemmas HostStoreP SharedP.
Import ListNotations.
Local Open Scope nat_scope.

(** ** Paths *)
Lemma path_eqb_eq a b : path_eqb a b = true <-> a = b.
Proof. unfold path_eqb, segments_eqb. destruct (list_eq_dec (list_eq_dec Byte.byte_eq_dec) a b); split; congruence. Qed.
Lemma path_eqb_refl a : path_eqb a a = true. Proof. now apply path_eqb_eq. Qed.
Lemma path_dec (a b : DataDir.path) : {a = b} + {a <> b}.
Proof. destruct (path_eqb a b) eqn:E; [left; now apply path_eqb_eq|right; intros H; apply path_eqb_eq in H; congruence]. Qed.
Lemma put_here d p b : tree_put d p b p = Some b.
Proof. unfold tree_put. now rewrite path_eqb_refl. Qed.
Lemma put_there d p b q : q <> p -> tree_put d p b q = d q.
Proof. intros H. unfold tree_put. destruct (path_eqb q p) eqn:E; [apply path_eqb_eq in E; contradiction|reflexivity]. Qed.
Lemma decimal_inj a b : decimal a = decimal b -> a = b.
Proof. intros H. pose proof (decimal_val a) as Ha. rewrite H, decimal_val in Ha. congruence. Qed.
Lemma network_name_inj a b : network_name a = network_name b -> a = b.
Proof. destruct a, b; try reflexivity; discriminate. Qed.
Lemma cli_path_inj n m f g : cli_path n f = cli_path m g -> n = m /\ f = g.
Proof.
  destruct f as [a|a], g as [b|b]; cbn [cli_path]; intros H; try (exfalso; injection H as _ H; discriminate).
  - assert (E : decimal a ++ stdin_suffix = decimal b ++ stdin_suffix) by congruence. apply app_inv_tail, decimal_inj in E.
    assert (network_name n = network_name m) by congruence. split; [now apply network_name_inj|congruence].
  - assert (E : decimal a ++ journal_suffix = decimal b ++ journal_suffix) by congruence. apply app_inv_tail, decimal_inj in E.
    assert (network_name n = network_name m) by congruence. split; [now apply network_name_inj|congruence].
Qed.

(** ** Lists of processes *)
Lemma nth_set_nth {A} (l : list A) : forall i x y j, nth_error l i = Some y -> nth_error (set_nth l i x) j = if i =? j then Some x else nth_error l j.
Proof. induction l as [|z l IH]; intros [|i] x y [|j] H; cbn [set_nth nth_error Nat.eqb] in *; try discriminate; auto. eauto. Qed.

(** ** One path *)
Section OnePath.
  Variable p : DataDir.path.
  Variable R : bytes.
  Definition on_path (a : act) : bool := match a with Opening q | Putting q _ _ => path_eqb q p end.
  Definition proj (l : list act) : list act := filter on_path l.
  (** Nothing of the file is under way: what comes is opening it and writing all of it, any number of times. *)
  Inductive closed : list act -> Prop :=
  | closed_nil : closed []
  | closed_more : forall r, closed r -> closed (Opening p :: Putting p R 0 :: r).
  Definition open_at (off : nat) (l : list act) : Prop := exists r, proj l = Putting p R off :: r /\ closed r /\ off <= length R.
  Definition fine (l : list act) : Prop := closed (proj l) \/ exists off, open_at off l.

  Notation rz := (right_or_zeros R).
  Definition upto (n : nat) (c : bytes) : Prop := forall j, j < n -> nth_error c j = nth_error R j.
  Lemma rz_nil : rz [].
  Proof. split; [cbn; lia|]. intros [|j] x; discriminate. Qed.
  Lemma rz_write c n k : n <= length R -> rz c -> rz (overwrite c n (firstn k (skipn n R))).
  Proof. exact (overwrite_right (fun x => x) (fun _ => R) 0%N c n k). Qed.
  Lemma upto_write c n k m : upto m c -> m <= length R -> upto m (overwrite c n (firstn k (skipn n R))).
  Proof. exact (overwrite_upto (fun x => x) (fun _ => R) 0%N c n k m). Qed.
  Lemma upto_more c n k : upto n c -> n <= length R -> upto (n + length (firstn k (skipn n R))) (overwrite c n (firstn k (skipn n R))).
  Proof. exact (overwrite_more (fun x => x) (fun _ => R) 0%N c n k). Qed.
  Lemma upto_full c : rz c -> upto (length R) c -> c = R.
  Proof. exact (right_full (fun x => x) (fun _ => R) 0%N c). Qed.

  Lemma closed_not_open l r off : closed (proj l) -> proj l = Putting p R off :: r -> False.
  Proof. intros H E. rewrite E in H. inversion H. Qed.

  (** The file, over all processes: not touched so far, or right as far as it is not zero, and complete or
      being completed. *)
  Definition untouched (d0 d : tree) (init now : list process) : Prop :=
    d p = d0 p /\ forall i q, nth_error now i = Some q -> exists q0, nth_error init i = Some q0 /\ proj (work_of q) = proj (work_of q0).
  Definition touched (d : tree) (now : list process) : Prop :=
    exists c, d p = Some c /\ rz c /\
      (upto (length R) c \/ exists i q off, nth_error now i = Some q /\ open_at off (work_of q) /\ upto off c).
  Definition path_inv (d0 : tree) (init : list process) (w : tree * list process) : Prop :=
    (forall i q, nth_error (snd w) i = Some q -> fine (work_of q)) /\
    (untouched d0 (fst w) init (snd w) \/ touched (fst w) (snd w)) /\
    ((exists i q off, nth_error (snd w) i = Some q /\ open_at off (work_of q)) -> touched (fst w) (snd w)).

  Lemma call_inv d0 init w t : path_inv d0 init w -> path_inv d0 init (call w t).
  Proof.
    intros Inv. pose proof Inv as (F & U & O). unfold call. destruct (nth_error (snd w) (fst t)) as [[l|l]|] eqn:Ei; try exact Inv.
    pose proof (F _ _ Ei) as Fl. cbn [work_of] in Fl.
    set (i := fst t) in *. set (k := snd t).
    (* a step that leaves the work on [p] and the file alone *)
    assert (Same : forall d q, d p = fst w p -> proj (work_of q) = proj l -> path_inv d0 init (d, set_nth (snd w) i q)).
    { intros d q Ed Ep.
      assert (Fq : fine (work_of q)) by (unfold fine, open_at in *; now rewrite Ep).
      assert (T : touched (fst w) (snd w) -> touched d (set_nth (snd w) i q)).
      { intros (c & E1 & E2 & E3). exists c. rewrite Ed. split; [exact E1|]. split; [exact E2|]. destruct E3 as [E3|(j & q' & off & E3 & E4 & E5)]; [now left|right].
        destruct (Nat.eq_dec i j) as [->|Hj].
        - exists j, q, off. rewrite (nth_set_nth _ _ _ _ _ Ei), Nat.eqb_refl. split; [reflexivity|]. split; [|exact E5].
          rewrite Ei in E3. injection E3 as <-. cbn [work_of] in E4. unfold open_at in *. now rewrite Ep.
        - exists j, q', off. rewrite (nth_set_nth _ _ _ _ _ Ei). apply Nat.eqb_neq in Hj. rewrite Hj. auto. }
      split; [|split]; cbn [fst snd].
      - intros j q'. rewrite (nth_set_nth _ _ _ _ _ Ei). destruct (Nat.eqb_spec i j) as [->|Hj]; [intros [= <-]; exact Fq|apply F].
      - destruct U as [(U1 & U2)|U]; [left|right; auto]. split; [now rewrite Ed|].
        intros j q'. rewrite (nth_set_nth _ _ _ _ _ Ei). destruct (Nat.eqb_spec i j) as [->|Hj]; [|apply U2].
        intros [= <-]. destruct (U2 _ _ Ei) as (q0 & G1 & G2). exists q0. split; [exact G1|]. cbn [work_of] in G2. now rewrite Ep.
      - intros (j & q' & off & G1 & G2). apply T, O. rewrite (nth_set_nth _ _ _ _ _ Ei) in G1. destruct (Nat.eqb_spec i j) as [->|Hj].
        + injection G1 as <-. exists j, (Working l), off. split; [exact Ei|]. unfold open_at in *. cbn [work_of]. now rewrite <- Ep.
        + eauto. }
    destruct l as [|[a|a b off] r]; cbn [act_step].
    - apply Same; reflexivity.
    - destruct k as [|k]; [apply Same; reflexivity|]. destruct (path_dec a p) as [->|Ha].
      2:{ apply Same; [apply put_there; congruence|]. cbn [work_of proj filter on_path]. destruct (path_eqb a p) eqn:E; [apply path_eqb_eq in E; contradiction|reflexivity]. }
      (* the file is opened *)
      assert (Ro : open_at 0 r).
      { destruct Fl as [Fl|(o & r' & Fl & _)]; cbn [proj filter on_path] in Fl; rewrite path_eqb_refl in Fl.
        - inversion Fl as [|r' Hr E]. exists r'. split; [symmetry; assumption|]. split; [exact Hr|lia].
        - discriminate. }
      assert (T : touched (tree_put (fst w) p []) (set_nth (snd w) i (Working r))).
      { exists []. rewrite put_here. split; [reflexivity|]. split; [exact rz_nil|]. right. exists i, (Working r), 0.
        rewrite (nth_set_nth _ _ _ _ _ Ei), Nat.eqb_refl. split; [reflexivity|]. split; [exact Ro|]. intros j Hj. lia. }
      split; [|split; [right; exact T|intros _; exact T]]. cbn [fst snd]. intros j q'. rewrite (nth_set_nth _ _ _ _ _ Ei).
      destruct (Nat.eqb_spec i j) as [->|Hj]; [intros [= <-]; right; eauto|apply F].
    - destruct (path_dec a p) as [->|Ha].
      2:{ assert (Pr : forall o, proj (Putting a b o :: r) = proj r).
          { intros o. cbn [proj filter on_path]. destruct (path_eqb a p) eqn:E; [apply path_eqb_eq in E; contradiction|reflexivity]. }
          destruct (skipn off b) as [|x rest]; [apply Same; [reflexivity|cbn [work_of]; now rewrite Pr]|].
          destruct k as [|k]; [apply Same; reflexivity|]. apply Same; [|cbn [work_of]; now rewrite !Pr].
          destruct (fst w a); [apply put_there; congruence|reflexivity]. }
      (* part of the file is written *)
      assert (Ol : open_at off (Putting p b off :: r) /\ b = R /\ closed (proj r) /\ off <= length R).
      { destruct Fl as [Fl|(o & r' & Fl & Cr & Lo)]; cbn [proj filter on_path] in Fl; rewrite path_eqb_refl in Fl; [inversion Fl|].
        injection Fl as -> -> Fl. fold (proj r) in Fl. split; [|rewrite Fl; auto]. exists (proj r). rewrite Fl. split; [|auto].
        cbn [proj filter on_path]. rewrite path_eqb_refl. fold (proj r). now rewrite Fl. }
      destruct Ol as (Ol & -> & Cr & Lo).
      destruct (O (ex_intro _ i (ex_intro _ _ (ex_intro _ off (conj Ei Ol))))) as (c & C1 & C2 & C3).
      destruct (skipn off R) as [|x rest] eqn:Es.
      + (* the end is seen *)
        assert (off = length R) as ->. { apply (f_equal (@length _)) in Es. rewrite skipn_length in Es. cbn in Es. lia. }
        assert (T : touched (fst w) (set_nth (snd w) i (Working r))).
        { exists c. split; [exact C1|]. split; [exact C2|]. destruct C3 as [C3|(j & q' & o & C3 & C4 & C5)]; [now left|].
          destruct (Nat.eq_dec i j) as [->|Hj].
          - left. rewrite Ei in C3. injection C3 as <-. cbn [work_of] in C4. destruct C4 as (r' & C4 & _). cbn [proj filter on_path] in C4. rewrite path_eqb_refl in C4.
            injection C4 as -> _. exact C5.
          - right. exists j, q', o. rewrite (nth_set_nth _ _ _ _ _ Ei). apply Nat.eqb_neq in Hj. rewrite Hj. auto. }
        split; [|split; [right; exact T|intros _; exact T]]. cbn [fst snd]. intros j q'. rewrite (nth_set_nth _ _ _ _ _ Ei).
        destruct (Nat.eqb_spec i j) as [->|Hj]; [intros [= <-]; left; exact Cr|apply F].
      + destruct k as [|k]; [apply Same; reflexivity|]. rewrite C1, <- Es.
        set (ch := firstn (S k) (skipn off R)).
        assert (Lc : off + length ch <= length R). { unfold ch. rewrite firstn_length, skipn_length. lia. }
        assert (On : open_at (off + length ch) (Putting p R (off + length ch) :: r)).
        { exists (proj r). split; [|auto]. cbn [proj filter on_path]. now rewrite path_eqb_refl. }
        assert (T : touched (tree_put (fst w) p (overwrite c off ch)) (set_nth (snd w) i (Working (Putting p R (off + length ch) :: r)))).
        { exists (overwrite c off ch). rewrite put_here. split; [reflexivity|]. split; [now apply rz_write|].
          destruct C3 as [C3|(j & q' & o & C3 & C4 & C5)]; [left; apply upto_write; auto|right].
          destruct (Nat.eq_dec i j) as [->|Hj].
          - exists j, (Working (Putting p R (off + length ch) :: r)), (off + length ch). rewrite (nth_set_nth _ _ _ _ _ Ei), Nat.eqb_refl. split; [reflexivity|]. split; [exact On|].
            rewrite Ei in C3. injection C3 as <-. cbn [work_of] in C4. destruct C4 as (r' & C4 & _). cbn [proj filter on_path] in C4. rewrite path_eqb_refl in C4.
            injection C4 as <- _. now apply upto_more.
          - exists j, q', o. rewrite (nth_set_nth _ _ _ _ _ Ei). apply Nat.eqb_neq in Hj. rewrite Hj. split; [exact C3|]. split; [exact C4|].
            apply upto_write; [exact C5|]. destruct C4 as (? & _ & _ & C4). exact C4. }
        split; [|split; [right; exact T|intros _; exact T]]. cbn [fst snd]. intros j q'. rewrite (nth_set_nth _ _ _ _ _ Ei).
        destruct (Nat.eqb_spec i j) as [->|Hj]; [intros [= <-]; right; eauto|apply F].
  Qed.
  Lemma calls_inv d0 init sched : forall w, path_inv d0 init w -> path_inv d0 init (fold_left call sched w).
  Proof. induction sched as [|t sched IH]; intros w H; [exact H|]. cbn [fold_left]. apply IH, call_inv, H. Qed.
  Lemma start_inv d0 init : (forall i q, nth_error init i = Some q -> closed (proj (work_of q))) -> path_inv d0 init (d0, init).
  Proof.
    intros H. split; [|split]; cbn [fst snd].
    - intros i q Hq. left. eauto.
    - left. split; [reflexivity|]. eauto.
    - intros (i & q & off & Hq & r & E & _). exfalso. eapply closed_not_open; eauto.
  Qed.

  (** Being open, as the specification says it. *)
  Lemma open_iff l : (exists before b off after, l = before ++ Putting p b off :: after /\ ~ In (Opening p) before) <-> exists b off r, proj l = Putting p b off :: r.
  Proof.
    induction l as [|a l IH].
    - split; [intros (b & x & o & af & E & _); destruct b; discriminate|intros (b & o & r & E); discriminate].
    - split.
      + intros ([|a' before] & b & off & after & E & N); injection E as -> ->.
        * exists b, off. eexists. cbn [proj filter on_path]. rewrite path_eqb_refl. reflexivity.
        * assert (N' : ~ In (Opening p) before) by (intros H; apply N; now right).
          destruct (proj1 IH) as (b1 & o1 & r1 & E1); [eauto 8|].
          destruct a' as [q|q b' o']; cbn [proj filter on_path]; destruct (path_eqb q p) eqn:Eq; fold (proj (before ++ Putting p b off :: after)); eauto.
          -- apply path_eqb_eq in Eq. subst q. exfalso. apply N. now left.
          -- apply path_eqb_eq in Eq. subst q. eauto.
      + intros (b & off & r & E). destruct a as [q|q b' o']; cbn [proj filter on_path] in E; destruct (path_eqb q p) eqn:Eq; try discriminate; fold (proj l) in E.
        * destruct (proj2 IH) as (be & b1 & o1 & af & E1 & N1); [eauto|]. exists (Opening q :: be), b1, o1, af. split; [cbn; now rewrite E1|].
          intros [H|H]; [|auto]. injection H as ->. rewrite path_eqb_refl in Eq. discriminate.
        * apply path_eqb_eq in Eq. subst q. exists [], b', o', l. split; [reflexivity|intros []].
        * destruct (proj2 IH) as (be & b1 & o1 & af & E1 & N1); [eauto|]. exists (Putting q b' o' :: be), b1, o1, af. split; [cbn; now rewrite E1|].
          intros [H|H]; [discriminate|auto].
  Qed.
End OnePath.
