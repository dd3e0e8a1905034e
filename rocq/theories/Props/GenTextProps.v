(** C93: the text of the file of tree positions, as it is checked in and as the generator writes it. *)
From Coq Require Import String List Arith NArith Bool Lia.
From Coq.Init Require Import Byte.
From Verif.Model Require Import Base HostStore Gindices GenGindices GenText.
From Verif.Spec Require Import Beacon GenSource.
From Verif.Proof Require Import BaseLemmas GenTextP.
From Verif.Props Require Import GenGindicesProps.
Import ListNotations.
Open Scope list_scope.
Open Scope N_scope.

(** ** Specification: a file defines these functions, in this order, with these values at every validator *)
Definition defines (file : bytes) (l : list Emitted) : Prop :=
  exists fs, read_source file = Some fs /\
    Forall2 (fun f e => fn_name f = list_byte_of_string (fst e) /\ forall i, fn_value f i = snd e i) fs l.
(** No name twice: Rust refuses a file that defines a name twice. *)
Definition distinct (l : list Emitted) : Prop := NoDup (map fst l).

(** ** The file that the guest and the host are compiled with *)
(** The committed text, byte for byte, defines the functions that the model of the guest uses, and no other. *)
Theorem C93_checked_in : defines checked_in committed /\ distinct committed.
Proof.
  split.
  - eexists. split; [vm_compute; reflexivity|]. unfold committed.
    repeat (constructor; [split; [vm_compute; reflexivity|intros i; reflexivity]|]). constructor.
  - unfold distinct. change (map fst committed) with (nodup string_dec (map fst committed)). apply NoDup_nodup.
Qed.

(** ** The file that the generator writes *)
Lemma spelled (a b : string) : list_byte_of_string (a ++ b)%string = list_byte_of_string a ++ list_byte_of_string b.
Proof.
  unfold list_byte_of_string. induction a as [|c a IH]; [reflexivity|]. cbn [String.append list_ascii_of_string map app]. now rewrite IH.
Qed.
Lemma fn_emitted d : fn_name (fn_of d) = list_byte_of_string (fst (emitted d)) /\ forall i, fn_value (fn_of d) i = snd (emitted d) i.
Proof. destruct d; cbn [fn_of fn_name emitted fst]; (split; [now rewrite spelled|reflexivity]). Qed.
Lemma gen_each_names {E} T ps l : @gen_each E T ps = Ok l -> map fst l = map fst ps.
Proof.
  revert l. induction ps as [|p ps IH]; intros l; cbn [gen_each]; [now intros [= <-]|].
  unfold gen_gindices. destruct (generalized_index T (snd p) 1); cbn [expect bind]; [|discriminate].
  destruct (gen_each T ps) as [b| |]; cbn [bind]; try discriminate. intros [= <-]. cbn [map fst]. f_equal. now apply IH.
Qed.
Lemma gen_each_out {E} T ps : (exists l, @gen_each E T ps = Ok l) \/ @gen_each E T ps = Panic.
Proof.
  induction ps as [|p ps IH]; cbn [gen_each]; [eauto|].
  unfold gen_gindices. destruct (generalized_index T (snd p) 1); cbn [expect bind]; [|auto].
  destruct IH as [(l & ->)| ->]; cbn [bind]; eauto.
Qed.
Definition names_ok (ps : list (string * list path_elem)) : bool := forallb (fun p => forallb ident (t (fst p))) ps.
Lemma names_good {E} T ps l : names_ok ps = true -> @gen_each E T ps = Ok l -> Forall (fun nv => good_name (fst nv)) l.
Proof.
  intros H G. apply gen_each_names in G. assert (X : Forall good_name (map fst ps)).
  { clear G. induction ps as [|p ps IH]; [constructor|]. cbn in H. apply andb_true_iff in H as [H1 H2]. constructor; [exact H1|now apply IH]. }
  rewrite <- G in X. clear - X. induction l as [|a l IH]; constructor; inversion X; auto.
Qed.
Lemma declarations_spec {E} state :
  (exists ds, @declarations E state = Ok ds /\ @generate E state = Ok (map emitted ds) /\ Forall good_decl ds /\ ds <> []) \/
  (@declarations E state = Panic /\ @generate E state = Panic).
Proof.
  unfold declarations, generate, validators_gindices, element_gindices.
  destruct (@gen_each_out E state beacon_paths) as [(s & Es)|Es]; rewrite Es; cbn [bind]; [|right; auto].
  destruct (gen_each T_header block_paths) as [b| |] eqn:Eb; try discriminate. cbn [bind].
  destruct (generalized_index (TList T_validator (2 ^ 40)) [Index 0] 1) as [base|] eqn:Ebase; [|discriminate]. cbn [expect bind].
  destruct (gen_each T_validator validator_paths) as [g| |] eqn:Eg; try discriminate. cbn [bind].
  left. eexists. split; [reflexivity|]. split; [|split].
  - f_equal. unfold gen_guest_gindices_impl. rewrite !map_app, !map_map. reflexivity.
  - apply names_good in Es; [|reflexivity]. apply names_good in Eb; [|reflexivity]. apply names_good in Eg; [|reflexivity].
    rewrite !Forall_app, !Forall_map. repeat split; eapply Forall_impl; try eassumption; intros nv H; cbn [good_decl]; auto;
      (split; [exact H|now apply closed_feed]).
  - apply gen_each_names in Eb. destruct b; [discriminate|]. intros X. apply app_eq_nil in X as [_ X]. discriminate.
Qed.
(** Reading the text gives back what was meant: whatever the state type, whatever the positions. *)
Theorem C93_read_back : forall (E : Type) state l, @generate E state = Ok l ->
  exists ds, @declarations E state = Ok ds /\ defines (formatted ds) l.
Proof.
  intros E state l G. destruct (@declarations_spec E state) as [(ds & D & G' & Hg & _)|[_ X]]; [|congruence].
  rewrite G' in G. injection G as <-. exists ds. split; [exact D|]. eexists. split; [now apply formatted_read|].
  clear. induction ds; cbn [map]; constructor; auto using fn_emitted.
Qed.
(** The same for any table of names and positions, not only for those of this chain. *)
Theorem C93_any_table : forall ds, Forall good_decl ds -> defines (formatted ds) (map emitted ds).
Proof.
  intros ds Hg. eexists. split; [now apply formatted_read|]. clear. induction ds; cbn [map]; constructor; auto using fn_emitted.
Qed.
(** Regenerating changes one word of one comment of the committed file and nothing else. *)
Theorem C93_regenerated : forall (E : Type) T, T = T_electra_state \/ T = T_fulu_state ->
  exists ds a b, @declarations E T = Ok ds /\
    checked_in = a ++ list_byte_of_string "/// Returns the gindex of slot from BeaconBlock" ++ b /\
    formatted ds = a ++ list_byte_of_string "/// Returns the gindex of block_slot from BeaconBlock" ++ b.
Proof.
  intros E T HT.
  assert (D : @declarations E T_electra_state = @declarations E T_fulu_state) by reflexivity.
  assert (HD : @declarations E T = @declarations E T_electra_state) by (destruct HT as [-> | ->]; congruence). rewrite HD. clear.
  destruct (@declarations E T_electra_state) as [ds| |] eqn:Ed; [|discriminate|discriminate]. vm_compute in Ed. injection Ed as <-.
  eexists. exists (firstn 2129 checked_in), (skipn 2176 checked_in). split; [reflexivity|]. split; vm_compute; reflexivity.
Qed.

(** ** What a run leaves *)
(** A run succeeds exactly if the file opens, every path exists and the write reports some number of bytes; the file then
    holds that many bytes of the text, however few. *)
Theorem C93_success : forall state f before file,
  gen_main state f before = (file, Ok tt) <->
  exists n ds, f = Wrote n /\ @declarations unit state = Ok ds /\ file = Some (firstn n (formatted ds)).
Proof.
  intros state f before file. unfold gen_main. destruct (@declarations_spec unit state) as [(ds & -> & _)|[-> _]].
  - destruct f as [| |n]; (split; [try discriminate|intros (m & x & X & Y & ->); try discriminate]).
    + intros [= <-]. eauto 6.
    + injection X as ->. injection Y as ->. reflexivity.
  - destruct f; (split; [discriminate|intros (m & x & _ & Y & _); discriminate]).
Qed.
(** A run that fails behind the opening of the file has destroyed what the file held. *)
Theorem C93_failure : forall state f before,
  (f = NoOpen -> gen_main state f before = (before, Panic)) /\
  (f <> NoOpen -> @generate unit state = Panic \/ f = NoWrite -> gen_main state f before = (Some [], Panic)) /\
  snd (gen_main state f before) <> Err tt.
Proof.
  intros state f before. unfold gen_main. destruct (@declarations_spec unit state) as [(ds & -> & G & _)|[-> _]].
  - destruct f; repeat split; try discriminate; try congruence; auto; intros _ [X|X]; congruence.
  - destruct f; repeat split; try discriminate; try congruence; auto.
Qed.
(** A short write is a success. What it leaves either does not compile or lacks functions: if two bytes or more are
    missing, a file that compiles defines the first functions, in order, and not the last. *)
Theorem C93_short_write : forall state n before file l k,
  gen_main state (Wrote n) before = (Some file, Ok tt) -> @generate unit state = Ok l ->
  defines file k ->
  exists ds m, @declarations unit state = Ok ds /\ (m <= length l)%nat /\
    same_functions k (firstn m l) /\
    ((n + 2 <= length (formatted ds))%nat -> (m < length l)%nat).
Proof.
  intros state n before file l k R G (fs & Hfs & Hk).
  apply C93_success in R as (n' & ds & [= <-] & D & F). injection F as ->.
  destruct (@declarations_spec unit state) as [(ds' & D' & G' & Hg & Hne)|[X _]]; [|congruence].
  rewrite D in D'. injection D' as <-. rewrite G' in G. injection G as <-.
  destruct (formatted_cut ds n fs Hg Hfs) as (m & -> & Hm & Hend). exists ds, m. rewrite map_length.
  split; [exact D|]. split; [exact Hm|]. split.
  - rewrite firstn_map in Hk. rewrite firstn_map. revert Hk. generalize (firstn m ds). clear. intros ds. revert k.
    induction ds as [|d ds IH]; intros k Hk; inversion Hk as [|? e ? k' [H1 H2] Hk']; subst; cbn [map]; constructor; [|now apply IH].
    destruct (fn_emitted d) as [N V]. split; [|intros i; now rewrite <- H2, V].
    rewrite N in H1. apply (f_equal string_of_list_byte) in H1. now rewrite !string_of_list_byte_of_string in H1.
  - intros L. destruct (Nat.eq_dec m (length ds)) as [X|X]; [|lia]. specialize (Hend Hne X). lia.
Qed.
(** Running the program again never helps or hurts: what the file held does not matter. *)
Theorem C93_forgets : forall state f b1 b2, f <> NoOpen -> gen_main state f b1 = gen_main state f b2.
Proof. intros state [] b1 b2 H; [contradiction|reflexivity|reflexivity]. Qed.

(** ** Concrete cases *)
Example checked_in_size : length checked_in = 4475%nat. Proof. vm_compute. reflexivity. Qed.
Example electra_generates : exists l, @generate unit T_electra_state = Ok l /\ length l = 18%nat.
Proof. eexists. split; reflexivity. Qed.
(** A type without the fields: the run panics and the file is empty. *)
Example wrong_state : gen_main T_header (Wrote 5000) (Some checked_in) = (Some [], Panic). Proof. vm_compute. reflexivity. Qed.
(** A short write that ends behind the first function compiles, and one that ends in it does not. *)
Example short_write_compiles : exists file fs,
  gen_main T_electra_state (Wrote 794) None = (Some file, Ok tt) /\ read_source file = Some fs /\ map fn_name fs = [s "slot_gindex"].
Proof. eexists. eexists. split; [vm_compute; reflexivity|]. split; vm_compute; reflexivity. Qed.
Example short_write_broken : exists file, gen_main T_electra_state (Wrote 750) None = (Some file, Ok tt) /\ read_source file = None.
Proof. eexists. split; vm_compute; reflexivity. Qed.

Print Assumptions C93_checked_in.
Print Assumptions C93_read_back.
Print Assumptions C93_any_table.
Print Assumptions C93_regenerated.
Print Assumptions C93_success.
Print Assumptions C93_failure.
Print Assumptions C93_short_write.
Print Assumptions C93_forgets.
