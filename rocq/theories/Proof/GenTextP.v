(** The text that gen_gindices.rs writes, read back. *)
From Coq Require Import String List Arith NArith Bool Lia.
From Coq.Init Require Import Byte.
From Verif.Model Require Import Base HostStore GenGindices GenText.
From Verif.Spec Require Import StateJsonSpec Beacon GenSource.
From Verif.Proof Require Import BaseLemmas HostStoreP StateJsonP FlatYamlP.
From Verif.Model Require Import ConfigYaml.
Import ListNotations.
Open Scope list_scope.
Open Scope N_scope.

(** ** Pieces of lines *)
Lemma beq_refl (n : bytes) : bytes_eqb n n = true. Proof. now apply bytes_eqb_eq. Qed.
Lemma after_app p x : after p (p ++ x) = Some x.
Proof. induction p as [|a p IH]; [reflexivity|]. cbn [app after]. now rewrite (proj2 (eqb_true a a) eq_refl). Qed.
Lemma decimal_is_digits n : forallb is_digit (decimal n) = true.
Proof.
  destruct (decimal_ok n) as [[_ D] _]. apply forallb_forall. intros b Hb. rewrite Forall_forall in D. specialize (D b Hb).
  unfold is_digit, between. apply andb_true_iff. split; apply N.leb_le; apply D.
Qed.
Lemma literal_ok n r : literal (u64_literal n ++ r) = Some (n, r).
Proof.
  unfold literal, u64_literal. rewrite <- app_assoc. rewrite span_complete; [|apply decimal_is_digits|reflexivity].
  destruct (decimal_ok n) as [[Hn _] V]. destruct (decimal n) as [|b d] eqn:E; [contradiction|]. rewrite V.
  change (t "u64") with (s "u64"). now rewrite after_app.
Qed.
Lemma two_ok p q e a b : two p q e (p ++ u64_literal a ++ q ++ u64_literal b ++ e) = Some (a, b).
Proof.
  unfold two. rewrite after_app, literal_ok. cbn [fst snd]. rewrite after_app, literal_ok. cbn [fst snd]. now rewrite beq_refl.
Qed.
Lemma constant_ok v : constant_body (t "    " ++ u64_literal v) = Some v.
Proof.
  unfold constant_body. change (t "    ") with (s "    "). rewrite after_app.
  rewrite <- (app_nil_r (u64_literal v)), literal_ok. reflexivity.
Qed.
Definition good_name (n : string) : Prop := forallb ident (t n) = true.
Lemma header_ok n e b : good_name n -> stops ident e ->
  (if bytes_eqb e (s "() -> u64 {") then Some false else if bytes_eqb e (s "(i: crate::ValidatorIndex) -> u64 {") then Some true else None) = Some b ->
  header (t "pub(crate) const fn " ++ t n ++ t "_gindex" ++ e) = Some (t n ++ t "_gindex", b).
Proof.
  intros Hn He Hb. unfold header. change (t "pub(crate) const fn ") with (s "pub(crate) const fn "). rewrite after_app, app_assoc.
  rewrite span_complete; [|rewrite forallb_app; unfold good_name in Hn; now rewrite Hn|exact He].
  destruct (bytes_eqb e (s "() -> u64 {")); [now injection Hb as <-|]. destruct (bytes_eqb e _); [now injection Hb as <-|discriminate].
Qed.

(** ** Functions *)
Definition fn_of (d : decl) : fn :=
  match d with
  | DFixed n _ v => Constant (t n ++ t "_gindex") v
  | DValidator n base c v => Indexed (t n ++ t "_gindex") v c v c base c
  end.
Definition good_decl (d : decl) : Prop :=
  match d with DFixed n root _ => good_name n /\ no_feed (t root) | DValidator n _ _ _ => good_name n end.
Lemma fixed_header n : good_name n -> header (t "pub(crate) const fn " ++ t n ++ t "_gindex() -> u64 {") = Some (t n ++ t "_gindex", false).
Proof. intros H. apply (header_ok n (t "() -> u64 {")); [exact H|reflexivity|reflexivity]. Qed.
Lemma indexed_header n : good_name n ->
  header (t "pub(crate) const fn " ++ t n ++ t "_gindex(i: crate::ValidatorIndex) -> u64 {") = Some (t n ++ t "_gindex", true).
Proof. intros H. apply (header_ok n (t "(i: crate::ValidatorIndex) -> u64 {")); [exact H|reflexivity|reflexivity]. Qed.
Lemma doc_ignored x : ignored (t "/// Returns the gindex of " ++ x) = true. Proof. reflexivity. Qed.
Lemma attr_step h r : read_fns (t "#[inline(always)]" :: h :: r) =
  match header h with
  | Some (n, false) =>
      match r with
      | b :: c :: r2 => v <~? constant_body b ;; fs <~? read_fns r2 ;; if bytes_eqb c (s "}") then Some (Constant n v :: fs) else None
      | _ => None
      end
  | Some (n, true) =>
      match r with
      | b1 :: b2 :: b3 :: c :: r2 =>
          x <~? offset_line b1 ;; y <~? within_line b2 ;; z <~? result_line b3 ;; fs <~? read_fns r2 ;;
          if bytes_eqb c (s "}") then Some (Indexed n (fst x) (snd x) (fst y) (snd y) (fst z) (snd z) :: fs) else None
      | _ => None
      end
  | None => None
  end.
Proof. reflexivity. Qed.
Lemma skip_doc x r : read_fns ((t "/// Returns the gindex of " ++ x) :: r) = read_fns r.
Proof. cbn [read_fns]. now rewrite doc_ignored. Qed.
Lemma read_block d r : good_decl d -> read_fns (lines_of_decl d ++ r) = option_map (cons (fn_of d)) (read_fns r).
Proof.
  destruct d as [n root v|n base c v]; cbn [good_decl lines_of_decl fn_of].
  - intros [H _]. cbn [app]. rewrite skip_doc, attr_step, fixed_header, constant_ok by exact H.
    destruct (read_fns r); reflexivity.
  - intros H. cbn [app]. rewrite skip_doc, attr_step, indexed_header by exact H.
    unfold offset_line, within_line, result_line.
    change (t "    const CHUNK_OFFSET: u64 = ") with (s "    const CHUNK_OFFSET: u64 = "). change (t " / ") with (s " / "). change (t ";") with (s ";").
    change (t "    const WITHIN_CHUNK: u64 = ") with (s "    const WITHIN_CHUNK: u64 = "). change (t " % ") with (s " % ").
    change (t "    (") with (s "    ("). change (t " + (i as u64)) * ") with (s " + (i as u64)) * ").
    change (t " * CHUNK_OFFSET + WITHIN_CHUNK") with (s " * CHUNK_OFFSET + WITHIN_CHUNK").
    rewrite !two_ok. destruct (read_fns r); reflexivity.
Qed.
Lemma read_blocks ds r : Forall good_decl ds -> read_fns (concat (map lines_of_decl ds) ++ r) = option_map (app (map fn_of ds)) (read_fns r).
Proof.
  induction 1 as [|d ds H _ IH]; cbn [map concat app]; [destruct (read_fns r); reflexivity|].
  rewrite <- app_assoc, read_block, IH by exact H. destruct (read_fns r); reflexivity.
Qed.
Lemma lone q fs : read_fns [q] = Some fs -> fs = [].
Proof.
  cbn [read_fns]. destruct (ignored q); [now intros [= <-]|]. destruct (bytes_eqb q _); discriminate.
Qed.
Lemma block_cut d j q fs : good_decl d -> (j < length (lines_of_decl d))%nat -> read_fns (firstn j (lines_of_decl d) ++ [q]) = Some fs ->
  fs = [] \/ (fs = [fn_of d] /\ S j = length (lines_of_decl d) /\ q = t "}").
Proof.
  destruct d as [n root v|n base c v]; cbn [good_decl lines_of_decl fn_of length].
  - intros [H _] Hj. destruct j as [|[|[|[|[|j]]]]]; [..|lia]; cbn [firstn app].
    + intros E. left. now apply lone in E.
    + rewrite skip_doc. intros E. left. now apply lone in E.
    + rewrite skip_doc, attr_step. destruct (header q) as [[? []]|]; discriminate.
    + rewrite skip_doc, attr_step, fixed_header by exact H. discriminate.
    + rewrite skip_doc, attr_step, fixed_header, constant_ok by exact H. cbn [read_fns]. destruct (bytes_eqb q (s "}")) eqn:E; [|discriminate].
      apply bytes_eqb_eq in E as ->. intros [= <-]. right. auto.
  - intros H Hj. destruct j as [|[|[|[|[|[|[|j]]]]]]]; [..|lia]; cbn [firstn app].
    + intros E. left. now apply lone in E.
    + rewrite skip_doc. intros E. left. now apply lone in E.
    + rewrite skip_doc, attr_step. destruct (header q) as [[? []]|]; discriminate.
    + rewrite skip_doc, attr_step, indexed_header by exact H. discriminate.
    + rewrite skip_doc, attr_step, indexed_header by exact H. discriminate.
    + rewrite skip_doc, attr_step, indexed_header by exact H. discriminate.
    + pose proof (read_block (DValidator n base c v) [] H) as B. cbn [lines_of_decl app] in B. rewrite skip_doc, attr_step, indexed_header in B by exact H.
      rewrite skip_doc, attr_step, indexed_header by exact H. revert B.
      destruct (offset_line _) as [x|]; [|discriminate]. destruct (within_line _) as [y|]; [|discriminate]. destruct (result_line _) as [z|]; [|discriminate].
      cbn [read_fns option_map fn_of]. intros B. change (bytes_eqb (t "}") (s "}")) with true in B. injection B as <- <- <- <- <- <-.
      destruct (bytes_eqb q (s "}")) eqn:E; [|discriminate]. apply bytes_eqb_eq in E as ->. intros [= <-]. right. auto.
Qed.

(** ** Lines of a text *)
Definition lines' (x : bytes) : list bytes := fst (lines x) :: snd (lines x).
Lemma read_source_lines x : read_source x = read_fns (lines' x).
Proof. unfold read_source, lines'. destruct (lines x). reflexivity. Qed.
Lemma lines_unlines ls x : Forall no_feed ls -> lines' (unlines ls ++ x) = ls ++ lines' x.
Proof.
  induction 1 as [|l ls H _ IH]; [reflexivity|]. cbn [app]. rewrite <- IH. unfold unlines. cbn [map concat]. fold (unlines ls).
  rewrite <- !app_assoc. cbn [app]. unfold lines' at 1. rewrite lines_app by exact H. reflexivity.
Qed.
Lemma firstn_no_feed n l : no_feed l -> no_feed (firstn n l).
Proof. unfold no_feed. intros H. rewrite <- (firstn_skipn n l) in H. now apply Forall_app in H. Qed.
Lemma cut_lines : forall ls n, Forall no_feed ls -> exists j q, lines' (firstn n (unlines ls)) = firstn j ls ++ [q] /\
  ((j = length ls /\ q = [] /\ (length (unlines ls) <= n)%nat) \/
   (exists r, nth_error ls j = Some (q ++ r) /\ (r = [] -> S j = length ls -> (length (unlines ls) <= S n)%nat))).
Proof.
  induction ls as [|l ls IH]; intros n H.
  - exists 0%nat, []. split; [|left; cbn; repeat split; lia]. cbn. now rewrite firstn_nil.
  - inversion H as [|? ? Hl Hls]; subst. unfold unlines. cbn [map concat]. fold (unlines ls). rewrite <- app_assoc. cbn [app].
    destruct (le_lt_dec n (length l)) as [L|L].
    + exists 0%nat, (firstn n l). split.
      * rewrite firstn_app. replace (n - length l)%nat with 0%nat by lia. cbn [firstn app]. rewrite app_nil_r. unfold lines'.
        rewrite lines_last by (now apply firstn_no_feed). reflexivity.
      * right. exists (skipn n l). split; [cbn [nth_error]; now rewrite firstn_skipn|]. intros E J. cbn in J.
        destruct ls; [|discriminate]. cbn [unlines map concat]. rewrite app_length. cbn.
        assert (X := skipn_length n l). rewrite E in X. cbn in X. lia.
    + destruct (IH (n - length l - 1)%nat Hls) as (j & q & E & Hq). exists (S j), q. split.
      * rewrite firstn_app, firstn_all2 by lia. replace (n - length l)%nat with (S (n - length l - 1)) by lia. cbn [firstn].
        unfold lines' at 1. rewrite lines_app by exact Hl. cbn [fst snd firstn app]. f_equal. exact E.
      * rewrite app_length. cbn [length]. destruct Hq as [(-> & -> & X)|(r & Hr & Hlen)]; [left; repeat split; lia|right]. exists r. split; [exact Hr|]. intros E1 J. cbn [length] in J.
        assert (S j = length ls) by lia. specialize (Hlen E1 H0). lia.
Qed.

(** ** The file *)
Definition preamble_lines : list bytes := removelast (lines' preamble).
Lemma preamble_ok : preamble = unlines preamble_lines /\ Forall no_feed preamble_lines /\ forallb ignored preamble_lines = true.
Proof.
  split; [vm_compute; reflexivity|]. split; [|vm_compute; reflexivity].
  assert (B : forallb (fun l => forallb (fun b => negb (byte_eqb b x0a)) l) preamble_lines = true) by (vm_compute; reflexivity).
  apply Forall_forall. intros l Hl. rewrite forallb_forall in B. specialize (B l Hl). apply Forall_forall. intros b Hb ->.
  rewrite forallb_forall in B. specialize (B _ Hb). discriminate.
Qed.
Lemma ident_feed n : good_name n -> no_feed (t n).
Proof. intros H. apply (no_feed_of ident); [reflexivity|exact H]. Qed.
Lemma closed_feed (l : bytes) : forallb (fun b => negb (byte_eqb b x0a)) l = true -> no_feed l.
Proof. intros H. rewrite forallb_forall in H. apply Forall_forall. intros b Hb ->. specialize (H _ Hb). discriminate. Qed.
Lemma literal_feed n : no_feed (u64_literal n).
Proof. apply Forall_app. split; [apply (no_feed_of is_digit); [reflexivity|apply decimal_is_digits]|now apply closed_feed]. Qed.
Lemma feed_app a b : no_feed a -> no_feed b -> no_feed (a ++ b).
Proof. intros. now apply Forall_app. Qed.
Ltac feeds :=
  repeat match goal with
    | |- Forall _ [] => constructor
    | |- Forall _ (_ :: _) => constructor
    | |- no_feed (_ ++ _) => apply feed_app
    | |- no_feed (u64_literal _) => apply literal_feed
    | H : good_name ?n |- no_feed (t ?n) => exact (ident_feed n H)
    | H : no_feed ?n |- no_feed ?n => exact H
    | |- no_feed (t _) => now apply closed_feed
    end.
Lemma decl_feed d : good_decl d -> Forall no_feed (lines_of_decl d).
Proof.
  destruct d as [n root v|n base c v]; cbn [good_decl lines_of_decl].
  - intros [H Hr]. feeds.
  - intros H. feeds.
Qed.
Lemma unlines_app a b : unlines (a ++ b) = unlines a ++ unlines b.
Proof. unfold unlines. now rewrite map_app, concat_app. Qed.
Definition file_lines (ds : list decl) : list bytes := (preamble_lines ++ [[]]) ++ concat (map lines_of_decl ds).
Lemma formatted_lines ds : formatted ds = unlines (file_lines ds).
Proof.
  unfold formatted, file_lines. rewrite !unlines_app, <- (proj1 preamble_ok), <- app_assoc. f_equal. cbn [unlines map concat app]. f_equal.
  unfold text_of. induction ds as [|d ds IH]; [reflexivity|]. cbn [map concat]. now rewrite unlines_app, IH.
Qed.
Lemma file_feed ds : Forall good_decl ds -> Forall no_feed (file_lines ds).
Proof.
  intros H. apply Forall_app. split; [apply Forall_app; split; [apply preamble_ok|repeat constructor]|].
  induction H as [|d ds Hd _ IH]; [constructor|]. cbn [map concat]. apply Forall_app. split; [now apply decl_feed|exact IH].
Qed.
Lemma skip_ignored ls r : forallb ignored ls = true -> read_fns (ls ++ r) = read_fns r.
Proof.
  induction ls as [|l ls IH]; [reflexivity|]. cbn [forallb]. intros H. apply andb_true_iff in H as [H1 H2]. cbn [app read_fns]. rewrite H1. now apply IH.
Qed.
Lemma head_ignored : forallb ignored (preamble_lines ++ [[]]) = true.
Proof. rewrite forallb_app. now rewrite (proj2 (proj2 preamble_ok)). Qed.
Lemma formatted_read ds : Forall good_decl ds -> read_source (formatted ds) = Some (map fn_of ds).
Proof.
  intros H. rewrite read_source_lines, formatted_lines, <- (app_nil_r (unlines _)), lines_unlines by (now apply file_feed).
  unfold file_lines. rewrite <- app_assoc, skip_ignored by apply head_ignored. rewrite read_blocks by exact H. cbn. now rewrite app_nil_r.
Qed.
Lemma firstn_ignored ls j : forallb ignored ls = true -> forallb ignored (firstn j ls) = true.
Proof. intros H. rewrite <- (firstn_skipn j ls), forallb_app in H. now apply andb_true_iff in H. Qed.
Lemma blocks_cut ds : Forall good_decl ds -> forall j q fs, (j <= length (concat (map lines_of_decl ds)))%nat ->
  read_fns (firstn j (concat (map lines_of_decl ds)) ++ [q]) = Some fs ->
  exists m, fs = firstn m (map fn_of ds) /\ (m <= length ds)%nat /\
    (m = length ds -> ds = [] \/ j = length (concat (map lines_of_decl ds)) \/ (S j = length (concat (map lines_of_decl ds)) /\ q = t "}")).
Proof.
  induction 1 as [|d ds Hd _ IH]; intros j q fs Hj.
  - cbn [map concat firstn app]. rewrite firstn_nil. intros E. apply lone in E. exists 0%nat. auto.
  - cbn [map concat] in *. rewrite app_length in Hj. destruct (le_lt_dec (length (lines_of_decl d)) j) as [L|L].
    + rewrite firstn_app, firstn_all2, <- app_assoc, read_block by assumption. intros E.
      destruct (read_fns _) as [fs'|] eqn:R; [|discriminate]. injection E as <-.
      destruct (IH (j - length (lines_of_decl d))%nat q fs') as (m & -> & Hm & Hend); [lia|exact R|]. exists (S m). split; [reflexivity|].
      cbn [length]. split; [lia|]. rewrite app_length. intros X. right. destruct Hend as [->|[Y|[Y Z]]]; [lia|..].
      * left. cbn in *. lia.
      * left. lia.
      * right. split; [lia|exact Z].
    + rewrite firstn_app. replace (j - length (lines_of_decl d))%nat with 0%nat by lia. cbn [firstn]. rewrite app_nil_r. intros E.
      apply block_cut in E as [-> |(-> & J & ->)]; [..|exact Hd|exact L].
      * exists 0%nat. cbn [length]. split; [reflexivity|]. split; [lia|]. discriminate.
      * exists 1%nat. split; [reflexivity|]. cbn [length]. split; [lia|]. intros X. destruct ds; [|discriminate]. right. right. rewrite app_length. cbn. split; [lia|reflexivity].
Qed.
Lemma last_line ds : ds <> [] -> nth_error (file_lines ds) (length (file_lines ds) - 1) = Some (t "}").
Proof.
  intros H. destruct (exists_last H) as (ds' & d & ->). unfold file_lines. rewrite map_app, concat_app. cbn [map concat]. rewrite app_nil_r, app_assoc.
  assert (exists y, lines_of_decl d = y ++ [t "}"]) as [y ->].
  { destruct d as [n r v|n b c v]; cbn [lines_of_decl]; [eexists [_; _; _; _]|eexists [_; _; _; _; _; _]]; reflexivity. }
  rewrite app_assoc. rewrite app_length. cbn [length]. rewrite nth_error_app2 by lia.
  match goal with |- nth_error _ ?k = _ => replace k with 0%nat by lia end. reflexivity.
Qed.
Lemma formatted_cut ds n fs : Forall good_decl ds -> read_source (firstn n (formatted ds)) = Some fs ->
  exists m, fs = firstn m (map fn_of ds) /\ (m <= length ds)%nat /\ (ds <> [] -> m = length ds -> (length (formatted ds) <= S n)%nat).
Proof.
  intros H. rewrite read_source_lines, formatted_lines.
  destruct (cut_lines (file_lines ds) n (file_feed ds H)) as (j & q & -> & Hq). unfold file_lines. rewrite firstn_app.
  set (P := preamble_lines ++ [[]]) in *.
  destruct (le_lt_dec (length P) j) as [L|L].
  - rewrite firstn_all2, <- app_assoc, skip_ignored by (exact L || apply head_ignored). intros E.
    assert (J : (j - length P <= length (concat (map lines_of_decl ds)))%nat).
    { destruct Hq as [(-> & _)|(r & Hr & _)]; [unfold file_lines; rewrite app_length; fold P; lia|].
      assert (X : nth_error (file_lines ds) j <> None) by congruence. apply nth_error_Some in X. unfold file_lines in X. rewrite app_length in X. fold P in X. lia. }
    apply blocks_cut in E as (m & -> & Hm & Hend); [|exact H|exact J]. exists m. split; [reflexivity|]. split; [exact Hm|]. intros Hne Em.
    destruct Hend as [X|Hend]; [exact Em|contradiction|].
    assert (LL : length (file_lines ds) = (length P + length (concat (map lines_of_decl ds)))%nat) by (unfold file_lines; rewrite app_length; reflexivity).
    fold P. change (P ++ concat (map lines_of_decl ds)) with (file_lines ds).
    destruct Hq as [(_ & _ & X)|(r & Hr & Hlen)]; [lia|].
    assert (X : nth_error (file_lines ds) j <> None) by congruence. apply nth_error_Some in X.
    destruct Hend as [Y|[Y ->]]; [lia|]. assert (Sj : S j = length (file_lines ds)) by lia. apply Hlen; [|exact Sj].
    assert (La : nth_error (file_lines ds) (length (file_lines ds) - 1) = Some (t "}")) by (now apply last_line).
    replace (length (file_lines ds) - 1)%nat with j in La by lia. rewrite La in Hr. injection Hr. now intros <-.
  - replace (j - length P)%nat with 0%nat by lia. cbn [firstn]. rewrite app_nil_r, skip_ignored by (apply firstn_ignored, head_ignored).
    intros E. apply lone in E as ->. exists 0%nat. split; [reflexivity|]. split; [lia|]. intros N0 X. destruct ds; [contradiction|discriminate].
Qed.
