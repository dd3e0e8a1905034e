(** C61 and the part of C49 about real beacon states: the bytes of the state files. *)
From Coq Require Import String List Arith NArith Bool Lia ZifyBool ZifyNat ZifyN.
From Coq.Init Require Import Byte.
From Verif.Model Require Import Base Types HostStore StateFile.
From Verif.Spec Require Import StateFileSpec.
From Verif.Proof Require Import BaseLemmas HostStoreP StateFileP.
Import ListNotations.
Open Scope list_scope.
Open Scope N_scope.

(** ** C61 *)
(** A state below 4 GiB is read back as it was written, version included, whatever the order in which
    the versions are tried. *)
Theorem C61_round_trip order st :
  state_ok st = true -> blen (encode_state st) < 2 ^ 32 -> In (bs_version st) order ->
  decode_state order (encode_state st) = Some st.
Proof. apply decode_state_complete. Qed.
(** Nothing else is read: what is accepted is the encoding of the state returned. *)
Theorem C61_only_encodings order b st :
  decode_state order b = Some st -> state_ok st = true /\ encode_state st = b.
Proof. intros H. apply decode_state_sound in H. tauto. Qed.
(** No bytes are a state of two versions, and the order of the versions does not matter. *)
Theorem C61_one_version v v' b st st' : blen b < 2 ^ 32 ->
  decode_version v b = Some st -> decode_version v' b = Some st' -> v = v' /\ st = st'.
Proof.
  intros Hl H H'. apply decode_version_sound in H as (<- & H1 & H2). apply decode_version_sound in H' as (<- & H1' & H2').
  assert (st = st') as ->; auto. apply encode_state_inj; auto; congruence.
Qed.
Theorem C61_order_irrelevant o1 o2 b : blen b < 2 ^ 32 -> (forall v, In v o1 <-> In v o2) ->
  decode_state o1 b = decode_state o2 b.
Proof.
  intros Hl Ho. destruct (decode_state o1 b) as [st|] eqn:E.
  - apply decode_state_sound in E as (H1 & H2 & H3). subst b. symmetry. apply decode_state_complete; auto. now apply Ho.
  - destruct (decode_state o2 b) as [st|] eqn:E'; auto. apply decode_state_sound in E' as (H1 & H2 & H3). subst b.
    rewrite decode_state_complete in E; auto. now apply Ho.
Qed.
(** Different states have different files. *)
Theorem C61_injective st st' : state_ok st = true -> state_ok st' = true -> blen (encode_state st) < 2 ^ 32 ->
  encode_state st = encode_state st' -> st = st'.
Proof. intros H H' Hl He. symmetry. apply encode_state_inj; auto. Qed.

(** Every fixed-size field is where the specification puts it. *)
Fixpoint find_field (fs : list (string * fty)) (name : string) : option (N * N) :=
  match fs with
  | [] => None
  | (n, t) :: r =>
      if String.eqb n name then match t with FFix k => Some (0, k) | _ => None end
      else match find_field r name with
           | Some (o, k) => Some (match fty_size t with Some m => m | None => 4 end + o, k)
           | None => None
           end
  end.
Lemma places_lookup name : forall fs ps off o k, fields_ok (map snd fs) ps = true -> find_field fs name = Some (o, k) ->
  exists b, lookup fs ps name = Some b /\ blen b = k /\
    forall rest, firstn (N.to_nat k) (skipn (N.to_nat o) (places off ps ++ rest)) = b.
Proof.
  induction fs as [|[n t] fs IH]; intros [|p ps] off o k Hf E; cbn [map fields_ok find_field lookup snd] in *; try discriminate.
  apply andb_true_iff in Hf as [Hp Hf]. destruct (String.eqb n name).
  - destruct t as [m| | |]; try discriminate. injection E as <- <-. destruct p as [b|b]; [|discriminate].
    cbn [field_ok] in Hp. apply N.eqb_eq in Hp. exists b. split; [reflexivity|]. split; [exact Hp|]. intros rest.
    cbn [places N.to_nat skipn]. unfold blen in Hp. rewrite <- Hp, Nnat.Nat2N.id, <- app_assoc. rewrite firstn_app, Nat.sub_diag, firstn_all. cbn [firstn]. apply app_nil_r.
  - destruct (find_field fs name) as [[o' k']|] eqn:E'; [|discriminate]. injection E as <- <-.
    destruct (IH ps (match p with PFix _ => off | PVar b => off + blen b end) _ _ Hf eq_refl) as (b & H1 & H2 & H3).
    exists b. split; [exact H1|]. split; [exact H2|]. intros rest.
    assert (Hh : exists hd, places off (p :: ps) = hd ++ places (match p with PFix _ => off | PVar b => off + blen b end) ps /\
      blen hd = match fty_size t with Some m => m | None => 4 end).
    { destruct p as [c|c]; cbn [places]; eexists; (split; [reflexivity|]).
      - destruct t; cbn [field_ok fty_size] in *; try discriminate. now apply N.eqb_eq in Hp.
      - destruct t; cbn [field_ok fty_size] in *; try discriminate; unfold blen; now rewrite le_bytes_length. }
    destruct Hh as (hd & -> & Hl). rewrite <- Hl, <- app_assoc. unfold blen at 1.
    replace (N.to_nat (N.of_nat (length hd) + o')) with (length hd + N.to_nat o')%nat by lia.
    rewrite skipn_app, skipn_all2 by lia. replace (length hd + N.to_nat o' - length hd)%nat with (N.to_nat o') by lia. apply H3.
Qed.
Lemma layout_found v : Forall (fun x => find_field (fields v) (fst x) = Some (snd x)) (layout v).
Proof. destruct v; repeat constructor. Qed.
Theorem C61_layout st name off len : state_ok st = true -> In (name, (off, len)) (layout (bs_version st)) ->
  field st name = Some (firstn (N.to_nat len) (skipn (N.to_nat off) (encode_state st))).
Proof.
  intros H Hi. pose proof (layout_found (bs_version st)) as F. rewrite Forall_forall in F. specialize (F _ Hi). cbn [fst snd] in F.
  destruct (places_lookup name (fields (bs_version st)) (bs_fields st) (places_size (bs_fields st)) off len H F) as (b & H1 & _ & H2).
  unfold field. rewrite H1. unfold encode_state, encode_container. now rewrite H2.
Qed.
(** The size of a state file. *)
(** What a well-formed state is, field by field: fixed-size fields have their size, lists consist of
    whole elements and are not longer than their limit, the extra data of the payload header has at
    most 32 bytes. Together with [C61_only_encodings]: nothing else is ever read from a file. *)
Definition size_of (ns : list N) : N := fold_right N.add 0 ns.
Lemma cut_some ns : forall r b, size_of ns <= blen b -> exists xs,
  cut_places (map Some ns ++ r) b =
  match cut_places r (skipn (N.to_nat (size_of ns)) b) with Some (l, rest) => Some (map inl xs ++ l, rest) | None => None end.
Proof.
  induction ns as [|n ns IH]; intros r b H.
  - exists []. cbn [map app size_of fold_right N.to_nat skipn]. destruct (cut_places r b) as [[l rest]|]; reflexivity.
  - change (size_of (n :: ns)) with (n + size_of ns) in *. destruct (IH r (skipn (N.to_nat n) b)) as [xs E]; [rewrite blen_skipn; lia|].
    exists (firstn (N.to_nat n) b :: xs). cbn [map app cut_places]. replace (blen b <? n) with false by lia. rewrite E, skipn_skipn.
    replace (N.to_nat n + N.to_nat (size_of ns))%nat with (N.to_nat (n + size_of ns)) by lia.
    destruct (cut_places r (skipn (N.to_nat (n + size_of ns)) b)) as [[l rest]|]; reflexivity.
Qed.
Lemma cut_short sh : forall b, blen b < shape_size sh -> cut_places sh b = None.
Proof.
  induction sh as [|o sh IH]; intros b H; [cbn in H; lia|]. cbn [cut_places].
  change (shape_size (o :: sh)) with (match o with Some k => k | None => 4 end + shape_size sh) in H.
  destruct (blen b <? _) eqn:E; [reflexivity|]. rewrite IH; [reflexivity|]. rewrite blen_skipn. lia.
Qed.
Lemma shape_size_app a b : shape_size (a ++ b) = shape_size a + shape_size b.
Proof. unfold shape_size. induction a as [|o a IH]; cbn [app fold_right]; [reflexivity|]. rewrite IH. lia. Qed.
Lemma shape_size_some ns : shape_size (map Some ns) = size_of ns.
Proof. induction ns as [|n ns IH]; [reflexivity|]. unfold shape_size in *. cbn [map fold_right size_of]. rewrite IH. reflexivity. Qed.
Lemma cut_contents_inl xs : forall l pos total rest,
  cut_contents pos total (map inl xs ++ l) rest =
  match cut_contents pos total l rest with Some ps => Some (map PFix xs ++ ps) | None => None end.
Proof.
  induction xs as [|x xs IH]; intros; cbn [map app cut_contents]; [destruct (cut_contents pos total l rest); reflexivity|].
  rewrite IH. destruct (cut_contents pos total l rest); reflexivity.
Qed.
(** A container with one variable-size field. *)
Lemma decode_one ns ms b :
  let size := size_of ns + 4 + size_of ms in
  (exists ps, decode_container (map Some ns ++ None :: map Some ms) b = Some ps /\
     forallb (fun q => match q with PVar x => blen x <=? 32 | PFix _ => true end) ps = true) <->
  size <= blen b <= size + 32 /\ le_val (firstn 4 (skipn (N.to_nat (size_of ns)) b)) = size.
Proof.
  cbn zeta. set (size := size_of ns + 4 + size_of ms). set (sh := map Some ns ++ None :: map Some ms).
  assert (shape_size sh = size) as Hs.
  { unfold sh, size. rewrite shape_size_app. change (shape_size (None :: map Some ms)) with (4 + shape_size (map Some ms)).
    rewrite !shape_size_some. lia. }
  destruct (N.lt_ge_cases (blen b) size) as [L|L].
  { split; [intros (ps & H & _)|intros [H _]; lia]. unfold decode_container in H. rewrite cut_short in H by lia. discriminate. }
  unfold decode_container, sh. destruct (cut_some ns (None :: map Some ms) b ltac:(lia)) as [xs ->].
  cbn [cut_places]. rewrite blen_skipn. replace (blen b - size_of ns <? 4) with false by lia.
  rewrite skipn_skipn. change (N.to_nat 4) with 4%nat.
  destruct (cut_some ms [] (skipn (N.to_nat (size_of ns) + 4) b)) as [ys E].
  { unfold blen in *. rewrite skipn_length. lia. }
  rewrite app_nil_r in E. rewrite E. cbn [cut_places]. rewrite app_nil_r, skipn_skipn.
  replace (N.to_nat (size_of ns) + 4 + N.to_nat (size_of ms))%nat with (N.to_nat size) by lia.
  fold sh. rewrite Hs, cut_contents_inl. cbn [cut_contents].
  set (o := le_val (firstn 4 (skipn (N.to_nat (size_of ns)) b))).
  assert (forall l total, next_offset (map (@inl bytes N) l) total = total) as Hn by (induction l; cbn; auto). rewrite Hn, blen_skipn.
  destruct (N.eqb_spec o size) as [Eo|Eo].
  2: { cbn [andb]. split; [intros (ps & H & _); discriminate|intros [_ H]; contradiction]. }
  rewrite Eo. replace (size <=? blen b) with true by lia. replace (blen b - size <=? blen b - size) with true by lia. cbn [andb].
  rewrite <- (app_nil_r (map inl ys)), cut_contents_inl.
  assert (skipn (N.to_nat (blen b - size)) (skipn (N.to_nat size) b) = []) as ->.
  { apply blen_nil. rewrite !blen_skipn. lia. }
  assert (firstn (N.to_nat (blen b - size)) (skipn (N.to_nat size) b) = skipn (N.to_nat size) b) as ->.
  { apply firstn_all2. unfold blen in *. rewrite skipn_length. lia. }
  cbn [cut_contents]. rewrite app_nil_r.
  assert (forall l, forallb (fun q => match q with PVar x => blen x <=? 32 | PFix _ => true end) (map PFix l) = true) as Hf by (induction l; cbn; auto).
  split.
  - intros (ps & H & F). injection H as <-. rewrite forallb_app in F. cbn [forallb] in F. rewrite blen_skipn in F. lia.
  - intros [H _]. eexists. split; [reflexivity|]. rewrite forallb_app. cbn [forallb]. rewrite !Hf, blen_skipn. lia.
Qed.
Lemma header_decodes v ms : header_size v = 440 + size_of ms -> forall b,
  match decode_container (map Some [32; 20; 32; 32; 256; 32; 8; 8; 8; 8] ++ None :: map Some ms) b with
  | Some ps => forallb (fun q => match q with PVar x => blen x <=? 32 | PFix _ => true end) ps
  | None => false
  end = true <-> header_ok v b.
Proof.
  intros Hv b. pose proof (decode_one [32; 20; 32; 32; 256; 32; 8; 8; 8; 8] ms b) as D. cbn zeta in D.
  change (size_of [32; 20; 32; 32; 256; 32; 8; 8; 8; 8]) with 436 in D. unfold header_ok. rewrite Hv.
  replace (440 + size_of ms) with (436 + 4 + size_of ms) by lia. change 436%nat with (N.to_nat 436).
  destruct (decode_container _ b) as [ps|].
  - rewrite <- D. split; [eauto|intros (ps' & H & F); congruence].
  - rewrite <- D. split; [discriminate|intros (ps' & H & F); discriminate].
Qed.
Definition agrees (v : version) (f : string * fty) : Prop :=
  match with_name (fst f) (layout v), with_name (fst f) (lists v), snd f with
  | Some (_, k), _, FFix k' => k = k'
  | None, Some (e, l), FList e' l' => e = e' /\ l = l' /\ e <> 0
  | None, None, FSub sh => fst f = "latest_execution_payload_header"%string /\
      exists ms, sh = map Some [32; 20; 32; 32; 256; 32; 8; 8; 8; 8] ++ None :: map Some ms /\ header_size v = 440 + size_of ms
  | None, None, FBytes => fst f <> "latest_execution_payload_header"%string
  | _, _, _ => False
  end.
Lemma field_ok_fits v f p : agrees v f -> field_ok (snd f) p = true <-> field_fits v (fst f) p.
Proof.
  destruct f as [name t]. unfold agrees, field_fits. cbn [fst snd].
  destruct (with_name name (layout v)) as [[o k]|].
  { destruct t as [k'|e l| |sh]; intros E; try contradiction. subst k'. destruct p as [b|b]; cbn [field_ok].
    - split; [intros H; exists b; split; auto; lia|intros (b' & E & H); injection E as <-; lia].
    - split; [discriminate|intros (b' & E & H); discriminate]. }
  destruct (with_name name (lists v)) as [[e l]|].
  { destruct t as [k'|e' l'| |sh]; intros E; try contradiction. destruct E as (<- & <- & Ne). destruct p as [b|b]; cbn [field_ok].
    - split; [discriminate|intros (b' & n & E & H); discriminate].
    - split.
      + intros H. exists b, (blen b / e). split; auto. pose proof (N.div_mod (blen b) e Ne). split; lia.
      + intros (b' & n & E & H & L). injection E as <-. rewrite H, N.mul_comm. rewrite N.mod_mul, N.div_mul by auto. lia. }
  destruct t as [k'|e' l'| |sh]; intros E; try contradiction.
  - destruct (String.eqb_spec name "latest_execution_payload_header"); [contradiction|]. destruct p as [b|b]; cbn [field_ok].
    + split; [discriminate|intros (b' & E'); discriminate].
    + split; [eauto|auto].
  - destruct E as (-> & ms & -> & Hm). rewrite String.eqb_refl. destruct p as [b|b]; cbn [field_ok].
    + split; [discriminate|intros (b' & E' & _); discriminate].
    + rewrite (header_decodes v ms Hm). split; [eauto|intros (b' & E & H); injection E as <-; auto].
Qed.
Lemma fields_agree v : Forall (agrees v) (fields v).
Proof.
  destruct v; repeat (apply Forall_cons; [cbv [agrees fst snd]; 
    first [exact eq_refl | split; [exact eq_refl|split; [exact eq_refl|discriminate]] | discriminate
          | split; [reflexivity|first [exists [32; 32; 32]; split; reflexivity | exists [32; 32; 32; 32]; split; reflexivity | exists [32; 32; 32; 32; 8; 8]; split; reflexivity]]]|]); apply Forall_nil.
Qed.
Theorem C61_well_formed st :
  state_ok st = true <-> Forall2 (field_fits (bs_version st)) (map fst (fields (bs_version st))) (bs_fields st).
Proof.
  unfold state_ok, field_types. pose proof (fields_agree (bs_version st)) as A.
  generalize (bs_fields st). induction A as [|f fs Af A IH]; intros [|p ps]; cbn [map fields_ok]; try (split; [discriminate|intros H; inversion H]).
  - split; auto.
  - rewrite andb_true_iff, (field_ok_fits _ f p Af), IH. split; [intros [H1 H2]; constructor; auto|intros H; inversion H; auto].
Qed.

Lemma fields_ok_size : forall ts ps, fields_ok ts ps = true -> places_size ps = shape_size (map fty_size ts).
Proof.
  induction ts as [|t ts IH]; intros [|p ps] H; cbn [fields_ok] in H; try discriminate; [reflexivity|].
  apply andb_true_iff in H as [Hp H]. unfold places_size, shape_size. cbn [map fold_right].
  fold (places_size ps). fold (shape_size (map fty_size ts)). rewrite (IH _ H). f_equal.
  destruct t, p; cbn [field_ok fty_size place_size] in *; try discriminate; try reflexivity. now apply N.eqb_eq in Hp.
Qed.
Theorem C61_size st : state_ok st = true ->
  blen (encode_state st) = fixed_size (bs_version st) + blen (contents (bs_fields st)).
Proof.
  intros H. unfold encode_state, encode_container. unfold blen. rewrite app_length, Nnat.Nat2N.inj_add. f_equal.
  assert (L : forall ps off, N.of_nat (length (places off ps)) = places_size ps).
  { induction ps as [|[b|b] ps IH]; intros off; cbn [places]; [reflexivity| |]; rewrite app_length, Nnat.Nat2N.inj_add, IH;
      unfold places_size; cbn [fold_right place_size]; [reflexivity|]. now rewrite le_bytes_length. }
  rewrite L, (fields_ok_size _ _ H). destruct (bs_version st); reflexivity.
Qed.

(** ** C49 for beacon states *)
Lemma last_list_is v : last_variable (fields v) = Some (last_list v).
Proof. destruct v; reflexivity. Qed.
(** After a crash while the file of [st] is written, reading it fails or returns a state that has the
    version and every field of [st] except possibly the last list; other slots are unaffected. *)
Theorem C49_torn_state order st n d :
  state_ok st = true -> blen (encode_state st) < 2 ^ 32 ->
  fs_get d (file_name (bs_slot st)) = None ->
  let d' := save_interrupted bs_slot encode_state n d st in
  ((exists x, file_state_at_slot (decode_state order) d' (bs_slot st) = Err (POther x)) \/
   exists st', file_state_at_slot (decode_state order) d' (bs_slot st) = Ok st' /\
     bs_version st' = bs_version st /\ bs_slot st' = bs_slot st /\
     (forall name, name <> last_list (bs_version st) -> field st' name = field st name)) /\
  forall s, s <> bs_slot st ->
    file_state_at_slot (decode_state order) d' s = file_state_at_slot (decode_state order) d s.
Proof.
  intros Hok Hl E. cbn zeta. unfold save_interrupted, fs_exists. rewrite E. split.
  - unfold file_state_at_slot, fs_exists, fs_read. rewrite fs_get_write, bytes_eqb_refl. cbn [negb bind].
    destruct (decode_state order (firstn n (encode_state st))) as [st'|] eqn:D; [|left; cbn; eauto].
    right. exists st'. split; [reflexivity|]. apply decode_state_sound in D as (_ & Hok' & He).
    destruct (torn_state st st' (skipn n (encode_state st)) Hok Hok') as [Hv C]; auto.
    { rewrite He. apply firstn_skipn. }
    assert (Hf : forall name, name <> last_list (bs_version st) -> field st' name = field st name).
    { intros name Hn. unfold field. rewrite Hv. destruct C as [C| ->]; auto. apply lookup_cut; auto.
      - rewrite (state_ok_fits _ Hok'), Hv. reflexivity.
      - rewrite last_list_is. congruence. }
    split; auto. split; auto. unfold bs_slot. rewrite Hf; auto. destruct (bs_version st); discriminate.
  - intros s Hs. unfold file_state_at_slot, fs_exists, fs_read. rewrite fs_get_write.
    rewrite (proj2 (bytes_eqb_neq _ _)); auto. intros E'. apply file_name_inj in E'. congruence.
Qed.
(** In particular everything that the program reads from a state. *)
Theorem C49_torn_state_same_answers order st st' n d name :
  state_ok st = true -> blen (encode_state st) < 2 ^ 32 -> bs_version st <> VPhase0 ->
  fs_get d (file_name (bs_slot st)) = None -> accessed name ->
  file_state_at_slot (decode_state order) (save_interrupted bs_slot encode_state n d st) (bs_slot st) = Ok st' ->
  field st' name = field st name.
Proof.
  intros Hok Hl Hv E Ha H. destruct (C49_torn_state order st n d Hok Hl E) as [[[x Hx]|(s & Hs & _ & _ & Hf)] _]; [congruence|].
  assert (s = st') as -> by congruence. apply Hf. intros ->. revert Ha Hv.
  destruct (bs_version st); cbn [last_list]; intros Ha Hv; try congruence;
  repeat (destruct Ha as [Ha|Ha]; [discriminate Ha|]); discriminate Ha.
Qed.
(** A crash can leave a file that is read as a different state: cut after any whole number of pending
    consolidations it is an Electra or Fulu state with fewer of them. *)
Theorem C49_torn_state_served_refuted order st c k d :
  state_ok st = true -> blen (encode_state st) < 2 ^ 32 -> In (bs_version st) order ->
  bs_version st = VElectra \/ bs_version st = VFulu ->
  field st "pending_consolidations" = Some c -> 0 < k -> 16 * k <= blen c ->
  fs_get d (file_name (bs_slot st)) = None ->
  let d' := save_interrupted bs_slot encode_state (N.to_nat (blen (encode_state st) - 16 * k)) d st in
  exists st', file_state_at_slot (decode_state order) d' (bs_slot st) = Ok st' /\ st' <> st /\
    field st' "pending_consolidations" = Some (firstn (N.to_nat (blen c - 16 * k)) c).
Proof.
  intros Hok Hl Ho Hv Hc Hk Hkc E. cbn zeta.
  set (a := firstn (N.to_nat (blen c - 16 * k)) c). set (x := skipn (N.to_nat (blen c - 16 * k)) c).
  assert (Hax : a ++ x = c) by apply firstn_skipn.
  assert (Hxl : blen x = 16 * k) by (subst x; rewrite blen_skipn; lia).
  assert (Hal : blen a = blen c - 16 * k) by (subst a; rewrite blen_firstn; lia).
  assert (exists pre post, bs_fields st = pre ++ PVar c :: post /\ no_var post /\
            lookup (fields (bs_version st)) (pre ++ PVar a :: post) "pending_consolidations" = Some a /\
            fields_ok (field_types (bs_version st)) (pre ++ PVar a :: post) = true) as (pre & post & Hp & Hn & Hla & Hoka).
  { unfold state_ok in Hok. unfold field in Hc.
    assert (Happ : forall ts1 t ts2 ps, fields_ok (ts1 ++ t :: ts2) ps = true ->
              exists pre p post, ps = pre ++ p :: post /\ length pre = length ts1 /\ field_ok t p = true /\ fields_ok ts2 post = true /\
                forall q, field_ok t q = true -> fields_ok (ts1 ++ t :: ts2) (pre ++ q :: post) = true).
    { clear. induction ts1 as [|t1 ts1 IH]; intros t ts2 [|p ps] H; cbn in H; try discriminate; apply andb_true_iff in H as [H1 H2].
      - exists [], p, ps. repeat split; auto. intros q Hq. cbn. now rewrite Hq.
      - destruct (IH _ _ _ H2) as (pre & q & post & -> & L & H3 & H4 & H5). exists (p :: pre), q, post. repeat split; auto.
        + cbn. lia.
        + intros q' Hq'. cbn. rewrite H1. cbn. auto. }
    assert (Hlk : forall fs1 fs2 name t pre p post, length pre = length fs1 ->
              forallb (fun f => negb (String.eqb (fst f) name)) fs1 = true ->
              lookup (fs1 ++ (name, t) :: fs2) (pre ++ p :: post) name = Some (part_bytes p)).
    { clear. induction fs1 as [|[n t1] fs1 IH]; intros fs2 name t [|p0 pre] p post Hl Hn; cbn in Hl; try lia.
      - cbn. now rewrite String.eqb_refl.
      - cbn in Hn. apply andb_true_iff in Hn as [H1 H2]. cbn. apply negb_true_iff in H1. rewrite H1. apply IH; auto. }
    assert (exists fs1 fs2, fields (bs_version st) = fs1 ++ ("pending_consolidations"%string, FList 16 262144) :: fs2 /\
              forallb (fun f => negb (String.eqb (fst f) "pending_consolidations")) fs1 = true /\
              map fty_size (map snd fs2) = (match bs_version st with VFulu => [Some 512] | _ => [] end)) as (fs1 & fs2 & Ef & Hd & Hf2).
    { destruct Hv as [-> | ->].
      - exists (firstn 36 (fields VElectra)), (skipn 37 (fields VElectra)). repeat split.
      - exists (firstn 36 (fields VFulu)), (skipn 37 (fields VFulu)). repeat split. }
    unfold field_types in *. rewrite Ef in *. rewrite map_app in *. cbn [map snd] in *.
    destruct (Happ _ _ _ _ Hok) as (pre & p & post & Ep & Lp & Op & Opost & Hrep). rewrite map_length in Lp.
    rewrite Ep in Hc. rewrite (Hlk fs1 fs2 _ _ pre p post Lp Hd) in Hc. injection Hc as Hc.
    destruct p as [b|b]; [discriminate|]. cbn [part_bytes] in Hc. subst b.
    exists pre, post. repeat split; auto.
    - apply fields_ok_fits in Opost. rewrite Hf2 in Opost. unfold no_var.
      destruct (bs_version st); destruct post as [|[b|b] [|? ?]]; cbn in Opost; try discriminate; constructor; cbn; auto; discriminate.
    - apply (Hlk fs1 fs2 _ _ pre (PVar a) post Lp Hd).
    - apply Hrep. cbn [field_ok] in Op |- *. rewrite Hal. apply andb_true_iff in Op as [O1 O2]. apply N.eqb_eq in O1. apply N.leb_le in O2.
      apply andb_true_iff. split; [apply N.eqb_eq|apply N.leb_le]; lia. }
  set (st' := mkBState (bs_version st) (pre ++ PVar a :: post)).
  assert (He : encode_state st = encode_state st' ++ x).
  { unfold encode_state. rewrite Hp. subst st'. cbn [bs_fields]. rewrite <- Hax. now apply encode_cut. }
  exists st'. split; [|split].
  - unfold save_interrupted, fs_exists. rewrite E. unfold file_state_at_slot, fs_exists, fs_read.
    rewrite fs_get_write, bytes_eqb_refl. cbn [negb bind].
    replace (blen (encode_state st) - 16 * k) with (blen (encode_state st')) by (rewrite He, blen_app; lia).
    rewrite He, firstn_blen. rewrite decode_state_complete; auto. rewrite He, blen_app in Hl. lia.
  - intros Eq. rewrite Eq in He. apply (f_equal blen) in He. rewrite blen_app in He. lia.
  - exact Hla.
Qed.

(** A state that meets the hypotheses: all zero apart from [k] pending consolidations. *)
Definition zeros (n : N) : bytes := repeat x00 (N.to_nat n).
Lemma blen_zeros n : blen (zeros n) = n.
Proof. unfold blen, zeros. rewrite repeat_length. lia. Qed.
Definition zero_part (o : option N) : part := match o with Some n => PFix (zeros n) | None => PVar [] end.
Lemma zero_fits sh : map part_size (map zero_part sh) = sh.
Proof. induction sh as [|[n|] sh IH]; cbn [map zero_part part_size]; rewrite ?blen_zeros, ?IH; auto. Qed.
Lemma zero_contents sh : contents (map zero_part sh) = [].
Proof. induction sh as [|[n|] sh IH]; cbn [map zero_part contents]; auto. Qed.
Definition zero_field (k : N) (f : string * fty) : part :=
  match snd f with
  | FFix n => PFix (zeros n)
  | FSub sh => PVar (encode_container (map zero_part sh))
  | _ => PVar (if String.eqb (fst f) "pending_consolidations" then zeros (16 * k) else [])
  end.
Definition zero_state (v : version) (k : N) : BState := mkBState v (map (zero_field k) (fields v)).
Lemma zero_field_ok k n t : k <= 262144 -> (t = FList 16 262144 \/ n <> "pending_consolidations"%string) ->
  match t with FSub sh => shape_size sh < 2 ^ 32 | FList e _ => e <> 0 | _ => True end ->
  field_ok t (zero_field k (n, t)) = true.
Proof.
  intros Hk Hn Ht. unfold zero_field. cbn [fst snd]. destruct t as [m|e l| |sh]; cbn [field_ok]; auto.
  - rewrite blen_zeros. apply N.eqb_refl.
  - destruct (String.eqb n "pending_consolidations") eqn:E.
    + apply String.eqb_eq in E. destruct Hn as [Hn|Hn]; [|congruence]. injection Hn as -> ->. rewrite blen_zeros.
      apply andb_true_iff. split; [apply N.eqb_eq|apply N.leb_le]; lia.
    + unfold blen. cbn [length N.of_nat]. rewrite N.mod_0_l, N.div_0_l by exact Ht. cbn. apply N.leb_le. lia.
  - rewrite decode_complete.
    + clear. induction sh as [|[m|] sh IH]; cbn [map zero_part forallb]; auto.
    + apply zero_fits.
    + rewrite blen_encode. unfold content_size. rewrite zero_contents. rewrite (fits_size sh) by apply zero_fits.
      unfold blen. cbn [length]. lia.
Qed.
Lemma zero_fields_ok k fs : k <= 262144 ->
  Forall (fun f => (snd f = FList 16 262144 \/ fst f <> "pending_consolidations"%string) /\
            match snd f with FSub sh => shape_size sh < 2 ^ 32 | FList e _ => e <> 0 | _ => True end) fs ->
  fields_ok (map snd fs) (map (zero_field k) fs) = true.
Proof.
  intros Hk H. induction H as [|[n t] fs [H1 H2] H IH]; cbn [map fields_ok]; auto.
  apply andb_true_iff. split; auto. apply zero_field_ok; auto.
Qed.
Lemma zero_state_ok v k : k <= 262144 -> state_ok (zero_state v k) = true.
Proof.
  intros Hk. apply zero_fields_ok; auto.
  destruct v; repeat (apply Forall_cons; [split; [first [left; reflexivity | right; discriminate] | try reflexivity; try exact I; discriminate]|]); apply Forall_nil.
Qed.
Lemma zero_header_size sh : shape_size sh < 2 ^ 32 -> blen (encode_container (map zero_part sh)) = shape_size sh.
Proof.
  intros H. rewrite blen_encode. unfold content_size. rewrite zero_contents. rewrite (fits_size sh) by apply zero_fits.
  unfold blen. cbn [length]. lia.
Qed.
Lemma zero_state_size v k : v = VElectra \/ v = VFulu -> k <= 262144 -> blen (encode_state (zero_state v k)) < 2 ^ 32.
Proof.
  intros Hv Hk. unfold encode_state. rewrite blen_encode. unfold content_size.
  rewrite (fits_size (state_shape v)) by (apply state_ok_fits, zero_state_ok; auto).
  assert (contents (bs_fields (zero_state v k)) = encode_container (map zero_part deneb_header) ++ zeros (16 * k) ++ []) as ->
    by (destruct Hv as [-> | ->]; reflexivity).
  rewrite !blen_app, zero_header_size, blen_zeros by reflexivity.
  destruct Hv as [-> | ->].
  - assert (shape_size (state_shape VElectra) + shape_size deneb_header < 10000000) by reflexivity. unfold blen. cbn [length]. lia.
  - assert (shape_size (state_shape VFulu) + shape_size deneb_header < 10000000) by reflexivity. unfold blen. cbn [length]. lia.
Qed.
Example C61_nonvacuous :
  let st := zero_state VElectra 2 in
  state_ok st = true /\ blen (encode_state st) < 2 ^ 32 /\ In (bs_version st) all_versions /\
  decode_state all_versions (encode_state st) = Some st /\ bs_slot st = 0.
Proof.
  cbn zeta. assert (H : state_ok (zero_state VElectra 2) = true) by (apply zero_state_ok; lia).
  assert (Hl : blen (encode_state (zero_state VElectra 2)) < 2 ^ 32) by (apply zero_state_size; [auto|lia]).
  assert (Hi : In (bs_version (zero_state VElectra 2)) all_versions) by (cbn; tauto).
  split; [exact H|]. split; [exact Hl|]. split; [exact Hi|]. split; [now apply C61_round_trip|reflexivity].
Qed.
Example C61_layout_nonvacuous : In ("earliest_exit_epoch", (2736677, 8))%string (layout (bs_version (zero_state VElectra 2))) /\
  field (zero_state VElectra 2) "earliest_exit_epoch" = Some (zeros 8).
Proof. split; [cbn; tauto|reflexivity]. Qed.
(** The crash of [C49_torn_state_served_refuted] exists: of two pending consolidations one is lost. *)
Example C49_torn_nonvacuous :
  let st := zero_state VFulu 2 in
  exists n st', file_state_at_slot (decode_state all_versions) (save_interrupted bs_slot encode_state n [] st) 0 = Ok st' /\
    st' <> st /\ field st "pending_consolidations" = Some (zeros 32) /\ field st' "pending_consolidations" = Some (zeros 16).
Proof.
  cbn zeta.
  destruct (C49_torn_state_served_refuted all_versions (zero_state VFulu 2) (zeros 32) 1 []) as (st' & H1 & H2 & H3).
  - apply zero_state_ok. lia.
  - apply zero_state_size; [auto|lia].
  - cbn. tauto.
  - auto.
  - reflexivity.
  - lia.
  - rewrite blen_zeros. lia.
  - reflexivity.
  - eexists. exists st'. split; [exact H1|]. split; [exact H2|]. split; [reflexivity|]. rewrite H3. reflexivity.
Qed.

Print Assumptions C61_layout.
Print Assumptions C61_size.
Print Assumptions C61_well_formed.
Print Assumptions C61_round_trip.
Print Assumptions C61_only_encodings.
Print Assumptions C61_one_version.
Print Assumptions C61_order_irrelevant.
Print Assumptions C61_injective.
Print Assumptions C49_torn_state.
Print Assumptions C49_torn_state_same_answers.
Print Assumptions C49_torn_state_served_refuted.
