(** Lemmas about the SSZ encoding of containers and of beacon states. *)
From Coq Require Import String List Arith NArith Bool Lia ZifyBool ZifyNat ZifyN.
From Coq.Init Require Import Byte.
From Verif.Model Require Import Base StateFile.
From Verif.Proof Require Import BaseLemmas.
Import ListNotations.
Open Scope list_scope.
Open Scope N_scope.

Lemma blen_app a b : blen (a ++ b) = blen a + blen b.
Proof. unfold blen. rewrite app_length. lia. Qed.
Lemma blen_firstn n b : n <= blen b -> blen (firstn (N.to_nat n) b) = n.
Proof. unfold blen. intros. rewrite firstn_length. lia. Qed.
Lemma blen_skipn n b : blen (skipn (N.to_nat n) b) = blen b - n.
Proof. unfold blen. rewrite skipn_length. lia. Qed.
Lemma firstn_blen a b : firstn (N.to_nat (blen a)) (a ++ b) = a.
Proof. unfold blen. rewrite Nat2N.id. rewrite firstn_app, Nat.sub_diag, firstn_all. cbn. apply app_nil_r. Qed.
Lemma skipn_blen a b : skipn (N.to_nat (blen a)) (a ++ b) = b.
Proof. unfold blen. rewrite Nat2N.id. rewrite skipn_app, Nat.sub_diag, skipn_all. auto. Qed.
Lemma blen_nil b : blen b = 0 -> b = [].
Proof. destruct b; auto. unfold blen. cbn [length]. lia. Qed.

(** The parts have this shape. *)
Definition part_size (p : part) : option N := match p with PFix b => Some (blen b) | PVar _ => None end.
Definition fits (sh : shape) (ps : list part) : Prop := map part_size ps = sh.
Lemma fits_size sh ps : fits sh ps -> places_size ps = shape_size sh.
Proof. intros <-. unfold places_size, shape_size. induction ps as [|[b|b] ps IH]; cbn; auto; now rewrite IH. Qed.
Lemma blen_places ps off : blen (places off ps) = places_size ps.
Proof.
  revert off. induction ps as [|[b|b] ps IH]; intros; cbn [places places_size fold_right place_size]; auto;
  rewrite blen_app, IH; unfold places_size; auto.
Qed.
(** Where the content of the rest ends. *)
Definition content_size (ps : list part) : N := blen (contents ps).
Lemma blen_encode ps : blen (encode_container ps) = places_size ps + content_size ps.
Proof. unfold encode_container. now rewrite blen_app, blen_places. Qed.

(** What the places hold. *)
Fixpoint heads (off : N) (ps : list part) : list (bytes + N) :=
  match ps with
  | [] => []
  | PFix b :: r => inl b :: heads off r
  | PVar b :: r => inr off :: heads (off + blen b) r
  end.
Lemma cut_places_places ps off rest :
  off + content_size ps < 2 ^ 32 -> cut_places (map part_size ps) (places off ps ++ rest) = Some (heads off ps, rest).
Proof.
  revert off. induction ps as [|[b|b] ps IH]; intros off H; cbn [map part_size cut_places places heads]; auto.
  - rewrite <- app_assoc. rewrite blen_app. replace (blen b + _ <? blen b) with false by lia.
    rewrite firstn_blen, skipn_blen, IH; auto.
  - unfold content_size in *. cbn [contents] in H. rewrite blen_app in H.
    rewrite <- app_assoc. rewrite blen_app. replace (blen (le_bytes 4 off)) with 4 by (unfold blen; now rewrite le_bytes_length).
    replace (4 + _ <? 4) with false by lia.
    replace (N.to_nat 4) with (N.to_nat (blen (le_bytes 4 off))) by (unfold blen; now rewrite le_bytes_length).
    rewrite firstn_blen, skipn_blen, IH by lia. rewrite le_val_le_bytes_small; auto.
    change (256 ^ N.of_nat 4) with (2 ^ 32). lia.
Qed.
Lemma next_offset_heads ps off : next_offset (heads off ps) (off + content_size ps) = off.
Proof.
  revert off. unfold content_size. induction ps as [|[b|b] ps IH]; intros; cbn [heads next_offset contents]; auto.
  unfold blen. cbn. lia.
Qed.
Lemma cut_contents_heads ps off :
  cut_contents off (off + content_size ps) (heads off ps) (contents ps) = Some ps.
Proof.
  revert off. unfold content_size. induction ps as [|[b|b] ps IH]; intros; cbn [heads cut_contents contents]; auto.
  - now rewrite IH.
  - rewrite blen_app. rewrite N.add_assoc. fold (content_size ps). rewrite next_offset_heads.
    replace ((off =? off) && (off <=? off + blen b) && (off + blen b - off <=? blen b + content_size ps)) with true by lia.
    replace (off + blen b - off) with (blen b) by lia. rewrite firstn_blen, skipn_blen. unfold content_size. now rewrite IH.
Qed.
(** Every encoding below 4 GiB is decoded. *)
Lemma decode_complete sh ps :
  fits sh ps -> blen (encode_container ps) < 2 ^ 32 -> decode_container sh (encode_container ps) = Some ps.
Proof.
  intros Hf Hl. pose proof (fits_size _ _ Hf) as Hs. rewrite blen_encode in Hl. unfold decode_container, encode_container.
  rewrite <- Hf at 1. rewrite cut_places_places by lia. rewrite blen_app, blen_places, <- Hs.
  apply cut_contents_heads.
Qed.

(** Nothing else is decoded. *)
Definition render (l : list (bytes + N)) : bytes :=
  concat (map (fun h => match h with inl x => x | inr o => le_bytes 4 o end) l).
Definition head_size (h : bytes + N) : option N := match h with inl x => Some (blen x) | inr _ => None end.
Lemma cut_places_sound sh b l rest : cut_places sh b = Some (l, rest) ->
  map head_size l = sh /\ b = render l ++ rest.
Proof.
  revert b l rest. induction sh as [|o sh IH]; intros b l rest H; cbn [cut_places] in H.
  - injection H as <- <-. auto.
  - set (n := match o with Some n => n | None => 4 end) in *.
    destruct (blen b <? n) eqn:En; [discriminate|].
    destruct (cut_places sh (skipn (N.to_nat n) b)) as [[l' rest']|] eqn:E; [|discriminate].
    injection H as <- <-. destruct (IH _ _ _ E) as [IH1 IH2].
    destruct o as [k|]; subst n; cbn [map head_size]; unfold render; cbn [map concat]; fold (render l'); rewrite IH1.
    + rewrite blen_firstn by lia. split; auto. rewrite <- app_assoc, <- IH2. now rewrite firstn_skipn.
    + split; auto.
      assert (length (firstn (N.to_nat 4) b) = 4%nat) as E4.
      { pose proof (blen_firstn 4 b). unfold blen in *. lia. }
      rewrite <- E4 at 1. rewrite le_bytes_le_val. rewrite <- app_assoc, <- IH2. now rewrite firstn_skipn.
Qed.
Lemma cut_contents_sound l pos total rest ps :
  total = pos + blen rest -> cut_contents pos total l rest = Some ps ->
  map part_size ps = map head_size l /\ render l = places pos ps /\ contents ps = rest.
Proof.
  revert pos rest ps. induction l as [|[x|o] l IH]; intros pos rest ps Ht H; cbn [cut_contents] in H.
  - destruct rest; [|discriminate]. injection H as <-. auto.
  - destruct (cut_contents pos total l rest) as [ps'|] eqn:E; [|discriminate]. injection H as <-.
    destruct (IH _ _ _ Ht E) as (H1 & H2 & H3). cbn [map part_size head_size places contents]. rewrite H1.
    split; auto. split; auto. unfold render in *. cbn [map concat]. now rewrite H2.
  - set (e := next_offset l total) in *.
    destruct ((o =? pos) && (o <=? e) && (e - o <=? blen rest)) eqn:C; [|discriminate].
    destruct (cut_contents e total l (skipn (N.to_nat (e - o)) rest)) as [ps'|] eqn:E; [|discriminate]. injection H as <-.
    apply andb_true_iff in C as [C C3]. apply andb_true_iff in C as [C1 C2]. apply N.eqb_eq in C1. subst o.
    assert (Ht' : total = e + blen (skipn (N.to_nat (e - pos)) rest)) by (rewrite blen_skipn; lia).
    destruct (IH _ _ _ Ht' E) as (H1 & H2 & H3).
    cbn [map part_size head_size places contents]. rewrite H1. split; auto. split.
    + unfold render in *. cbn [map concat]. rewrite H2. rewrite blen_firstn by lia. now replace (pos + (e - pos)) with e by lia.
    + rewrite H3. apply firstn_skipn.
Qed.
Lemma blen_render l : blen (render l) = shape_size (map head_size l).
Proof.
  unfold render, shape_size. induction l as [|[x|o] l IH]; cbn [map concat fold_right head_size]; auto; rewrite blen_app, IH; auto.
Qed.
Lemma decode_sound sh b ps : decode_container sh b = Some ps -> fits sh ps /\ encode_container ps = b.
Proof.
  unfold decode_container. destruct (cut_places sh b) as [[l rest]|] eqn:E; [|discriminate]. intros H.
  apply cut_places_sound in E as [E1 E2].
  apply cut_contents_sound in H as (H1 & H2 & H3).
  - assert (Hf : fits sh ps) by (unfold fits; congruence). split; auto.
    unfold encode_container. rewrite (fits_size _ _ Hf), <- H2, H3. auto.
  - rewrite E2, blen_app, blen_render, E1. lia.
Qed.

(** ** Prefixes *)
(** Two containers of one shape, one encoding starting with the other: the same fields up to the last
    variable-size one, which starts with the other one's. *)
Inductive cut_last : list part -> list part -> Prop :=
| cut_last_same p ps qs : cut_last ps qs -> cut_last (p :: ps) (p :: qs)
| cut_last_here a x ps : Forall (fun p => part_size p <> None) ps -> cut_last (PVar a :: ps) (PVar (a ++ x) :: ps)
| cut_last_nil : cut_last [] [].
Definition no_var (ps : list part) : Prop := Forall (fun p => part_size p <> None) ps.
Lemma no_var_dec ps : {no_var ps} + {~ no_var ps}.
Proof. apply Forall_dec. intros [b|b]; cbn; [left; discriminate|right; auto]. Qed.
Lemma no_var_same ps qs off off' : no_var ps -> map part_size ps = map part_size qs -> places off ps = places off' qs -> ps = qs.
Proof.
  revert qs off off'. induction ps as [|p ps IH]; intros [|q qs] off off' Hn Hs Hp; cbn in Hs; try discriminate; auto.
  injection Hs as H1 H2. inversion Hn; subst. destruct p as [b|b]; [|now cbn in *]. destruct q as [b'|b']; [|discriminate].
  cbn [part_size places] in H1, Hp. injection H1 as H1. apply app_inj_length in Hp as [-> Hp]; [|unfold blen in H1; lia].
  f_equal. eapply IH; eauto.
Qed.
Lemma no_var_contents ps : no_var ps -> contents ps = [].
Proof. induction ps as [|[b|b] ps IH]; intros H; inversion H; subst; cbn in *; auto. congruence. Qed.
Lemma prefix_cut ps qs off x :
  map part_size ps = map part_size qs -> places off ps = places off qs -> contents ps ++ x = contents qs ->
  off + content_size qs < 2 ^ 32 -> cut_last ps qs \/ (no_var ps /\ ps = qs).
Proof.
  revert qs off. induction ps as [|p ps IH]; intros [|q qs] off Hs Hp Hc Hl; cbn in Hs; try discriminate.
  - right. split; [constructor|auto].
  - injection Hs as H1 H2. destruct p as [b|b]; destruct q as [b'|b']; try discriminate; cbn [part_size places contents] in H1, Hp, Hc.
    + injection H1 as H1. apply app_inj_length in Hp as [-> Hp]; [|unfold blen in H1; lia].
      destruct (IH qs off) as [Hcut|[Hn ->]]; auto.
      * left. now constructor.
      * right. split; auto. constructor; auto. cbn. discriminate.
    + apply app_inj_length in Hp as [_ Hp]; [|now rewrite !le_bytes_length].
      left. unfold content_size in Hl. cbn [contents] in Hl. rewrite blen_app in Hl.
      destruct (no_var_dec ps) as [Hn|Hn].
      * assert (ps = qs) as <- by (eapply no_var_same; eauto).
        rewrite no_var_contents in Hc by auto. rewrite !app_nil_r in Hc. subst b'. now constructor.
      * (* the next offset fixes the length *)
        assert (Eb : blen b = blen b').
        { clear - Hn Hp H2 Hl Hc.
          assert (Hlb : off + blen b < 2 ^ 32).
          { apply (f_equal blen) in Hc. rewrite !blen_app in Hc. lia. }
          assert (Hlb' : off + blen b' < 2 ^ 32) by lia. clear Hc Hl.
          revert qs Hp H2. induction ps as [|p ps IH]; intros [|q qs] Hp H2; cbn in H2; try discriminate.
          - exfalso. apply Hn. constructor.
          - injection H2 as H1 H2. destruct p as [c|c]; destruct q as [c'|c']; try discriminate; cbn [part_size places] in H1, Hp.
            + injection H1 as H1. apply app_inj_length in Hp as [_ Hp]; [|unfold blen in H1; lia].
              eapply IH; eauto. intros Hn'. apply Hn. constructor; auto. cbn. discriminate.
            + apply app_inj_length in Hp as [Hp _]; [|now rewrite !le_bytes_length].
              apply le_bytes_inj in Hp; [lia| |]; change (256 ^ N.of_nat 4) with (2 ^ 32); auto. }
        rewrite <- app_assoc in Hc. apply app_inj_length in Hc as [<- Hc]; [|unfold blen in Eb; lia].
        destruct (IH qs (off + blen b)) as [Hcut|[Hn' _]]; auto; [unfold content_size; lia| |contradiction].
        now constructor.
Qed.
Lemma prefix_container ps qs n :
  map part_size ps = map part_size qs -> encode_container ps = firstn n (encode_container qs) ->
  blen (encode_container qs) < 2 ^ 32 -> cut_last ps qs \/ ps = qs.
Proof.
  intros Hs He Hl. pose proof (firstn_skipn n (encode_container qs)) as Hx. rewrite <- He in Hx.
  set (x := skipn n (encode_container qs)) in *. clearbody x. unfold encode_container in Hx.
  assert (Hsz : places_size ps = places_size qs).
  { rewrite (fits_size (map part_size qs) ps), (fits_size (map part_size qs) qs); auto. reflexivity. }
  rewrite Hsz in Hx. rewrite <- app_assoc in Hx. apply app_inj_length in Hx as [H1 H2].
  2: { pose proof (blen_places ps (places_size qs)). pose proof (blen_places qs (places_size qs)). unfold blen in *. lia. }
  rewrite blen_encode in Hl. destruct (prefix_cut ps qs _ x Hs H1 H2 Hl) as [H|[_ H]]; auto.
Qed.

(** Shortening the last variable-size field shortens the encoding. *)
Lemma places_app ps qs off : places off (ps ++ qs) = places off ps ++ places (off + content_size ps) qs.
Proof.
  revert off. unfold content_size. induction ps as [|[b|b] ps IH]; intros; cbn [app places contents].
  - unfold blen. cbn. now rewrite N.add_0_r.
  - now rewrite IH, app_assoc.
  - rewrite IH, blen_app, <- app_assoc. now rewrite N.add_assoc.
Qed.
Lemma contents_app ps qs : contents (ps ++ qs) = contents ps ++ contents qs.
Proof. induction ps as [|[b|b] ps IH]; cbn [app contents]; auto. now rewrite IH, app_assoc. Qed.
Lemma places_no_var ps off off' : no_var ps -> places off ps = places off' ps.
Proof. induction ps as [|[b|b] ps IH]; intros H; inversion H; subst; cbn in *; auto; [now rewrite IH|congruence]. Qed.
Lemma places_size_app ps qs : places_size (ps ++ qs) = places_size ps + places_size qs.
Proof. unfold places_size. induction ps; cbn [app fold_right]; lia. Qed.
Lemma encode_cut pre a x post : no_var post ->
  encode_container (pre ++ PVar (a ++ x) :: post) = encode_container (pre ++ PVar a :: post) ++ x.
Proof.
  intros Hn. unfold encode_container. rewrite !places_size_app. cbn [places_size fold_right place_size].
  fold (places_size post). rewrite !places_app, !contents_app. cbn [places contents]. rewrite (no_var_contents post Hn), !app_nil_r.
  rewrite (places_no_var post _ (places_size pre + (4 + places_size post) + content_size pre + blen a) Hn).
  now rewrite <- !app_assoc.
Qed.

Lemma skipn_skipn2 {A} (l : list A) x y : skipn (x + y) l = skipn x (skipn y l).
Proof. revert l. induction y; intros l; [now rewrite Nat.add_0_r|]. rewrite Nat.add_succ_r. destruct l; cbn [skipn]; auto. now rewrite skipn_nil. Qed.
(** The first offset is the size of the places. *)
Lemma first_offset ks sh ps off rest : map part_size ps = map Some ks ++ None :: sh ->
  firstn 4 (skipn (N.to_nat (fold_right N.add 0 ks)) (places off ps ++ rest)) = le_bytes 4 off.
Proof.
  revert ps. induction ks as [|k ks IH]; intros [|[b|b] ps] H; cbn [map app part_size] in H; try discriminate.
  - cbn [fold_right places]. rewrite <- app_assoc. cbn [N.to_nat skipn]. 
    rewrite firstn_app, firstn_all2 by (rewrite le_bytes_length; lia). rewrite le_bytes_length. cbn [firstn Nat.sub]. apply app_nil_r.
  - injection H as <- H. cbn [fold_right places]. rewrite N2Nat.inj_add. rewrite <- app_assoc.
    rewrite (Nat.add_comm (N.to_nat (blen b))), skipn_skipn2, skipn_blen. auto.
Qed.
Lemma same_size ks sh sh' ps ps' x :
  map part_size ps = map Some ks ++ None :: sh -> map part_size ps' = map Some ks ++ None :: sh' ->
  encode_container ps' ++ x = encode_container ps ->
  shape_size (map part_size ps) < 2 ^ 32 -> shape_size (map part_size ps') < 2 ^ 32 ->
  shape_size (map part_size ps') = shape_size (map part_size ps).
Proof.
  intros H H' He Hl Hl'. unfold encode_container in He. rewrite <- app_assoc in He.
  pose proof (first_offset ks sh ps (places_size ps) (contents ps) H) as F.
  pose proof (first_offset ks sh' ps' (places_size ps') (contents ps' ++ x) H') as F'.
  rewrite He, F in F'. rewrite <- (fits_size _ ps eq_refl), <- (fits_size _ ps' eq_refl) in *.
  apply le_bytes_inj in F'; auto; change (256 ^ N.of_nat 4) with (2 ^ 32); auto.
Qed.

(** ** States *)
Lemma fields_ok_fits ts ps : fields_ok ts ps = true -> map part_size ps = map fty_size ts.
Proof.
  revert ps. induction ts as [|t ts IH]; intros [|p ps] H; cbn in H; try discriminate; auto.
  apply andb_true_iff in H as [H1 H2]. cbn [map]. rewrite (IH _ H2). f_equal.
  destruct t; destruct p; cbn in *; try discriminate; auto. apply N.eqb_eq in H1. now rewrite H1.
Qed.
Lemma fields_ok_nth ts ps i t : fields_ok ts ps = true -> nth_error ts i = Some t ->
  exists p, nth_error ps i = Some p /\ field_ok t p = true.
Proof.
  revert ps i. induction ts as [|t' ts IH]; intros [|p ps] i H E; cbn in H; try discriminate; [destruct i; discriminate|].
  apply andb_true_iff in H as [H1 H2]. destruct i; cbn in *; eauto. injection E as <-. eauto.
Qed.
Lemma state_ok_fits st : state_ok st = true -> map part_size (bs_fields st) = state_shape (bs_version st).
Proof. apply fields_ok_fits. Qed.

Definition lead_sizes : list N := [8; 32; 8; 16; 112; 262144; 262144].
Lemma state_shape_lead v : exists sh, state_shape v = map Some lead_sizes ++ None :: sh.
Proof. destruct v; eexists; reflexivity. Qed.
Lemma state_shape_small v : shape_size (state_shape v) < 2 ^ 32.
Proof. destruct v; reflexivity. Qed.
Lemma state_sizes v v' : shape_size (state_shape v) = shape_size (state_shape v') ->
  v = v' \/ v = VCapella /\ v' = VDeneb \/ v = VDeneb /\ v' = VCapella.
Proof. destruct v; destruct v'; intros H; auto; vm_compute in H; discriminate. Qed.

Definition header_sizes : list N := [32; 20; 32; 32; 256; 32; 8; 8; 8; 8].
Lemma headers_differ p : field_ok (FSub capella_header) p = true -> field_ok (FSub deneb_header) p = true -> False.
Proof.
  destruct p as [b|b]; cbn [field_ok]; [discriminate|]. intros H1 H2.
  destruct (decode_container capella_header b) as [ps|] eqn:E; [|discriminate].
  destruct (decode_container deneb_header b) as [qs|] eqn:E'; [|discriminate].
  apply decode_sound in E as [F E]. apply decode_sound in E' as [F' E'].
  assert (shape_size (map part_size ps) = shape_size (map part_size qs)) as D.
  { eapply (same_size header_sizes) with (x := []).
    - rewrite F'. reflexivity.
    - rewrite F. reflexivity.
    - rewrite app_nil_r. congruence.
    - rewrite F'. reflexivity.
    - rewrite F. reflexivity. }
  rewrite F, F' in D. vm_compute in D. discriminate.
Qed.

(** A difference from cutting off: everything before the last variable-size field is the same. *)
Lemma cut_last_nth ps qs i : cut_last ps qs -> (exists j b, (i < j)%nat /\ nth_error ps j = Some (PVar b)) ->
  nth_error ps i = nth_error qs i.
Proof.
  intros H. revert i. induction H as [p ps qs H IH|a x ps Hn|]; intros i (j & b & Hj & E); auto.
  - destruct i; auto. cbn. apply IH. destruct j; [lia|]. exists j, b. split; [lia|auto].
  - destruct i; [|auto]. destruct j; [lia|]. cbn in E. apply nth_error_In in E. rewrite Forall_forall in Hn.
    apply Hn in E. cbn in E. congruence.
Qed.

Lemma torn_state st st' x :
  state_ok st = true -> state_ok st' = true -> encode_state st' ++ x = encode_state st ->
  blen (encode_state st) < 2 ^ 32 ->
  bs_version st' = bs_version st /\ (cut_last (bs_fields st') (bs_fields st) \/ bs_fields st' = bs_fields st).
Proof.
  intros H H' He Hl. pose proof (state_ok_fits _ H) as F. pose proof (state_ok_fits _ H') as F'.
  destruct (state_shape_lead (bs_version st)) as [sh S1]. destruct (state_shape_lead (bs_version st')) as [sh' S1'].
  assert (D : shape_size (state_shape (bs_version st')) = shape_size (state_shape (bs_version st))).
  { rewrite <- F, <- F'. eapply same_size.
    - rewrite F. exact S1.
    - rewrite F'. exact S1'.
    - exact He.
    - rewrite F. apply state_shape_small.
    - rewrite F'. apply state_shape_small. }
  assert (Hsh : state_shape (bs_version st') = state_shape (bs_version st)).
  { apply state_sizes in D as [D|[[D1 D2]|[D1 D2]]]; [now rewrite D| |]; rewrite D1, D2; reflexivity. }
  assert (C : cut_last (bs_fields st') (bs_fields st) \/ bs_fields st' = bs_fields st).
  { eapply prefix_container with (n := length (encode_state st')); auto; [congruence|].
    unfold encode_state in *. rewrite <- He. rewrite firstn_app, Nat.sub_diag, firstn_all. cbn. now rewrite app_nil_r. }
  split; auto.
  assert (Hnth : (exists b, nth_error (bs_fields st') 27 = Some (PVar b)) -> nth_error (bs_fields st') 24 = nth_error (bs_fields st) 24).
  { intros [b Hb]. destruct C as [C| ->]; auto. eapply cut_last_nth; eauto. exists 27%nat, b. split; [lia|auto]. }
  apply state_sizes in D as [D|[[D1 D2]|[D1 D2]]]; auto; exfalso; unfold state_ok in H, H'; rewrite D1 in H'; rewrite D2 in H.
  - destruct (fields_ok_nth _ _ 27 (FList 64 16777216) H' eq_refl) as (p & Ep & Op).
    destruct p as [b|b]; [discriminate|].
    destruct (fields_ok_nth _ _ 24 (FSub capella_header) H' eq_refl) as (q & Eq & Oq).
    destruct (fields_ok_nth _ _ 24 (FSub deneb_header) H eq_refl) as (q' & Eq' & Oq').
    rewrite (Hnth (ex_intro _ b Ep)) in Eq. rewrite Eq in Eq'. injection Eq' as <-. eapply headers_differ; eauto.
  - destruct (fields_ok_nth _ _ 27 (FList 64 16777216) H' eq_refl) as (p & Ep & Op).
    destruct p as [b|b]; [discriminate|].
    destruct (fields_ok_nth _ _ 24 (FSub deneb_header) H' eq_refl) as (q & Eq & Oq).
    destruct (fields_ok_nth _ _ 24 (FSub capella_header) H eq_refl) as (q' & Eq' & Oq').
    rewrite (Hnth (ex_intro _ b Ep)) in Eq. rewrite Eq in Eq'. injection Eq' as <-. eapply headers_differ; eauto.
Qed.

Lemma cut_last_nonempty ps qs : cut_last ps qs -> contents ps = contents qs -> ps = qs.
Proof.
  intros H. induction H as [p ps qs H IH|a x ps Hn|]; intros E; auto.
  - destruct p; cbn [contents] in E; [now rewrite IH|]. apply app_inv_head in E. now rewrite IH.
  - cbn [contents] in E. rewrite (no_var_contents ps Hn), !app_nil_r in E. now rewrite <- E.
Qed.
Lemma places_len_eq ps qs : map part_size ps = map part_size qs -> places_size ps = places_size qs.
Proof. intros H. rewrite (fits_size (map part_size qs) ps), (fits_size (map part_size qs) qs); auto. reflexivity. Qed.
Lemma encode_state_inj st st' : state_ok st = true -> state_ok st' = true ->
  encode_state st' = encode_state st -> blen (encode_state st) < 2 ^ 32 -> st' = st.
Proof.
  intros H H' He Hl. destruct (torn_state st st' [] H H') as [Hv C]; auto; [now rewrite app_nil_r|].
  assert (bs_fields st' = bs_fields st) as Hf.
  { destruct C as [C|C]; auto. apply cut_last_nonempty; auto. unfold encode_state, encode_container in He.
    assert (map part_size (bs_fields st') = map part_size (bs_fields st)) as Hm.
    { rewrite (state_ok_fits _ H), (state_ok_fits _ H'). now rewrite Hv. }
    apply app_inj_length in He; [apply He|].
    pose proof (blen_places (bs_fields st') (places_size (bs_fields st'))).
    pose proof (blen_places (bs_fields st) (places_size (bs_fields st))). apply places_len_eq in Hm. unfold blen in *. lia. }
  destruct st, st'; cbn in *; congruence.
Qed.

Lemma decode_version_sound v b st : decode_version v b = Some st -> bs_version st = v /\ state_ok st = true /\ encode_state st = b.
Proof.
  unfold decode_version. destruct (decode_container (state_shape v) b) as [ps|] eqn:E; [|discriminate].
  destruct (fields_ok (field_types v) ps) eqn:F; [|discriminate]. intros H. injection H as <-.
  apply decode_sound in E as [_ E]. auto.
Qed.
Lemma decode_version_complete st : state_ok st = true -> blen (encode_state st) < 2 ^ 32 ->
  decode_version (bs_version st) (encode_state st) = Some st.
Proof.
  intros H Hl. unfold decode_version, encode_state. rewrite (decode_complete _ (bs_fields st)); auto.
  - unfold state_ok in H. rewrite H. now destruct st.
  - now apply state_ok_fits.
Qed.
Lemma decode_state_sound order b st : decode_state order b = Some st -> In (bs_version st) order /\ state_ok st = true /\ encode_state st = b.
Proof.
  induction order as [|v r IH]; cbn [decode_state]; [discriminate|]. destruct (decode_version v b) as [s|] eqn:E.
  - intros H. injection H as <-. apply decode_version_sound in E as (<- & H1 & H2). repeat split; auto. now left.
  - intros H. apply IH in H as (H1 & H2 & H3). repeat split; auto. now right.
Qed.
Lemma decode_state_complete order st : state_ok st = true -> blen (encode_state st) < 2 ^ 32 -> In (bs_version st) order ->
  decode_state order (encode_state st) = Some st.
Proof.
  intros H Hl. induction order as [|v r IH]; cbn [decode_state In]; [tauto|]. intros Hi.
  destruct (decode_version v (encode_state st)) as [s|] eqn:E.
  - apply decode_version_sound in E as (_ & H1 & H2). f_equal. apply encode_state_inj; auto.
  - destruct Hi as [->|Hi]; auto. rewrite decode_version_complete in E by auto. discriminate.
Qed.

(** ** Fields by name *)
Fixpoint last_variable (fs : list (string * fty)) : option string :=
  match fs with
  | [] => None
  | (n, t) :: r => match last_variable r with
                   | Some x => Some x
                   | None => match fty_size t with Some _ => None | None => Some n end
                   end
  end.
Lemma last_variable_none fs ps : map part_size ps = map fty_size (map snd fs) -> no_var ps -> last_variable fs = None.
Proof.
  revert ps. induction fs as [|[n t] fs IH]; intros [|p ps] H Hn; cbn in H; try discriminate; auto.
  injection H as H1 H2. inversion Hn; subst. cbn [last_variable]. rewrite (IH _ H2) by auto. rewrite <- H1.
  destruct p; cbn in *; congruence.
Qed.
Lemma lookup_cut fs ps qs name : map part_size ps = map fty_size (map snd fs) -> cut_last ps qs ->
  last_variable fs <> Some name -> lookup fs ps name = lookup fs qs name.
Proof.
  intros Hs H. revert fs Hs. induction H as [p ps qs H IH|a x ps Hn|]; intros [|[n t] fs] Hs Hl; cbn in Hs; try discriminate; auto.
  - injection Hs as H1 H2. cbn [lookup]. destruct (String.eqb n name) eqn:E; auto. apply IH; auto.
    cbn [last_variable] in Hl. destruct (last_variable fs); auto. discriminate.
  - injection Hs as H1 H2. cbn [lookup]. destruct (String.eqb n name) eqn:E; auto. exfalso. apply String.eqb_eq in E. subst.
    apply Hl. cbn [last_variable]. rewrite (last_variable_none fs ps H2 Hn). now rewrite <- H1.
Qed.
