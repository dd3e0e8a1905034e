(** C82: how the answers of the node are read. *)
From Coq Require Import String List Arith NArith Bool Lia ZifyBool ZifyNat ZifyN.
From Coq.Init Require Import Byte.
From Verif.Model Require Import Base Types HostStore HostInput BeaconClient StateFile StateJson.
From Verif.Model Require InputCodec.
From Verif.Spec Require Import StateJsonSpec.
From Verif.Spec Require InputFormat.
From Verif.Proof Require Import BaseLemmas HostStoreP StateFileP.
From Verif.Proof Require InputCodecP InputFormatP.
Import ListNotations.
Open Scope list_scope.
Open Scope N_scope.

(** ** Induction *)
Section TyInd.
  Variable P : ty -> Prop.
  Hypothesis Hu : forall n s, P (TUint n s).
  Hypothesis Hb : P TBool.
  Hypothesis Hy : forall n, P (TBytes n).
  Hypothesis Hl : forall n, P (TByteList n).
  Hypothesis Hv : forall n t, P t -> P (TVec n t).
  Hypothesis Hs : forall n t, P t -> P (TList n t).
  Hypothesis Hc : forall fs, Forall (fun f => P (snd f)) fs -> P (TCont fs).
  Hypothesis Hbv : forall n, P (TBits n).
  Hypothesis Hbl : forall n, P (TBitList n).
  Fixpoint ty_ind' (t : ty) : P t :=
    match t with
    | TUint n s => Hu n s
    | TBool => Hb
    | TBytes n => Hy n
    | TByteList n => Hl n
    | TVec n t' => Hv n t' (ty_ind' t')
    | TList n t' => Hs n t' (ty_ind' t')
    | TCont fs => Hc fs ((fix go fs : Forall (fun f => P (snd f)) fs :=
        match fs with [] => Forall_nil _ | f :: r => Forall_cons f (ty_ind' (snd f)) (go r) end) fs)
    | TBits n => Hbv n
    | TBitList n => Hbl n
    end.
End TyInd.

(** ** Members *)
Lemma member_none m n : ~ In n (map fst m) -> member m n = None.
Proof.
  induction m as [|[k j] m IH]; cbn [map fst In member]; auto. intros H.
  rewrite IH by tauto. destruct (String.eqb_spec k n); auto. subst. tauto.
Qed.
Lemma member_in m n j : NoDup (map fst m) -> In (n, j) m -> member m n = Some j.
Proof.
  induction m as [|[k j'] m IH]; cbn [map fst In member]; intros D H; [contradiction|]. inversion D; subst.
  destruct H as [H|H].
  - injection H as -> ->. rewrite member_none by assumption. now rewrite String.eqb_refl.
  - now rewrite IH.
Qed.
Lemma member_some m n j : member m n = Some j -> In (n, j) m.
Proof.
  induction m as [|[k j'] m IH]; cbn [member In]; [discriminate|]. destruct (member m n); auto.
  destruct (String.eqb_spec k n); [|discriminate]. intros H. injection H as ->. subst. auto.
Qed.

(** ** Leaves *)
Lemma digits_val_fold s : forall acc, Forall (fun c => 48 <= Byte.to_N c <= 57) s ->
  digits_val acc s = Some (fold_left (fun acc c => 10 * acc + (Byte.to_N c - 48)) s acc).
Proof.
  induction s as [|c s IH]; intros acc H; cbn [digits_val fold_left]; auto. inversion H; subst.
  unfold digit_val. replace ((48 <=? Byte.to_N c) && (Byte.to_N c <=? 57)) with true by lia. now apply IH.
Qed.
Lemma parse_decimal n s : is_decimal s -> decimal_value s < 2 ^ (8 * N.of_nat n) -> parse_uint n s = Some (decimal_value s).
Proof.
  intros [Hn Hd] Hl. unfold parse_uint.
  assert ((match s with x2b :: r => r | _ => s end) = s) as ->.
  { destruct s as [|c r]; auto. inversion Hd; subst. destruct c; auto. cbn in *. lia. }
  destruct s as [|c r]; [congruence|]. rewrite digits_val_fold by assumption. fold (decimal_value (c :: r)).
  now replace (decimal_value (c :: r) <? 2 ^ (8 * N.of_nat n)) with true by lia.
Qed.
Lemma hex_is_val c n : hex_is c n -> hex_val c = Some n.
Proof.
  unfold hex_is, hex_val. intros H.
  destruct ((48 <=? Byte.to_N c) && (Byte.to_N c <=? 57)) eqn:E; [f_equal; lia|].
  destruct ((97 <=? Byte.to_N c) && (Byte.to_N c <=? 102)) eqn:E1; [f_equal; lia|].
  replace ((65 <=? Byte.to_N c) && (Byte.to_N c <=? 70)) with true by lia. f_equal. lia.
Qed.
Lemma byte_split x : byte_of_N (16 * (Byte.to_N x / 16) + Byte.to_N x mod 16) = x.
Proof. rewrite <- N.div_mod by lia. destruct x; reflexivity. Qed.
Lemma unhex_hex b : forall s, hex_digits b s -> unhex_digits s = Some b.
Proof.
  induction b as [|x b IH]; intros [|h [|l s]]; cbn [hex_digits]; try tauto; auto.
  intros (H1 & H2 & H3). cbn [unhex_digits]. rewrite (hex_is_val _ _ H1), (hex_is_val _ _ H2), (IH _ H3), byte_split. reflexivity.
Qed.
Lemma unhex_string b s : hex_string b s -> unhex s = Some b.
Proof. intros (d & -> & H). cbn [unhex]. now apply unhex_hex. Qed.

(** ** Named versions of the inner loops *)
Section Loops.
  Variable m : list (string * json).
  Fixpoint by_name (fs : list (string * ty)) : option (list val) :=
    match fs with
    | [] => Some []
    | (n, t') :: r =>
        match member m n with
        | Some j' => match from_json t' j', by_name r with Some v, Some s => Some (v :: s) | _, _ => None end
        | None => None
        end
    end.
End Loops.
Lemma from_json_obj fs m : from_json (TCont fs) (JObj m) = option_map VSeq (by_name m fs).
Proof. reflexivity. Qed.
Section Shows.
  Variable m : list (string * json).
  Fixpoint each (fs : list (string * kind)) (vs : list val) : Prop :=
    match fs, vs with
    | [], [] => True
    | (name, k') :: fs', x :: vs' => (exists j', In (name, j') m /\ shows k' x j') /\ each fs' vs'
    | _, _ => False
    end.
End Shows.
Lemma shows_container fs v j : shows (Container fs) v j <->
  exists vs m, v = VSeq vs /\ j = JObj m /\ NoDup (map fst m) /\ each m fs vs.
Proof.
  reflexivity.
Qed.

(** ** Types and kinds *)
Fixpoint api (t : ty) : option kind :=
  match t with
  | TUint n true => Some (Uint n)
  | TUint n false => None
  | TBool => Some Boolean
  | TBytes n => Some (ByteVector n)
  | TByteList n => Some (ByteList n)
  | TVec n t' => match api t' with Some k => Some (Vector k n) | None => None end
  | TList n t' => match api t' with Some k => Some (List_ k n) | None => None end
  | TCont fs =>
      option_map Container
        ((fix go (fs : list (string * ty)) : option (list (string * kind)) :=
            match fs with
            | [] => Some []
            | (n, t') :: r => match api t', go r with Some k, Some s => Some ((n, k) :: s) | _, _ => None end
            end) fs)
  | TBits n => Some (Bitvector n)
  | TBitList n => Some (Bitlist n)
  end.
Fixpoint api_fields (fs : list (string * ty)) : option (list (string * kind)) :=
  match fs with
  | [] => Some []
  | (n, t') :: r => match api t', api_fields r with Some k, Some s => Some ((n, k) :: s) | _, _ => None end
  end.
Lemma api_cont fs : api (TCont fs) = option_map Container (api_fields fs).
Proof. reflexivity. Qed.
Lemma api_state v : api (TCont (typed_fields v)) = Some (Container (state_fields v)).
Proof. destruct v; vm_compute; reflexivity. Qed.

Lemma all_forall2 {A B} (f : A -> option B) (l : list A) r : Forall2 (fun b a => f a = Some b) r l -> all f l = Some r.
Proof. induction 1 as [|b a r l H _ IH]; cbn [all]; auto. now rewrite H, IH. Qed.
Theorem read_shown t : forall k v j, api t = Some k -> shows k v j -> from_json t j = Some v.
Proof.
  induction t as [n s| |n|n|n t IH|n t IH|fs IH|n|n] using ty_ind'; intros k v j Ha Hs.
  - destruct s; cbn in Ha; [|discriminate]. injection Ha as <-. destruct Hs as (x & s & -> & -> & Hd & Hv & Hl). cbn [from_json].
    rewrite parse_decimal by (auto; lia). cbn. now rewrite Hv.
  - injection Ha as <-. destruct Hs as (b & -> & ->). reflexivity.
  - injection Ha as <-. destruct Hs as (b & s & -> & -> & Hh & Hl). cbn [from_json]. rewrite (unhex_string _ _ Hh). unfold blen. now rewrite Hl, N.eqb_refl.
  - injection Ha as <-. destruct Hs as (b & s & -> & -> & Hh & Hl). cbn [from_json]. rewrite (unhex_string _ _ Hh). unfold blen.
    now replace (N.of_nat (length b) <=? n) with true by lia.
  - cbn in Ha. destruct (api t) as [k'|] eqn:E; [|discriminate]. injection Ha as <-. destruct Hs as (vs & js & -> & -> & Hl & Hf). cbn [from_json].
    rewrite (all_forall2 _ js vs). { unfold len. now rewrite Hl, N.eqb_refl. }
    clear -Hf IH E. induction Hf; constructor; eauto.
  - cbn in Ha. destruct (api t) as [k'|] eqn:E; [|discriminate]. injection Ha as <-. destruct Hs as (vs & js & -> & -> & Hl & Hf). cbn [from_json].
    rewrite (all_forall2 _ js vs). { unfold len. now replace (N.of_nat (length vs) <=? n) with true by lia. }
    clear -Hf IH E. induction Hf; constructor; eauto.
  - rewrite api_cont in Ha. destruct (api_fields fs) as [ks|] eqn:E; [|discriminate]. injection Ha as <-.
    apply shows_container in Hs as (vs & m & -> & -> & D & Hs). rewrite from_json_obj.
    assert (by_name m fs = Some vs) as ->; [|reflexivity].
    revert ks E vs Hs. induction IH as [|[n t] fs Ht _ IH]; intros ks E vs Hs.
    + injection E as <-. destruct vs; [reflexivity|destruct Hs].
    + cbn [api_fields] in E. destruct (api t) as [k|] eqn:Ek; [|discriminate]. destruct (api_fields fs) as [ks'|]; [|discriminate].
      injection E as <-. destruct vs as [|x vs]; [destruct Hs|]. destruct Hs as [(j' & Hi & Hx) Hs]. cbn [by_name].
      rewrite (member_in _ _ _ D Hi). cbn [snd] in Ht. rewrite (Ht _ _ _ Ek Hx). now rewrite (IH _ eq_refl _ Hs).
  - injection Ha as <-. destruct Hs as (l & b & s & -> & -> & Hh & Hb). cbn [from_json]. rewrite (unhex_string _ _ Hh). apply InputFormatP.bitfield_exact in Hb. now rewrite Hb.
  - injection Ha as <-. destruct Hs as (l & b & s & -> & -> & Hh & Hb). cbn [from_json]. rewrite (unhex_string _ _ Hh). apply InputFormatP.bitlist_exact in Hb. now rewrite Hb.
Qed.

(** ** Versions *)
Lemma by_name_has m : forall fs vs n t, by_name m fs = Some vs -> In (n, t) fs -> exists j, member m n = Some j /\ exists v, from_json t j = Some v.
Proof.
  induction fs as [|[n' t'] fs IH]; intros vs n t H Hi; [destruct Hi|]. cbn [by_name] in H.
  destruct (member m n') as [j|] eqn:E; [|discriminate]. destruct (from_json t' j) as [v|] eqn:E1; [|discriminate].
  destruct (by_name m fs) as [s|] eqn:E2; [|discriminate]. destruct Hi as [Hi|Hi].
  - injection Hi as -> ->. eauto.
  - eapply IH; eauto.
Qed.
(** A path that the type requires. *)
Fixpoint requires (t : ty) (path : list string) : Prop :=
  match path with
  | [] => False
  | [n] => exists fs t', t = TCont fs /\ In (n, t') fs
  | n :: rest => exists fs t', t = TCont fs /\ In (n, t') fs /\ requires t' rest
  end.
Lemma lacks_refused : forall path t j, requires t path -> lacks path j -> from_json t j = None.
Proof.
  induction path as [|n rest IH]; intros t j Hr Hl; [destruct Hr|]. destruct Hl as (m & -> & Hl).
  assert (exists fs t', t = TCont fs /\ In (n, t') fs /\ (rest <> [] -> requires t' rest)) as (fs & t' & -> & Hi & Hr').
  { destruct rest; cbn in Hr. - destruct Hr as (fs & t' & -> & H). exists fs, t'. tauto. - destruct Hr as (fs & t' & -> & H & H'). exists fs, t'. auto. }
  rewrite from_json_obj. destruct (by_name m fs) as [vs|] eqn:E; [|reflexivity].
  destruct (by_name_has _ _ _ _ _ E Hi) as (j & Hj & v & Hv). destruct Hl as [Hl|(D & j' & Hj' & Hl)].
  - rewrite (member_none _ _ Hl) in Hj. discriminate.
  - rewrite (member_in _ _ _ D Hj') in Hj. injection Hj as ->. destruct rest as [|n' rest]; [destruct Hl|].
    rewrite (IH t' j) in Hv; [discriminate| |exact Hl]. apply Hr'. discriminate.
Qed.

(** Every newer version requires what the next version adds. *)
Definition string_in (n : string) (fs : list (string * ty)) : option ty :=
  option_map snd (find (fun f => String.eqb (fst f) n) fs).
Lemma string_in_sound n fs t : string_in n fs = Some t -> In (n, t) fs.
Proof.
  unfold string_in. destruct (find _ fs) as [[k t']|] eqn:E; [|discriminate]. intros H. injection H as <-.
  apply find_some in E as [E1 E2]. cbn in *. apply String.eqb_eq in E2 as ->. exact E1.
Qed.
Fixpoint requires_b (t : ty) (path : list string) : bool :=
  match path, t with
  | [n], TCont fs => match string_in n fs with Some _ => true | None => false end
  | n :: rest, TCont fs => match string_in n fs with Some t' => requires_b t' rest | None => false end
  | _, _ => false
  end.
Lemma requires_b_sound : forall path t, requires_b t path = true -> requires t path.
Proof.
  induction path as [|n rest IH]; intros t H; [destruct t; discriminate|].
  destruct t as [| | | | | |fs| |]; try (destruct rest; discriminate). cbn [requires_b] in H.
  destruct rest as [|n' rest].
  - destruct (string_in n fs) as [t'|] eqn:E; [|discriminate]. exists fs, t'. split; auto. now apply string_in_sound.
  - destruct (string_in n fs) as [t'|] eqn:E; [|discriminate]. exists fs, t'. split; auto. split; [now apply string_in_sound|]. now apply IH.
Qed.
Definition newer (v w : version) : bool := number v <? number w.
Lemma additions_required v v' w : next_version v = Some v' -> newer v w = true ->
  Forall (requires (TCont (typed_fields w))) (additions v').
Proof.
  intros Hn Hw. apply Forall_forall. intros path Hp. apply requires_b_sound. revert path Hp. apply Forall_forall.
  destruct v; cbn in Hn; try discriminate; injection Hn as <-; destruct w; try discriminate Hw; repeat constructor.
Qed.
Lemma read_version_none v j : from_json (TCont (typed_fields v)) j = None -> read_version v j = None.
Proof. unfold read_version. now intros ->. Qed.
Lemma newer_refused v w j : not_newer v j -> newer v w = true -> read_version w j = None.
Proof.
  unfold not_newer. destruct (next_version v) as [v'|] eqn:E.
  - intros (path & Hp & Hl) Hw. apply read_version_none. eapply lacks_refused; [|exact Hl].
    pose proof (additions_required _ _ _ E Hw) as F. rewrite Forall_forall in F. now apply F.
  - destruct v; try discriminate. destruct w; discriminate.
Qed.
Lemma read_version_shown v vs j : shows (Container (state_fields v)) (VSeq vs) j -> read_version v j = Some (mkTState v vs).
Proof. intros H. unfold read_version. now rewrite (read_shown _ _ _ _ (api_state v) H). Qed.
Theorem state_shown v vs j : shows (Container (state_fields v)) (VSeq vs) j -> not_newer v j ->
  state_of_json j = Some (mkTState v vs).
Proof.
  intros Hs Hn. pose proof (read_version_shown _ _ _ Hs) as R. unfold state_of_json, read_order. cbn [try_versions].
  assert (forall w, newer v w = true -> read_version w j = None) as F by (intros; eapply newer_refused; eauto).
  destruct v; rewrite ?F by reflexivity; now rewrite R.
Qed.

Lemma read_version_same v j st : read_version v j = Some st -> ts_version st = v.
Proof. unfold read_version. destruct (from_json _ j) as [[| | |vs|]|]; try discriminate. now injection 1 as <-. Qed.
Lemma try_some order j st : try_versions order j = Some st ->
  In (ts_version st) order /\ read_version (ts_version st) j = Some st.
Proof.
  induction order as [|v r IH]; cbn [try_versions]; [discriminate|]. destruct (read_version v j) as [st'|] eqn:E.
  - intros H. injection H as ->. rewrite (read_version_same _ _ _ E). cbn. auto.
  - intros H. apply IH in H as [H1 H2]. cbn. auto.
Qed.

(** ** Well-typed values *)
Fixpoint typed (t : ty) (v : val) : bool :=
  match t, v with
  | TUint n _, VNum x => x <? 2 ^ (8 * N.of_nat n)
  | TBool, VBool _ => true
  | TBytes n, VBytes b => blen b =? n
  | TByteList n, VBytes b => blen b <=? n
  | TVec n t', VSeq l => (len l =? n) && forallb (typed t') l
  | TList n t', VSeq l => (len l <=? n) && forallb (typed t') l
  | TCont fs, VSeq l =>
      (fix go (fs : list (string * ty)) (l : list val) : bool :=
         match fs, l with
         | [], [] => true
         | (_, t') :: r, x :: l' => typed t' x && go r l'
         | _, _ => false
         end) fs l
  | TBits n, VBits l => len l =? n
  | TBitList n, VBits l => len l <=? n
  | _, _ => false
  end.
Fixpoint typed_all (fs : list (string * ty)) (l : list val) : bool :=
  match fs, l with
  | [], [] => true
  | (_, t') :: r, x :: l' => typed t' x && typed_all r l'
  | _, _ => false
  end.
Lemma typed_cont fs l : typed (TCont fs) (VSeq l) = typed_all fs l.
Proof. reflexivity. Qed.

Lemma parse_uint_bound n s x : parse_uint n s = Some x -> x < 2 ^ (8 * N.of_nat n).
Proof.
  unfold parse_uint. generalize (match s with x2b :: r => r | _ => s end). intros [|c r]; [discriminate|].
  destruct (digits_val 0 (c :: r)) as [y|]; [|discriminate].
  destruct (y <? 2 ^ (8 * N.of_nat n)) eqn:E; [|discriminate]. intros H. injection H as <-. lia.
Qed.
Lemma all_typed t l r : (forall j v, from_json t j = Some v -> typed t v = true) -> all (from_json t) l = Some r -> forallb (typed t) r = true.
Proof.
  intros H. revert r. induction l as [|j l IH]; intros r E; cbn [all] in E; [now injection E as <-|].
  destruct (from_json t j) as [v|] eqn:E1; [|discriminate]. destruct (all (from_json t) l) as [s|]; [|discriminate].
  injection E as <-. cbn [forallb]. rewrite (H _ _ E1). now apply IH.
Qed.
Theorem from_json_typed t : forall j v, from_json t j = Some v -> typed t v = true.
Proof.
  induction t as [n s| |n|n|n t IH|n t IH|fs IH|n|n] using ty_ind'; intros j v H; cbn [from_json] in H.
  - destruct s, j as [| |x|x| |]; try discriminate.
    + destruct (parse_uint n x) as [y|] eqn:E; [|discriminate]. injection H as <-. apply parse_uint_bound in E. cbn [typed]. lia.
    + destruct (x <? 2 ^ (8 * N.of_nat n)) eqn:E; [|discriminate]. injection H as <-. exact E.
  - destruct j; try discriminate. now injection H as <-.
  - destruct j; try discriminate. destruct (unhex s); [|discriminate]. destruct (blen b =? n) eqn:E; [|discriminate]. now injection H as <-.
  - destruct j; try discriminate. destruct (unhex s); [|discriminate]. destruct (blen b <=? n) eqn:E; [|discriminate]. now injection H as <-.
  - destruct j; try discriminate. destruct (all (from_json t) l) as [r|] eqn:E; [|discriminate].
    destruct (len r =? n) eqn:E1; [|discriminate]. injection H as <-. cbn [typed]. rewrite E1. cbn. eapply all_typed; eauto.
  - destruct j; try discriminate. destruct (all (from_json t) l) as [r|] eqn:E; [|discriminate].
    destruct (len r <=? n) eqn:E1; [|discriminate]. injection H as <-. cbn [typed]. rewrite E1. cbn. eapply all_typed; eauto.
  - destruct j as [| | | |l|m]; try discriminate.
    + match type of H with option_map _ ?x = _ => destruct x as [r|] eqn:E; [|discriminate] end. injection H as <-. rewrite typed_cont.
      revert l r E. induction IH as [|[n t] fs Ht _ IH]; intros [|j l] r E; try discriminate; [now injection E as <-|].
      destruct (from_json t j) as [x|] eqn:E1; [|discriminate].
      match type of E with match ?x with _ => _ end = _ => destruct x as [s|] eqn:E2; [|discriminate] end.
      injection E as <-. cbn [typed_all]. cbn [snd] in Ht. rewrite (Ht _ _ E1). now apply IH with l.
    + change (option_map VSeq (by_name m fs) = Some v) in H. destruct (by_name m fs) as [r|] eqn:E; [|discriminate]. injection H as <-. rewrite typed_cont.
      revert r E. induction IH as [|[n t] fs Ht _ IH]; intros r E; cbn [by_name] in E; [now injection E as <-|].
      destruct (member m n) as [j|]; [|discriminate]. destruct (from_json t j) as [x|] eqn:E1; [|discriminate].
      destruct (by_name m fs) as [s|]; [|discriminate]. injection E as <-. cbn [typed_all]. cbn [snd] in Ht. rewrite (Ht _ _ E1). now apply IH.
  - destruct j; try discriminate. destruct (unhex s); [|discriminate]. destruct (InputCodec.unssz_bitvector n b) as [l|] eqn:E; [|discriminate]. injection H as <-.
    apply InputCodecP.unssz_bitvector_length in E. cbn [typed]. unfold len. lia.
  - destruct j; try discriminate. destruct (unhex s); [|discriminate]. destruct (InputCodec.unssz_bitlist n b) as [l|] eqn:E; [|discriminate]. injection H as <-.
    apply InputCodecP.unssz_bitlist_bound in E. cbn [typed]. unfold len. lia.
Qed.

(** ** SSZ *)
Lemma contents_fixed ps : Forall (fun p => exists b, p = PFix b) ps -> contents ps = [] /\ forall off, places off ps = concat (map part_bytes ps).
Proof.
  induction 1 as [|p ps [b ->] _ [IH1 IH2]]; cbn [contents places map concat part_bytes]; auto. split; auto. intros. now rewrite IH2.
Qed.
Fixpoint cont_size (fs : list (string * ty)) : option N :=
  match fs with
  | [] => Some 0
  | (_, t') :: r => match ty_size t', cont_size r with Some a, Some b => Some (a + b) | _, _ => None end
  end.
Lemma ty_size_cont fs : ty_size (TCont fs) = cont_size fs.
Proof. reflexivity. Qed.
Lemma to_ssz_cont fs l : to_ssz (TCont fs) (VSeq l) = encode_container (ssz_parts fs l).
Proof. reflexivity. Qed.
Lemma encode_fixed ps : Forall (fun p => exists b, p = PFix b) ps -> encode_container ps = concat (map part_bytes ps).
Proof. intros H. destruct (contents_fixed _ H) as [H1 H2]. unfold encode_container. now rewrite H1, H2, app_nil_r. Qed.
Lemma blen_le n x : blen (le_bytes n x) = N.of_nat n.
Proof. unfold blen. now rewrite le_bytes_length. Qed.
Theorem to_ssz_size t : forall v k, typed t v = true -> ty_size t = Some k -> blen (to_ssz t v) = k.
Proof.
  induction t as [n s| |n|n|n t IH|n t IH|fs IH|n|n] using ty_ind'; intros v k Ht Hk; destruct v as [x|b|b|l|l]; try discriminate Ht.
  - injection Hk as <-. apply blen_le.
  - injection Hk as <-. reflexivity.
  - injection Hk as <-. cbn in *. lia.
  - discriminate.
  - cbn [ty_size] in Hk. destruct (ty_size t) as [a|] eqn:Et; [|discriminate]. injection Hk as <-. cbn [to_ssz]. cbn [typed] in Ht.
    apply andb_true_iff in Ht as [Hl Ht]. apply N.eqb_eq in Hl. subst n. unfold part_of. rewrite Et.
    rewrite encode_fixed. 2: { apply Forall_forall. intros p Hp. apply in_map_iff in Hp as (y & <- & _). eauto. }
    clear -IH Ht Et. unfold len. induction l as [|y l IHl]; [reflexivity|]. cbn [forallb] in Ht. apply andb_true_iff in Ht as [Hy Ht].
    cbn [map concat part_bytes length]. rewrite blen_app, (IH y a Hy eq_refl), (IHl Ht). lia.
  - discriminate.
  - rewrite ty_size_cont in Hk. rewrite typed_cont in Ht. rewrite to_ssz_cont.
    assert (Forall (fun p => exists b, p = PFix b) (ssz_parts fs l) /\ blen (concat (map part_bytes (ssz_parts fs l))) = k) as [H1 H2].
    { revert l k Ht Hk. induction IH as [|[n t] fs Hx _ IH]; intros [|x l] k Ht Hk; try discriminate Ht.
      - injection Hk as <-. split; [constructor|reflexivity].
      - cbn [typed_all] in Ht. apply andb_true_iff in Ht as [Hty Ht]. cbn [cont_size] in Hk. destruct (ty_size t) as [a|] eqn:Et; [|discriminate].
        destruct (cont_size fs) as [b|]; [|discriminate]. injection Hk as <-. destruct (IH l b Ht eq_refl) as [H1 H2].
        cbn [ssz_parts map concat]. unfold part_of. rewrite Et. cbn [part_bytes]. split; [constructor; eauto|].
        cbn [snd] in Hx. rewrite blen_app, H2, (Hx x a Hty Et). reflexivity. }
    rewrite encode_fixed by exact H1. exact H2.
  - injection Hk as <-. cbn [typed to_ssz] in *. unfold InputCodec.ssz_bitvector. rewrite InputCodecP.blen_bits. unfold len in Ht. now replace (N.of_nat (length l)) with n by lia.
  - discriminate.
Qed.

(** The field table of Model/StateFile.v. *)
Definition fty_of (t : ty) : fty :=
  match ty_size t with
  | Some n => FFix n
  | None => match t with
            | TList limit t' => match ty_size t' with Some k => FList k limit | None => FBytes end
            | TCont fs => FSub (map (fun f => ty_size (snd f)) fs)
            | _ => FBytes
            end
  end.
Lemma fields_typed v : fields v = map (fun f => (fst f, fty_of (snd f))) (typed_fields v).
Proof. destruct v; vm_compute; reflexivity. Qed.
(** What occurs as a field: no empty elements in lists; a container of variable size has only byte lists of
    at most 32 bytes as its variable parts. *)
Definition field_ty_ok (t : ty) : bool :=
  match ty_size t with
  | Some _ => true
  | None => match t with
            | TList _ t' => match ty_size t' with Some k => 0 <? k | None => true end
            | TCont fs => forallb (fun f => match ty_size (snd f) with Some _ => true | None => match snd f with TByteList n => n <=? 32 | _ => false end end) fs
            | _ => false
            end
  end.
Lemma typed_fields_ok v : forallb (fun f => field_ty_ok (snd f)) (typed_fields v) = true.
Proof. destruct v; vm_compute; reflexivity. Qed.

Lemma parts_fit fs l : typed_all fs l = true -> fits (map (fun f => ty_size (snd f)) fs) (ssz_parts fs l).
Proof.
  unfold fits. revert l. induction fs as [|[n t] fs IH]; intros [|x l] H; try discriminate; auto.
  cbn [typed_all] in H. apply andb_true_iff in H as [H1 H2]. cbn [ssz_parts map snd]. rewrite IH by assumption. f_equal.
  unfold part_of. destruct (ty_size t) as [k|] eqn:E; cbn [part_size]; auto. now rewrite (to_ssz_size _ _ _ H1 E).
Qed.
Lemma part_le p ps : In p ps -> blen (part_bytes p) <= blen (encode_container ps).
Proof.
  rewrite blen_encode. intros H. unfold content_size. induction ps as [|q ps IH]; [destruct H|]. destruct H as [->|H].
  - unfold places_size. cbn [fold_right]. destruct p as [b|b]; cbn [place_size contents part_bytes]; rewrite ?blen_app; lia.
  - specialize (IH H). unfold places_size in *. cbn [fold_right]. destruct q as [b|b]; cbn [place_size contents]; rewrite ?blen_app; lia.
Qed.
Lemma field_ok_typed t v : field_ty_ok t = true -> typed t v = true -> blen (to_ssz t v) < 2 ^ 32 -> field_ok (fty_of t) (part_of t (to_ssz t v)) = true.
Proof.
  intros Hf Ht Hl. unfold fty_of, part_of, field_ty_ok in *. destruct (ty_size t) as [k|] eqn:E.
  - cbn [field_ok]. rewrite (to_ssz_size _ _ _ Ht E). apply N.eqb_refl.
  - destruct t as [n s| |n|n|n t|n t|fs|n|n]; try discriminate.
    + destruct v as [x|b|b|l|l]; try discriminate. destruct (ty_size t) as [k|] eqn:Et; [|reflexivity]. cbn [field_ok].
      cbn [typed] in Ht. apply andb_true_iff in Ht as [Hn Ht].
      assert (blen (to_ssz (TList n t) (VSeq l)) = len l * k) as ->.
      { cbn [to_ssz]. unfold part_of. rewrite Et. rewrite encode_fixed. 2: { apply Forall_forall. intros p Hp. apply in_map_iff in Hp as (y & <- & _). eauto. }
        clear -Ht Et. unfold len. induction l as [|y l IHl]; [reflexivity|]. cbn [forallb] in Ht. apply andb_true_iff in Ht as [Hy Ht].
        cbn [map concat part_bytes length]. rewrite blen_app, (to_ssz_size _ _ _ Hy Et), (IHl Ht). lia. }
      rewrite N.mod_mul, N.div_mul by lia. cbn. exact Hn.
    + destruct v as [x|b|b|l|l]; try discriminate. rewrite typed_cont in Ht. cbn [field_ok]. rewrite to_ssz_cont in *.
      rewrite (decode_complete _ _ (parts_fit _ _ Ht) Hl).
      clear -Hf Ht. revert l Ht. induction fs as [|[n t] fs IH]; intros [|x l] Ht; try discriminate; auto.
      cbn [typed_all forallb snd] in *. apply andb_true_iff in Ht as [H1 H2]. apply andb_true_iff in Hf as [F1 F2].
      cbn [ssz_parts forallb]. rewrite IH by assumption. rewrite andb_true_r. unfold part_of. destruct (ty_size t) eqn:E; [reflexivity|].
      destruct t as [n' s| |n'|n'|n' t|n' t|gs|n'|n']; try discriminate. destruct x; try discriminate. cbn [to_ssz typed] in *. lia.
Qed.
Lemma fields_ok_typed fs : forall l, forallb (fun f => field_ty_ok (snd f)) fs = true -> typed_all fs l = true ->
  (forall p, In p (ssz_parts fs l) -> blen (part_bytes p) < 2 ^ 32) ->
  fields_ok (map (fun f => fty_of (snd f)) fs) (ssz_parts fs l) = true.
Proof.
  induction fs as [|[n t] fs IH]; intros [|x l] Hf Ht Hl; try discriminate; auto.
  cbn [typed_all forallb snd] in *. apply andb_true_iff in Ht as [H1 H2]. apply andb_true_iff in Hf as [F1 F2].
  cbn [ssz_parts map fields_ok]. cbn [snd]. rewrite IH; auto. 2: { intros p Hp. apply Hl. cbn [ssz_parts]. now right. }
  rewrite andb_true_r. apply field_ok_typed; auto. specialize (Hl (part_of t (to_ssz t x))). cbn [ssz_parts] in Hl.
  specialize (Hl (or_introl eq_refl)). unfold part_of in Hl. now destruct (ty_size t).
Qed.
Definition ts_typed (st : TState) : Prop := typed_all (typed_fields (ts_version st)) (ts_fields st) = true.
Lemma bstate_ok st : ts_typed st -> blen (encode_state (bstate_of st)) < 2 ^ 32 -> state_ok (bstate_of st) = true.
Proof.
  intros Ht Hl. unfold state_ok, field_types, bstate_of in *. cbn [bs_version bs_fields] in *. rewrite fields_typed, map_map. cbn [snd].
  apply fields_ok_typed; [apply typed_fields_ok|exact Ht|]. intros p Hp. apply part_le in Hp. unfold encode_state in Hl. cbn [bs_fields] in Hl. lia.
Qed.
Lemma read_typed j st : state_of_json j = Some st -> ts_typed st.
Proof.
  intros H. apply try_some in H as [_ H]. unfold read_version in H. destruct (from_json _ j) as [[| | |vs|]|] eqn:E; try discriminate.
  injection H as <-. unfold ts_typed. cbn [ts_version ts_fields]. rewrite <- typed_cont. eapply from_json_typed. exact E.
Qed.

(** ** SSZ is injective on well-typed values *)
Fixpoint solid (t : ty) : bool :=
  match t with
  | TVec _ t' => solid t'
  | TList _ t' => solid t' && match ty_size t' with Some k => 0 <? k | None => true end
  | TCont fs => (fix go fs := match fs with [] => true | (_, t') :: r => solid t' && go r end) fs
  | _ => true
  end.
Fixpoint solid_all (fs : list (string * ty)) : bool := match fs with [] => true | (_, t') :: r => solid t' && solid_all r end.
Lemma solid_cont fs : solid (TCont fs) = solid_all fs.
Proof. reflexivity. Qed.
Lemma encode_inj ps qs : map part_size ps = map part_size qs -> blen (encode_container ps) < 2 ^ 32 ->
  encode_container ps = encode_container qs -> ps = qs.
Proof.
  intros Hs Hl He. pose proof (decode_complete (map part_size ps) ps eq_refl Hl) as H1.
  assert (decode_container (map part_size ps) (encode_container qs) = Some qs) as H2.
  { apply decode_complete; [now rewrite Hs|]. now rewrite <- He. }
  rewrite He in H1. congruence.
Qed.
Lemma le_bytes_inj n x y : x < 2 ^ (8 * N.of_nat n) -> y < 2 ^ (8 * N.of_nat n) -> le_bytes n x = le_bytes n y -> x = y.
Proof.
  intros Hx Hy H. rewrite N.pow_mul_r in Hx, Hy. change (2 ^ 8) with 256 in *.
  rewrite <- (le_val_le_bytes_small n x), <- (le_val_le_bytes_small n y), H; auto.
Qed.
Lemma seq_parts_size t l k : forallb (typed t) l = true -> ty_size t = k -> map part_size (map (fun x => part_of t (to_ssz t x)) l) = repeat k (length l).
Proof.
  intros Ht <-. induction l as [|x l IH]; [reflexivity|]. cbn [forallb] in Ht. apply andb_true_iff in Ht as [H1 H2].
  cbn [map length repeat]. rewrite IH by assumption. f_equal. unfold part_of. destruct (ty_size t) eqn:E; cbn [part_size]; auto. now rewrite (to_ssz_size _ _ _ H1 E).
Qed.
Lemma part_of_inj t a b : part_of t a = part_of t b -> a = b.
Proof. unfold part_of. destruct (ty_size t); congruence. Qed.
(** The number of elements of a list. *)
Lemma var_count bs : blen (encode_container (map PVar bs)) < 2 ^ 32 -> bs <> [] ->
  le_val (firstn 4 (encode_container (map PVar bs))) = 4 * len bs.
Proof.
  intros Hl Hn. destruct bs as [|b bs]; [congruence|]. rewrite blen_encode in Hl.
  assert (places_size (map PVar (b :: bs)) = 4 * len (b :: bs)) as Hp.
  { clear. unfold len. generalize (b :: bs). induction l as [|c l IH]; [reflexivity|]. unfold places_size in *. cbn [map fold_right place_size length]. rewrite IH. lia. }
  unfold encode_container. rewrite Hp in *. cbn [map places]. rewrite <- app_assoc.
  replace 4%nat with (length (le_bytes 4 (4 * len (b :: bs)))) at 1 by apply le_bytes_length.
  rewrite firstn_app, Nat.sub_diag, firstn_all. cbn [firstn]. rewrite app_nil_r. apply le_val_le_bytes_small. change (256 ^ N.of_nat 4) with (2 ^ 32). lia.
Qed.
Lemma fixed_len t k l : forallb (typed t) l = true -> ty_size t = Some k -> blen (encode_container (map (fun x => part_of t (to_ssz t x)) l)) = len l * k.
Proof.
  intros Ht Et. unfold part_of. rewrite Et. rewrite encode_fixed. 2: { apply Forall_forall. intros p Hp. apply in_map_iff in Hp as (y & <- & _). eauto. }
  unfold len. induction l as [|y l IHl]; [reflexivity|]. cbn [forallb] in Ht. apply andb_true_iff in Ht as [Hy Ht].
  cbn [map concat part_bytes length]. rewrite blen_app, (to_ssz_size _ _ _ Hy Et), (IHl Ht). lia.
Qed.
Lemma var_cons_size b ps : blen (encode_container (PVar b :: ps)) <> 0.
Proof. rewrite blen_encode. unfold places_size. cbn [fold_right place_size]. lia. Qed.
Lemma seq_len t l l' : forallb (typed t) l = true -> forallb (typed t) l' = true ->
  match ty_size t with Some k => 0 <? k | None => true end = true ->
  blen (encode_container (map (fun x => part_of t (to_ssz t x)) l)) < 2 ^ 32 ->
  encode_container (map (fun x => part_of t (to_ssz t x)) l) = encode_container (map (fun x => part_of t (to_ssz t x)) l') ->
  length l = length l'.
Proof.
  intros H1 H2 Hp Hl He. destruct (ty_size t) as [k|] eqn:Et.
  - pose proof (fixed_len _ _ _ H1 Et) as E1. pose proof (fixed_len _ _ _ H2 Et) as E2. rewrite He, E2 in E1. unfold len in E1. nia.
  - unfold part_of in *. rewrite Et in *. rewrite <- !(map_map (to_ssz t) PVar) in *.
    assert (forall a, length a = length (map (to_ssz t) a)) as Hm by (intros; now rewrite map_length).
    destruct l as [|x l], l' as [|y l']; auto.
    + exfalso. apply (f_equal blen) in He. cbn [map] in He. symmetry in He. now apply var_cons_size in He.
    + exfalso. apply (f_equal blen) in He. cbn [map] in He. now apply var_cons_size in He.
    + pose proof (var_count (map (to_ssz t) (x :: l)) Hl ltac:(discriminate)) as E1.
      rewrite He in Hl, E1. pose proof (var_count (map (to_ssz t) (y :: l')) Hl ltac:(discriminate)) as E2.
      rewrite E2 in E1. unfold len in E1. rewrite !map_length in E1. lia.
Qed.
Lemma seq_inj t l l' : (forall v w, typed t v = true -> typed t w = true -> blen (to_ssz t v) < 2 ^ 32 -> to_ssz t v = to_ssz t w -> v = w) ->
  forallb (typed t) l = true -> forallb (typed t) l' = true -> length l = length l' ->
  blen (encode_container (map (fun x => part_of t (to_ssz t x)) l)) < 2 ^ 32 ->
  encode_container (map (fun x => part_of t (to_ssz t x)) l) = encode_container (map (fun x => part_of t (to_ssz t x)) l') -> l = l'.
Proof.
  intros IH H1 H2 Hlen Hl He. apply encode_inj in He; [|now rewrite (seq_parts_size t l _ H1 eq_refl), (seq_parts_size t l' _ H2 eq_refl), Hlen|exact Hl].
  assert (forall x, In x l -> blen (to_ssz t x) < 2 ^ 32) as Hb.
  { intros x Hx. assert (In (part_of t (to_ssz t x)) (map (fun x => part_of t (to_ssz t x)) l)) as Hi by (apply in_map_iff; eauto).
    apply part_le in Hi. unfold part_of at 1 in Hi. destruct (ty_size t); cbn [part_bytes] in Hi; lia. }
  clear Hl Hlen. revert l' H2 He. induction l as [|x l IHl]; intros [|y l'] H2 He; try discriminate; auto.
  cbn [map] in He. injection He as E1 E2. cbn [forallb] in *. apply andb_true_iff in H1 as [A1 A2]. apply andb_true_iff in H2 as [B1 B2].
  apply part_of_inj in E1. f_equal; [apply IH; auto; apply Hb; now left|]. apply IHl; auto. intros z Hz. apply Hb. now right.
Qed.
Theorem to_ssz_inj t : solid t = true -> forall v w, typed t v = true -> typed t w = true -> blen (to_ssz t v) < 2 ^ 32 -> to_ssz t v = to_ssz t w -> v = w.
Proof.
  induction t as [n s| |n|n|n t IH|n t IH|fs IH|n|n] using ty_ind'; intros Hs v w Hv Hw Hl He;
    destruct v as [x|x|x|x|x]; try discriminate Hv; destruct w as [y|y|y|y|y]; try discriminate Hw.
  - cbn [typed to_ssz] in *. f_equal. apply (le_bytes_inj n); auto; lia.
  - cbn in He. destruct x, y; congruence.
  - cbn in He. congruence.
  - cbn in He. congruence.
  - cbn [typed to_ssz solid] in *. apply andb_true_iff in Hv as [A1 A2]. apply andb_true_iff in Hw as [B1 B2]. f_equal.
    apply (seq_inj t); auto. unfold len in *. lia.
  - cbn [typed to_ssz solid] in *. apply andb_true_iff in Hv as [A1 A2]. apply andb_true_iff in Hw as [B1 B2].
    apply andb_true_iff in Hs as [S1 S2]. f_equal. apply (seq_inj t); auto. apply (seq_len t); auto.
  - rewrite typed_cont in *. rewrite solid_cont in Hs. rewrite !to_ssz_cont in *. f_equal.
    apply encode_inj in He; [| |exact Hl]. 2: { rewrite (parts_fit _ _ Hv), (parts_fit _ _ Hw). reflexivity. }
    assert (forall p, In p (ssz_parts fs x) -> blen (part_bytes p) < 2 ^ 32) as Hb by (intros p Hp; apply part_le in Hp; lia).
    clear Hl. revert x y Hv Hw He Hb. induction IH as [|[n t] fs Ht _ IH]; intros [|a x] [|b y] Hv Hw He Hb; try discriminate; auto.
    cbn [typed_all ssz_parts solid_all] in *. apply andb_true_iff in Hv as [A1 A2]. apply andb_true_iff in Hw as [B1 B2].
    apply andb_true_iff in Hs as [S1 S2]. injection He as E1 E2. apply part_of_inj in E1. f_equal.
    + cbn [snd] in Ht. apply Ht; auto. specialize (Hb _ (or_introl eq_refl)). unfold part_of in Hb. destruct (ty_size t); exact Hb.
    + apply IH; auto. intros p Hp. apply Hb. now right.
  - cbn [typed to_ssz] in *. unfold len in *. f_equal. pose proof (InputCodecP.unssz_bitvector_ok n x ltac:(lia)) as E. rewrite He, InputCodecP.unssz_bitvector_ok in E by lia. congruence.
  - cbn [typed to_ssz] in *. unfold len in *. f_equal. pose proof (InputCodecP.unssz_bitlist_ok n x ltac:(lia)) as E. rewrite He, InputCodecP.unssz_bitlist_ok in E by lia. congruence.
Qed.
Lemma typed_fields_solid v : solid (TCont (typed_fields v)) = true.
Proof. destruct v; vm_compute; reflexivity. Qed.
Theorem bstate_inj a b : ts_typed a -> ts_typed b -> blen (encode_state (bstate_of a)) < 2 ^ 32 -> bstate_of a = bstate_of b -> a = b.
Proof.
  intros Ha Hb Hl He. pose proof (f_equal bs_version He) as Ev. destruct a as [v x], b as [w y]. cbn in Ev. subst w. f_equal.
  unfold ts_typed in *. cbn [ts_version ts_fields] in *. unfold bstate_of in He. cbn in He. injection He as He.
  assert (VSeq x = VSeq y) as E; [|now injection E].
  apply (to_ssz_inj (TCont (typed_fields v))); auto using typed_fields_solid. rewrite !to_ssz_cont. now rewrite He.
Qed.

(** ** An ordinary node *)
Section KindInd.
  Variable P : kind -> Prop.
  Hypothesis Hu : forall n, P (Uint n).
  Hypothesis Hb : P Boolean.
  Hypothesis Hy : forall n, P (ByteVector n).
  Hypothesis Hl : forall n, P (ByteList n).
  Hypothesis Hv : forall k n, P k -> P (Vector k n).
  Hypothesis Hs : forall k n, P k -> P (List_ k n).
  Hypothesis Hc : forall fs, Forall (fun f => P (snd f)) fs -> P (Container fs).
  Hypothesis Hbv : forall n, P (Bitvector n).
  Hypothesis Hbl : forall n, P (Bitlist n).
  Fixpoint kind_ind' (k : kind) : P k :=
    match k with
    | Uint n => Hu n
    | Boolean => Hb
    | ByteVector n => Hy n
    | ByteList n => Hl n
    | Vector k' n => Hv k' n (kind_ind' k')
    | List_ k' n => Hs k' n (kind_ind' k')
    | Container fs => Hc fs ((fix go fs : Forall (fun f => P (snd f)) fs :=
        match fs with [] => Forall_nil _ | f :: r => Forall_cons f (kind_ind' (snd f)) (go r) end) fs)
    | Bitvector n => Hbv n
    | Bitlist n => Hbl n
    end.
End KindInd.
Fixpoint nodup_b (l : list string) : bool :=
  match l with [] => true | x :: r => negb (existsb (String.eqb x) r) && nodup_b r end.
Lemma nodup_b_sound l : nodup_b l = true -> NoDup l.
Proof.
  induction l as [|x l IH]; cbn [nodup_b]; [constructor|]. intros H. apply andb_true_iff in H as [H1 H2]. constructor; auto.
  intros Hi. apply negb_true_iff in H1. assert (existsb (String.eqb x) l = true) as E; [|congruence].
  apply existsb_exists. exists x. split; auto. apply String.eqb_refl.
Qed.
Fixpoint distinct (k : kind) : bool :=
  match k with
  | Vector k' _ => distinct k'
  | List_ k' _ => distinct k'
  | Container fs => nodup_b (map fst fs) && (fix go fs := match fs with [] => true | (_, k') :: r => distinct k' && go r end) fs
  | _ => true
  end.
Fixpoint distinct_all (fs : list (string * kind)) : bool := match fs with [] => true | (_, k') :: r => distinct k' && distinct_all r end.
Lemma distinct_container fs : distinct (Container fs) = nodup_b (map fst fs) && distinct_all fs.
Proof. reflexivity. Qed.
Fixpoint wf_all (fs : list (string * kind)) (vs : list val) : Prop :=
  match fs, vs with
  | [], [] => True
  | (_, k') :: fs', x :: vs' => wf k' x /\ wf_all fs' vs'
  | _, _ => False
  end.
Lemma wf_container fs v : wf (Container fs) v <-> exists vs, v = VSeq vs /\ wf_all fs vs.
Proof. reflexivity. Qed.
Fixpoint write_all (fs : list (string * kind)) (vs : list val) : list (string * json) :=
  match fs, vs with
  | (name, k') :: fs', x :: vs' => (name, write k' x) :: write_all fs' vs'
  | _, _ => []
  end.
Lemma write_container fs vs : write (Container fs) (VSeq vs) = JObj (write_all fs vs).
Proof. reflexivity. Qed.
Lemma write_names fs : forall vs, wf_all fs vs -> map fst (write_all fs vs) = map fst fs.
Proof. induction fs as [|[n k] fs IH]; intros [|x vs] H; cbn in *; try tauto. f_equal. now apply IH. Qed.

Lemma is_digit_range c : is_digit c -> 48 <= Byte.to_N c <= 57.
Proof. intros (v & Hv & ->). unfold digit. rewrite byte_of_N_to_N, N.mod_small; lia. Qed.
Lemma decimal_ok x : is_decimal (decimal x) /\ decimal_value (decimal x) = x.
Proof.
  assert (Forall (fun c => 48 <= Byte.to_N c <= 57) (decimal x)) as F.
  { eapply Forall_impl; [|apply decimal_digits]. intros. now apply is_digit_range. }
  split; [split; [apply decimal_nonempty|exact F]|].
  pose proof (decimal_val x) as H. rewrite (digits_val_fold _ 0 F) in H. unfold decimal_value. congruence.
Qed.
Lemma hex_digit_ok n : n < 16 -> hex_is (hex_digit n) n.
Proof.
  intros H. unfold hex_is, hex_digit. destruct (n <? 10) eqn:E.
  - left. split; [lia|]. rewrite byte_of_N_to_N. apply N.mod_small. lia.
  - right. split; [lia|]. left. rewrite byte_of_N_to_N. apply N.mod_small. lia.
Qed.
Lemma hex_ok b : hex_string b (x30 :: x78 :: hex b).
Proof.
  exists (hex b). split; auto. induction b as [|x b IH]; [exact I|].
  change (hex (x :: b)) with (hex_digit (Byte.to_N x / 16) :: hex_digit (Byte.to_N x mod 16) :: hex b). cbn [hex_digits].
  pose proof (Byte.to_N_bounded x). repeat split; auto; apply hex_digit_ok.
  - apply N.div_lt_upper_bound; lia.
  - apply N.mod_lt. lia.
Qed.
(** Bits *)
Lemma firstn8 (l : list bool) : l <> [] -> InputCodec.bits_val (firstn 8 l) = fold_right (fun k acc => N.b2n (nth k l false) + 2 * acc) 0 (seq 0 8).
Proof.
  intros _. cbn [seq fold_right]. do 8 (destruct l as [|[|] l]; [cbn; reflexivity|..]); cbn [firstn InputCodec.bits_val nth N.b2n]; lia.
Qed.
Lemma bitfield_aux fuel : forall l, (length l <= fuel)%nat -> bitfield l = InputCodec.bits_bytes_aux fuel l.
Proof.
  induction fuel as [|f IH]; intros l Hl; [destruct l; [reflexivity|cbn in Hl; lia]|].
  destruct l as [|x l]; [reflexivity|]. cbn [InputCodec.bits_bytes_aux]. set (y := x :: l) in *.
  rewrite <- IH by (rewrite skipn_length; cbn [length y] in *; lia). unfold bitfield.
  assert ((length y + 7) / 8 = S ((length (skipn 8 y) + 7) / 8))%nat as ->.
  { rewrite skipn_length. assert (1 <= length y)%nat by (cbn; lia). generalize dependent (length y). intros n _ Hn.
    destruct (Nat.le_gt_cases 8 n) as [H8|H8].
    - replace (n + 7)%nat with ((n - 8 + 7) + 1 * 8)%nat by lia. rewrite Nat.div_add by lia. lia.
    - replace (n - 8)%nat with 0%nat by lia. symmetry. apply (Nat.div_unique (n + 7) 8 1 (n - 1)); lia. }
  cbn [seq map]. f_equal.
  - unfold bit_byte. f_equal. rewrite firstn8 by discriminate. reflexivity.
  - rewrite <- seq_shift, map_map. apply map_ext. intros i. unfold bit_byte. f_equal.
    assert (forall k, nth (8 * S i + k) y false = nth (8 * i + k) (skipn 8 y) false) as G.
    { intros k. replace (8 * S i + k)%nat with (8 + (8 * i + k))%nat by lia. generalize (8 * i + k)%nat as m. clearbody y. clear.
      intros m. generalize 8%nat as n. intros n. revert y. induction n as [|n IH]; intros y; [reflexivity|]. destruct y; [destruct m; reflexivity|]. apply IH. }
    cbn [seq fold_right]. now rewrite !G.
Qed.
Lemma bitfield_is l : bitfield l = InputCodec.bits_bytes l.
Proof. now apply bitfield_aux. Qed.
Theorem write_shows k : distinct k = true -> forall v, wf k v -> shows k v (write k v).
Proof.
  induction k as [n| |n|n|k n IH|k n IH|fs IH|n|n] using kind_ind'; intros Hd v Hw.
  - destruct Hw as (x & -> & Hx). exists x, (decimal x). destruct (decimal_ok x) as [H1 H2]. repeat split; auto; apply H1.
  - destruct Hw as (b & ->). exists b. auto.
  - destruct Hw as (b & -> & Hl). exists b. eexists. split; [reflexivity|]. split; [reflexivity|]. split; auto. apply hex_ok.
  - destruct Hw as (b & -> & Hl). exists b. eexists. split; [reflexivity|]. split; [reflexivity|]. split; auto. apply hex_ok.
  - destruct Hw as (vs & -> & Hl & Hf). exists vs, (map (write k) vs). repeat split; auto.
    clear Hl. induction Hf; cbn [map]; constructor; auto.
  - destruct Hw as (vs & -> & Hl & Hf). exists vs, (map (write k) vs). repeat split; auto.
    clear Hl. induction Hf; cbn [map]; constructor; auto.
  - apply wf_container in Hw as (vs & -> & Hw). rewrite write_container. apply shows_container. exists vs, (write_all fs vs).
    rewrite distinct_container in Hd. apply andb_true_iff in Hd as [D1 D2].
    split; [reflexivity|]. split; [reflexivity|]. split; [rewrite write_names by assumption; now apply nodup_b_sound|].
    clear D1. assert (forall m, (forall x, In x (write_all fs vs) -> In x m) -> each m fs vs) as G; [|apply G; auto].
    intros m. revert vs Hw. induction IH as [|[n k] fs Hk _ IH]; intros [|x vs] Hw Hm; cbn in Hw; try tauto.
    cbn [distinct_all] in D2. apply andb_true_iff in D2 as [D2 D3]. destruct Hw as [Hx Hw]. cbn [each]. split.
    + exists (write k x). split; [apply Hm; now left|]. cbn [snd] in Hk. now apply Hk.
    + apply IH; auto. intros y Hy. apply Hm. now right.
  - destruct Hw as (l & -> & Hl). exists l. do 2 eexists. split; [reflexivity|]. split; [reflexivity|]. split; [apply hex_ok|]. rewrite bitfield_is.
    apply InputFormatP.bitfield_exact. now apply InputCodecP.unssz_bitvector_ok.
  - destruct Hw as (l & -> & Hl). exists l. do 2 eexists. split; [reflexivity|]. split; [reflexivity|]. split; [apply hex_ok|]. rewrite bitfield_is.
    apply InputFormatP.bitlist_exact. now apply InputCodecP.unssz_bitlist_ok.
Qed.
Lemma state_distinct v : distinct (Container (state_fields v)) = true.
Proof. destruct v; vm_compute; reflexivity. Qed.
Lemma written_not_newer v vs : wf (Container (state_fields v)) (VSeq vs) -> not_newer v (write (Container (state_fields v)) (VSeq vs)).
Proof.
  intros Hw. pose proof (proj1 (wf_container _ _) Hw) as (vs' & E & Hw'). injection E as <-.
  assert (forall name, ~ In name (map fst (state_fields v)) -> lacks [name] (write (Container (state_fields v)) (VSeq vs))) as L.
  { intros name H. rewrite write_container. exists (write_all (state_fields v) vs). split; auto. left. now rewrite write_names. }
  assert (forall name fs, In (header_, Container fs) (state_fields v) -> ~ In name (map fst fs) ->
    lacks [header_; name] (write (Container (state_fields v)) (VSeq vs))) as L2.
  { intros name fs Hi Hn. rewrite write_container. exists (write_all (state_fields v) vs). split; auto. right.
    pose proof (state_distinct v) as D. rewrite distinct_container in D. apply andb_true_iff in D as [D _].
    split; [rewrite write_names by assumption; now apply nodup_b_sound|].
    clear -Hw' Hi Hn. revert vs Hw' Hi. generalize (state_fields v) as gs. induction gs as [|[n k] gs IH]; intros [|x vs] Hw Hi; cbn in Hw; try tauto; [destruct Hi|].
    destruct Hw as [Hx Hw]. destruct Hi as [Hi|Hi].
    - injection Hi as -> ->. apply wf_container in Hx as (ys & -> & Hy). exists (write (Container fs) (VSeq ys)). split; [now left|].
      rewrite write_container. exists (write_all fs ys). split; auto. left. now rewrite write_names.
    - destruct (IH vs Hw Hi) as (j' & H1 & H2). exists j'. split; auto. now right. }
  unfold not_newer. destruct v; cbn [next_version additions]; auto.
  - eexists. split; [left; reflexivity|]. apply L. vm_compute. intuition discriminate.
  - eexists. split; [left; reflexivity|]. apply L. vm_compute. intuition discriminate.
  - eexists. split; [left; reflexivity|]. apply (L2 _ (payload_header VBellatrix)); vm_compute; [tauto|intuition discriminate].
  - eexists. split; [left; reflexivity|]. apply (L2 _ (payload_header VCapella)); vm_compute; [tauto|intuition discriminate].
  - eexists. split; [left; reflexivity|]. apply L. vm_compute. intuition discriminate.
  - eexists. split; [left; reflexivity|]. apply L. vm_compute. intuition discriminate.
Qed.

(** ** Answers *)
Lemma version_name_inj a b : version_name a = version_name b -> a = b.
Proof. destruct a, b; intros H; try reflexivity; discriminate H. Qed.
Lemma version_of_name v : version_of_json (JStr (version_name v)) = Some v.
Proof. destruct v; reflexivity. Qed.
Lemma only_member_in m n j : only_member m n = Some j -> In (n, j) m.
Proof.
  unfold only_member. destruct (filter _ m) as [|[k j'] [|? ?]] eqn:E; try discriminate. intros H. injection H as ->.
  assert (In (k, j) (filter (fun kj => String.eqb (fst kj) n) m)) as Hi by (rewrite E; now left).
  apply filter_In in Hi as [Hi Hk]. cbn in Hk. apply String.eqb_eq in Hk as ->. exact Hi.
Qed.
Lemma filter_absent (m : list (string * json)) n : ~ In n (map fst m) -> filter (fun kj => String.eqb (fst kj) n) m = [].
Proof.
  induction m as [|[k j] m IH]; cbn [map fst filter In]; auto. intros H. destruct (String.eqb_spec k n); [subst; tauto|]. apply IH. tauto.
Qed.
Lemma versioned_answer v d more : no_clash more -> versioned_state (state_answer v d more) =
  match state_of_json d with Some st => Some (v, st) | None => None end.
Proof.
  intros [H1 H2]. unfold versioned_state, state_answer, only_member. cbn [filter fst String.eqb Ascii.eqb Bool.eqb].
  rewrite !filter_absent by assumption. cbv iota. rewrite version_of_name. reflexivity.
Qed.
Lemma response_answer d more : ~ In "data"%string (map fst more) -> response_data (answer d more) = Some d.
Proof. intros H. unfold response_data, answer, only_member. cbn [filter fst String.eqb Ascii.eqb Bool.eqb]. now rewrite filter_absent. Qed.
