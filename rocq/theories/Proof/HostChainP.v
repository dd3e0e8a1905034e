(** Proofs about the host's chain queries. *)
From Coq Require Import List ZArith NArith Bool Lia Sorted.
From Coq Require Import ZifyBool ZifyNat ZifyN.
From Verif.Model Require Import Base Types ConsensusState Verify GuestReader HostChain.
From Verif.Spec Require Import FFG VerifySpec HostSpec.
From Verif.Proof Require Import BaseLemmas ConsensusStateP VerifyP.
Import ListNotations.
Open Scope N_scope.

(** ** Machine arithmetic is exact below slot 2^64 *)
Lemma start_slot_exact cs e : e * slots_per_epoch cs < 2 ^ 64 -> start_slot cs e = e * slots_per_epoch cs.
Proof. unfold start_slot, sat_mul, u64_max, two64. lia. Qed.
Lemma wrap64_exact x : x < 2 ^ 64 -> wrap64 x = x.
Proof. intros. unfold wrap64, two64. now apply N.mod_small. Qed.

(** ** find_finalization_epoch *)
Section Find.
  Variables (cs : ChainSpec) (ch : Chain) (c : Checkpoint).
  Hypothesis Hspe : 0 < slots_per_epoch cs.

  Definition no_finality_before (a e : Epoch) : Prop :=
    forall e', a <= e' < e -> exists st, state_at cs ch e' st /\ epoch (finalized st) < epoch c.

  Lemma spe_mono a b : a <= b -> a * slots_per_epoch cs <= b * slots_per_epoch cs.
  Proof. intros. now apply N.mul_le_mono_r. Qed.
  Lemma spe_ge a : a <= a * slots_per_epoch cs.
  Proof. rewrite <- (N.mul_1_r a) at 1. apply N.mul_le_mono_l. lia. Qed.

  (** What one look at epoch [e] says. *)
  Inductive verdict (e : Epoch) : option (outcome HostError Epoch) -> Prop :=
  | v_found : forall st, state_at cs ch e st -> finalized st = c -> verdict e (Some (Ok e))
  | v_passed : forall st, state_at cs ch e st -> finalized st <> c -> epoch c <= epoch (finalized st) ->
      verdict e (Some (Err InvalidTrustedCheckpoint))
  | v_err : forall x, ch_state ch (e * slots_per_epoch cs) = Err x -> verdict e (Some (Err (HOther x)))
  | v_panic : ch_state ch (e * slots_per_epoch cs) = Panic -> verdict e (Some Panic).

  Lemma find_from_spec fuel : forall a, (a + N.of_nat fuel) * slots_per_epoch cs < 2 ^ 64 ->
    (find_from cs ch c fuel a = None /\ no_finality_before a (a + N.of_nat fuel)) \/
    (exists e, a <= e < a + N.of_nat fuel /\ no_finality_before a e /\ verdict e (find_from cs ch c fuel a)).
  Proof.
    induction fuel as [|n IH]; intros a Hb; cbn [find_from].
    { left. split; auto. intros e' ?. lia. }
    pose proof (spe_mono a (a + N.of_nat (S n)) ltac:(lia)) as Hm.
    pose proof (spe_ge (a + N.of_nat (S n))) as Hg.
    rewrite start_slot_exact by lia.
    destruct (ch_state ch (a * slots_per_epoch cs)) as [st|x|] eqn:Es; cbn [map_err].
    - destruct (checkpoint_eqb (finalized st) c) eqn:Ec.
      + apply checkpoint_eqb_eq in Ec. right. exists a. split; [lia|]. split; [intros e' ?; lia|].
        econstructor; eauto.
      + apply checkpoint_eqb_neq in Ec. destruct (N.ltb_spec (epoch (finalized st)) (epoch c)) as [Hl|Hl].
        * rewrite wrap64_exact by lia.
          assert (Hb' : (a + 1 + N.of_nat n) * slots_per_epoch cs < 2 ^ 64).
          { replace (a + 1 + N.of_nat n) with (a + N.of_nat (S n)) by lia. exact Hb. }
          assert (Hstep : forall e, no_finality_before (a + 1) e -> no_finality_before a e).
          { intros e Hn e' He'. destruct (N.eq_dec e' a) as [->|Hne]; [exists st; auto|apply Hn; lia]. }
          destruct (IH (a + 1) Hb') as [[En Hn]|(e & He & Hn & Hv)].
          { left. split; auto. apply Hstep. replace (a + N.of_nat (S n)) with (a + 1 + N.of_nat n) by lia. exact Hn. }
          { right. exists e. split; [lia|]. split; auto. }
        * right. exists a. split; [lia|]. split; [intros e' ?; lia|]. eapply v_passed; eauto.
    - right. exists a. split; [lia|]. split; [intros e' ?; lia|]. now apply v_err.
    - right. exists a. split; [lia|]. split; [intros e' ?; lia|]. now apply v_panic.
  Qed.

  (** A decisive epoch after which nothing else can be the answer. *)
  Lemma verdict_unique a e1 e2 r1 r2 : a <= e1 -> a <= e2 ->
    no_finality_before a e1 -> no_finality_before a e2 -> verdict e1 r1 -> verdict e2 r2 -> e1 = e2 /\ r1 = r2.
  Proof.
    assert (Hno : forall e e' r, a <= e < e' -> no_finality_before a e' -> verdict e r -> False).
    { intros e e' r He Hn Hv. destruct (Hn e He) as (st & Hs & Hl). unfold state_at in *.
      inversion Hv; subst; unfold state_at in *; try congruence.
      all: match goal with A : ch_state _ _ = Ok ?x, B : ch_state _ _ = Ok ?y |- _ =>
             replace y with x in * by congruence end.
      all: match goal with A : finalized _ = c |- _ => rewrite A in * | _ => idtac end; lia. }
    intros H1 H2 Hn1 Hn2 V1 V2.
    destruct (N.lt_trichotomy e1 e2) as [Hlt|[He|Hgt]].
    - exfalso. apply (Hno e1 e2 r1); auto.
    - subst e2. split; auto. unfold state_at in *.
      inversion V1; inversion V2; subst; unfold state_at in *; try congruence.
    - exfalso. apply (Hno e2 e1 r2); auto.
  Qed.

  Lemma find_spec fuel : (epoch c + 1 + N.of_nat fuel) * slots_per_epoch cs < 2 ^ 64 ->
    (find_finalization_epoch cs ch c fuel = None /\ no_finality_before (epoch c + 1) (epoch c + 1 + N.of_nat fuel)) \/
    (exists e, epoch c + 1 <= e < epoch c + 1 + N.of_nat fuel /\ no_finality_before (epoch c + 1) e /\
       verdict e (find_finalization_epoch cs ch c fuel)).
  Proof.
    intros Hb. unfold find_finalization_epoch. pose proof (spe_ge (epoch c + 1 + N.of_nat fuel)).
    rewrite wrap64_exact by lia. now apply find_from_spec.
  Qed.

  Lemma find_iff fuel e r : (epoch c + 1 + N.of_nat fuel) * slots_per_epoch cs < 2 ^ 64 ->
    epoch c < e <= epoch c + N.of_nat fuel -> no_finality_before (epoch c + 1) e -> verdict e r ->
    find_finalization_epoch cs ch c fuel = r.
  Proof.
    intros Hb He Hn Hv. destruct (find_spec fuel Hb) as [[_ Hn']|(e' & He' & Hn' & Hv')].
    - exfalso. destruct (Hn' e) as (st & Hs & Hl); [lia|]. unfold state_at in *.
      inversion Hv; subst; unfold state_at in *; try congruence.
      all: match goal with A : ch_state _ _ = Ok ?x, B : ch_state _ _ = Ok ?y |- _ =>
             replace y with x in * by congruence end.
      all: match goal with A : finalized _ = c |- _ => rewrite A in * | _ => idtac end; lia.
    - destruct (verdict_unique (epoch c + 1) e e' r _ ltac:(lia) ltac:(lia) Hn Hn' Hv Hv') as [_ <-]. reflexivity.
  Qed.
End Find.

(** ** get_justifications_until_new_finality *)
Lemma transition_link_cases s u o : transition_link s u = Ok o ->
  valid_state s /\ match o with
                   | None => s = u
                   | Some l => ffg_step s l u /\ ~ (s = genesis_state /\ epoch (target l) = 1)
                   end.
Proof.
  destruct o as [l|]; intros H.
  - now apply transition_link_some_iff in H.
  - now apply transition_link_none_iff in H.
Qed.

Lemma states_from_app cs ch us vs : forall e,
  states_from cs ch e (us ++ vs) <-> states_from cs ch e us /\ states_from cs ch (e + N.of_nat (length us)) vs.
Proof.
  induction us as [|u us IH]; intros e; cbn [states_from app length].
  - replace (e + N.of_nat 0) with e by lia. tauto.
  - rewrite IH. replace (e + 1 + N.of_nat (length us)) with (e + N.of_nat (S (length us))) by lia. tauto.
Qed.

(** One step of a history is what [transition_link] recognises. *)
Definition link_cons (o : option Link) (ls : list Link) : list Link :=
  match o with Some l => l :: ls | None => ls end.
Lemma history_cons s u us ls : history s (u :: us) ls <->
  exists o ls', transition_link s u = Ok o /\ ls = link_cons o ls' /\ history u us ls'.
Proof.
  split.
  - intros H. inversion H; subst.
    + exists None, ls. split; [apply transition_link_none_iff; auto|auto].
    + exists (Some l), ls0. split; [apply transition_link_some_iff; auto|auto].
  - intros (o & ls' & Et & -> & Hh). apply transition_link_cases in Et as [Hv Ho].
    destruct o as [l|]; cbn.
    + destruct Ho. now constructor.
    + subst. now constructor.
Qed.
Lemma history_nil s ls : history s [] ls <-> ls = [].
Proof. split; [now inversion 1|intros ->; constructor]. Qed.

Section Justifications.
  Variables (cs : ChainSpec) (ch : Chain).
  Hypothesis Hspe : 0 < slots_per_epoch cs.

  Definition until_new (s0 s : ConsensusState) (e : Epoch) (fuel : nat) (t : ConsensusState) (ls : list Link) : Prop :=
    exists us, (length us < fuel)%nat /\ states_from cs ch e (us ++ [t]) /\ history s (us ++ [t]) ls /\
      Forall (fun u => finalized u = finalized s0) us /\ finalized t <> finalized s0.

  Lemma justifications_iff fuel : forall s0 prev acc e r, (e + N.of_nat fuel) * slots_per_epoch cs < 2 ^ 64 ->
    justifications_from cs ch s0 prev acc fuel e = Some (Ok r) <->
    exists t ls, r = (s0, t, acc ++ ls) /\ until_new s0 prev e fuel t ls.
  Proof.
    intros s0 prev acc e r. revert prev acc e r.
    induction fuel as [|n IH]; intros prev acc e r Hb; cbn [justifications_from].
    { split; [discriminate|]. intros (t & ls & _ & us & Hl & _). lia. }
    pose proof (spe_mono cs e (e + N.of_nat (S n)) ltac:(lia)) as Hm.
    pose proof (spe_ge cs Hspe (e + N.of_nat (S n))) as Hg.
    rewrite start_slot_exact by lia.
    assert (Hb' : (e + 1 + N.of_nat n) * slots_per_epoch cs < 2 ^ 64).
    { replace (e + 1 + N.of_nat n) with (e + N.of_nat (S n)) by lia. exact Hb. }
    assert (Hhead : forall t ls, until_new s0 prev e (S n) t ls ->
      exists cur o ls', state_at cs ch e cur /\ transition_link prev cur = Ok o /\ ls = link_cons o ls' /\
        ((cur = t /\ ls' = [] /\ finalized t <> finalized s0) \/
         (finalized cur = finalized s0 /\ until_new s0 cur (e + 1) n t ls'))).
    { intros t ls (us & Hl & Hst & Hh & Hf & Hn). destruct us as [|u us]; cbn in Hst, Hh.
      - apply history_cons in Hh as (o & ls' & Et & -> & Hh). apply history_nil in Hh as ->.
        exists t, o, []. destruct Hst. auto 10.
      - apply history_cons in Hh as (o & ls' & Et & -> & Hh). destruct Hst as [Hs1 Hs2]. inversion Hf; subst.
        exists u, o, ls'. split; auto. split; auto. split; auto. right. split; auto.
        exists us. simpl in Hl. split; [lia|]. auto. }
    destruct (ch_state ch (e * slots_per_epoch cs)) as [cur|x|] eqn:Es; cbn [map_err bind].
    2,3: split; [discriminate|]; intros (t & ls & _ & Hu);
         apply Hhead in Hu as (cur & o & ls' & Hs & _); unfold state_at in Hs; congruence.
    destruct (transition_link prev cur) as [o|x|] eqn:Et; cbn [map_err bind].
    2,3: split; [discriminate|]; intros (t & ls & _ & Hu);
         apply Hhead in Hu as (cur' & o & ls' & Hs & Et' & _); unfold state_at in Hs;
         assert (cur' = cur) by congruence; congruence.
    assert (Hcur : forall cur' o', state_at cs ch e cur' -> transition_link prev cur' = Ok o' -> cur' = cur /\ o' = o).
    { intros cur' o' Hs Et'. unfold state_at in Hs. assert (cur' = cur) by congruence. subst. split; congruence. }
    destruct (checkpoint_eqb (finalized cur) (finalized s0)) eqn:Ef.
    - apply checkpoint_eqb_eq in Ef. rewrite wrap64_exact by lia. rewrite (IH cur _ (e + 1) r Hb'). split.
      + intros (t & ls & Hr & us & Hl & Hst & Hh & Hf & Hn).
        exists t, (link_cons o ls). split.
        { rewrite Hr. destruct o; cbn; [now rewrite <- app_assoc|reflexivity]. }
        exists (cur :: us). split; [simpl; lia|]. split; [split; auto|]. split.
        { cbn. apply history_cons. exists o, ls. auto. }
        split; [constructor; auto|exact Hn].
      + intros (t & ls & Hr & Hu). apply Hhead in Hu as (cur' & o' & ls' & Hs & Et' & -> & Hc).
        destruct (Hcur cur' o' Hs Et') as [-> ->]. destruct Hc as [(-> & _ & Hn)|(_ & Hu)]; [congruence|].
        exists t, ls'. split; auto. rewrite Hr. destruct o; cbn; [now rewrite <- app_assoc|reflexivity].
    - apply checkpoint_eqb_neq in Ef. split.
      + intros Hr. injection Hr as <-. exists cur, (link_cons o []). split.
        { destruct o; cbn; [reflexivity|now rewrite app_nil_r]. }
        exists []. split; [simpl; lia|]. split; [cbn; auto|]. split; [|auto].
        cbn. apply history_cons. exists o, []. split; auto. split; auto. constructor.
      + intros (t & ls & Hr & Hu). apply Hhead in Hu as (cur' & o' & ls' & Hs & Et' & -> & Hc).
        destruct (Hcur cur' o' Hs Et') as [-> ->]. destruct Hc as [(-> & -> & Hn)|(Hf & _)]; [|congruence].
        rewrite Hr. destruct o; cbn; [reflexivity|now rewrite app_nil_r].
  Qed.

  Lemma get_justifications_iff start fuel r : (start + 1 + N.of_nat fuel) * slots_per_epoch cs < 2 ^ 64 ->
    get_justifications_until_new_finality cs ch start fuel = Some (Ok r) <->
    exists s t ls, r = (s, t, ls) /\ state_at cs ch start s /\ until_new s s (start + 1) fuel t ls.
  Proof.
    intros Hb. unfold get_justifications_until_new_finality.
    pose proof (spe_mono cs start (start + 1 + N.of_nat fuel) ltac:(lia)) as Hm.
    pose proof (spe_ge cs Hspe (start + 1 + N.of_nat fuel)) as Hg.
    rewrite start_slot_exact by lia. rewrite wrap64_exact by lia.
    destruct (ch_state ch (start * slots_per_epoch cs)) as [s0|x|] eqn:Es; cbn [map_err].
    2,3: split; [discriminate|]; intros (s & t & ls & _ & Hs & _); unfold state_at in Hs; congruence.
    rewrite justifications_iff by exact Hb. split.
    - intros (t & ls & -> & Hu). exists s0, t, ls. auto.
    - intros (s & t & ls & -> & Hs & Hu). unfold state_at in Hs. assert (s = s0) by congruence. subst.
      exists t, ls. auto.
  Qed.
End Justifications.

(** Histories are FFG runs. *)
Lemma history_run s us ls : history s us ls -> ffg_run s ls (last us s).
Proof.
  induction 1 as [s|s us ls Hv Hh IH|s l u us ls Hv Hst Hg Hh IH].
  - constructor.
  - destruct us as [|x us]; [exact IH|]. change (last (s :: x :: us) s) with (last (x :: us) s). exact IH.
  - apply run_cons with u; auto.
    replace (last (u :: us) s) with (last us u); auto.
    destruct us as [|x us]; auto. change (last (u :: x :: us) s) with (last (x :: us) s).
    clear. revert u s x. induction us as [|y us IH]; intros; [reflexivity|].
    change (last (y :: us) u = last (y :: us) s). destruct us; auto.
Qed.
Lemma history_targets s us ls : history s us ls -> valid_state s ->
  StronglySorted N.lt (map (fun l => epoch (target l)) ls) /\
  Forall (fun l => epoch (current_justified s) < epoch (target l)) ls.
Proof.
  induction 1 as [s|s us ls Hv Hh IH|s l u us ls Hv Hst Hg Hh IH]; intros Hvs.
  - split; constructor.
  - auto.
  - pose proof (ffg_step_valid _ _ _ Hv Hst) as Hvu. destruct (IH Hvu) as [IH1 IH2].
    assert (Ht : current_justified u = target l) by (inversion Hst; subst; reflexivity).
    assert (Hlt : epoch (current_justified s) < epoch (target l)) by (inversion Hst; subst; simpl; lia).
    rewrite Ht in IH2. split.
    + simpl. constructor; auto. clear - IH2. induction IH2; simpl; constructor; auto.
    + constructor; auto. eapply Forall_impl; [|exact IH2]. simpl. intros. lia.
Qed.
(** In a history whose states before the last keep finality, finality changes at the last link. *)
Lemma history_finality s us t ls : history s (us ++ [t]) ls -> valid_state s ->
  Forall (fun u => finalized u = finalized s) us -> finalized t <> finalized s ->
  exists ls0 l u, ls = ls0 ++ [l] /\ ffg_run s ls0 u /\ finalized u = finalized s /\ ffg_step u l t /\
    forall k, exists w, ffg_run s (firstn k ls0) w /\ finalized w = finalized s.
Proof.
  revert s ls. induction us as [|u us IH]; intros s ls Hh Hv Hf Hn; cbn in Hh.
  - apply history_cons in Hh as (o & ls' & Et & -> & Hh). apply history_nil in Hh as ->.
    apply transition_link_cases in Et as [_ Ho]. destruct o as [l|]; [|congruence]. destruct Ho as [Hst _].
    exists [], l, s. cbn. split; auto. split; [constructor|]. split; auto. split; auto.
    intros k. exists s. rewrite firstn_nil. split; [constructor|auto].
  - apply history_cons in Hh as (o & ls' & Et & -> & Hh). inversion Hf as [|? ? Hu Hf']; subst.
    apply transition_link_cases in Et as [_ Ho].
    assert (Hvu : valid_state u).
    { destruct o as [l|]; [eapply ffg_step_valid; [exact Hv|apply Ho]|subst; auto]. }
    destruct (IH u ls' Hh Hvu) as (ls0 & l & w & -> & Hr & Hw & Hst & Hk).
    + eapply Forall_impl; [|exact Hf']. intros. congruence.
    + congruence.
    + destruct o as [l0|]; cbn.
      * destruct Ho as [Hst0 _]. exists (l0 :: ls0), l, w. split; auto. split; [econstructor; eauto|].
        split; [congruence|]. split; auto. intros [|k].
        { exists s. split; [constructor|auto]. }
        { destruct (Hk k) as (x & Hx & Hxf). exists x. cbn. split; [econstructor; eauto|congruence]. }
      * subst u. exists ls0, l, w. auto.
Qed.

(** ** collect_attestations_for_links *)
Lemma epoch_range_slots a b : slot_range a b (epoch_range a b).
Proof.
  unfold slot_range, epoch_range. split.
  - assert (forall n k, StronglySorted N.lt (map (fun i => a + N.of_nat i) (seq k n))) as H; [|apply H].
    induction n as [|n IH]; intros k; simpl; constructor; auto.
    rewrite Forall_forall. intros x Hx. apply in_map_iff in Hx as (i & <- & Hi). apply in_seq in Hi. lia.
  - intros s. rewrite in_map_iff. split.
    + intros (i & <- & Hi). apply in_seq in Hi. lia.
    + intros Hs. exists (N.to_nat (s - a)). split; [lia|]. apply in_seq. lia.
Qed.

Lemma sorted_lt_ext (a b : list N) : StronglySorted N.lt a -> StronglySorted N.lt b ->
  (forall x, In x a <-> In x b) -> a = b.
Proof. apply bs_sorted_ext. Qed.

Lemma slot_range_unique a b l1 l2 : slot_range a b l1 -> slot_range a b l2 -> l1 = l2.
Proof. intros [S1 H1] [S2 H2]. apply sorted_lt_ext; auto. intros x. rewrite H1, H2. reflexivity. Qed.

Definition lookup (m : link_map) (l : Link) : list Attestation := fst (lm_remove m l).
Lemma lookup_push m l a l' :
  lookup (lm_push m l a) l' = if link_eq_dec l l' then lookup m l' ++ [a] else lookup m l'.
Proof.
  unfold lookup. induction m as [|[k v] m IH]; cbn [lm_push lm_remove].
  - destruct (link_eq_dec l l') as [->|Hn].
    + rewrite (proj2 (link_eqb_eq l' l') eq_refl). reflexivity.
    + rewrite (proj2 (link_eqb_neq l' l)) by congruence. reflexivity.
  - destruct (link_eqb l k) eqn:E1; cbn [lm_remove].
    + apply link_eqb_eq in E1 as <-. destruct (link_eqb l' l) eqn:E2.
      * apply link_eqb_eq in E2 as ->. destruct (link_eq_dec l l); [reflexivity|congruence].
      * apply link_eqb_neq in E2. destruct (link_eq_dec l l'); [congruence|].
        destruct (lm_remove m l'); reflexivity.
    + apply link_eqb_neq in E1. destruct (link_eqb l' k) eqn:E2.
      * apply link_eqb_eq in E2 as ->. destruct (link_eq_dec l k); [congruence|reflexivity].
      * destruct (lm_remove (lm_push m l a) l'), (lm_remove m l'). exact IH.
Qed.
Lemma lookup_removed m l l' : l <> l' -> lookup (snd (lm_remove m l)) l' = lookup m l'.
Proof.
  intros Hn. unfold lookup. induction m as [|[k v] m IH]; cbn [lm_remove]; auto.
  destruct (link_eqb l k) eqn:E1; cbn [snd].
  - apply link_eqb_eq in E1 as <-. rewrite (proj2 (link_eqb_neq l' l)) by congruence.
    destruct (lm_remove m l'); reflexivity.
  - destruct (lm_remove m l) as [x m'] eqn:E; cbn [snd lm_remove] in *.
    destruct (link_eqb l' k); auto. destruct (lm_remove m' l'), (lm_remove m l'). exact IH.
Qed.
Lemma assemble_lookup links : forall m, NoDup links -> assemble m links = flat_map (lookup m) links.
Proof.
  induction links as [|l r IH]; intros m Hd; cbn [assemble flat_map]; auto.
  inversion Hd as [|? ? Hl Hr]; subst.
  destruct (lm_remove m l) as [x m'] eqn:E. rewrite IH by auto. f_equal.
  - unfold lookup. now rewrite E.
  - rewrite !flat_map_concat_map. f_equal. apply map_ext_in. intros l' Hl'.
    replace m' with (snd (lm_remove m l)) by now rewrite E. apply lookup_removed. congruence.
Qed.

Lemma votes_for_app l a b : votes_for l (a ++ b) = votes_for l a ++ votes_for l b.
Proof. apply filter_app. Qed.
Lemma push_all_lookup atts l : forall m,
  lookup (fold_left (fun m a => lm_push m (att_link a) a) atts m) l = lookup m l ++ votes_for l atts.
Proof.
  induction atts as [|a atts IH]; intros m; cbn [fold_left votes_for filter].
  - now rewrite app_nil_r.
  - rewrite IH, lookup_push. change (att_link a) with (link_of a).
    destruct (link_eq_dec (link_of a) l); [now rewrite <- app_assoc|reflexivity].
Qed.

Definition some_blocks (obs : list (option Block)) : list Block :=
  flat_map (fun ob => match ob with Some b => [b] | None => [] end) obs.
Lemma index_blocks obs : forall m m', fold_outcome index_block obs m = Ok m' <->
  Forall (fun b => bl_electra b = true) (some_blocks obs) /\
  m' = fold_left (fun m a => lm_push m (att_link a) a) (included (some_blocks obs)) m.
Proof.
  induction obs as [|[b|] obs IH]; intros m m'; cbn [fold_outcome some_blocks flat_map included index_block].
  - split; [intros [= <-]; auto|intros [_ ->]; auto].
  - destruct (bl_electra b) eqn:Eb; cbn [bind].
    + rewrite IH. unfold included. cbn [app flat_map]. rewrite fold_left_app.
      split; intros [H1 H2]; (split; [|exact H2]); [constructor; auto|inversion H1; auto].
    + split; [discriminate|]. intros [H _]. inversion H; congruence.
  - cbn [bind app]. apply IH.
Qed.

Lemma min_target_spec r : forall l, (forall x, In x (l :: r) -> min_target l r <= epoch (target x)) /\
  (exists x, In x (l :: r) /\ epoch (target x) = min_target l r).
Proof.
  unfold min_target. intros l.
  assert (H : forall r m, fold_left (fun m x => N.min m (epoch (target x))) r m <= m /\
    (forall x, In x r -> fold_left (fun m x => N.min m (epoch (target x))) r m <= epoch (target x)) /\
    (fold_left (fun m x => N.min m (epoch (target x))) r m = m \/
     exists x, In x r /\ epoch (target x) = fold_left (fun m x => N.min m (epoch (target x))) r m)).
  { clear. induction r as [|y r IH]; intros m; cbn [fold_left].
    - split; [lia|]. split; [intros ? []|auto].
    - destruct (IH (N.min m (epoch (target y)))) as (H1 & H2 & H3). split; [lia|]. split.
      + intros x [<-|Hx]; [lia|auto].
      + destruct H3 as [H3|(x & Hx & Ex)].
        * destruct (N.min_spec m (epoch (target y))) as [[_ E]|[_ E]]; rewrite H3, E; auto.
          right. exists y. simpl. auto.
        * right. exists x. simpl. auto. }
  destruct (H r (epoch (target l))) as (H1 & H2 & H3). split.
  - intros x [<-|Hx]; auto.
  - destruct H3 as [H3|(x & Hx & Ex)]; [exists l|exists x]; simpl; auto.
Qed.
Lemma max_target_spec r : forall l, (forall x, In x (l :: r) -> epoch (target x) <= max_target l r) /\
  (exists x, In x (l :: r) /\ epoch (target x) = max_target l r).
Proof.
  unfold max_target. intros l.
  assert (H : forall r m, m <= fold_left (fun m x => N.max m (epoch (target x))) r m /\
    (forall x, In x r -> epoch (target x) <= fold_left (fun m x => N.max m (epoch (target x))) r m) /\
    (fold_left (fun m x => N.max m (epoch (target x))) r m = m \/
     exists x, In x r /\ epoch (target x) = fold_left (fun m x => N.max m (epoch (target x))) r m)).
  { clear. induction r as [|y r IH]; intros m; cbn [fold_left].
    - split; [lia|]. split; [intros ? []|auto].
    - destruct (IH (N.max m (epoch (target y)))) as (H1 & H2 & H3). split; [lia|]. split.
      + intros x [<-|Hx]; [lia|auto].
      + destruct H3 as [H3|(x & Hx & Ex)].
        * destruct (N.max_spec m (epoch (target y))) as [[_ E]|[_ E]]; rewrite H3, E; auto.
          right. exists y. simpl. auto.
        * right. exists x. simpl. auto. }
  destruct (H r (epoch (target l))) as (H1 & H2 & H3). split.
  - intros x [<-|Hx]; auto.
  - destruct H3 as [H3|(x & Hx & Ex)]; [exists l|exists x]; simpl; auto.
Qed.

Lemma sat_mul_exact a b : a * b < 2 ^ 64 -> sat_mul a b = a * b.
Proof. unfold sat_mul, u64_max, two64. lia. Qed.

Lemma target_bounds_unique links lo hi lo' hi' : target_bounds links lo hi -> target_bounds links lo' hi' ->
  lo = lo' /\ hi = hi'.
Proof.
  intros (H1 & (a & Ha & Ea) & (b & Hb & Eb)) (H1' & (a' & Ha' & Ea') & (b' & Hb' & Eb')).
  pose proof (H1 a' Ha'). pose proof (H1 b' Hb'). pose proof (H1' a Ha). pose proof (H1' b Hb). lia.
Qed.

Lemma collect_iff cs ch links lo hi atts : NoDup links -> target_bounds links lo hi ->
  0 < slots_per_epoch cs -> (hi + 1) * slots_per_epoch cs < 2 ^ 64 ->
  collect_attestations_for_links cs ch links = Ok atts <->
  exists slots bs, slot_range (lo * slots_per_epoch cs) ((hi + 1) * slots_per_epoch cs) slots /\
    blocks_at ch slots bs /\ Forall (fun b => bl_electra b = true) bs /\
    atts = flat_map (fun l => votes_for l (included bs)) links.
Proof.
  intros Hd Hb Hspe Hbd. destruct links as [|l r].
  { destruct Hb as (_ & (x & [] & _) & _). }
  cbn [collect_attestations_for_links].
  destruct (min_target_spec r l) as [Hm1 Hm2]. destruct (max_target_spec r l) as [Hx1 Hx2].
  destruct (target_bounds_unique (l :: r) lo hi (min_target l r) (max_target l r) Hb) as [<- <-].
  { split; auto. }
  pose proof (spe_ge cs Hspe (hi + 1)) as Hge.
  assert (Hlohi : lo <= hi). { destruct Hb as (Hb & _). destruct (Hb l); simpl; auto. lia. }
  pose proof (spe_mono cs lo (hi + 1) ltac:(lia)) as Hmo.
  rewrite sat_mul_exact by lia.
  replace (sat_add hi 1) with (hi + 1) by (unfold sat_add, u64_max, two64; lia).
  rewrite sat_mul_exact by lia.
  set (a := lo * slots_per_epoch cs). set (b := (hi + 1) * slots_per_epoch cs).
  assert (Hblocks : forall slots obs,
    map_outcome (fun sl => map_err HOther (ch_block ch sl)) slots = Ok obs <->
    Forall2 (fun s ob => ch_block ch s = Ok ob) slots obs).
  { intros slots obs. rewrite map_outcome_ok. split; intros H; induction H as [|? ? ? ? Hx H IH]; constructor; auto.
    - now apply map_err_ok in Hx.
    - now apply map_err_ok. }
  split.
  - intros H. apply bind_ok in H as (obs & Ho & H). apply bind_ok in H as (m & Hi & H). injection H as <-.
    apply Hblocks in Ho. apply index_blocks in Hi as [He ->].
    exists (epoch_range a b), (some_blocks obs). split; [apply epoch_range_slots|]. split; [exists obs; auto|].
    split; auto.
    change (assemble (fold_left (fun m a => lm_push m (att_link a) a) (included (some_blocks obs)) []) (l :: r) = flat_map (fun l => votes_for l (included (some_blocks obs))) (l :: r)).
    rewrite assemble_lookup by auto. rewrite !flat_map_concat_map. f_equal. apply map_ext. intros x.
    now rewrite push_all_lookup.
  - intros (slots & bs & Hr & (obs & Ho & ->) & He & ->).
    rewrite (slot_range_unique _ _ _ _ Hr (epoch_range_slots a b)) in Ho.
    apply Hblocks in Ho. rewrite Ho. cbn [bind].
    rewrite (proj2 (index_blocks obs [] _) (conj He eq_refl)). cbn [bind]. f_equal.
    change (assemble (fold_left (fun m a => lm_push m (att_link a) a) (included (some_blocks obs)) []) (l :: r)
            = flat_map (fun l => votes_for l (included (some_blocks obs))) (l :: r)).
    rewrite assemble_lookup by auto. rewrite !flat_map_concat_map. f_equal. apply map_ext. intros x.
    now rewrite push_all_lookup.
Qed.

(** Grouping. *)
Lemma votes_for_link l atts a : In a (votes_for l atts) -> link_of a = l.
Proof. intros H. apply filter_In in H as [_ H]. destruct (link_eq_dec (link_of a) l); congruence. Qed.
Lemma NoDup_adjacent ls : NoDup ls -> adjacent_differ ls.
Proof.
  induction ls as [|a [|b r] IH]; simpl; auto. intros H. inversion H as [|? ? Hn Hr]; subst.
  split; [intros ->; apply Hn; simpl; auto|apply IH; auto].
Qed.
Lemma NoDup_map_filter {A B} (f : A -> B) (p : A -> bool) l : NoDup (map f l) -> NoDup (map f (filter p l)).
Proof.
  induction l as [|x l IH]; simpl; auto. intros H. inversion H as [|? ? Hn Hr]; subst.
  destruct (p x); simpl; auto. constructor; auto. intros Hin. apply Hn.
  apply in_map_iff in Hin as (y & <- & Hy). apply filter_In in Hy as [Hy _]. now apply in_map.
Qed.
Lemma grouping links all : NoDup links ->
  groups (flat_map (fun l => votes_for l all) links)
         (links_with_votes links all).
Proof.
  intros Hd. split; [|split].
  - clear Hd. unfold links_with_votes. induction links as [|l r IH]; [reflexivity|]. cbn [map filter snd flat_map].
    destruct (votes_for l all) eqn:E; cbn [map concat snd app]; [exact IH|now rewrite IH].
  - apply Forall_forall. intros g Hg. apply filter_In in Hg as [Hg Hne].
    apply in_map_iff in Hg as (l & <- & Hl). split; simpl.
    + simpl in Hne. destruct (votes_for l all); congruence.
    + intros a. apply votes_for_link.
  - unfold links_with_votes. apply NoDup_adjacent. apply NoDup_map_filter. rewrite map_map. simpl. rewrite map_id. exact Hd.
Qed.

(** Widening the window adds no votes when inclusion is timely. *)
Lemma blocks_at_app ch s1 s2 bs : blocks_at ch (s1 ++ s2) bs <->
  exists b1 b2, blocks_at ch s1 b1 /\ blocks_at ch s2 b2 /\ bs = b1 ++ b2.
Proof.
  unfold blocks_at. split.
  - intros (obs & H & ->). apply Forall2_app_inv_l in H as (o1 & o2 & H1 & H2 & ->).
    exists (some_blocks o1), (some_blocks o2). split; [eauto|]. split; [eauto|]. apply flat_map_app.
  - intros (b1 & b2 & (o1 & H1 & ->) & (o2 & H2 & ->) & ->). exists (o1 ++ o2).
    split; [now apply Forall2_app|]. symmetry. apply flat_map_app.
Qed.
Lemma blocks_at_In ch slots bs b : blocks_at ch slots bs -> In b bs ->
  exists s, In s slots /\ ch_block ch s = Ok (Some b).
Proof.
  intros (obs & H & ->) Hb. apply in_flat_map in Hb as (ob & Ho & Hb).
  destruct ob as [b'|]; [|destruct Hb]. destruct Hb as [<-|[]].
  induction H as [|s ob slots obs Hs H IH]; [destruct Ho|].
  destruct Ho as [->|Ho]; [exists s; simpl; auto|]. destruct (IH Ho) as (x & Hx & E). exists x. simpl. auto.
Qed.
Lemma votes_for_none l bs : (forall b a, In b bs -> In a (bl_attestations b) -> link_of a <> l) ->
  votes_for l (included bs) = [].
Proof.
  intros H. induction bs as [|b bs IH]; [reflexivity|].
  change (included (b :: bs)) with (bl_attestations b ++ included bs). rewrite votes_for_app.
  rewrite IH by (intros b' a' Hb' Ha'; apply (H b' a'); simpl; auto). rewrite app_nil_r.
  assert (Hb : forall a, In a (bl_attestations b) -> link_of a <> l) by (intros a; apply H; simpl; auto).
  clear H IH. induction (bl_attestations b) as [|a r IH]; [reflexivity|]. cbn [votes_for filter].
  destruct (link_eq_dec (link_of a) l) as [E|E]; [exfalso; apply (Hb a); simpl; auto|].
  apply IH. intros x Hx. apply Hb. simpl; auto.
Qed.
Lemma window_votes ch a lo hi b slots slots' bs bs' l :
  a <= lo -> lo <= hi + 1 -> hi <= b -> slot_range lo hi slots -> slot_range a b slots' ->
  blocks_at ch slots bs -> blocks_at ch slots' bs' ->
  (forall s blk att, ch_block ch s = Ok (Some blk) -> In att (bl_attestations blk) -> link_of att = l -> lo <= s <= hi) ->
  votes_for l (included bs') = votes_for l (included bs).
Proof.
  intros Ha Hlh Hb Hr Hr' Hbs Hbs' Ht.
  assert (Hrange : slot_range a b (epoch_range a b)) by apply epoch_range_slots.
  assert (Hsplit : slots' = filter (fun s => s <? lo) slots' ++ slots ++ filter (fun s => hi <? s) slots').
  { apply (slot_range_unique a b); auto. destruct Hr as [Sr Hr], Hr' as [Sr' Hr']. split.
    - assert (Hf : forall p, StronglySorted N.lt (filter p slots')).
      { intros p. clear - Sr'. induction Sr' as [|x l S IH F]; simpl; [constructor|].
        destruct (p x); auto. constructor; auto. rewrite Forall_forall in *. intros y Hy.
        apply filter_In in Hy as [Hy _]. auto. }
      assert (Happ : forall l1 l2 : list N, StronglySorted N.lt l1 -> StronglySorted N.lt l2 ->
        (forall x y, In x l1 -> In y l2 -> x < y) -> StronglySorted N.lt (l1 ++ l2)).
      { clear. intros l1 l2 S1 S2 H. induction S1 as [|x l1 S1 IH F]; simpl; auto. constructor.
        - apply IH. intros; apply H; simpl; auto.
        - rewrite Forall_forall in *. intros y Hy. apply in_app_iff in Hy as [Hy|Hy]; auto. apply H; simpl; auto. }
      apply Happ; [apply Hf| |].
      + apply Happ; [auto|apply Hf|]. intros x y Hx Hy. apply Hr in Hx. apply filter_In in Hy as [_ Hy]. lia.
      + intros x y Hx Hy. apply filter_In in Hx as [_ Hx]. apply in_app_iff in Hy as [Hy|Hy].
        * apply Hr in Hy. lia.
        * apply filter_In in Hy as [_ Hy]. lia.
    - intros s. rewrite !in_app_iff, !filter_In, Hr, !Hr'. lia. }
  rewrite Hsplit in Hbs'. apply blocks_at_app in Hbs' as (b1 & b23 & H1 & H23 & ->).
  apply blocks_at_app in H23 as (b2 & b3 & H2 & H3 & ->).
  assert (b2 = bs).
  { destruct H2 as (o1 & F1 & ->), Hbs as (o2 & F2 & ->). f_equal.
    clear - F1 F2. revert o2 F2. induction F1; intros o2 F2; inversion F2; subst; auto. f_equal; [congruence|auto]. }
  subst b2. unfold included. rewrite !flat_map_app, !votes_for_app.
  assert (Hnone : forall sl bl, blocks_at ch sl bl -> (forall s, In s sl -> ~ lo <= s <= hi) ->
    votes_for l (flat_map bl_attestations bl) = []).
  { intros sl bl Hbl Hout. apply votes_for_none. intros blk att Hblk Hatt Hl.
    destruct (blocks_at_In _ _ _ _ Hbl Hblk) as (s & Hs & Es). apply (Hout s Hs). eapply Ht; eauto. }
  rewrite (Hnone _ _ H1), (Hnone _ _ H3).
  - now rewrite app_nil_r.
  - intros s Hs. apply filter_In in Hs as [_ Hs]. lia.
  - intros s Hs. apply filter_In in Hs as [_ Hs]. lia.
Qed.
