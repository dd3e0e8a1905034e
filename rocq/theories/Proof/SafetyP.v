From Coq Require Import List ZArith NArith Bool Lia Sorted Permutation.
From Coq Require Import ZifyBool ZifyNat ZifyN.
From Verif.Model Require Import Base Types ConsensusState Verify.
From Verif.Spec Require Import FFG Committees VerifySpec Safety.
From Verif.Proof Require Import BaseLemmas ConsensusStateP VerifyP.
Import ListNotations.
Open Scope N_scope.

(** ** Chains of links *)
Inductive chain : Checkpoint -> list Link -> Prop :=
| ch_nil : forall j, chain j []
| ch_cons : forall j b ls, epoch j < epoch b -> chain b ls -> chain j (mkLink j b :: ls).

Lemma af_chain c ls f t : atomic_finalization c ls f t ->
  chain c ls /\ In (mkLink f t) ls /\ epoch t = epoch f + 1.
Proof.
  induction 1 as [c t H|c b ls f t H Haf (I1 & I2 & I3)].
  - repeat split; auto; [constructor; [lia|constructor]|simpl; auto].
  - repeat split; auto; [constructor; auto; lia|simpl; auto].
Qed.
Lemma accepted_is_chain s ls post : accepted_chain s ls post ->
  chain (current_justified s) ls /\ In (mkLink (finalized post) (current_justified post)) ls /\
  epoch (current_justified post) = epoch (finalized post) + 1.
Proof.
  destruct 1 as [s ls f t Hv Hg H|b ls f t Hb H]; apply af_chain in H as (H1 & H2 & H3); simpl; auto.
  repeat split; auto. constructor; auto.
Qed.
Lemma chain_target_gt j ls l : chain j ls -> In l ls -> epoch j < epoch (target l).
Proof.
  induction 1; simpl; [easy|]. intros [<-|Hin]; simpl; auto. specialize (IHchain Hin). lia.
Qed.
Lemma chain_source j ls l : chain j ls -> In l ls -> justified_by j ls (source l) /\ epoch j <= epoch (source l).
Proof.
  induction 1 as [|j b ls Hlt Hc IH]; simpl; [easy|]. intros [<-|Hin]; simpl.
  - split; [left; auto|lia].
  - destruct (IH Hin) as [[->|(l' & H1 & H2)] H3].
    + split; [right; exists (mkLink j b); simpl; auto|lia].
    + split; [right; exists l'; simpl; auto|lia].
Qed.
Lemma chain_cross j ls E : chain j ls -> epoch j <= E -> (exists l, In l ls /\ E < epoch (target l)) ->
  exists l, In l ls /\ epoch (source l) <= E < epoch (target l).
Proof.
  induction 1 as [|j b ls Hlt Hc IH]; intros Hle (l & Hin & HE); [easy|].
  destruct (N.lt_ge_cases E (epoch b)) as [L|L].
  - exists (mkLink j b). simpl. auto.
  - destruct IH as (l' & H1 & H2); auto.
    + destruct Hin as [<-|Hin]; [simpl in HE; lia|eauto].
    + exists l'. simpl; auto.
Qed.
Lemma justified_epoch j ls c : chain j ls -> justified_by j ls c -> c = j \/ (epoch j < epoch c /\ exists l, In l ls /\ target l = c).
Proof. intros Hc [|(l & H1 & <-)]; auto. right. split; [eapply chain_target_gt; eauto|eauto]. Qed.

Lemma skip_slashable j la lb fa ta tb fb : chain j la -> chain j lb ->
  In (mkLink fa ta) la -> epoch ta = epoch fa + 1 ->
  In (mkLink fb tb) lb -> epoch tb = epoch fb + 1 ->
  epoch fa <= epoch fb -> ~ justified_by j lb fa ->
  exists a b, In a la /\ In b lb /\ slashable a b.
Proof.
  intros Ca Cb Ia Ea Ib Eb Hle Hns.
  destruct (chain_source _ _ _ Ca Ia) as [Ja La]. simpl in Ja, La.
  destruct (chain_cross j lb (epoch fa) Cb La) as (l & Hl & Hs & Ht).
  { exists (mkLink fb tb). split; auto. simpl. lia. }
  destruct (chain_source _ _ _ Cb Hl) as [Js Ls].
  assert (source l <> fa) as Hne by congruence.
  destruct (N.eq_dec (epoch (source l)) (epoch fa)) as [Ee|Ne].
  - destruct (justified_epoch _ _ _ Ca Ja) as [->|(Ga & a & Ha1 & Ha2)].
    + destruct (justified_epoch _ _ _ Cb Js) as [|(Gs & _)]; [congruence|lia].
    + destruct (justified_epoch _ _ _ Cb Js) as [E|(Gs & b & Hb1 & Hb2)]; [rewrite E in Ee; lia|].
      exists a, b. repeat split; auto. left. split; [congruence|]. rewrite Ha2, Hb2. auto.
  - exists (mkLink fa ta), l. repeat split; auto.
    destruct (N.eq_dec (epoch (target l)) (epoch ta)) as [Et|Nt].
    + left. split; auto. intros <-. simpl in Hne. easy.
    + right; right. split; simpl; lia.
Qed.
Lemma slashable_sym a b : slashable a b -> slashable b a.
Proof.
  intros [[H1 H2]|[H|H]]; [left; split; auto|right; right; auto|right; left; auto].
Qed.
Lemma chain_same_epoch j ls c c' : chain j ls -> justified_by j ls c -> justified_by j ls c' -> epoch c = epoch c' -> c = c'.
Proof.
  induction 1 as [|j b ls Hlt Hc IH]; intros J1 J2 E.
  - destruct J1 as [->|(? & [] & _)], J2 as [->|(? & [] & _)]. auto.
  - assert (T : forall x, justified_by j (mkLink j b :: ls) x -> x = j \/ justified_by b ls x).
    { intros x [->|(l & [<-|Hl] & <-)]; auto; right; [left; auto|right; eauto]. }
    assert (G : forall x, justified_by b ls x -> epoch j < epoch x).
    { intros x Hx. destruct (justified_epoch _ _ _ Hc Hx) as [->|[? _]]; lia. }
    destruct (T _ J1) as [->|K1], (T _ J2) as [->|K2]; auto.
    + apply G in K2. lia.
    + apply G in K1. lia.
Qed.
Theorem conflict_slashable s la lb pa pb :
  accepted_chain s la pa -> accepted_chain s lb pb ->
  conflicting (current_justified s) la lb (finalized pa) (finalized pb) ->
  exists a b, In a la /\ In b lb /\ slashable a b.
Proof.
  intros Ha Hb Hc. apply accepted_is_chain in Ha as (Ca & Ia & Ea), Hb as (Cb & Ib & Eb).
  destruct Hc as [[He Hne]|[[Hlt Hj]|[Hlt Hj]]].
  - eapply skip_slashable; eauto; [lia|]. intros J. apply Hne.
    eapply (chain_same_epoch _ lb); eauto. apply (chain_source _ _ _ Cb Ib).
  - eapply skip_slashable; eauto. lia.
  - destruct (skip_slashable _ lb la _ _ _ _ Cb Ca Ib Eb Ia Ea) as (b & a & H1 & H2 & H3); auto; [lia|].
    exists a, b. repeat split; auto. now apply slashable_sym.
Qed.

(** ** Intersection of quorums *)
Lemma key_in_map' {V} (av : list (N * V)) x y : NoDup (map fst av) -> In x av -> In y av -> fst x = fst y -> x = y.
Proof. apply key_in_map. Qed.
Definition inboth (P Q : validators) : validators :=
  filter (fun x => existsb (fun y => (fst y =? fst x)) Q) P.
Lemma intersection_weight (P Q all both : validators) : NoDup (map fst P) -> NoDup (map fst Q) -> NoDup (map fst all) ->
  incl P all -> incl Q all -> in_both P Q both ->
  weight P + weight Q <= weight both + weight all.
Proof.
  revert P Q both. induction all as [|x all IH]; intros P Q both NP NQ NA IP IQ [NB HB].
  - destruct P; [|destruct (IP p); simpl; auto]. destruct Q; [|destruct (IQ p); simpl; auto]. simpl. lia.
  - inversion NA as [|? ? Hx NA']; subst.
    assert (Rm : forall L : validators, NoDup (map fst L) -> incl L (x :: all) ->
      exists L', NoDup (map fst L') /\ incl L' all /\ (forall y, In y L' <-> In y L /\ y <> x) /\
        weight L' + (if existsb (fun y => fst y =? fst x) L then effective_balance (snd x) else 0) = weight L /\
        (existsb (fun y => fst y =? fst x) L = true <-> In x L)).
    { intros L NL IL.
      destruct (existsb (fun y => fst y =? fst x) L) eqn:Ex.
      - apply existsb_exists in Ex as (y & Hy & Ey). apply N.eqb_eq in Ey.
        pose proof (key_in_map (x :: all) y x NA (IL y Hy) (or_introl eq_refl) Ey) as ->.
        apply in_split in Hy as (l1 & l2 & ->). exists (l1 ++ l2).
        rewrite map_app in NL. simpl in NL. apply NoDup_remove in NL as [NL1 NL2]. rewrite <- map_app in NL1, NL2.
        split; [auto|]. split.
        + intros y Hy. assert (In y (l1 ++ x :: l2)) as Hy' by (apply in_app_iff in Hy; apply in_app_iff; simpl; tauto).
          destruct (IL y Hy') as [<-|]; auto. exfalso. apply NL2. now apply in_map.
        + split; [|split].
          * intros y. rewrite !in_app_iff. simpl. split.
            { intros Hy. split; [tauto|]. intros ->. apply NL2. apply in_map. apply in_app_iff. tauto. }
            { intros [[|[<-|]] Hn]; tauto. }
          * rewrite !weight_app. simpl. lia.
          * split; auto. intros _. apply in_app_iff. simpl. auto.
      - assert (~ In x L) as Hn.
        { intros Hin. assert (existsb (fun y => fst y =? fst x) L = true); [|congruence].
          apply existsb_exists. exists x. split; auto. apply N.eqb_refl. }
        exists L. split; auto. split.
        + intros y Hy. destruct (IL y Hy) as [<-|]; auto. easy.
        + split; [|split]; [|lia|split; [discriminate|easy]].
          intros y. split; [|tauto]. intros Hy. split; auto. intros ->. easy. }
    destruct (Rm P NP IP) as (P' & NP' & IP' & EP & WP & XP).
    destruct (Rm Q NQ IQ) as (Q' & NQ' & IQ' & EQ & WQ & XQ).
    assert (incl both (x :: all)) as IB by (intros y Hy; apply HB in Hy; apply IP; tauto).
    destruct (Rm both NB IB) as (B' & NB' & IB' & EB & WB & XB).
    assert (in_both P' Q' B') as HB'.
    { split; auto. intros y. rewrite EB, HB, EP, EQ. tauto. }
    specialize (IH P' Q' B' NP' NQ' NA' IP' IQ' HB'). simpl.
    destruct (existsb (fun y => fst y =? fst x) P), (existsb (fun y => fst y =? fst x) Q), (existsb (fun y => fst y =? fst x) both); try lia.
    exfalso. assert (false = true); [|discriminate]. apply XB, HB. split; [apply XP|apply XQ]; auto.
Qed.

Lemma enough_weights cfg cs av P : 2 * effective_balance_increment cs <= weight av -> 0 < effective_balance_increment cs ->
  enough cfg cs av P ->
  weight av * justification_threshold_factor cfg <= weight (unslashed P) * justification_threshold_quotient cfg /\
  2 * weight av <= 3 * weight (unslashed P).
Proof.
  intros HT Hi [H1 H2]. unfold balance_of in *.
  assert (N.max (effective_balance_increment cs) (weight av) = weight av) as E1 by lia.
  assert (N.max (effective_balance_increment cs) (weight (unslashed P)) = weight (unslashed P)) as E2 by lia.
  rewrite E1, E2 in *. auto.
Qed.
Lemma supermajority_participants X cfg R l atts av P : supermajority_link X cfg R l atts av P ->
  NoDup (map fst av) /\ NoDup (map fst P) /\ incl P av.
Proof.
  intros (f & gvr & avl & sets & _ & _ & _ & [Hs _] & F & [HP1 HP2] & _). split; [|split]; auto.
  - now apply bs_sorted_NoDup.
  - intros x Hx. apply HP2 in Hx as (s & Hs1 & Hs2). clear -F Hs1 Hs2. induction F; [easy|].
    destruct Hs1 as [<-|]; auto. destruct H as [_ _ _ _ _ (_ & _ & H) _]. auto.
Qed.
Lemma quorum_overlap X cfg R1 R2 la lb attsa attsb ava avb Pa Pb all both cs :
  rd_chain_spec R1 = cs -> rd_chain_spec R2 = cs ->
  supermajority_link X cfg R1 la attsa ava Pa -> supermajority_link X cfg R2 lb attsb avb Pb ->
  0 < effective_balance_increment cs ->
  2 * effective_balance_increment cs <= weight ava -> 2 * effective_balance_increment cs <= weight avb ->
  NoDup (map fst all) -> incl ava all -> incl avb all ->
  in_both (unslashed Pa) (unslashed Pb) both ->
  justification_threshold_factor cfg * (weight ava + weight avb)
    <= justification_threshold_quotient cfg * (weight both + weight all).
Proof.
  intros C1 C2 HA HB Hi Ta Tb Na Ia Ib Hboth.
  destruct (supermajority_participants _ _ _ _ _ _ _ HA) as (_ & NPa & IPa).
  destruct (supermajority_participants _ _ _ _ _ _ _ HB) as (_ & NPb & IPb).
  destruct HA as (? & ? & ? & ? & _ & _ & _ & _ & _ & _ & EA). destruct HB as (? & ? & ? & ? & _ & _ & _ & _ & _ & _ & EB).
  rewrite C1 in EA. rewrite C2 in EB.
  apply enough_weights in EA as [EA _], EB as [EB _]; auto.
  assert (weight (unslashed Pa) + weight (unslashed Pb) <= weight both + weight all).
  { apply intersection_weight; auto; try now apply unslashed_NoDup.
    - intros z Hx. apply Ia, IPa. now apply unslashed_incl.
    - intros z Hx. apply Ib, IPb. now apply unslashed_incl. }
  nia.
Qed.

(** ** Drift *)
Lemma total_le f g vs : (forall v, f v <= g v) -> total f vs <= total g vs.
Proof. intros Hf. induction vs as [|v vs IH]; simpl; [lia|]. specialize (Hf v). lia. Qed.
Lemma total_add f g vs : total (fun v => f v + g v) vs = total f vs + total g vs.
Proof. induction vs; simpl; lia. Qed.
Theorem drift_margin vs A E S f q :
  total w0 vs * f <= total (fun v => when (attesting v) (w0 v)) vs * q ->
  total (fun v => when (negb (attesting v)) (wn v - w0 v)) vs <= A ->
  total (fun v => when (attesting v) (w0 v - wn v)) vs <= E ->
  total (fun v => when (attesting v && slashed_since v) (wn v)) vs <= S ->
  0 < q -> 2 * q * total w0 vs + q * (2 * A + E + 3 * S) <= 3 * f * total w0 vs ->
  2 * total wn vs <= 3 * total (fun v => when (attesting v && negb (slashed_since v)) (wn v)) vs.
Proof.
  intros H1 HA HE HS Hq Hm.
  set (a0 := total (fun v => when (attesting v) (w0 v)) vs) in *.
  set (an := total (fun v => when (attesting v) (wn v)) vs).
  set (b0 := total (fun v => when (negb (attesting v)) (w0 v)) vs).
  set (bn := total (fun v => when (negb (attesting v)) (wn v)) vs).
  set (sn := total (fun v => when (attesting v && slashed_since v) (wn v)) vs) in *.
  set (un := total (fun v => when (attesting v && negb (slashed_since v)) (wn v)) vs).
  assert (total w0 vs = a0 + b0) as T0.
  { unfold a0, b0. rewrite <- total_add. clear. induction vs as [|v vs IH]; simpl; auto. rewrite IH. destruct (attesting v); simpl; lia. }
  assert (total wn vs = an + bn) as Tn.
  { unfold an, bn. rewrite <- total_add. clear. induction vs as [|v vs IH]; simpl; auto. rewrite IH. destruct (attesting v); simpl; lia. }
  assert (an = un + sn) as Ta.
  { unfold an, un, sn. rewrite <- total_add. clear. induction vs as [|v vs IH]; simpl; auto. rewrite IH. destruct (attesting v), (slashed_since v); simpl; lia. }
  assert (bn <= b0 + A) as Hb.
  { assert (bn <= b0 + total (fun v => when (negb (attesting v)) (wn v - w0 v)) vs); [|lia].
    unfold bn, b0. rewrite <- total_add. apply total_le. intros v. destruct (attesting v); simpl; lia. }
  assert (a0 <= an + E) as Ha.
  { assert (a0 <= an + total (fun v => when (attesting v) (w0 v - wn v)) vs); [|lia].
    unfold a0, an. rewrite <- total_add. apply total_le. intros v. destruct (attesting v); simpl; lia. }
  rewrite T0 in *. rewrite Tn. clearbody a0 an b0 bn sn un.
  assert (q * (2 * (a0 + b0) + (2 * A + E + 3 * S)) <= q * (3 * a0)) as Hx by nia.
  apply N.mul_le_mono_pos_l in Hx; lia.
Qed.
