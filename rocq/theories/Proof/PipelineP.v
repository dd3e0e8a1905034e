(** From the chain to the committed journal. *)
From Coq Require Import List Arith ZArith NArith Bool Lia Sorted.
From Coq Require Import ZifyBool ZifyNat ZifyN.
From Verif.Model Require Import Base Types ConsensusState Multiproof Committee Verify GuestReader HostChain HostStore HostInput.
From Verif.Spec Require Import FFG Beacon GuestSpec Committees VerifySpec HostSpec Pipeline HostInputSpec.
From Verif.Proof Require Import BaseLemmas ConsensusStateP CommitteeP VerifyP VerifyMoreP EndToEndP HostChainP HostInputP HostGuestP ReplayP PreflightP.
Import ListNotations.
Open Scope N_scope.
Notation length := List.length.
Notation valid_state := FFG.valid_state.

Lemma nf_trusted cs ch trusted e s us t ls : next_finality cs ch trusted e s us t ls -> finalized s = trusted.
Proof.
  intros [(_ & (st & H1 & H2) & _) Hs _ _ _ _]. unfold state_at in *. congruence.
Qed.
Lemma nf_valid cs ch trusted e s us t ls : next_finality cs ch trusted e s us t ls -> valid_state s.
Proof. intros N. pose proof (nf_links _ _ _ _ _ _ _ _ N) as H. destruct us; cbn in H; inversion H; subst; auto. Qed.
Lemma history_guarded s us t ls : history s (us ++ [t]) ls -> Forall (fun u => finalized u = finalized s) us ->
  guarded_run (finalized s) s ls t.
Proof.
  revert s ls. induction us as [|u us IH]; intros s ls H F; cbn [app] in H.
  - inversion H as [|? ? ls' Hv Hh|? l ? ? ls' Hv Hst Hg Hh]; subst.
    + inversion Hh; subst. constructor.
    + inversion Hh; subst. econstructor; eauto. constructor.
  - inversion F as [|? ? F1 F2]; subst.
    inversion H as [|? ? ls' Hv Hh|? l ? ? ls' Hv Hst Hg Hh]; subst.
    + apply IH; auto.
    + econstructor; eauto. rewrite <- F1. apply IH; [exact Hh|]. now rewrite F1.
Qed.
Lemma nf_accepted cs ch trusted e s us t ls : next_finality cs ch trusted e s us t ls -> accepted_chain s ls t.
Proof.
  intros N. pose proof (nf_trusted _ _ _ _ _ _ _ _ N) as T. apply guarded_accept.
  - eapply history_guarded; [apply N|]. rewrite T. apply N.
  - eapply nf_valid; eauto.
  - rewrite T. apply N.
Qed.
Lemma nf_nodup cs ch trusted e s us t ls : next_finality cs ch trusted e s us t ls -> NoDup ls.
Proof.
  intros N. destruct (history_targets _ _ _ (nf_links _ _ _ _ _ _ _ _ N) (nf_valid _ _ _ _ _ _ _ _ N)) as [S _].
  apply bs_sorted_NoDup in S. now apply NoDup_map_inv in S.
Qed.
(** The host finds the state and collects the votes. *)
Lemma host_new_ok cs ch trusted e s us t ls bs fuel : 0 < slots_per_epoch cs ->
  next_finality cs ch trusted e s us t ls -> vote_window cs ch ls bs ->
  e <= epoch trusted + N.of_nat fuel -> (length us < fuel)%nat -> (e + 1 + N.of_nat fuel) * slots_per_epoch cs < 2 ^ 64 ->
  host_new cs ch trusted fuel = Some (Ok (s, chain_votes ls bs)).
Proof.
  intros Hs N [(lo & hi & slots & W1 & W2 & W3 & W4) W5] Hf1 Hf2 Hb. unfold host_new.
  assert (He : epoch trusted < e) by apply N.
  assert (F : find_finalization_epoch cs ch trusted fuel = Some (Ok e)).
  { pose proof (nf_first _ _ _ _ _ _ _ _ N) as (_ & (st & F1 & F2) & F3).
    apply (find_iff cs ch trusted Hs fuel e); auto; try lia.
    - eapply N.le_lt_trans; [|exact Hb]. apply N.mul_le_mono_r. lia.
    - intros e' He'. apply F3. lia.
    - econstructor; eauto. }
  rewrite F.
  assert (G : get_justifications_until_new_finality cs ch e fuel = Some (Ok (s, t, ls))).
  { apply get_justifications_iff; auto. exists s, t, ls. split; [reflexivity|]. split; [apply N|]. exists us.
    split; [exact Hf2|]. split; [apply N|]. split; [apply N|]. rewrite (nf_trusted _ _ _ _ _ _ _ _ N). split; apply N. }
  rewrite G. cbn [bind]. rewrite (nf_trusted _ _ _ _ _ _ _ _ N), (proj2 (checkpoint_eqb_eq _ _) eq_refl). cbn [assert_ bind].
  assert (C : collect_attestations_for_links cs ch ls = Ok (chain_votes ls bs)).
  { apply (collect_iff cs ch ls lo hi); auto; [eapply nf_nodup; eauto|]. exists slots, bs. auto. }
  rewrite C. reflexivity.
Qed.
Lemma preflight_evidence X cfg trusted R l atts : epoch trusted <= epoch (target l) ->
  link_evidence X cfg R l atts -> link_evidence X cfg (preflight_reader trusted R) l atts.
Proof.
  intros Ht (f & gvr & avl & av & mix & sh & sets & P & E). exists f, gvr, avl, av, mix, sh, sets, P. cbv zeta in *.
  cbn [preflight_reader rd_chain_spec rd_fork rd_genesis_validators_root rd_active_validators rd_randao_mix].
  rewrite (proj2 (N.leb_le _ _) Ht). cbn [assert_ bind].
  destruct E as (E1 & E2 & E3 & E4 & E5 & E6 & E7 & E8 & E). rewrite E8. cbn [bind expect]. do 7 (split; [assumption|]). split; [reflexivity|]. exact E.
Qed.
Lemma all_have_votes ls all : Forall (fun l => votes_for l all <> []) ls ->
  links_with_votes ls all = map (fun l => (l, votes_for l all)) ls.
Proof.
  unfold links_with_votes. induction 1 as [|l ls H _ IH]; [reflexivity|]. cbn [map filter snd]. rewrite IH.
  destruct (votes_for l all); [easy|reflexivity].
Qed.
Lemma preflight_complete X cs cfg pkd states headers ch trusted e s us t ls bs h :
  sane_spec X cs -> shuffle_permutes X -> next_finality cs ch trusted e s us t ls ->
  let R := host_reader cs pkd states headers s (chain_votes ls bs) in
  Forall (fun l => u64 (epoch (target l)) /\ within_bounds cfg cs trusted l /\ votes_for l (included bs) <> [] /\
                   link_evidence X cfg R l (votes_for l (included bs))) ls ->
  headers (root (finalized t)) = Ok (Some h) ->
  verify X cfg (preflight_reader trusted R) = Ok (t, hd_slot h).
Proof.
  intros Sane Hp N R Ev Hh. pose proof (nf_accepted _ _ _ _ _ _ _ _ N) as A. pose proof (nf_trusted _ _ _ _ _ _ _ _ N) as T.
  assert (L : links_with_votes ls (included bs) = map (fun l => (l, votes_for l (included bs))) ls).
  { apply all_have_votes. eapply Forall_impl; [|exact Ev]. intros l Hl. apply Hl. }
  pose proof (grouping ls (included bs) (nf_nodup _ _ _ _ _ _ _ _ N)) as G. rewrite L in G.
  assert (M : map fst (map (fun l => (l, votes_for l (included bs))) ls) = ls) by (rewrite map_map; apply map_id).
  eapply verify_complete with (atts := chain_votes ls bs); [exact Sane|exact Hp|reflexivity|reflexivity|exact G| | | |].
  - rewrite M. eapply Forall_impl; [|exact Ev]. intros l Hl. apply Hl.
  - rewrite M. exact A.
  - apply Forall_map. rewrite Forall_forall in *. intros l Hl. cbn [fst snd]. destruct (Ev l Hl) as (_ & E1 & _ & E2).
    cbn [preflight_reader rd_chain_spec R host_reader]. rewrite T. split; [exact E1|]. apply preflight_evidence; [|exact E2].
    apply N.lt_le_incl. rewrite <- T. eapply accepted_targets; eauto.
  - cbn [preflight_reader R host_reader rd_slot_for_block]. rewrite Hh. reflexivity.
Qed.
