(** C67: the client of the beacon node's HTTP interface. *)
From Coq Require Import String.
From Coq Require Import List Arith NArith Bool Lia ZifyBool ZifyNat ZifyN.
From Coq.Init Require Import Byte.
From Coq.Strings Require Import Byte.
From Verif.Model Require Import Base Types ConsensusState Verify HostChain HostStore HostInput CliRun BeaconClient.
From Verif.Spec Require Import Beacon HostSpec BeaconClientSpec.
From Verif.Proof Require Import BaseLemmas HostChainP HostStoreP.
Import ListNotations.
Open Scope N_scope.

(** ** URLs *)
Lemma to_N_byte_of_N n : n < 256 -> Byte.to_N (byte_of_N n) = n.
Proof. intros H. rewrite byte_of_N_to_N. now apply N.mod_small. Qed.
Lemma hex_digit_inj a b : a < 16 -> b < 16 -> hex_digit a = hex_digit b -> a = b.
Proof.
  intros Ha Hb H. unfold hex_digit in H. assert (H' := f_equal Byte.to_N H). clear H. revert H'.
  destruct (N.ltb_spec a 10), (N.ltb_spec b 10); rewrite !to_N_byte_of_N by lia; lia.
Qed.
Lemma hex_inj a : forall b, hex a = hex b -> a = b.
Proof.
  induction a as [|x a IH]; intros [|y b] H; cbn [hex flat_map app] in H; try discriminate; [reflexivity|].
  injection H as H1 H2 H3. f_equal; [|apply IH; exact H3].
  pose proof (Byte.to_N_bounded x). pose proof (Byte.to_N_bounded y).
  apply hex_digit_inj in H1; [|apply N.div_lt_upper_bound; lia..].
  apply hex_digit_inj in H2; [|apply N.mod_lt; lia..].
  pose proof (N.div_mod (Byte.to_N x) 16 ltac:(lia)). pose proof (N.div_mod (Byte.to_N y) 16 ltac:(lia)).
  assert (E : Byte.to_N x = Byte.to_N y) by lia.
  assert (E' := f_equal Byte.of_N E). rewrite !Byte.of_to_N in E'. congruence.
Qed.
Lemma decimal_not s b r : decimal s = b :: r -> 48 <= Byte.to_N b <= 57 /\ (forall c r', r = c :: r' -> 48 <= Byte.to_N c <= 57).
Proof.
  intros E. pose proof (decimal_digits s) as H. rewrite E in H.
  assert (D : forall x, is_digit x -> 48 <= Byte.to_N x <= 57).
  { intros x (v & Hv & ->). unfold digit. rewrite to_N_byte_of_N; lia. }
  inversion H as [|? ? H1 H2]; subst. split; [auto|]. intros c r' ->. inversion H2; subst; auto.
Qed.
Lemma display_inj i j : display i = display j -> i = j.
Proof.
  assert (S : forall s j, display (AtSlot s) = display j -> AtSlot s = j).
  { intros s [t|r|] H; cbn [display] in H.
    - f_equal. pose proof (decimal_val s) as Hs. rewrite H, decimal_val in Hs. congruence.
    - destruct (decimal_not _ _ _ H) as [_ X]. specialize (X _ _ eq_refl). cbn in X. lia.
    - destruct (decimal_not _ _ _ H) as [X _]. cbn in X. lia. }
  destruct i as [s|r|], j as [t|r'|]; intros H; try (apply S in H; exact H); try (symmetry; apply S; symmetry; exact H);
    cbn [display] in H; try discriminate; [|reflexivity].
  injection H as H. apply hex_inj in H. congruence.
Qed.
Lemma path_inj q q' : path q = path q' -> q = q'.
Proof.
  destruct q as [i|i|i|i], q' as [j|j|j|j]; intros H; cbn [path] in H; try discriminate;
    (injection H as H; apply display_inj in H; congruence) || idtac.
Qed.
(** Every request goes to its route of the beacon node API. *)
Theorem C67_routes : forall q,
  path_text (path q) = list_byte_of_string (fst (route q)) ++ display (request_id q) ++ list_byte_of_string (snd (route q)).
Proof. intros [i|i|i|i]; cbn; now rewrite ?app_nil_r. Qed.
(** Identifiers are decimal slots, 0x-prefixed lower-case roots, and "head". *)
Example C67_routes_nonvacuous :
  path_text (path (GetBlock (AtSlot 8626177))) = list_byte_of_string "eth/v2/beacon/blocks/8626177" /\
  path_text (path (GetHeader (AtRoot [xde; xad; xbe; x0f]))) = list_byte_of_string "eth/v1/beacon/headers/0xdeadbe0f" /\
  path_text (path (GetFinality Head)) = list_byte_of_string "eth/v1/beacon/states/head/finality_checkpoints".
Proof. split; [|split]; vm_compute; reflexivity. Qed.
(** Two different requests never go to the same URL. *)
Theorem C67_urls_distinct : forall endpoint q q' u,
  join endpoint (path q) = Some u -> join endpoint (path q') = Some u -> q = q'.
Proof.
  intros e q q' u H H'. unfold join in *. destruct (u_base e); [|discriminate]. rewrite <- H' in H. injection H as H.
  apply app_inv_head in H. now apply path_inj.
Qed.
(** The path of an endpoint is kept if it ends in a slash ... *)
Theorem C67_endpoint_kept : forall origin segs query q,
  join (mkUrl origin true (segs ++ [[]]) query) (path q) = Some (mkUrl origin true (segs ++ path q) None).
Proof. intros. unfold join. cbn [u_base u_origin u_segments]. now rewrite removelast_last. Qed.
(** ... and otherwise loses its last segment (for example an access key), and its query in any case:
    all requests ignore them. *)
Theorem C67_endpoint_kept_refuted : forall origin segs last last' query query' q,
  join (mkUrl origin true (segs ++ [last]) query) (path q) = join (mkUrl origin true (segs ++ [last']) query') (path q).
Proof. intros. unfold join. cbn [u_base u_origin u_segments]. now rewrite !removelast_last. Qed.

(** ** Answers *)
(** The node as the client reaches it. *)
Definition via {B} (endpoint : Url) (node : Url -> Reply B) (q : Request) : Reply B :=
  match join endpoint (path q) with Some u => node u | None => NoReply end.

Lemma read_seen {B A} (dec : B -> option A) r o : seen dec r o <-> or_absent (read_reply dec r) = o.
Proof.
  split.
  - intros H. destruct H as [st b a Hs Hd|b|st b Hs Hn|st b Hs Hd|]; cbn [read_reply]; unfold is_error_status.
    + replace ((400 <=? st) && (st <? 600)) with false by lia. rewrite Hd. reflexivity.
    + reflexivity.
    + replace ((400 <=? st) && (st <? 600)) with true by lia. cbn [or_absent]. now rewrite (proj2 (N.eqb_neq _ _) Hn).
    + replace ((400 <=? st) && (st <? 600)) with false by lia. rewrite Hd. reflexivity.
    + reflexivity.
  - intros <-. destruct r as [|st b]; cbn [read_reply]; [constructor|]. unfold is_error_status.
    destruct ((400 <=? st) && (st <? 600)) eqn:E.
    + cbn [or_absent]. destruct (N.eqb_spec st 404) as [->|Hn]; [constructor|]. constructor; [lia|exact Hn].
    + destruct (dec b) eqn:Ed; cbn [ok_or or_absent]; constructor; try assumption; lia.
Qed.

Section Answers.
  Context {B : Type}.
  Variable D : Decoders B.
  Variable storable : Url -> B -> bool.
  Variable endpoint : Url.
  Hypothesis Hbase : u_base endpoint = true.

  Lemma get_json_via {A} node q (dec : B -> option A) :
    fst (get_json storable endpoint node None q dec) = read_reply dec (via endpoint node q).
  Proof. unfold get_json, via, join. rewrite Hbase. reflexivity. Qed.
  (** A block is reported absent exactly when the node answers 404; every other failure is an error. *)
  Theorem C67_block : forall node i o,
    fst (get_block D storable endpoint node None i) = o <-> seen (dec_block D) (via endpoint node (GetBlock i)) o.
  Proof.
    intros node i o. rewrite read_seen. unfold get_block. rewrite <- get_json_via.
    destruct (get_json _ _ _ _ _ _) as [x c']. reflexivity.
  Qed.
  Theorem C67_header : forall node i o,
    fst (get_block_header D storable endpoint node None i) = o <-> seen (dec_header D) (via endpoint node (GetHeader i)) o.
  Proof.
    intros node i o. rewrite read_seen. unfold get_block_header. rewrite <- get_json_via.
    destruct (get_json _ _ _ _ _ _) as [x c']. reflexivity.
  Qed.
  (** A state is only accepted if the node names the version the state has. *)
  Theorem C67_state : forall node i st,
    fst (get_beacon_state D storable endpoint node None i) = Ok st <->
    exists status b, via endpoint node (GetState i) = Replied status b /\ ~ (400 <= status < 600) /\
      dec_state D b = Some (version_of D st, st).
  Proof.
    intros node i st. unfold get_beacon_state.
    pose proof (get_json_via node (GetState i) (dec_state D)) as E. destruct (get_json _ _ _ _ _ _) as [x c'].
    cbn [fst] in *. subst x. destruct (via endpoint node (GetState i)) as [|status b]; cbn [read_reply bind].
    - split; [discriminate|]. intros (? & ? & H & _). discriminate.
    - unfold is_error_status. destruct ((400 <=? status) && (status <? 600)) eqn:Es; cbn [bind].
      + split; [discriminate|]. intros (st' & b' & H & Hn & _). injection H as <- <-. lia.
      + destruct (dec_state D b) as [[v s]|] eqn:Ed; cbn [ok_or bind].
        * destruct (N.eqb_spec v (version_of D s)) as [->|Hv]; cbn [ensure bind].
          -- split.
             ++ intros H. injection H as <-. exists status, b. repeat split; [lia|exact Ed].
             ++ intros (s' & b' & H & _ & Hd). injection H as <- <-. congruence.
          -- split; [discriminate|]. intros (s' & b' & H & _ & Hd). injection H as <- <-. congruence.
        * split; [discriminate|]. intros (s' & b' & H & _ & Hd). injection H as <- <-. congruence.
  Qed.
  (** The consensus state is the current justified and the finalized checkpoint, not the previous
      justified one. *)
  Theorem C67_consensus_state : forall node i c,
    fst (get_consensus_state D storable endpoint node None i) = Ok c <->
    exists status b p, via endpoint node (GetFinality i) = Replied status b /\ ~ (400 <= status < 600) /\
      dec_finality D b = Some (mkFinality p (current_justified c) (finalized c)) /\ is_valid c = true.
  Proof.
    intros node i c. unfold get_consensus_state, get_finality_checkpoints.
    pose proof (get_json_via node (GetFinality i) (dec_finality D)) as E. destruct (get_json _ _ _ _ _ _) as [x c'].
    cbn [fst] in *. subst x. destruct (via endpoint node (GetFinality i)) as [|status b]; cbn [read_reply bind].
    - split; [discriminate|]. intros (? & ? & ? & H & _). discriminate.
    - unfold is_error_status. destruct ((400 <=? status) && (status <? 600)) eqn:Es; cbn [bind].
      + split; [discriminate|]. intros (? & ? & ? & H & Hn & _). injection H as <- <-. lia.
      + destruct (dec_finality D b) as [[p j f]|] eqn:Ed; cbn [ok_or bind f_current_justified f_finalized].
        * unfold cs_new. destruct (is_valid (mkCS j f)) eqn:Ev; cbn [assert_ bind].
          -- split.
             ++ intros H. injection H as <-. exists status, b, p. repeat split; [lia|exact Ed|exact Ev].
             ++ intros (s' & b' & p' & H & _ & Hd & _). injection H as <- <-. rewrite Ed in Hd. injection Hd as <- -> ->. destruct c; reflexivity.
          -- split; [discriminate|]. intros (s' & b' & p' & H & _ & Hd & Hv). injection H as <- <-.
             rewrite Ed in Hd. injection Hd as <- -> ->. destruct c as [cj cf]. cbn [current_justified finalized] in Ev. congruence.
        * split; [discriminate|]. intros (s' & b' & p' & H & _ & Hd & _). injection H as <- <-. congruence.
  Qed.
End Answers.

(** ** The host's view of the chain *)
(** What is collected through the client depends only on what the node serves. *)
Lemma find_from_ext cs ch ch' t : (forall s, ch_state ch s = ch_state ch' s) ->
  forall fuel e, find_from cs ch t fuel e = find_from cs ch' t fuel e.
Proof. intros H. induction fuel as [|n IH]; intros e; cbn [find_from]; [reflexivity|]. rewrite H. destruct (map_err _ _); auto. now rewrite IH. Qed.
Lemma justifications_from_ext cs ch ch' s0 : (forall s, ch_state ch s = ch_state ch' s) ->
  forall fuel prev links e, justifications_from cs ch s0 prev links fuel e = justifications_from cs ch' s0 prev links fuel e.
Proof.
  intros H. induction fuel as [|n IH]; intros prev links e; cbn [justifications_from]; [reflexivity|]. rewrite H.
  destruct (bind _ _) as [[cur l']| |]; auto. now rewrite IH.
Qed.
Lemma map_outcome_ext {E A C} (f g : A -> outcome E C) l : (forall a, f a = g a) -> map_outcome f l = map_outcome g l.
Proof. intros H. induction l as [|a l IH]; cbn [map_outcome]; [reflexivity|]. now rewrite H, IH. Qed.
Lemma host_new_ext cs ch ch' t fuel : (forall s, ch_state ch s = ch_state ch' s) -> (forall s, ch_block ch s = ch_block ch' s) ->
  host_new cs ch t fuel = host_new cs ch' t fuel.
Proof.
  intros Hs Hb. unfold host_new, find_finalization_epoch. rewrite (find_from_ext cs ch ch' t Hs).
  destruct (find_from _ _ _ _ _) as [[e| |]|]; auto. unfold get_justifications_until_new_finality. rewrite Hs.
  assert (Hc : forall links, collect_attestations_for_links cs ch links = collect_attestations_for_links cs ch' links).
  { intros [|l r]; [reflexivity|]. cbn [collect_attestations_for_links].
    rewrite (map_outcome_ext _ (fun sl => map_err HOther (ch_block ch' sl))); [reflexivity|]. intros a. now rewrite Hb. }
  destruct (map_err HOther _) as [s0| |]; auto.
  - rewrite (justifications_from_ext cs ch ch' s0 Hs). destruct (justifications_from _ _ _ _ _ _ _) as [[[[s t'] ls]| |]|]; auto.
    cbn [bind]. f_equal. destruct (checkpoint_eqb (finalized s) t); cbn [assert_ bind]; [|reflexivity]. now rewrite Hc.
Qed.

Section Host.
  Context {B : Type}.
  Variable D : Decoders B.
  Variable storable : Url -> B -> bool.
  Variable endpoint : Url.
  Hypothesis Hbase : u_base endpoint = true.
  Variable node : Url -> Reply B.
  Notation chain_ := (client_chain D storable endpoint node).

  Lemma client_block s : ch_block chain_ s =
    opt_map snd (code (or_absent (read_reply (dec_block D) (via endpoint node (GetBlock (AtSlot s)))))).
  Proof.
    cbn [client_chain ch_block]. f_equal. f_equal. unfold get_block. rewrite <- (get_json_via storable endpoint Hbase).
    destruct (get_json _ _ _ _ _ _). reflexivity.
  Qed.
  Lemma client_state s : ch_state chain_ s =
    code (f <- read_reply (dec_finality D) (via endpoint node (GetFinality (AtSlot s))) ;; cs_new (f_current_justified f) (f_finalized f)).
  Proof.
    cbn [client_chain ch_state]. f_equal. unfold get_consensus_state, get_finality_checkpoints.
    rewrite <- (get_json_via storable endpoint Hbase). destruct (get_json _ _ _ _ _ _). reflexivity.
  Qed.

  (** With a node that serves a chain the host collects exactly what it would collect from the chain, for
      every trusted checkpoint. *)
  Theorem C67_same_chain : forall cs ch trusted fuel,
    serves_states D (via endpoint node) ch -> serves_blocks D (via endpoint node) ch ->
    host_new cs chain_ trusted fuel = host_new cs ch trusted fuel.
  Proof.
    intros cs ch trusted fuel Hs Hb. apply host_new_ext.
    - intros s. rewrite client_state. specialize (Hs s). destruct (ch_state ch s) as [c|n|]; [| |contradiction].
      + destruct Hs as (b & p & E & Ed & Ev). rewrite E. cbn [read_reply]. change (is_error_status 200) with false. rewrite Ed.
        cbn [ok_or bind f_current_justified f_finalized code map_err]. unfold cs_new. destruct c as [j f]. cbn [current_justified finalized].
        rewrite Ev. reflexivity.
      + destruct Hs as (st & b & E & Hst & ->). rewrite E. cbn [read_reply]. unfold is_error_status.
        replace ((400 <=? st) && (st <? 600)) with true by lia. reflexivity.
    - intros s. rewrite client_block. specialize (Hb s). destruct (ch_block ch s) as [[blk|]|n|]; [| | |contradiction].
      + destruct Hb as (b & h & E & Ed). rewrite E. cbn [read_reply]. change (is_error_status 200) with false. rewrite Ed. reflexivity.
      + destruct Hb as (b & E). rewrite E. reflexivity.
      + destruct Hb as (st & b & E & Hst & Hn & ->). rewrite E. cbn [read_reply]. unfold is_error_status.
        replace ((400 <=? st) && (st <? 600)) with true by lia. cbn [or_absent]. now rewrite (proj2 (N.eqb_neq _ _) Hn).
  Qed.

  (** Whatever the node does: if collecting the votes for some links succeeds, the node has answered for
      every slot of the window, with a block or with 404, and the votes are those of the blocks it
      answered with. An overloaded or broken node never makes the host miss votes silently. *)
  Definition answered (s : Slot) (ob : option Block) : Prop :=
    match ob with
    | Some blk => exists status b h, via endpoint node (GetBlock (AtSlot s)) = Replied status b /\ ~ (400 <= status < 600) /\
                    dec_block D b = Some (h, blk)
    | None => exists b, via endpoint node (GetBlock (AtSlot s)) = Replied 404 b
    end.
  Lemma client_block_answered s ob : ch_block chain_ s = Ok ob -> answered s ob.
  Proof.
    rewrite client_block. intros H. destruct (or_absent _) as [o| |] eqn:Eo; [|discriminate..].
    cbn [code map_err opt_map bind] in H. injection H as <-. apply read_seen in Eo. inversion Eo; subst.
    - destruct a as [h blk]. cbn [option_map snd answered]. exists st, b, h. auto.
    - cbn [option_map answered]. exists b. auto.
  Qed.
  Theorem C67_no_lost_votes : forall cs links lo hi atts, NoDup links -> target_bounds links lo hi ->
    0 < slots_per_epoch cs -> (hi + 1) * slots_per_epoch cs < 2 ^ 64 ->
    collect_attestations_for_links cs chain_ links = Ok atts ->
    exists slots obs, slot_range (lo * slots_per_epoch cs) ((hi + 1) * slots_per_epoch cs) slots /\
      Forall2 answered slots obs /\
      atts = flat_map (fun l => votes_for l (included (flat_map (fun ob => match ob with Some b => [b] | None => [] end) obs))) links.
  Proof.
    intros cs links lo hi atts Hd Hb Hs Hbd H.
    apply (collect_iff cs chain_ links lo hi atts Hd Hb Hs Hbd) in H as (slots & bs & Hr & (obs & Ho & ->) & _ & ->).
    exists slots, obs. split; [exact Hr|]. split; [|reflexivity].
    clear - Ho Hbase. induction Ho as [|s ob slots obs H _ IH]; constructor; [now apply client_block_answered|exact IH].
  Qed.
  (** All that the command line tool takes from the node: the finalized epoch of its head, states by slot, headers by
      root, blocks by slot and the slot of a header. Each is what the node answers to that one request. *)
  Theorem C67_node : forall fuel, let nd := client_node D storable endpoint node fuel in
    (forall e, nd_finalized nd = Ok e <-> exists status b f, via endpoint node (GetFinality Head) = Replied status b /\ ~ (400 <= status < 600) /\
       dec_finality D b = Some f /\ e = epoch (f_finalized f)) /\
    (forall s st, nd_states nd s = Ok st <-> exists status b, via endpoint node (GetState (AtSlot s)) = Replied status b /\ ~ (400 <= status < 600) /\
       dec_state D b = Some (version_of D st, st)) /\
    (forall r oh, nd_headers nd r = Ok oh <-> seen (dec_header D) (via endpoint node (GetHeader (AtRoot r))) (Ok oh)) /\
    (forall s oh, nd_blocks nd s = Ok oh <-> exists o, seen (dec_block D) (via endpoint node (GetBlock (AtSlot s))) (Ok o) /\ oh = option_map fst o) /\
    (forall r os, ch_header_slot (nd_chain nd) r = Ok os <-> exists o, seen (dec_header D) (via endpoint node (GetHeader (AtRoot r))) (Ok o) /\ os = option_map hd_slot o).
  Proof.
    assert (M : forall A E F (f : E -> F) (o : outcome E A) a, map_err f o = Ok a <-> o = Ok a).
    { intros A E F f o a. destruct o; cbn; split; congruence. }
    assert (O : forall A C (f : A -> C) (o : outcome N (option A)) x, opt_map f o = Ok x <-> exists y, o = Ok y /\ x = option_map f y).
    { intros A C f o x. unfold opt_map. destruct o as [y| |]; cbn [bind]; split; try discriminate; try (intros (? & ? & _); discriminate).
      - intros [= <-]. eauto.
      - intros (y' & [= <-] & ->). reflexivity. }
    intros fuel nd. unfold nd. cbn [client_node nd_finalized nd_states nd_headers nd_blocks nd_chain client_chain ch_header_slot]. repeat split.
    - intros H. unfold get_finality_checkpoints in H. rewrite (get_json_via storable endpoint Hbase) in H. destruct (via endpoint node (GetFinality Head)) as [|status b]; [discriminate|].
      cbn [read_reply] in H. unfold is_error_status in H. destruct ((400 <=? status) && (status <? 600)) eqn:Es; [discriminate|]. destruct (dec_finality D b) as [f|] eqn:Ed; [|discriminate].
      cbn in H. injection H as <-. exists status, b, f. repeat split; auto. lia.
    - intros (status & b & f & E & Hs & Ed & ->). unfold get_finality_checkpoints. rewrite (get_json_via storable endpoint Hbase), E. cbn [read_reply]. unfold is_error_status.
      replace ((400 <=? status) && (status <? 600)) with false by lia. rewrite Ed. reflexivity.
    - intros H. apply M in H. now apply (C67_state D storable endpoint Hbase) in H.
    - intros H. apply M. now apply (C67_state D storable endpoint Hbase).
    - intros H. apply M in H. now apply (C67_header D storable endpoint Hbase) in H.
    - intros H. apply M. now apply (C67_header D storable endpoint Hbase).
    - intros H. apply O in H as (y & H & ->). apply M in H. apply (C67_block D storable endpoint Hbase) in H. eauto.
    - intros (y & H & ->). apply O. exists y. split; [|reflexivity]. apply M. now apply (C67_block D storable endpoint Hbase).
    - intros H. apply O in H as (y & H & ->). apply M in H. apply (C67_header D storable endpoint Hbase) in H. eauto.
    - intros (y & H & ->). apply O. exists y. split; [|reflexivity]. apply M. now apply (C67_header D storable endpoint Hbase).
  Qed.
End Host.

(** ** The cache *)
Lemma url_eqb_eq a b : url_eqb a b = true <-> a = b.
Proof.
  destruct a as [o1 b1 s1 q1], b as [o2 b2 s2 q2]. unfold url_eqb, segments_eqb. cbn [u_origin u_base u_segments u_query].
  rewrite !andb_true_iff. split.
  - intros (((Ho & Hb) & Hs) & Hq). apply bytes_eqb_eq in Ho. apply Bool.eqb_prop in Hb.
    destruct (list_eq_dec (list_eq_dec Byte.byte_eq_dec) s1 s2) as [->|]; [|discriminate]. subst.
    destruct q1, q2; try discriminate; [apply bytes_eqb_eq in Hq; subst|]; reflexivity.
  - intros E. injection E as -> -> -> ->. repeat split.
    + now apply bytes_eqb_eq.
    + apply Bool.eqb_reflx.
    + destruct (list_eq_dec (list_eq_dec Byte.byte_eq_dec) s2 s2); [reflexivity|contradiction].
    + destruct q2; [now apply bytes_eqb_eq|reflexivity].
Qed.

Section CacheP.
  Context {B : Type}.
  Variable storable : Url -> B -> bool.
  Notation asks_ := (asks storable).
  Definition keepable (u : Url) (r : Reply B) : Prop := exists b, r = Replied 200 b /\ storable u b = true.

  Lemma send_cases node m u :
    (exists r, cached m u = Some r /\ send storable node (Some m) u = (r, Some m)) \/
    (cached m u = None /\ keepable u (node u) /\ send storable node (Some m) u = (node u, Some ((u, node u) :: m))) \/
    (cached m u = None /\ ~ keepable u (node u) /\ send storable node (Some m) u = (node u, Some m)).
  Proof.
    cbn [send]. destruct (cached m u) as [r|]; [left; eauto|right].
    destruct (node u) as [|st b] eqn:En.
    - right. split; [reflexivity|]. split; [intros (b & H & _); discriminate|reflexivity].
    - destruct ((st =? 200) && storable u b) eqn:Ek.
      + left. apply andb_true_iff in Ek as [H1 H2]. apply N.eqb_eq in H1. subst st. split; [reflexivity|]. split; [|reflexivity].
        exists b. auto.
      + right. split; [reflexivity|]. split; [|reflexivity]. intros (b' & H & Hs). injection H as -> ->. rewrite Hs in Ek. discriminate.
  Qed.
  Lemma cached_cons (m : list (Url * Reply B)) u v r : cached ((v, r) :: m) u = if url_eqb u v then Some r else cached m u.
  Proof. reflexivity. Qed.

  (** Without a cache every answer is the node's answer at that moment. *)
  Theorem C67_uncached : forall l, asks_ None l = map (fun x => fst x (snd x)) l.
  Proof. induction l as [|[node u] l IH]; cbn [asks send map fst snd]; [reflexivity|]. now rewrite IH. Qed.
  (** Against a node that does not change, a cache makes no difference. *)
  Theorem C67_cache_transparent : forall (node : Url -> Reply B) urls,
    asks_ (Some []) (map (pair node) urls) = map node urls.
  Proof.
    intros node urls.
    assert (G : forall m, (forall u r, cached m u = Some r -> r = node u) -> asks_ (Some m) (map (pair node) urls) = map node urls).
    { induction urls as [|u urls IH]; intros m Hm; [reflexivity|]. cbn [map asks].
      destruct (send_cases node m u) as [(r & Hc & ->)|[(Hc & _ & ->)|(Hc & _ & ->)]].
      - rewrite (Hm u r Hc), IH by exact Hm. reflexivity.
      - rewrite IH; [reflexivity|]. intros v r. rewrite cached_cons. destruct (url_eqb v u) eqn:E; [|apply Hm].
        apply url_eqb_eq in E as ->. congruence.
      - rewrite IH by exact Hm. reflexivity. }
    apply G. discriminate.
  Qed.
  (** In a changing world an answer with a cache is the node's answer at this or an earlier request for
      the same URL: nothing is made up or mixed. *)
  Theorem C67_cache_genuine : forall l n node u r,
    nth_error l n = Some (node, u) -> nth_error (asks_ (Some []) l) n = Some r ->
    exists k node', (k <= n)%nat /\ nth_error l k = Some (node', u) /\ r = node' u.
  Proof.
    assert (G : forall l pre m n node u r,
      (forall v r, cached m v = Some r -> exists k node', (k < length pre)%nat /\ nth_error pre k = Some (node', v) /\ r = node' v) ->
      nth_error l n = Some (node, u) -> nth_error (asks_ (Some m) l) n = Some r ->
      exists k node', (k <= length pre + n)%nat /\ nth_error (pre ++ l) k = Some (node', u) /\ r = node' u).
    { induction l as [|[nd v] l IH]; intros pre m n node u r Hm Hl Hr; [destruct n; discriminate|].
      assert (Hm' : forall m', (forall w x, cached m' w = Some x -> (w = v /\ x = nd v) \/ cached m w = Some x) ->
        forall w x, cached m' w = Some x -> exists k node', (k < length (pre ++ [(nd, v)]))%nat /\ nth_error (pre ++ [(nd, v)]) k = Some (node', w) /\ x = node' w).
      { intros m' H w x Hx. rewrite app_length. cbn [length]. destruct (H w x Hx) as [[-> ->]|Ho].
        - exists (length pre), nd. split; [lia|]. split; [|reflexivity]. rewrite nth_error_app2, Nat.sub_diag by lia. reflexivity.
        - destruct (Hm w x Ho) as (k & nd' & Hk & En & ->). exists k, nd'. split; [lia|]. split; [|reflexivity].
          rewrite nth_error_app1 by lia. exact En. }
      cbn [asks] in Hr.
      destruct n as [|n].
      - cbn [nth_error] in Hl. injection Hl as -> ->.
        destruct (send_cases node m u) as [(x & Hc & E)|[(Hc & _ & E)|(Hc & _ & E)]]; rewrite E in Hr; cbn [nth_error] in Hr; injection Hr as <-.
        + destruct (Hm u x Hc) as (k & nd' & Hk & En & ->). exists k, nd'. split; [lia|]. split; [|reflexivity]. now rewrite nth_error_app1 by lia.
        + exists (length pre), node. split; [lia|]. split; [|reflexivity]. rewrite nth_error_app2, Nat.sub_diag by lia. reflexivity.
        + exists (length pre), node. split; [lia|]. split; [|reflexivity]. rewrite nth_error_app2, Nat.sub_diag by lia. reflexivity.
      - cbn [nth_error] in Hl.
        assert (S : exists m', (forall w x, cached m' w = Some x -> (w = v /\ x = nd v) \/ cached m w = Some x) /\
          nth_error (asks_ (Some m') l) n = Some r).
        { destruct (send_cases nd m v) as [(x & Hc & E)|[(Hc & _ & E)|(Hc & _ & E)]]; rewrite E in Hr; cbn [nth_error] in Hr.
          - exists m. split; [auto|exact Hr].
          - exists ((v, nd v) :: m). split; [|exact Hr]. intros w x. rewrite cached_cons. destruct (url_eqb w v) eqn:Ew; [|auto].
            apply url_eqb_eq in Ew as ->. intros H. injection H as <-. auto.
          - exists m. split; [auto|exact Hr]. }
        destruct S as (m' & Hs & Hr'). destruct (IH (pre ++ [(nd, v)]) m' n node u r (Hm' m' Hs) Hl Hr') as (k & nd' & Hk & En & ->).
        exists k, nd'. rewrite app_length in Hk. cbn [length] in Hk. split; [lia|]. split; [|reflexivity].
        rewrite <- app_assoc in En. exact En. }
    intros l n node u r Hl Hr. destruct (G l [] [] n node u r) as (k & nd' & Hk & En & ->); auto.
    - discriminate.
    - exists k, nd'. auto.
  Qed.
  (** A stored answer is never replaced: once a storable answer was given for a URL, every later request
      for it gets the same answer, whatever the node would say. *)
  Theorem C67_cache_frozen : forall l i j node node' u r,
    (i <= j)%nat -> nth_error l i = Some (node, u) -> nth_error l j = Some (node', u) ->
    nth_error (asks_ (Some []) l) i = Some r -> keepable u r -> nth_error (asks_ (Some []) l) j = Some r.
  Proof.
    assert (F : forall l m j node u r, cached m u = Some r -> nth_error l j = Some (node, u) -> nth_error (asks_ (Some m) l) j = Some r).
    { induction l as [|[nd v] l IH]; intros m j node u r Hc Hj; [destruct j; discriminate|]. cbn [asks].
      destruct j as [|j].
      - cbn [nth_error] in Hj. injection Hj as -> ->. cbn [send]. rewrite Hc. reflexivity.
      - cbn [nth_error] in Hj.
        destruct (send_cases nd m v) as [(x & Hc' & ->)|[(Hc' & _ & ->)|(Hc' & _ & ->)]]; cbn [nth_error].
        + now apply (IH m j node u r).
        + apply (IH _ j node u r); [|exact Hj]. rewrite cached_cons. destruct (url_eqb u v) eqn:E; [|exact Hc].
          apply url_eqb_eq in E as ->. congruence.
        + now apply (IH m j node u r). }
    assert (G : forall l m i j node node' u r, (i <= j)%nat -> nth_error l i = Some (node, u) -> nth_error l j = Some (node', u) ->
      nth_error (asks_ (Some m) l) i = Some r -> keepable u r -> nth_error (asks_ (Some m) l) j = Some r).
    { induction l as [|[nd v] l IH]; intros m i j node node' u r Hij Hi Hj Hr Hk; [destruct i; discriminate|].
      destruct j as [|j]; [assert (i = 0)%nat as -> by lia; exact Hr|]. cbn [nth_error] in Hj. cbn [asks] in *.
      destruct i as [|i].
      - cbn [nth_error] in Hi. injection Hi as -> ->.
        destruct (send_cases node m u) as [(x & Hc & E)|[(Hc & _ & E)|(Hc & Hn & E)]]; rewrite E in *; cbn [nth_error] in *; injection Hr as <-.
        + apply (F l m j node' u); assumption.
        + apply (F l _ j node' u); [|assumption]. rewrite cached_cons. now rewrite (proj2 (url_eqb_eq u u) eq_refl).
        + contradiction.
      - cbn [nth_error] in Hi. destruct (send storable nd (Some m) v) as [x c'] eqn:E. cbn [nth_error] in *.
        destruct (send_cases nd m v) as [(y & Hc & E')|[(Hc & _ & E')|(Hc & _ & E')]]; rewrite E' in E; injection E as <- <-;
          apply (IH _ i j node node' u r); auto; lia. }
    intros l i j node node' u r. apply G.
  Qed.
  (** Only storable answers are kept: as long as the node had none, the answer is fresh. In particular a
      block that was answered with 404 is found when the node has it. *)
  Theorem C67_absence_not_cached : forall l n node u,
    nth_error l n = Some (node, u) ->
    (forall k node', (k < n)%nat -> nth_error l k = Some (node', u) -> ~ keepable u (node' u)) ->
    nth_error (asks_ (Some []) l) n = Some (node u).
  Proof.
    assert (G : forall l m n node u, cached m u = None -> nth_error l n = Some (node, u) ->
      (forall k node', (k < n)%nat -> nth_error l k = Some (node', u) -> ~ keepable u (node' u)) ->
      nth_error (asks_ (Some m) l) n = Some (node u)).
    { induction l as [|[nd v] l IH]; intros m n node u Hm Hn Hk; [destruct n; discriminate|]. cbn [asks].
      destruct n as [|n].
      - cbn [nth_error] in Hn. injection Hn as -> ->. cbn [send]. rewrite Hm. reflexivity.
      - cbn [nth_error] in Hn.
        assert (Hk' : forall k node', (k < n)%nat -> nth_error l k = Some (node', u) -> ~ keepable u (node' u)).
        { intros k nd' Hlt E. apply (Hk (S k) nd'); [lia|exact E]. }
        destruct (send_cases nd m v) as [(x & Hc' & ->)|[(Hc' & Hkp & ->)|(Hc' & _ & ->)]]; cbn [nth_error].
        + now apply IH.
        + apply IH; auto. rewrite cached_cons. destruct (url_eqb u v) eqn:E; [|exact Hm].
          apply url_eqb_eq in E as ->. exfalso. apply (Hk 0%nat nd); [lia|reflexivity|exact Hkp].
        + now apply IH. }
    intros l n node u Hn Hk. apply (G l [] n node u); auto.
  Qed.
End CacheP.

(** ** Non-vacuity *)
(** A small JSON: numbers stand for bodies. *)
Definition t_checkpoint (n : N) : Checkpoint := mkCheckpoint n (repeat x00 32).
Definition t_decoders : Decoders N := mkDecoders N
  (fun b => None)
  (fun b => if b =? 7 then Some (mkHeader 5 0 (repeat x00 32) (repeat x00 32) (Verif.Spec.Merkle.MLeaf (repeat x00 32)), mkBlock true []) else None)
  (fun b => None)
  (fun b => if b <? 100 then Some (mkFinality (t_checkpoint b) (t_checkpoint (b + 2)) (t_checkpoint (b + 1))) else None)
  (fun _ => 0).
Definition t_endpoint : Url := mkUrl [x68] true [[x6b; x65; x79]; []] None.
Definition t_store : Url -> N -> bool := fun _ _ => true.
(** The node at a time: finality is the time; block 5 appears at time 3; slot 6 fails. *)
Definition t_node (t : N) (u : Url) : Reply N :=
  if url_eqb u (mkUrl [x68] true ([[x6b; x65; x79]] ++ path (GetBlock (AtSlot 5))) None) then (if t <? 3 then Replied 404 0 else Replied 200 7)
  else if url_eqb u (mkUrl [x68] true ([[x6b; x65; x79]] ++ path (GetBlock (AtSlot 6))) None) then Replied 503 0
  else Replied 200 t.
Example C67_nonvacuous :
  (exists hb, fst (get_block t_decoders t_store t_endpoint (t_node 3) None (AtSlot 5)) = Ok (Some hb)) /\
  fst (get_block t_decoders t_store t_endpoint (t_node 2) None (AtSlot 5)) = Ok None /\
  fst (get_block t_decoders t_store t_endpoint (t_node 2) None (AtSlot 6)) = Err (CHttp (Some 503)) /\
  fst (get_block t_decoders t_store t_endpoint (t_node 2) None (AtSlot 8)) = Err (CHttp None) /\
  fst (get_consensus_state t_decoders t_store t_endpoint (t_node 4) None Head) = Ok (mkCS (t_checkpoint 6) (t_checkpoint 5)).
Proof. vm_compute. repeat split. eexists. reflexivity. Qed.
(** With a cache the finality of the head, once seen, never changes, although the node moves on. *)
Definition t_head : Url := mkUrl [x68] true ([[x6b; x65; x79]] ++ path (GetFinality Head)) None.
Example C67_cache_nonvacuous :
  asks t_store (Some []) [(t_node 1, t_head); (t_node 2, t_head); (t_node 9, t_head)] = [Replied 200 1; Replied 200 1; Replied 200 1] /\
  asks t_store None [(t_node 1, t_head); (t_node 2, t_head); (t_node 9, t_head)] = [Replied 200 1; Replied 200 2; Replied 200 9].
Proof. vm_compute. split; reflexivity. Qed.
Example C67_node_nonvacuous : let nd := client_node t_decoders t_store t_endpoint (t_node 3) 5 in
  nd_finalized nd = Ok 4 /\ (exists h, nd_blocks nd 5 = Ok (Some h)) /\ nd_blocks nd 6 = Err 1503 /\ nd_headers nd (repeat x00 32) = Err 4.
Proof. vm_compute. repeat split. eexists. reflexivity. Qed.
(** A node that serves a chain: every block slot is empty, finality is known for the first slots. *)
Definition t_chain : Chain := mkChain
  (fun s => if s <? 98 then Ok (mkCS (t_checkpoint (s + 2)) (t_checkpoint (s + 1))) else Err 1404) (fun _ => Ok None) (fun _ => Ok None).
Definition t_serve (q : Request) : Reply N :=
  match q with
  | GetFinality (AtSlot s) => if s <? 98 then Replied 200 s else Replied 404 0
  | _ => Replied 404 0
  end.
Example C67_same_chain_nonvacuous : serves_states t_decoders t_serve t_chain /\ serves_blocks t_decoders t_serve t_chain.
Proof.
  split; intros s; cbn [t_chain ch_state ch_block t_serve].
  - destruct (N.ltb_spec s 98) as [H|H].
    + exists s, (t_checkpoint s). split; [reflexivity|]. cbn [t_decoders dec_finality current_justified finalized].
      replace (s <? 100) with true by lia. split; [reflexivity|]. unfold is_valid. cbn [current_justified finalized t_checkpoint epoch].
      replace (s + 1 <? s + 2) with true by lia. reflexivity.
    + exists 404, 0. repeat split; lia.
  - exists 0. reflexivity.
Qed.

Print Assumptions C67_routes.
Print Assumptions C67_urls_distinct.
Print Assumptions C67_endpoint_kept.
Print Assumptions C67_endpoint_kept_refuted.
Print Assumptions C67_block.
Print Assumptions C67_header.
Print Assumptions C67_state.
Print Assumptions C67_consensus_state.
Print Assumptions C67_same_chain.
Print Assumptions C67_no_lost_votes.
Print Assumptions C67_node.
Print Assumptions C67_uncached.
Print Assumptions C67_cache_transparent.
Print Assumptions C67_cache_genuine.
Print Assumptions C67_cache_frozen.
Print Assumptions C67_absence_not_cached.
