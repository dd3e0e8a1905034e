(** C67: the cache seen through the calls of the client. *)
From Coq Require Import List Arith NArith Bool Lia.
From Coq.Init Require Import Byte.
From Verif.Model Require Import Base Types ConsensusState HostChain HostStore HostInput BeaconClient.
From Verif.Spec Require Import Beacon HostSpec BeaconClientSpec.
From Verif.Props Require Import BeaconClientProps.
Import ListNotations.
Open Scope N_scope.

(** The calls of the client, and what they return. *)
Inductive call := AskHeader (i : Id) | AskBlock (i : Id) | AskState (i : Id) | AskFinality (i : Id) | AskConsensus (i : Id).
Inductive result :=
| RHeader (o : outcome ClientError (option Header)) | RBlock (o : outcome ClientError (option (Header * Block)))
| RState (o : outcome ClientError HState) | RFinality (o : outcome ClientError Finality) | RConsensus (o : outcome ClientError ConsensusState).
(** The request behind a call. *)
Definition request_of (q : call) : Request :=
  match q with AskHeader i => GetHeader i | AskBlock i => GetBlock i | AskState i => GetState i | AskFinality i | AskConsensus i => GetFinality i end.

Section Session.
  Context {B : Type}.
  Variables (D : Decoders B) (storable : Url -> B -> bool) (endpoint : Url).
  Definition with_result {A} (f : A -> result) (x : A * @Cache B) : result * @Cache B := (f (fst x), snd x).
  Definition make (node : Url -> Reply B) (c : @Cache B) (q : call) : result * @Cache B :=
    match q with
    | AskHeader i => with_result RHeader (get_block_header D storable endpoint node c i)
    | AskBlock i => with_result RBlock (get_block D storable endpoint node c i)
    | AskState i => with_result RState (get_beacon_state D storable endpoint node c i)
    | AskFinality i => with_result RFinality (get_finality_checkpoints D storable endpoint node c i)
    | AskConsensus i => with_result RConsensus (get_consensus_state D storable endpoint node c i)
    end.
  (** One client, many calls; the node may be another one at each. *)
  Fixpoint session (c : @Cache B) (l : list ((Url -> Reply B) * call)) : list result :=
    match l with
    | [] => []
    | (node, q) :: r => fst (make node c q) :: session (snd (make node c q)) r
    end.
  (** What a client without a cache returns if the node answers [r]. *)
  Definition given (q : call) (r : Reply B) : result := fst (make (fun _ => r) None q).

  Lemma make_url u q node c : join endpoint (path (request_of q)) = Some u ->
    make node c q = (given q (fst (send storable node c u)), snd (send storable node c u)).
  Proof.
    intros E. destruct q as [i|i|i|i|i]; cbn [request_of] in E; unfold given; cbn [make];
      unfold get_block_header, get_block, get_beacon_state, get_consensus_state, get_finality_checkpoints, get_json;
      rewrite E; destruct (send storable node c u) as [r c']; reflexivity.
  Qed.
  Definition url_of (q : call) : Url := mkUrl (u_origin endpoint) true (removelast (u_segments endpoint) ++ path (request_of q)) None.
  Lemma joined q : u_base endpoint = true -> join endpoint (path (request_of q)) = Some (url_of q).
  Proof. unfold join. now intros ->. Qed.
  Lemma session_asks : u_base endpoint = true -> forall l c,
    session c l = map (fun x => given (fst x) (snd x)) (combine (map snd l) (asks storable c (map (fun x => (fst x, url_of (snd x))) l))).
  Proof.
    intros Hb. induction l as [|[node q] l IH]; intros c; [reflexivity|]. cbn [session map asks fst snd]. rewrite (make_url _ q node c (joined q Hb)). cbn [fst snd].
    rewrite IH. destruct (send storable node c (url_of q)) as [r c']. reflexivity.
  Qed.
  Lemma asks_length c : forall l, length (asks storable c l) = length l.
  Proof. intros l. revert c. induction l as [|[node u] l IH]; intros c; [reflexivity|]. cbn [asks]. destruct (send storable node c u). cbn. now rewrite IH. Qed.
  Lemma session_nth l c n node q r : u_base endpoint = true -> nth_error l n = Some (node, q) ->
    nth_error (asks storable c (map (fun x => (fst x, url_of (snd x))) l)) n = Some r -> nth_error (session c l) n = Some (given q r).
  Proof.
    intros Hb Hl Hr. rewrite session_asks by exact Hb.
    assert (Q : forall (a : list call) (b : list (Reply B)) k, nth_error a k = Some q -> nth_error b k = Some r -> nth_error (combine a b) k = Some (q, r)).
    { induction a as [|x a IH]; intros [|y b] [|k] Ha Hb'; try discriminate; cbn in *; [congruence|now apply IH]. }
    rewrite nth_error_map, (Q _ _ n); [reflexivity| |exact Hr]. rewrite nth_error_map, Hl. reflexivity.
  Qed.

  (** Against a node that does not change, no call shows whether there is a cache. *)
  Theorem C67_session_transparent : forall node calls, session (Some []) (map (pair node) calls) = session None (map (pair node) calls).
  Proof.
    intros node calls. destruct (u_base endpoint) eqn:Hb.
    - rewrite !session_asks by exact Hb. do 2 f_equal. rewrite !map_map. cbn [fst snd].
      rewrite C67_uncached, map_map. cbn [fst snd].
      rewrite <- (map_map url_of (pair node)), C67_cache_transparent. now rewrite map_map.
    - assert (N : forall c c' q, make node c q = (given q NoReply, c) /\ given q NoReply = fst (make node c' q)).
      { intros c c' q. unfold given.
        destruct q; cbn [make]; unfold get_block_header, get_block, get_beacon_state, get_consensus_state, get_finality_checkpoints, get_json, join; rewrite Hb; split; reflexivity. }
      assert (G : forall c c', session c (map (pair node) calls) = session c' (map (pair node) calls)).
      { induction calls as [|q r IH]; intros c c'; [reflexivity|]. cbn [map session]. rewrite (proj1 (N c c q)), (proj1 (N c' c' q)). cbn [fst snd]. now rewrite (IH c c'). }
      apply G.
  Qed.
  (** With a cache, once the node has answered a call with something the cache may keep, every later call of that kind
      returns what that answer says, whatever the node answers by then. *)
  Theorem C67_session_frozen : forall l i j node node' q, u_base endpoint = true -> (i <= j)%nat ->
    nth_error l i = Some (node, q) -> nth_error l j = Some (node', q) ->
    (forall k nd p, (k < i)%nat -> nth_error l k = Some (nd, p) -> url_of p <> url_of q) ->
    keepable storable (url_of q) (node (url_of q)) ->
    nth_error (session (Some []) l) j = Some (given q (node (url_of q))).
  Proof.
    intros l i j node node' q Hb Hij Hi Hj Hfresh Hk. set (l' := map (fun x => (fst x, url_of (snd x))) l).
    assert (Hi' : nth_error l' i = Some (node, url_of q)) by (unfold l'; rewrite nth_error_map, Hi; reflexivity).
    assert (Hj' : nth_error l' j = Some (node', url_of q)) by (unfold l'; rewrite nth_error_map, Hj; reflexivity).
    eapply session_nth; [exact Hb|exact Hj|]. apply (C67_cache_frozen storable l' i j node node' (url_of q)); auto.
    apply C67_absence_not_cached; [exact Hi'|]. intros k nd Hlt E _. unfold l' in E. rewrite nth_error_map in E.
    destruct (nth_error l k) as [[nd' p]|] eqn:Ek; [|discriminate]. cbn [option_map fst snd] in E. apply (Hfresh k nd' p Hlt Ek). congruence.
  Qed.
  (** A call that the node has so far not answered with something to keep returns what the node says now: a block that
      was absent is found when it is there. *)
  Theorem C67_session_fresh : forall l n node q, u_base endpoint = true -> nth_error l n = Some (node, q) ->
    (forall k nd p, (k < n)%nat -> nth_error l k = Some (nd, p) -> url_of p = url_of q -> ~ keepable storable (url_of q) (nd (url_of q))) ->
    nth_error (session (Some []) l) n = Some (given q (node (url_of q))).
  Proof.
    intros l n node q Hb Hn H. eapply session_nth; [exact Hb|exact Hn|]. apply C67_absence_not_cached; [rewrite nth_error_map, Hn; reflexivity|].
    intros k nd Hk E. rewrite nth_error_map in E. destruct (nth_error l k) as [[nd' p]|] eqn:Ek; [|discriminate]. cbn [option_map fst snd] in E. apply (H k nd p Hk); [|congruence]. rewrite Ek. congruence.
  Qed.
End Session.

(** Cases that meet the hypotheses: the finality of the head is frozen with a cache and moves without. *)
Example ex_session : let l := [(t_node 1, AskFinality Head); (t_node 2, AskFinality Head)] in
  nth_error (session t_decoders t_store t_endpoint (Some []) l) 1 = nth_error (session t_decoders t_store t_endpoint (Some []) l) 0 /\
  nth_error (session t_decoders t_store t_endpoint None l) 1 <> nth_error (session t_decoders t_store t_endpoint None l) 0 /\
  u_base t_endpoint = true /\ keepable t_store (url_of t_endpoint (AskFinality Head)) (t_node 1 (url_of t_endpoint (AskFinality Head))).
Proof. vm_compute. split; [reflexivity|]. split; [discriminate|]. split; [reflexivity|]. eexists. split; reflexivity. Qed.

Print Assumptions C67_session_transparent.
Print Assumptions C67_session_frozen.
Print Assumptions C67_session_fresh.
