(** C90: the text that the node answers. *)
From Coq Require Import String List Arith NArith Bool Lia ZifyBool ZifyNat ZifyN.
From Coq.Init Require Import Byte.
From Verif.Model Require Import Base Types Shuffle ConsensusState Verify GuestReader Guest Cli CliRun HostChain HostStore HostInput BeaconClient StateFile Networks.
From Verif.Model Require Import InputCodec.
From Verif.Spec Require FFG JsonSyntax.
From Verif.Spec Require Import Merkle Ssz Beacon GuestSpec HostSpec Pipeline HostInputSpec CliSpec InputCodecSpec NetworkSpec ShuffleSpec Honest Moving NetworkRun StateJsonSpec HashTreeRoot BlockSpec JsonRun.
From Verif.Model Require Import StateJson StateView BlockJson JsonText.
From Verif.Proof Require Import BaseLemmas JsonTextP JsonPrintP StateJsonP.
From Verif.Props Require Import VerifyProps GuestToy HostToy HonestProps NetworkRunProps InputCodecProps StateJsonProps BlockJsonProps JsonToy JsonNodeToy JsonRunProps.
Import JsonSyntax.
Import ListNotations.
Open Scope list_scope.
Open Scope N_scope.

(** ** Texts and values *)
(** Reading a text gives a value exactly if the text spells that value and nests at most 127 arrays and objects. *)
Theorem C90_parse_iff b j : json_of_text b = Some j <-> json_text j b /\ (nesting j <= 127)%nat.
Proof. apply json_of_text_iff. Qed.
(** No text spells two values. *)
Theorem C90_unambiguous b j j' : json_text j b -> json_text j' b -> j = j'.
Proof. apply json_text_functional. Qed.
(** What nests deeper is refused. *)
Theorem C90_too_deep b j : json_text j b -> (127 < nesting j)%nat -> json_of_text b = None.
Proof.
  intros H Hn. destruct (json_of_text b) as [j'|] eqn:E; [|reflexivity]. apply C90_parse_iff in E as [E En]. rewrite (C90_unambiguous _ _ _ H E) in Hn. lia.
Qed.
(** Every value whose strings are Unicode and whose numbers are below 2^64 has a text, which is read as that value; no other
    value is ever read. *)
Theorem C90_round_trip j : printable j -> (nesting j <= 127)%nat -> json_of_text (print j) = Some j.
Proof. apply print_read. Qed.
Theorem C90_only_such_values b j : json_of_text b = Some j -> printable j.
Proof. intros H. apply C90_parse_iff in H as [(w & t & w' & _ & H & _) _]. now apply (proj1 spells_printable) in H. Qed.
(** An object that was cut off is not read at all, wherever it was cut. *)
Theorem C90_truncated m b p q : json_text (JObj m) b -> b = p ++ q -> ~ blanks q -> json_of_text p = None.
Proof.
  intros H E Hq. destruct (json_of_text p) as [j|] eqn:Ej; [|reflexivity]. exfalso. apply C90_parse_iff in Ej as [Ej _]. exact (truncated m b p q H E Hq j Ej).
Qed.

(** ** Answers *)
(** A request to a server that answers with text gives what the type reads from the value that the text spells, and nothing
    else. *)
Definition refuses_null {A} (dec : json -> option A) : Prop := dec JNull = None.
Theorem C90_ask {A} endpoint server q (dec : json -> option A) a : refuses_null dec ->
  ask endpoint (json_server server) q dec = Ok a <->
  exists u status b j, join endpoint (BeaconClient.path q) = Some u /\ server u = Replied status b /\ is_error_status status = false /\
    json_text j b /\ (nesting j <= 127)%nat /\ dec j = Some a.
Proof.
  intros Hd. unfold ask. destruct (join endpoint (BeaconClient.path q)) as [u|]; [|split; [discriminate|intros (? & ? & ? & ? & ? & _); discriminate]].
  unfold json_server. split.
  - destruct (server u) as [|status b] eqn:Es; cbn [read_body read_reply]; [discriminate|]. destruct (is_error_status status) eqn:Ee; [discriminate|].
    destruct (json_of_text b) as [j|] eqn:Ej; [|rewrite Hd; discriminate]. destruct (dec j) as [a'|] eqn:Ea; [|discriminate]. cbn [ok_or]. intros [= <-].
    apply C90_parse_iff in Ej as [H1 H2]. exists u, status, b, j. auto 8.
  - intros (u' & status & b & j & [= <-] & -> & Ee & Hj & Hn & Ea). cbn [read_body read_reply]. rewrite Ee, (proj2 (C90_parse_iff b j) (conj Hj Hn)), Ea. reflexivity.
Qed.
(** A body that is not JSON is an error, as is one cut off. *)
Theorem C90_not_json {A} endpoint server q (dec : json -> option A) u status b : refuses_null dec ->
  join endpoint (BeaconClient.path q) = Some u -> server u = Replied status b -> is_error_status status = false ->
  (forall j, ~ json_text j b) -> ask endpoint (json_server server) q dec = Err (CHttp None).
Proof.
  intros Hd Hu Es Ee Hb. unfold ask, json_server. rewrite Hu, Es. cbn [read_body read_reply]. rewrite Ee.
  destruct (json_of_text b) as [j|] eqn:Ej; [exfalso; apply C90_parse_iff in Ej as [Ej _]; exact (Hb j Ej)|]. now rewrite Hd.
Qed.
Theorem C90_cut_off {A} endpoint server q (dec : json -> option A) u status m b p q' : refuses_null dec ->
  join endpoint (BeaconClient.path q) = Some u -> server u = Replied status p -> is_error_status status = false ->
  json_text (JObj m) b -> b = p ++ q' -> ~ blanks q' -> ask endpoint (json_server server) q dec = Err (CHttp None).
Proof. intros Hd Hu Es Ee Hm Eb Hq. apply (C90_not_json _ _ _ _ u status p); auto. exact (truncated m b p q' Hm Eb Hq). Qed.
(** All of the types that are asked for are of this kind. *)
Theorem C90_types_refuse_null : refuses_null header_of_json /\ refuses_null block_of_json /\ refuses_null versioned_state /\ refuses_null finality_of_json.
Proof. repeat split; vm_compute; reflexivity. Qed.
(** A state: any text of an answer with the values of a state gives that state, and states come from nothing else. *)
Lemma ask_state_ask endpoint server i : ask_state endpoint server i =
  ('(v, st) <- ask endpoint server (GetState i) versioned_state ;; _ <- ensure (version_eqb v (ts_version st)) CVersionMismatch ;; Ok st).
Proof. unfold ask_state, ask, read_state. now destruct (join endpoint (BeaconClient.path (GetState i))). Qed.
Theorem C90_state_is_read endpoint server i u status v vs j more b :
  join endpoint (BeaconClient.path (GetState i)) = Some u -> server u = Replied status b -> is_error_status status = false ->
  json_text (state_answer v j more) b -> (nesting (state_answer v j more) <= 127)%nat -> no_clash more ->
  shows (Container (StateJsonSpec.state_fields v)) (VSeq vs) j -> not_newer v j ->
  ask_state endpoint (json_server server) i = Ok (mkTState v vs).
Proof.
  intros Hu Es Ee Hb Hn Hc Hj Hnn. unfold ask_state, json_server. rewrite Hu, Es. cbn [read_body]. rewrite (proj2 (C90_parse_iff b _) (conj Hb Hn)).
  now apply C82_answer_is_accepted.
Qed.
Theorem C90_states_are_read endpoint server i st : ask_state endpoint (json_server server) i = Ok st ->
  exists u status b m d, join endpoint (BeaconClient.path (GetState i)) = Some u /\ server u = Replied status b /\ is_error_status status = false /\
    json_text (JObj m) b /\ In ("version"%string, JStr (version_name (ts_version st))) m /\ In ("data"%string, d) m /\ state_of_json d = Some st.
Proof.
  intros H. unfold ask_state in H. destruct (join endpoint (BeaconClient.path (GetState i))) as [u|] eqn:Hu; [|discriminate].
  apply C82_version_is_the_announced in H as (status & m & d & Er & Ee & H). unfold json_server in Er. destruct (server u) as [|st' b] eqn:Es; [discriminate|].
  cbn [read_body] in Er. injection Er as -> Em. destruct (json_of_text b) as [j|] eqn:Ej; [|discriminate]. subst j. apply C90_parse_iff in Ej as [Ej _].
  exists u, status, b, m, d. repeat split; auto; apply H.
Qed.
(** The text that an ordinary node writes for a state. *)
Theorem C90_written_state endpoint server i u v vs :
  join endpoint (BeaconClient.path (GetState i)) = Some u ->
  server u = Replied 200 (print (state_answer v (write (Container (StateJsonSpec.state_fields v)) (VSeq vs)) [])) ->
  wf (Container (StateJsonSpec.state_fields v)) (VSeq vs) ->
  ask_state endpoint (json_server server) i = Ok (mkTState v vs).
Proof.
  intros Hu Es W. unfold ask_state, json_server. rewrite Hu, Es. cbn [read_body]. rewrite read_state_answer; [|apply state_plain..].
  apply C82_answer_is_accepted; [reflexivity|split; intros []|apply write_shows; [apply state_distinct|exact W]|now apply written_not_newer].
Qed.
(** And for a block, with any signature. *)
Theorem C90_written_block endpoint server i u v x signature :
  join endpoint (BeaconClient.path (GetBlock i)) = Some u -> v <> VFulu ->
  server u = Replied 200 (print (block_answer (write (BeaconBlock v) x) (JStr (x30 :: x78 :: hex signature)) [] [])) -> wf (BeaconBlock v) x ->
  ask_block endpoint (json_server server) i = Ok (Some (mkTBlock v x)).
Proof.
  intros Hu Hv Es W. unfold ask_block, ask, json_server. rewrite Hu, Es. cbn [read_body].
  rewrite read_block_answer; [|apply block_plain|apply block_plain|apply hex_unicode|cbn; lia].
  cbn [read_reply]. change (is_error_status 200) with false. cbn iota. rewrite C85_written_block_is_read by auto. destruct v; try reflexivity. contradiction.
Qed.

(** ** Runs *)
(** The tool against a node that answers with text: as C85_build_input and C85_sync. *)
Section Runs.
  Variables (n : Network) (X0 : Externals) (C : Codec) (pkd : bytes -> option PublicKey) (endpoint : Url) (fuel : nat).
  Let X := with_swap_or_not X0 64.
  Let cs := network_spec n.
  Hypothesis U : usize_bits X0 = 64.
  Hypothesis S : sane_codec C.
  Hypothesis Ml : mainnet_limits C.
  Hypothesis Sb : signatures_by_bytes X0.
  Theorem C90_build_input d servers trusted steps : json_watch n X C pkd endpoint fuel (map json_server servers) trusted steps ->
    exists bs e, build_loop true (map (fun server => CliRun.view X cs pkd (config_for n) (text_node (sha256 X) C endpoint server fuel)) servers) (epoch trusted) = (bs, Running e) /\
      map (fun b => (b_pre b, b_post b, b_slot b)) bs = steps /\
      forall b, In b bs -> exists input journal,
        build_disk (encode_input C) d bs (InputFile (b_epoch b)) = Some input /\
        build_disk (encode_input C) d bs (JournalFile (b_epoch b)) = Some journal /\
        guest_for n (with_swap_or_not (on_platform X0 32) 64) (decode_input C 32) input = Ok journal.
  Proof. intros W. pose proof (C85_build_input n X0 C pkd endpoint fuel U S Ml Sb d _ _ _ W) as H. rewrite map_map in H. exact H. Qed.
  Theorem C90_sync r0vm servers st ts : json_follow n X C pkd endpoint fuel (map json_server servers) st ts ->
    let executor b := match guest_for n (with_swap_or_not (on_platform X0 32) 64) (decode_input C 32) (encode_input_stdin b) with Ok j => Some j | _ => None end in
    exists e, sync_loop (encode_input C) (run_verify X (decode_input C 64) executor cs (config_for n) r0vm)
      (map (fun server => CliRun.view X cs pkd (config_for n) (text_node (sha256 X) C endpoint server fuel)) servers) st = (ok_log st ts, Running e).
  Proof. intros W. pose proof (C85_sync n X0 C pkd endpoint fuel U S Ml Sb r0vm _ _ _ W) as H. rewrite map_map in H. exact H. Qed.
End Runs.

(** ** Examples *)
(** Of a string: a quote, a backslash, a control character, a character of two bytes and one beyond the basic plane. *)
Definition t_string : bytes := [x22; x5c; x0a; xc3; xa9; xf0; x9f; x98; x80].
Definition t_value : json := JObj [("a"%string, JArr [JNum 0; JNum 18446744073709551615; JBool true; JNull]); ("b"%string, JStr t_string); ("c"%string, JObj [])].
Definition text (s : string) : bytes := list_byte_of_string s.
(** Blanks, escapes in upper and lower case, a pair of surrogates, other numbers. *)
Example C90_example_text : json_of_text (text " { ""a"" : [0,18446744073709551615 , true,-1.5e+3],
 ""\u0062"":""\""\\\n\u00E9\ud83d\uDE00"", ""c"":{ } } ") = Some t_value.
Proof. vm_compute. reflexivity. Qed.
Example C90_example_refused : map json_of_text (map text [""; "{"; "[1,]"; "[01]"; "[1.]"; "[+1]"; "{""a"":1,}"; """\ud83d"""; """\x"""; "nul"; "1 2"; "{""a"" 1}"]%string)
  = repeat None 12.
Proof. vm_compute. reflexivity. Qed.
Example C90_example_not_utf8 : json_of_text [x22; xff; x22] = None /\ json_of_text [x22; xed; xa0; x80; x22] = None /\ json_of_text [x22; x0a; x22] = None.
Proof. vm_compute. auto. Qed.
Example C90_printable_nonvacuous : printable t_value /\ (nesting t_value <= 127)%nat /\ json_text t_value (print t_value).
Proof.
  assert (P : printable t_value).
  { assert (E : json_of_text (print t_value) = Some t_value) by (vm_compute; reflexivity). now apply C90_only_such_values in E. }
  split; [exact P|]. split; [vm_compute; lia|]. now apply print_text.
Qed.
Fixpoint t_deep (k : nat) : json := match k with O => JNull | Datatypes.S k' => JArr [t_deep k'] end.
Lemma t_deep_ok k : printable (t_deep k) /\ nesting (t_deep k) = k.
Proof. induction k as [|k [H1 H2]]; [repeat split|]. cbn [t_deep printable nesting fold_right]. rewrite H2. repeat split; auto. lia. Qed.
Example C90_too_deep_nonvacuous : json_text (t_deep 128) (print (t_deep 128)) /\ (127 < nesting (t_deep 128))%nat /\ json_of_text (print (t_deep 127)) = Some (t_deep 127).
Proof.
  destruct (t_deep_ok 128) as [H1 H2]. split; [now apply print_text|]. split; [rewrite H2; lia|]. destruct (t_deep_ok 127) as [H3 H4]. apply C90_round_trip; [exact H3|rewrite H4; lia].
Qed.
Example C90_truncated_nonvacuous : exists m p q, json_text (JObj m) (p ++ q) /\ ~ blanks q /\ p = text "{""a"":[0,1".
Proof.
  exists [("a"%string, JArr [JNum 0; JNum 18])], (text "{""a"":[0,1"), (text "8]}"). split; [|split; [|reflexivity]].
  - apply C90_parse_iff with (b := text "{""a"":[0,18]}"). vm_compute. reflexivity.
  - intros H. inversion H as [|c r Hc]. subst. cbn in Hc. intuition discriminate.
Qed.
(** The text is needed to its end: of a number alone, cut off, another number is left. *)
Example C90_numbers_can_be_cut : json_of_text (text "18") = Some (JNum 18) /\ json_of_text (text "1") = Some (JNum 1).
Proof. split; vm_compute; reflexivity. Qed.
(** The node of C85's examples in fact answers with text. *)
Example C90_watch_nonvacuous : json_watch Mainnet (with_swap_or_not z_X0 64) n_codec h_deserialize j_end 5
  (map json_server [j_text_server u_T; j_text_server (u_T + 1); j_text_server (u_T + 1); j_text_server (u_T + 2)]) (j_cp u_T) j_steps.
Proof. exact j_watch. Qed.
Example C90_build_input_nonvacuous d : exists bs e,
  build_loop true (map (fun server => CliRun.view z_X (network_spec Mainnet) h_deserialize (config_for Mainnet) (text_node g_hash n_codec j_end server 5))
    [j_text_server u_T; j_text_server (u_T + 1); j_text_server (u_T + 1); j_text_server (u_T + 2)]) u_T = (bs, Running e) /\
  map (fun b => (b_pre b, b_post b, b_slot b)) bs = j_steps /\
  forall b, In b bs -> exists input journal,
    build_disk (encode_input n_codec) d bs (InputFile (b_epoch b)) = Some input /\
    build_disk (encode_input n_codec) d bs (JournalFile (b_epoch b)) = Some journal /\
    guest_for Mainnet (with_swap_or_not (on_platform z_X0 32) 64) (decode_input n_codec 32) input = Ok journal.
Proof.
  pose proof (C90_build_input Mainnet z_X0 n_codec h_deserialize j_end 5 eq_refl n_sane u_limits z_bytes d _ (j_cp u_T) j_steps C90_watch_nonvacuous) as H.
  change (epoch (j_cp u_T)) with u_T in H. exact H.
Qed.
Example C90_follow_nonvacuous : json_follow Mainnet z_X n_codec h_deserialize j_end 5 (map json_server [j_text_server (u_T + 1); j_text_server (u_T + 2)]) (j_at (u_T + 2)) [j_at (u_T + 3); j_at (u_T + 4)].
Proof. exact j_follow. Qed.
Example C90_state_nonvacuous v : exists vs server u, join j_end (BeaconClient.path (GetState Head)) = Some u /\
  server u = Replied 200 (print (state_answer v (write (Container (StateJsonSpec.state_fields v)) (VSeq vs)) [])) /\ wf (Container (StateJsonSpec.state_fields v)) (VSeq vs).
Proof.
  exists (zeros v), (fun _ => Replied 200 (print (state_answer v (write (Container (StateJsonSpec.state_fields v)) (VSeq (zeros v))) []))), (j_url (GetState Head)).
  split; [apply j_join|]. split; [reflexivity|]. rewrite <- zero_state. apply zero_wf.
Qed.

Print Assumptions C90_parse_iff.
Print Assumptions C90_unambiguous.
Print Assumptions C90_too_deep.
Print Assumptions C90_round_trip.
Print Assumptions C90_only_such_values.
Print Assumptions C90_truncated.
Print Assumptions C90_ask.
Print Assumptions C90_not_json.
Print Assumptions C90_cut_off.
Print Assumptions C90_types_refuse_null.
Print Assumptions C90_state_is_read.
Print Assumptions C90_states_are_read.
Print Assumptions C90_written_state.
Print Assumptions C90_written_block.
Print Assumptions C90_build_input.
Print Assumptions C90_sync.
Print Assumptions C90_build_input_nonvacuous.
