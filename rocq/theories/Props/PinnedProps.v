(** C65, C85: two facts on which the other theorems about networks and nodes are silent. *)
From Coq Require Import String List Arith NArith Bool Lia.
From Coq.Init Require Import Byte.
From Verif.Model Require Import Base Types Committee ConsensusState Verify GuestReader Guest HostChain HostStore HostInput CliRun BeaconClient Networks StateFile.
From Verif.Spec Require Import PlatformSpec.
From Verif Require Import Spec.HostInputSpec.
From Verif.Model Require Import StateJson StateView BlockJson.
From Verif.Proof Require Import BaseLemmas.
From Verif.Props Require Import VerifyProps NetworkProps BlockJsonProps JsonNodeToy InputCodecProps NetworkRunProps HonestProps.
Import ListNotations.
Open Scope list_scope.
Open Scope N_scope.

(** On both networks and both platforms the committees of an epoch are seeded by the mix in place [e - 2] of the
    65536 mixes: MIN_SEED_LOOKAHEAD is 1, and the specification takes one more epoch back. *)
Theorem C65_seed : forall n X R e dom, usize_bits X = 32 \/ usize_bits X = 64 -> rd_chain_spec R = network_spec n -> 2 <= e -> e + 65536 < 2 ^ 64 ->
  get_seed X R e dom =
    match rd_randao_mix R e ((e - 2) mod 65536) with
    | Ok (Some mix) => Ok (sha256 X (dom ++ le_bytes 8 e ++ mix))
    | Ok None => Panic | Err er => Err er | Panic => Panic
    end.
Proof.
  intros n X R e dom Hu Hc H2 He. rewrite C38_seed_index; [|exact Hu|rewrite Hc; destruct n; reflexivity|rewrite Hc; destruct n; reflexivity].
  destruct (N.ltb_spec (e + 65536) (2 ^ 64)) as [_|L]; [|lia].
  replace (e + 65536 - 1 - 1) with (e - 2 + 1 * 65536) by lia. now rewrite N.mod_add by discriminate.
Qed.
(** The host records the same place. *)
Theorem C65_recorded_mix : forall n X e, usize_bits X = 32 \/ usize_bits X = 64 -> 2 <= e -> e + 65536 < 2 ^ 64 ->
  seed_mix_index X (network_spec n) e = (e - 2) mod 65536.
Proof.
  intros n X e Hu H2 He. unfold seed_mix_index, wrap_usize.
  replace (epochs_per_historical_vector (network_spec n)) with 65536 by (destruct n; reflexivity).
  replace (min_seed_lookahead (network_spec n)) with 1 by (destruct n; reflexivity).
  replace (e + 65536 - 1 - 1) with (e - 2 + 1 * 65536) by lia.
  assert (D : forall b, 16 <= b -> ((e - 2 + 1 * 65536) mod 2 ^ b) mod 65536 = (e - 2) mod 65536).
  { intros b Hb. replace (2 ^ b) with (65536 * 2 ^ (b - 16)).
    - rewrite N.mod_mul_r; [|discriminate|apply N.pow_nonzero; discriminate].
      rewrite (N.mul_comm 65536 (_ mod _)), N.mod_add by discriminate. rewrite N.mod_mod by discriminate. now rewrite N.mod_add by discriminate.
    - change 65536 with (2 ^ 16). rewrite <- N.pow_add_r. f_equal. lia. }
  rewrite D by (destruct Hu as [-> | ->]; lia).
  apply N.mod_small. eapply N.lt_trans; [apply N.mod_lt; discriminate|reflexivity].
Qed.

(** To the host a slot is empty exactly if the node answered 404 for it, and has the block that the node answered. *)
Theorem C85_host_block : forall C endpoint server s ob,
  ch_block (json_chain C endpoint server) s = Ok ob <->
  exists u, join endpoint (BeaconClient.path (GetBlock (AtSlot s))) = Some u /\
    ((ob = None /\ exists j, server u = Replied 404 j) \/
     (exists b x status j, ob = Some x /\ server u = Replied status j /\ is_error_status status = false /\ block_of_json j = Some b /\ block_view C b = Ok x)).
Proof.
  intros C endpoint server s ob. cbn [json_chain ch_block]. pose proof (C85_empty_slot endpoint server (AtSlot s)) as A. split.
  - destruct (ask_block endpoint server (AtSlot s)) as [o|er|] eqn:E; cbn [code map_err bind]; try discriminate. intros Q.
    destruct (proj1 (A o) eq_refl) as (u & Hu & [(-> & j & Hj)|(b & st & j & -> & Hj & Hs & Hb)]); exists u; (split; [exact Hu|]).
    + injection Q as <-. left. eauto.
    + destruct (block_view C b) as [x| |] eqn:V; cbn [bind] in Q; try discriminate. injection Q as <-. right. exists b, x, st, j. auto.
  - intros (u & Hu & [(-> & j & Hj)|(b & x & st & j & -> & Hj & Hs & Hb & V)]).
    + rewrite (proj2 (A None)); [reflexivity|]. exists u. split; [exact Hu|]. left. eauto.
    + rewrite (proj2 (A (Some b))); [|exists u; split; [exact Hu|]; right; exists b, st, j; auto]. cbn [code map_err bind]. now rewrite V.
Qed.

(** Cases that meet the hypotheses: a node with an empty slot and with a block (JsonNodeToy.v). *)
Example ex_empty : ch_block (json_chain n_codec j_end (j_server (u_T + 1))) 5 = Ok None.
Proof. rewrite j_block_at. vm_compute. reflexivity. Qed.
Example ex_block : exists x, ch_block (json_chain n_codec j_end (j_server (u_T + 1))) (32 * (u_T + 2) + 20) = Ok (Some x).
Proof. rewrite j_block_at. eexists. cbv [j_content]. vm_compute. reflexivity. Qed.
Example ex_place : seed_mix_index (on_platform z_X0 32) (network_spec Sepolia) 222464 = 25854.
Proof. vm_compute. reflexivity. Qed.

Print Assumptions C65_seed.
Print Assumptions C65_recorded_mix.
Print Assumptions C85_host_block.
