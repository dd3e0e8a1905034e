(** host/src/bin/zkasper_cli.rs: framing of the guest input and the cross-check of the guest's
    journal. Argument parsing, logging, polling and file naming are not modelled. *)
From Coq Require Import List NArith Bool.
From Verif.Model Require Import Base Types ConsensusState Verify GuestReader Guest.
Import ListNotations.
Open Scope N_scope.

(** zkasper_cli.rs:461-476 [encode_input_stdin]: [data.len() as u32] keeps the low 32 bits. *)
Definition encode_input_stdin (data : bytes) : bytes :=
  le_bytes 4 (N.of_nat (length data) mod 2 ^ 32) ++ data.
(** risc0 [env::read_frame] (external, used at methods/guest/src/lib.rs:22): a little-endian u32
    length, then that many bytes; reading past the end of the input aborts. Returns the frame and
    the unread input. *)
Definition read_frame (stdin : bytes) : outcome unit (bytes * bytes) :=
  h <- expect (slice stdin 0 4) ;;
  let n := N.to_nat (le_val h) in
  b <- expect (slice stdin 4 n) ;;
  Ok (b, skipn (4 + n) stdin).
(** methods/guest/src/lib.rs:18-53 [entry] on its standard input. *)
Definition guest_main (X : Externals) (decode : bytes -> option GuestInput) (cs : ChainSpec) (cfg : Config)
           (stdin : bytes) : outcome unit bytes :=
  '(frame, _) <- read_frame stdin ;; entry X decode cs cfg frame.

Inductive CliError := DecodeFailed | InputInvalid | HostVerifyFailed | GuestFailed | BadJournal | Mismatch.
Definition state_eqb (a b : ConsensusState) : bool :=
  checkpoint_eqb (current_justified a) (current_justified b) && checkpoint_eqb (finalized a) (finalized b).

(** zkasper_cli.rs:414-458 [run_verify]; [r0vm] is [mode == ExecMode::R0vm] and [executor] the zkVM
    run on the input ([execute_guest_program], zkasper_cli.rs:478-489). *)
Definition run_verify (X : Externals) (decode : bytes -> option GuestInput) (executor : bytes -> option bytes)
           (cs : ChainSpec) (cfg : Config) (r0vm : bool) (pre_state : ConsensusState) (input : bytes)
  : outcome CliError ConsensusState :=
  gi <- ok_or (decode input) DecodeFailed ;;
  r <- map_err (fun _ => InputInvalid) (into_reader X cs gi) ;;
  '(post_state, _) <- map_err (fun _ => HostVerifyFailed) (verify X cfg (guest_reader r)) ;;
  if r0vm then
    journal <- ok_or (executor input) GuestFailed ;;
    (* [split_at] panics beyond the end *)
    _ <- assert_ (Nat.leb abi_encoded_size (length journal)) ;;
    guest_pre <- map_err (fun _ => BadJournal) (abi_decode (firstn abi_encoded_size journal)) ;;
    guest_post <- map_err (fun _ => BadJournal) (abi_decode (skipn abi_encoded_size journal)) ;;
    _ <- ensure (state_eqb guest_post post_state) Mismatch ;;
    _ <- ensure (state_eqb guest_pre pre_state) Mismatch ;;
    Ok post_state
  else Ok post_state.
