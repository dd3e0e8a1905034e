(** The comparing reader of assert_input_reader.rs with its attestations compared one by one, while
    [verify] consumes them. *)
From Coq Require Import List NArith Bool.
From Verif.Model Require Import Base Types ConsensusState Committee Verify AssertReader.
Import ListNotations.
Open Scope N_scope.

(** An iterator of attestations: [Some a] is an element, [None] a call of [next] that panics. *)
Definition att_stream := list (option Attestation).

(** assert_input_reader.rs:103-120: what the calls of [next] on the comparing iterator give, in order:
    a's element when b's next element is equal, a panic when it differs or only one has ended. *)
Fixpoint compared (la lb : list Attestation) : att_stream :=
  match la, lb with
  | [], [] => []
  | a :: la, b :: lb => if attestation_eqb a b then Some a :: compared la lb else [None]
  | _, _ => [None]
  end.

(** verify.rs:111-120 over itertools' lazy [chunk_by]: the elements of the group with key [l] are pulled
    and processed one at a time; the element that ends the group has been pulled too and waits as the
    head of what is left. *)
Fixpoint consume_group (X : Externals) (R : Reader) (av : bmap ValidatorInfo) (c : CommitteeCache) (l : Link)
         (s : att_stream) (acc : list ValidatorIndex) : outcome VerifyError (list ValidatorIndex * att_stream) :=
  match s with
  | [] => Ok (acc, [])
  | None :: _ => Panic
  | Some a :: r =>
      if link_eqb (att_link a) l then
        idxs <- process_attestation X R av c a ;;
        consume_group X R av c l r (bs_extend acc idxs)
      else Ok (acc, s)
  end.

(** verify.rs:91-151: one iteration of the link loop, on an iterator that is about to give an attestation
    for the link [l]. *)
Definition stream_link (X : Externals) (cfg : Config) (R : Reader) (trusted : Checkpoint)
           (st : ConsensusState) (l : Link) (s : att_stream) : outcome VerifyError (ConsensusState * att_stream) :=
  let cs := rd_chain_spec R in
  _ <- ensure (checkpoint_eqb (finalized st) trusted) (InvalidFinalization (finalized st)) ;;
  _ <- validate_link cfg cs trusted l ;;
  let te := epoch (target l) in
  avl <- map_err StateReaderError (rd_active_validators R te) ;;
  let av := bm_of_list avl in
  c <- compute_committees X R av te ;;
  pr <- consume_group X R av c l s [] ;;
  _ <- check_threshold cfg cs av (fst pr) ;;
  st' <- map_err VConsensus (state_transition st l) ;;
  _ <- assert_ (is_valid st') ;;
  Ok (st', snd pr).

(** verify.rs:87-151: the loop. Every iteration uses up at least one element, so as many iterations as
    the iterator has elements, and one to see its end, are enough: [fuel] never runs out below. *)
Fixpoint stream_links (X : Externals) (cfg : Config) (R : Reader) (trusted : Checkpoint) (fuel : nat)
         (s : att_stream) (st : ConsensusState) : outcome VerifyError ConsensusState :=
  match fuel with
  | O => Panic
  | S fuel =>
      match s with
      | [] => Ok st
      | None :: _ => Panic
      | Some a :: _ =>
          p <- stream_link X cfg R trusted st (att_link a) s ;;
          stream_links X cfg R trusted fuel (snd p) (fst p)
      end
  end.

(** verify.rs:78-164 on a reader whose iterator of attestations is [s]. *)
Definition verify_stream (X : Externals) (cfg : Config) (R : Reader) (s : outcome ReaderError att_stream)
  : outcome VerifyError (ConsensusState * N) :=
  st0 <- unwrap (rd_consensus_state R) ;;
  let trusted := finalized st0 in
  s <- unwrap s ;;
  st <- stream_links X cfg R trusted (S (length s)) s st0 ;;
  _ <- ensure (negb (checkpoint_eqb (finalized st) trusted)) (InvalidFinalization (finalized st)) ;;
  slot <- map_err StateReaderError (rd_slot_for_block R (root (finalized st))) ;;
  Ok (st, slot).

(** assert_input_reader.rs:100-120: a's attestations with [?], b's with [unwrap]; nothing is compared yet. *)
Definition compared_attestations (A B : Reader) : outcome ReaderError att_stream :=
  la <- rd_attestations A ;;
  lb <- unwrap (rd_attestations B) ;;
  Ok (compared la lb).

(** [verify] on the comparing reader. The validators of lines 63-92 are collected by [verify] before any
    of them is used, so comparing their whole lists first is what the code does. *)
Definition verify_compared (X : Externals) (cfg : Config) (A B : Reader) : outcome VerifyError (ConsensusState * N) :=
  verify_stream X cfg (assert_reader A B) (compared_attestations A B).

(** Lighthouse's derived [PartialEq] of [ChainSpec], on the parameters of the model. *)
Definition chain_spec_eqb (a b : ChainSpec) : bool :=
  forallb (fun f => option_eqb N.eqb (cs_fork_epoch a f) (cs_fork_epoch b f)
                    && bytes_eqb (cs_fork_version a f) (cs_fork_version b f)) (BaseFork :: forks_desc)
  && (far_future_epoch a =? far_future_epoch b)
  && (min_seed_lookahead a =? min_seed_lookahead b)
  && (max_seed_lookahead a =? max_seed_lookahead b)
  && (shuffle_round_count a =? shuffle_round_count b)
  && (effective_balance_increment a =? effective_balance_increment b)
  && (min_activation_balance a =? min_activation_balance b)
  && (min_per_epoch_churn_limit_electra a =? min_per_epoch_churn_limit_electra b)
  && (churn_limit_quotient a =? churn_limit_quotient b)
  && (max_committees_per_slot a =? max_committees_per_slot b)
  && (target_committee_size a =? target_committee_size b)
  && (domain_beacon_attester a =? domain_beacon_attester b)
  && (slots_per_epoch a =? slots_per_epoch b)
  && (epochs_per_historical_vector a =? epochs_per_historical_vector b).

(** verify.rs:82 on the comparing reader: assert_input_reader.rs:41-46 compares the parameters of the two
    sources before anything else is read. [others] says whether the parameters that the model does not
    have (they are never read by [verify]) are equal. The later uses of the parameters compare the same
    two values again. *)
Definition verify_asserted (X : Externals) (cfg : Config) (others : bool) (A B : Reader)
  : outcome VerifyError (ConsensusState * N) :=
  _ <- assert_ (others && chain_spec_eqb (rd_chain_spec A) (rd_chain_spec B)) ;;
  verify_compared X cfg A B.
