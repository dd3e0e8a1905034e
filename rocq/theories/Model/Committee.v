(** core/src/committee_cache.rs and core/src/attestation.rs. *)
From Coq Require Import List NArith Bool.
From Verif.Model Require Import Base Types.
Import ListNotations.
Open Scope N_scope.

(** committee_cache.rs:41-57. *)
Inductive CCError :=
| NotInitialized | NotInitializedAtEpoch (e : Epoch) | ZeroSlotsPerEpoch
| InsufficientValidators | UnableToShuffle | TooManyValidators | ShuffleIndexOutOfBounds (i : N).

(** committee_cache.rs:31-39. A position is stored as [NonZeroUsize] i+1. *)
Record CommitteeCache := mkCC {
  initialized_epoch : option Epoch;
  shuffling : list ValidatorIndex;
  shuffling_positions : list (option N);
  committees_per_slot : N;
  cc_slots_per_epoch : N }.

(** [*v.get_mut(i).ok_or(e)? = x]. *)
Fixpoint list_set {A} (l : list A) (i : nat) (x : A) : option (list A) :=
  match l, i with
  | [], _ => None
  | _ :: r, O => Some (x :: r)
  | a :: r, S i' => match list_set r i' x with Some r' => Some (a :: r') | None => None end
  end.

(** committee_cache.rs:101-106: positions table. *)
Fixpoint fill_positions (sh : list ValidatorIndex) (i : N) (pos : list (option N))
  : outcome CCError (list (option N)) :=
  match sh with
  | [] => Ok pos
  | v :: r => pos' <- ok_or (list_set pos (N.to_nat v) (Some (i + 1))) (ShuffleIndexOutOfBounds v) ;;
              fill_positions r (i + 1) pos'
  end.

(** [iter().max()]. *)
Definition list_max (l : list N) : option N :=
  match l with [] => None | x :: r => Some (fold_left N.max r x) end.

Definition usize_max (X : Externals) : N := 2 ^ usize_bits X - 1.
Definition wrap_usize (X : Externals) (x : N) : N := x mod 2 ^ usize_bits X.

(** committee_cache.rs:68-116 [initialized]. *)
Definition cc_initialized (X : Externals) (cs : ChainSpec) (seed : bytes)
           (indices : list ValidatorIndex) (cps : N) (e : Epoch) : outcome CCError CommitteeCache :=
  _ <- ensure (0 <? cps) ZeroSlotsPerEpoch ;;
  mx <- ok_or (list_max indices) InsufficientValidators ;;
  sh <- ok_or (shuffle_list X indices (shuffle_round_count cs) seed) UnableToShuffle ;;
  _ <- ensure (mx <? usize_max X) TooManyValidators ;;
  pos <- fill_positions sh 0 (repeat None (N.to_nat (mx + 1))) ;;
  Ok (mkCC (Some e) sh pos cps (slots_per_epoch cs)).

(** committee_cache.rs:121-123. *)
Definition is_initialized_at (c : CommitteeCache) (e : Epoch) : bool :=
  match initialized_epoch c with Some e' => e =? e' | None => false end.

(** Lighthouse [epoch_committee_count], [compute_committee_index_in_epoch],
    [compute_committee_range_in_epoch]: plain usize arithmetic, which wraps. *)
Definition epoch_committee_count (X : Externals) (c : CommitteeCache) : N :=
  wrap_usize X (committees_per_slot c * cc_slots_per_epoch c).
Definition compute_committee_index_in_epoch (X : Externals) (slot : Slot) (spe cps idx : N) : N :=
  wrap_usize X (wrap_usize X ((wrap_usize X slot mod spe) * cps) + idx).
Definition compute_committee_range_in_epoch (X : Externals) (count idx len : N) : option (N * N) :=
  if (count =? 0) || (count <=? idx) then None
  else Some (wrap_usize X (len * idx) / count, wrap_usize X (len * (idx + 1)) / count).

(** committee_cache.rs:192-207 [compute_committee], [compute_committee_range]; slice [get] with a
    range returns [None] when the range is decreasing or out of bounds. *)
Definition compute_committee (X : Externals) (c : CommitteeCache) (idx : N)
  : option (list ValidatorIndex) :=
  match compute_committee_range_in_epoch X (epoch_committee_count X c) idx
          (N.of_nat (length (shuffling c))) with
  | None => None
  | Some (a, b) => if a <=? b then slice (shuffling c) (N.to_nat a) (N.to_nat (b - a)) else None
  end.

(** committee_cache.rs:136-159 [get_beacon_committee]. *)
Definition get_beacon_committee (X : Externals) (cs : ChainSpec) (c : CommitteeCache)
           (slot : Slot) (idx : N) : outcome CCError (list ValidatorIndex) :=
  _ <- ensure (match initialized_epoch c with Some _ => true | None => false end) NotInitialized ;;
  _ <- ensure (is_initialized_at c (epoch_of_slot cs slot))
              (NotInitializedAtEpoch (epoch_of_slot cs slot)) ;;
  _ <- ensure (idx <? committees_per_slot c) (ShuffleIndexOutOfBounds idx) ;;
  ok_or (compute_committee X c
           (compute_committee_index_in_epoch X slot (cc_slots_per_epoch c)
              (committees_per_slot c) idx)) UnableToShuffle.

Definition N_seq (n : N) : list N := map N.of_nat (seq 0 (N.to_nat n)).

(** committee_cache.rs:164-170 [get_beacon_committees_at_slot]. *)
Definition get_beacon_committees_at_slot (X : Externals) (cs : ChainSpec) (c : CommitteeCache)
           (slot : Slot) : outcome CCError (list (list ValidatorIndex)) :=
  _ <- ensure (match initialized_epoch c with Some _ => true | None => false end) NotInitialized ;;
  map_outcome (get_beacon_committee X cs c slot) (N_seq (committees_per_slot c)).

(** committee_cache.rs:212-216 [shuffled_position]. *)
Definition shuffled_position (c : CommitteeCache) (v : ValidatorIndex) : option N :=
  match nth_error (shuffling_positions c) (N.to_nat v) with
  | Some (Some p) => Some (p - 1)
  | _ => None
  end.

(** Lighthouse [AttestationElectra::get_committee_indices]: positions of set bits, ascending. *)
Fixpoint bit_indices (bits : list bool) (i : N) : list N :=
  match bits with
  | [] => []
  | b :: r => if b then i :: bit_indices r (i + 1) else bit_indices r (i + 1)
  end.

(** attestation.rs:40-48: members of one committee whose bit is set; reading past the end of the
    bitfield panics. *)
Fixpoint committee_attesters (bits : list bool) (off : nat) (committee : list ValidatorIndex)
  : outcome CCError (list ValidatorIndex) :=
  match committee with
  | [] => Ok []
  | v :: r =>
      b <- expect (nth_error bits off) ;;
      vs <- committee_attesters bits (S off) r ;;
      Ok (if (b : bool) then v :: vs else vs)
  end.

(** attestation.rs:34-54: loop over committee indices, threading the set and the offset. The
    iterator is lazy: [peek] stops at the first set bit and [extend] consumes the rest, so either
    way a missing bit panics before the function returns. *)
Fixpoint attesting_loop (X : Externals) (cs : ChainSpec) (c : CommitteeCache) (slot : Slot)
         (bits : list bool) (cidx : list N) (off : nat) (acc : list ValidatorIndex)
  : outcome CCError (list ValidatorIndex * nat) :=
  match cidx with
  | [] => Ok (acc, off)
  | i :: r =>
      _ <- assert_ (i <? committees_per_slot c) ;;
      committee <- get_beacon_committee X cs c slot i ;;
      vs <- committee_attesters bits off committee ;;
      _ <- assert_ (negb (Nat.eqb (length vs) 0)) ;;
      attesting_loop X cs c slot bits r (off + length committee) (bs_extend acc vs)
  end.

(** attestation.rs:25-58 [get_attesting_indices]. *)
Definition get_attesting_indices (X : Externals) (cs : ChainSpec) (c : CommitteeCache)
           (a : Attestation) : outcome CCError (list ValidatorIndex) :=
  '(acc, off) <- attesting_loop X cs c (ad_slot (att_data a)) (aggregation_bits a)
                   (bit_indices (committee_bits a) 0) 0 [] ;;
  _ <- assert_ (Nat.eqb (length (aggregation_bits a)) off) ;;
  Ok acc.
