(** Beacon committees and attesters, following the consensus specification. *)
From Coq Require Import List NArith Bool Permutation.
From Verif.Model Require Import Base Types.
Import ListNotations.
Open Scope N_scope.

(** compute_committee: the [k]-th of [count] nearly equal consecutive segments of the list. *)
Definition segment (sh : list N) (count k : N) : list N :=
  let n := N.of_nat (length sh) in
  firstn (N.to_nat (n * (k + 1) / count - n * k / count)) (skipn (N.to_nat (n * k / count)) sh).

(** get_beacon_committee: committee [idx] of [slot] in a shuffled active set. *)
Definition committee_of (sh : list N) (spe cps : N) (slot idx : N) : list N :=
  segment sh (cps * spe) ((slot mod spe) * cps + idx).

(** The members at the set positions. *)
Fixpoint select (bits : list bool) (members : list N) : list N :=
  match bits, members with
  | b :: bs, m :: ms => if b then m :: select bs ms else select bs ms
  | _, _ => []
  end.
(** Number of set bits. *)
Definition popcount (bits : list bool) : nat := length (filter (fun b => b) bits).

(** Positions of set bits, ascending. *)
Definition set_positions (bits : list bool) : list N :=
  map N.of_nat (filter (fun i => nth i bits false) (seq 0 (length bits))).

(** Split a bitfield into consecutive parts, one per committee. *)
Inductive split_bits : list bool -> list (list N) -> list (list bool) -> Prop :=
| split_nil : split_bits [] [] []
| split_cons : forall b bits cm cms parts,
    length b = length cm -> split_bits bits cms parts -> split_bits (b ++ bits) (cm :: cms) (b :: parts).

(** The arithmetic of committee ranges fits the platform's [usize]. *)
Definition fits_platform (X : Externals) (spe cps n : N) : Prop :=
  0 < spe /\ 0 < cps /\ N.divide spe (2 ^ usize_bits X) /\
  cps * spe < 2 ^ usize_bits X /\ n * (cps * spe) < 2 ^ usize_bits X.

(** The slots of an epoch, in order. *)
Definition slots_of_epoch (cs : ChainSpec) (e : Epoch) : list Slot :=
  map (fun i => e * slots_per_epoch cs + N.of_nat i) (seq 0 (N.to_nat (slots_per_epoch cs))).

(** What is assumed of the external swap-or-not shuffle: it permutes the list. *)
Definition shuffle_permutes (X : Externals) : Prop :=
  forall l rounds seed sh, shuffle_list X l rounds seed = Some sh -> Permutation l sh.

(** An attestation's bitfields are well formed for a shuffled active set: every selected committee
    exists, the aggregation bits are split among exactly the selected committees in order, and
    every selected committee has a participant. *)
Definition bits_well_formed (sh : list N) (spe cps : N) (a : Attestation) : Prop :=
  Forall (fun i => i < cps) (set_positions (committee_bits a)) /\
  exists parts,
    split_bits (aggregation_bits a)
      (map (committee_of sh spe cps (ad_slot (att_data a))) (set_positions (committee_bits a))) parts /\
    Forall (fun p => In true p) parts.
(** Its attesters: members of the selected committees at set positions. *)
Definition attesters_of (sh : list N) (spe cps : N) (a : Attestation) : list N :=
  select (aggregation_bits a)
    (concat (map (committee_of sh spe cps (ad_slot (att_data a))) (set_positions (committee_bits a)))).
