(** Accountable safety and balance drift: specification vocabulary. *)
From Coq Require Import List NArith Bool.
From Verif.Model Require Import Base Types ConsensusState.
From Verif.Spec Require Import FFG VerifySpec.
Import ListNotations.
Open Scope N_scope.

(** The two Casper FFG slashing conditions on a pair of votes. *)
Definition double_vote (a b : Link) : Prop := a <> b /\ epoch (target a) = epoch (target b).
Definition surrounds (a b : Link) : Prop :=
  epoch (source a) < epoch (source b) /\ epoch (target b) < epoch (target a).
Definition slashable (a b : Link) : Prop := double_vote a b \/ surrounds a b \/ surrounds b a.

(** Checkpoints justified by a chain of links starting at [j]. *)
Definition justified_by (j : Checkpoint) (ls : list Link) (c : Checkpoint) : Prop :=
  c = j \/ exists l, In l ls /\ target l = c.

(** Two accepted chains from [j] finalize conflicting checkpoints: different ones in one epoch, or
    the chain that finalizes the later one does not pass through the earlier one. *)
Definition conflicting (j : Checkpoint) (la lb : list Link) (fa fb : Checkpoint) : Prop :=
  (epoch fa = epoch fb /\ fa <> fb) \/
  (epoch fa < epoch fb /\ ~ justified_by j lb fa) \/
  (epoch fb < epoch fa /\ ~ justified_by j la fb).

(** Validators (with the same record) in both lists. *)
Definition in_both (P Q both : validators) : Prop :=
  NoDup (map fst both) /\ forall x, In x both <-> In x P /\ In x Q.

(** A validator as seen from the trusted epoch and at the target epoch (docs/src/02): effective
    balance then and now (0 when not active), whether it attested, whether it was slashed since. *)
Record drifting := mkDrift { w0 : N; wn : N; attesting : bool; slashed_since : bool }.
Fixpoint total (f : drifting -> N) (vs : list drifting) : N :=
  match vs with [] => 0 | v :: r => f v + total f r end.
Definition when (b : bool) (x : N) : N := if b then x else 0.

(** docs/src/02 "Bounding the Total Safety Margin": the bounds on A and E, in ETH, for [n] epochs,
    [na] attesting and [nn] other validators, total balance [b0] now and [bn] then. Divisions are
    rounded up. *)
Definition ceil_div (a b : N) : N := (a + b - 1) / b.
Definition doc_A (b0 n nn : N) : N := 2 * n * N.max 128 (ceil_div b0 65536) + 48 * n + nn + 128960 * n.
Definition doc_E (b0 bn n na : N) : N :=
  2 * n * N.max 128 (ceil_div b0 65536) + 48 * n + ceil_div (bn * n * (n + 1)) 33554432 + na.
