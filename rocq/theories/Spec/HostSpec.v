(** Specification of the host's chain queries: histories of per-epoch consensus states, and the
    attestations included in a chain. *)
From Coq Require Import List NArith Bool Sorted.
From Coq.Strings Require Import Byte.
From Verif.Model Require Import Base Types ConsensusState HostChain.
From Verif.Spec Require Import FFG VerifySpec.
Import ListNotations.
Open Scope N_scope.

(** The chain's consensus state at the first slot of epoch [e]. *)
Definition state_at (cs : ChainSpec) (ch : Chain) (e : Epoch) (st : ConsensusState) : Prop :=
  ch_state ch (e * slots_per_epoch cs) = Ok st.
(** [us] are the states of the epochs [e], [e+1], ... *)
Fixpoint states_from (cs : ChainSpec) (ch : Chain) (e : Epoch) (us : list ConsensusState) : Prop :=
  match us with
  | [] => True
  | u :: r => state_at cs ch e u /\ states_from cs ch (e + 1) r
  end.

(** [e] is the first epoch after the checkpoint whose state finalizes exactly the checkpoint; until
    then finality was before the checkpoint's epoch. *)
Definition first_confirming (cs : ChainSpec) (ch : Chain) (c : Checkpoint) (e : Epoch) : Prop :=
  epoch c < e /\
  (exists st, state_at cs ch e st /\ finalized st = c) /\
  forall e', epoch c < e' < e -> exists st, state_at cs ch e' st /\ epoch (finalized st) < epoch c.
(** Finality reached or passed the checkpoint's epoch at [e] with another checkpoint, without ever
    finalizing the checkpoint before. *)
Definition passed_over (cs : ChainSpec) (ch : Chain) (c : Checkpoint) (e : Epoch) : Prop :=
  epoch c < e /\
  (exists st, state_at cs ch e st /\ finalized st <> c /\ epoch c <= epoch (finalized st)) /\
  forall e', epoch c < e' < e -> exists st, state_at cs ch e' st /\ epoch (finalized st) < epoch c.

(** A history of consecutive epoch states in which every epoch adds nothing or one link. The link
    from the genesis state to epoch 1 is not recognised (property C03). *)
Inductive history : ConsensusState -> list ConsensusState -> list Link -> Prop :=
| hist_nil : forall s, history s [] []
| hist_same : forall s us ls, valid_state s -> history s us ls -> history s (s :: us) ls
| hist_link : forall s l u us ls,
    valid_state s -> ffg_step s l u -> ~ (s = genesis_state /\ epoch (target l) = 1) ->
    history u us ls -> history s (u :: us) (l :: ls).

(** ** Attestations *)
(** The blocks at the given slots, in slot order; empty slots are skipped. *)
Definition blocks_at (ch : Chain) (slots : list Slot) (bs : list Block) : Prop :=
  exists obs, Forall2 (fun s ob => ch_block ch s = Ok ob) slots obs /\
              bs = flat_map (fun ob => match ob with Some b => [b] | None => [] end) obs.
(** All attestations included in the blocks, in inclusion order. *)
Definition included (bs : list Block) : list Attestation := flat_map bl_attestations bs.
(** Those for link [l]. *)
Definition link_eq_dec (a b : Link) : {a = b} + {a <> b}.
Proof.
  assert (D : forall x y : Checkpoint, {x = y} + {x <> y}).
  { intros [e1 r1] [e2 r2]. destruct (N.eq_dec e1 e2) as [->|H]; [|right; congruence].
    destruct (list_eq_dec Byte.byte_eq_dec r1 r2) as [->|H]; [left; reflexivity|right; congruence]. }
  destruct a as [s1 t1], b as [s2 t2]. destruct (D s1 s2) as [->|H]; [|right; congruence].
  destruct (D t1 t2) as [->|H]; [left; reflexivity|right; congruence].
Defined.
Definition votes_for (l : Link) (atts : list Attestation) : list Attestation :=
  filter (fun a => if link_eq_dec (link_of a) l then true else false) atts.
(** [slots] are all slots from [a] to [b], ascending. *)
Definition slot_range (a b : Slot) (slots : list Slot) : Prop :=
  Sorted.StronglySorted N.lt slots /\ forall s, In s slots <-> a <= s <= b.
(** The targets of the links lie between [lo] and [hi], which are both targets. *)
Definition target_bounds (links : list Link) (lo hi : Epoch) : Prop :=
  (forall l, In l links -> lo <= epoch (target l) <= hi) /\
  (exists l, In l links /\ epoch (target l) = lo) /\ (exists l, In l links /\ epoch (target l) = hi).
(** The links that have votes, with their votes. *)
Definition links_with_votes (links : list Link) (all : list Attestation) : list (Link * list Attestation) :=
  filter (fun g => match snd g with [] => false | _ => true end)
         (map (fun l => (l, votes_for l all)) links).
