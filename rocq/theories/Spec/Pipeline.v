(** What an honest chain has to contain for the host to find the next finalized checkpoint. *)
From Coq Require Import List NArith Bool.
From Verif.Model Require Import Base Types ConsensusState Verify HostChain.
From Verif.Spec Require Import FFG VerifySpec HostSpec.
Import ListNotations.
Open Scope N_scope.

(** At epoch [e] the chain first finalizes [trusted], in state [s]; finality then stays the same in the
    states [us] of the following epochs, and changes in the state [t] of the epoch after them; the
    links [ls] lead from [s] to [t]. *)
Record next_finality (cs : ChainSpec) (ch : Chain) (trusted : Checkpoint) (e : Epoch)
       (s : ConsensusState) (us : list ConsensusState) (t : ConsensusState) (ls : list Link) : Prop := {
  nf_first : first_confirming cs ch trusted e;
  nf_start : state_at cs ch e s;
  nf_states : states_from cs ch (e + 1) (us ++ [t]);
  nf_same : Forall (fun u => finalized u = trusted) us;
  nf_new : finalized t <> trusted;
  nf_links : history s (us ++ [t]) ls }.
(** [bs] are the blocks from the first slot of the earliest target epoch to the first slot after the
    latest one; they are Electra blocks. *)
Record vote_window (cs : ChainSpec) (ch : Chain) (ls : list Link) (bs : list Block) : Prop := {
  vw_range : exists lo hi slots, target_bounds ls lo hi /\ (hi + 1) * slots_per_epoch cs < 2 ^ 64 /\
    slot_range (lo * slots_per_epoch cs) ((hi + 1) * slots_per_epoch cs) slots /\ blocks_at ch slots bs;
  vw_electra : Forall (fun b => bl_electra b = true) bs }.
(** The votes of the links, link by link, in inclusion order. *)
Definition chain_votes (ls : list Link) (bs : list Block) : list Attestation :=
  flat_map (fun l => votes_for l (included bs)) ls.
