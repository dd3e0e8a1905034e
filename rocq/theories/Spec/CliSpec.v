(** Specification of the [build-input] and [sync] commands. *)
From Coq Require Import List NArith Bool.
From Verif.Model Require Import Base Types ConsensusState Multiproof Committee Verify GuestReader HostChain HostStore HostInput Cli CliRun.
From Verif.Spec Require FFG.
From Verif.Spec Require Import Merkle Ssz Beacon GuestSpec VerifySpec HostSpec Pipeline HostInputSpec.
Import ListNotations.
Open Scope N_scope.

(** ** A chain on which everything works *)
(** The node [n] shows an honest chain on which finality moves on from [trusted], in state [s], to the
    state [t], by votes that are valid, sufficient and included in time; the finalized block is at
    [slot]; the voters have not changed and no exits have appeared since the trusted state; the sizes
    fit the platforms. *)
Record honest_step (X : Externals) (bits : N) (cs : ChainSpec) (pk_deserialize : bytes -> option PublicKey)
       (cfg : Config) (n : Node) (trusted : Checkpoint) (s t : ConsensusState) (slot : Slot)
       (e : Epoch) (us : list ConsensusState) (ls : list Link) (bs : list Block) (st : HState)
       (active : validators) (h : Header) : Prop := {
  hn_next : next_finality cs (nd_chain n) trusted e s us t ls;
  hn_window : vote_window cs (nd_chain n) ls bs;
  hn_search : e <= epoch trusted + N.of_nat (nd_fuel n) /\ (length us < nd_fuel n)%nat /\
              (e + 1 + N.of_nat (nd_fuel n)) * slots_per_epoch cs < 2 ^ 64;
  hn_votes : Forall (fun l => FFG.u64 (epoch (target l)) /\ within_bounds cfg cs trusted l /\ votes_for l (included bs) <> [] /\
               link_evidence X cfg (host_reader cs pk_deserialize (nd_states n) (nd_headers n) s (chain_votes ls bs))
                 l (votes_for l (included bs))) ls;
  hn_header : nd_headers n (root (finalized t)) = Ok (Some h) /\
              mroot (sha256 X) (header_tree (sha256 X) h) = root (finalized t) /\ hd_slot h = slot;
  hn_trusted : checkpoint_state X cs (nd_states n) trusted = Ok st /\ hs_supported st = true /\
               nd_blocks n (hd_slot (hs_header st)) = Ok (Some (boundary_block X st));
  hn_data : sound_data X cs pk_deserialize (nd_headers n) trusted st [root (finalized t)];
  hn_active : rd_active_validators (host_reader cs pk_deserialize (nd_states n) (nd_headers n) s (chain_votes ls bs))
                (epoch trusted) = Ok active;
  hn_steady : steady_chain cs (nd_states n) trusted st (chain_votes ls bs);
  hn_exits : forall e st', In e (target_epochs (chain_votes ls bs)) -> nd_states n (start_slot cs e) = Ok st' ->
     exit_changes (st_validators (hs_state st')) (st_validators (hs_state st)) [];
  hn_epochs : epoch (current_justified s) + 1 + max_seed_lookahead cs < 2 ^ 64 /\ 1 <= epoch trusted /\
              epoch trusted + 1 + max_seed_lookahead cs < 2 ^ 64;
  hn_fits : registry_fits X cs (st_validators (hs_state st)) (target_epochs (chain_votes ls bs)) /\
            registry_fits (on_platform X bits) cs (st_validators (hs_state st)) (target_epochs (chain_votes ls bs)) /\
            balances_fit cs (st_validators (hs_state st)) }.
Definition honest_node X bits cs pk_deserialize cfg n trusted s t slot : Prop :=
  exists e us ls bs st active h, honest_step X bits cs pk_deserialize cfg n trusted s t slot e us ls bs st active h.

(** Successive looks at the node: each shows either that the chain has not finalized anything after
    the trusted epoch, or the next step; the steps are listed. *)
Inductive watches X bits cs pk_deserialize cfg
  : list Node -> Checkpoint -> list (ConsensusState * ConsensusState * Slot) -> Prop :=
| watch_end : forall trusted, watches X bits cs pk_deserialize cfg [] trusted []
| watch_wait : forall n ns trusted fin steps, nd_finalized n = Ok fin -> fin <= epoch trusted -> epoch trusted < 2 ^ 64 - 1 ->
    watches X bits cs pk_deserialize cfg ns trusted steps ->
    watches X bits cs pk_deserialize cfg (n :: ns) trusted steps
| watch_step : forall n ns trusted fin s t slot steps, nd_finalized n = Ok fin -> epoch trusted < fin ->
    honest_node X bits cs pk_deserialize cfg n trusted s t slot ->
    watches X bits cs pk_deserialize cfg ns (finalized t) steps ->
    watches X bits cs pk_deserialize cfg (n :: ns) trusted ((s, t, slot) :: steps).

(** Each transition starts where the one before ended. *)
Fixpoint linked (steps : list (ConsensusState * ConsensusState * Slot)) : Prop :=
  match steps with
  | (_, t, _) :: (((s', _, _) :: _) as r) => s' = t /\ linked r
  | _ => True
  end.
(** In every epoch the chain finalizes only earlier epochs. *)
Definition finalizes_past (cs : ChainSpec) (ch : Chain) : Prop :=
  forall e st, state_at cs ch e st -> epoch (finalized st) < e.

(** Successive looks at the node from state [st], each showing the next step, for the host's own
    platform and the guest's; [ts] are the states reached. *)
Inductive follows X bits cs pk_deserialize cfg : list Node -> ConsensusState -> list ConsensusState -> Prop :=
| follow_end : forall st, follows X bits cs pk_deserialize cfg [] st []
| follow_step : forall n ns st s t slot ts,
    honest_node X (usize_bits X) cs pk_deserialize cfg n (finalized st) s t slot ->
    honest_node X bits cs pk_deserialize cfg n (finalized st) s t slot ->
    FFG.wf_state s -> FFG.wf_state t ->
    follows X bits cs pk_deserialize cfg ns t ts ->
    follows X bits cs pk_deserialize cfg (n :: ns) st (t :: ts).
(** The log that says that every step went well. *)
Fixpoint ok_log (st : ConsensusState) (ts : list ConsensusState) : list SyncLine :=
  match ts with
  | [] => []
  | t :: r => mkSyncLine st t SyncOk :: ok_log t r
  end.

(** ** Crashes *)
(** The disk after the program died somewhere in [ops]: some operations are complete, and the next
    write may have stored only the first bytes. *)
Inductive crashed : disk -> list disk_op -> disk -> Prop :=
| crash_here : forall d ops, crashed d ops d
| crash_torn : forall d f b k ops, crashed d (Append f b :: ops) (apply_op d (Append f (firstn k b)))
| crash_later : forall d op ops d', crashed (apply_op d op) ops d' -> crashed d (op :: ops) d'.
