(** What the host does in parallel, with the order of events as a parameter: concurrent requests to the
    beacon node, rayon's parallel iterators, and the iteration order of hash sets. Model/HostChain.v,
    HostInput.v and Builder.v have the sequential versions. *)
From Coq Require Import List NArith Bool.
From Verif.Spec Require Import Merkle Beacon.
From Verif.Model Require Import Base Types ConsensusState Multiproof Builder GuestReader Verify HostChain HostInput.
Import ListNotations.
Open Scope N_scope.

(** ** futures-util 0.3.31, [try_join_all] (external, written out from its documentation and source)
    One element of the schedule is one poll of the joined future: the answers, by position of the
    request, that are there and were not there before, in the order in which they arrived. *)
Definition arrivals (E A : Type) := list (nat * outcome E A).
Section Join.
  Context {E A : Type}.
  Fixpoint arrived (rd : arrivals E A) (i : nat) : option (outcome E A) :=
    match rd with
    | [] => None
    | (j, r) :: rest => if Nat.eqb i j then Some r else arrived rest i
    end.
  (** Up to 30 requests: every poll goes through the pending requests in order and stops at the first
      one that has failed. *)
  Fixpoint poll_each (rd : arrivals E A) (i : nat) (fs : list (option A)) : outcome E (list (option A)) :=
    match fs with
    | [] => Ok []
    | Some a :: r => r' <- poll_each rd (S i) r ;; Ok (Some a :: r')
    | None :: r =>
        match arrived rd i with
        | None => r' <- poll_each rd (S i) r ;; Ok (None :: r')
        | Some (Ok a) => r' <- poll_each rd (S i) r ;; Ok (Some a :: r')
        | Some (Err e) => Err e
        | Some Panic => Panic
        end
    end.
  Fixpoint all_done (fs : list (option A)) : option (list A) :=
    match fs with
    | [] => Some []
    | Some a :: r => match all_done r with Some l => Some (a :: l) | None => None end
    | None :: _ => None
    end.
  (** [None]: still waiting. *)
  Fixpoint join_small (sched : list (arrivals E A)) (fs : list (option A)) : option (outcome E (list A)) :=
    match sched with
    | [] => None
    | rd :: rest =>
        match poll_each rd 0 fs with
        | Ok fs' => match all_done fs' with Some l => Some (Ok l) | None => join_small rest fs' end
        | Err e => Some (Err e)
        | Panic => Some Panic
        end
    end.
  (** More requests ([FuturesOrdered] and [try_collect]): answers are kept as they arrive and given out
      in the order of the requests, until one of them is an error. *)
  Fixpoint keep (qs : list (option (outcome E A))) (i : nat) (r : outcome E A) : list (option (outcome E A)) :=
    match qs, i with
    | [], _ => []
    | None :: q, O => Some r :: q
    | Some r0 :: q, O => Some r0 :: q
    | x :: q, S j => x :: keep q j r
    end.
  Fixpoint give_out (qs : list (option (outcome E A))) : option (outcome E (list A)) :=
    match qs with
    | [] => Some (Ok [])
    | None :: _ => None
    | Some (Ok a) :: q => match give_out q with Some (Ok l) => Some (Ok (a :: l)) | x => x end
    | Some (Err e) :: _ => Some (Err e)
    | Some Panic :: _ => Some Panic
    end.
  Fixpoint join_events (evs : arrivals E A) (qs : list (option (outcome E A))) : option (outcome E (list A)) :=
    match give_out qs with
    | Some r => Some r
    | None =>
        match evs with
        | [] => None
        | (_, Panic) :: _ => Some Panic
        | (i, r) :: rest => join_events rest (keep qs i r)
        end
    end.
  Definition try_join_all (n : nat) (sched : list (arrivals E A)) : option (outcome E (list A)) :=
    if Nat.leb n 30 then join_small sched (repeat None n)
    else join_events (concat sched) (repeat None n).
End Join.

(** host_input_reader.rs:287-337 [collect_attestations_for_links], with the requests of line 305-308 in
    flight at the same time. [sched] says when which answer arrives. *)
Definition collect_concurrently (cs : ChainSpec) (sched : list (arrivals N (option Block))) (links : list Link)
  : option (outcome HostError (list Attestation)) :=
  match links with
  | [] => Some (Ok [])
  | l :: r =>
      let start := sat_mul (min_target l r) (slots_per_epoch cs) in
      let stop := sat_mul (sat_add (max_target l r) 1) (slots_per_epoch cs) in
      match try_join_all (length (epoch_range start stop)) sched with
      | None => None
      | Some b => Some
          (blocks <- map_err HOther b ;;
           m <- fold_outcome index_block blocks [] ;;
           Ok (assemble m links))
      end
  end.
(** host_input_reader.rs:82-118 [HostInputReader::new]. *)
Definition host_new_concurrently (cs : ChainSpec) (ch : Chain) (sched : list (arrivals N (option Block)))
           (trusted : Checkpoint) (fuel : nat) : option (outcome HostError (ConsensusState * list Attestation)) :=
  match find_finalization_epoch cs ch trusted fuel with
  | None => None
  | Some (Err x) => Some (Err x)
  | Some Panic => Some Panic
  | Some (Ok e) =>
      match get_justifications_until_new_finality cs ch e fuel with
      | None => None
      | Some (Err x) => Some (Err x)
      | Some Panic => Some Panic
      | Some (Ok (s, _, links)) =>
          if checkpoint_eqb (finalized s) trusted
          then match collect_concurrently cs sched links with
               | None => None
               | Some r => Some (atts <- r ;; Ok (s, atts))
               end
          else Some Panic
      end
  end.

(** ** rayon 1.10 (external, written out from its documentation and source)
    [par_iter().filter(sel).map(f).collect::<Result<Vec<_>, _>>()]: the list is cut into pieces, each
    worked on in order by one worker; the first error stored wins, and raises a flag at which workers
    stop before their next item. *)
Record worker (A B : Type) := mkWorker { w_todo : list A; w_out : list B }.
Arguments mkWorker {A B}. Arguments w_todo {A B}. Arguments w_out {A B}.
Record pool (E A B : Type) := mkPool {
  p_workers : list (worker A B); p_saved : option E; p_full : bool; p_panicked : bool }.
Arguments mkPool {E A B}. Arguments p_workers {E A B}. Arguments p_saved {E A B}. Arguments p_full {E A B}. Arguments p_panicked {E A B}.
Section Rayon.
  Context {E A B : Type}.
  Variable sel : A -> bool.
  Variable f : A -> outcome E B.
  Fixpoint set_worker (ws : list (worker A B)) (i : nat) (w : worker A B) : list (worker A B) :=
    match ws, i with
    | [], _ => []
    | _ :: r, O => w :: r
    | x :: r, S j => x :: set_worker r j w
    end.
  (** Worker [i] takes its next item. [late]: it has looked at the flag before another worker raised
      it. *)
  Definition work (p : pool E A B) (s : nat * bool) : pool E A B :=
    let '(i, late) := s in
    match nth_error (p_workers p) i with
    | Some (mkWorker (a :: r) out) =>
        let put w := set_worker (p_workers p) i w in
        if p_full p && negb late then mkPool (put (mkWorker [] out)) (p_saved p) (p_full p) (p_panicked p)
        else if sel a then
          match f a with
          | Ok b => mkPool (put (mkWorker r (out ++ [b]))) (p_saved p) (p_full p) (p_panicked p)
          | Err e => mkPool (put (mkWorker [] out)) (match p_saved p with Some e0 => Some e0 | None => Some e end) true (p_panicked p)
          | Panic => mkPool (put (mkWorker [] out)) (p_saved p) (p_full p) true
          end
        else mkPool (put (mkWorker r out)) (p_saved p) (p_full p) (p_panicked p)
    | _ => p
    end.
  (** [None]: not finished. *)
  Definition collected (p : pool E A B) : option (outcome E (list B)) :=
    if forallb (fun w => match w_todo w with [] => true | _ => false end) (p_workers p)
    then Some (if p_panicked p then Panic
               else match p_saved p with Some e => Err e | None => Ok (concat (map w_out (p_workers p))) end)
    else None.
  Definition start_pool (pieces : list (list A)) : pool E A B :=
    mkPool (map (fun l => mkWorker l []) pieces) None false false.
  Definition par_collect (pieces : list (list A)) (sched : list (nat * bool)) : option (outcome E (list B)) :=
    collected (fold_left work sched (start_pool pieces)).
End Rayon.

(** [par_iter().map(f).reduce(|| id, op)]: the list is cut in two again and again; a piece that is not
    cut is folded from the identity. *)
Inductive cuts := Whole | Cut (at_ : nat) (l r : cuts).
Fixpoint par_reduce {A B} (f : A -> B) (id : B) (op : B -> B -> B) (t : cuts) (l : list A) : B :=
  match t with
  | Whole => fold_left (fun b a => op b (f a)) l id
  | Cut k x y => op (par_reduce f id op x (firstn k l)) (par_reduce f id op y (skipn k l))
  end.

(** host_input_reader.rs:184-190: the active validators of a state. *)
Definition par_active_from_state (pk_deserialize : bytes -> option PublicKey) (st : HState) (e : Epoch)
           (pieces : list (list (N * Validator))) (sched : list (nat * bool))
  : option (outcome ReaderError (list (ValidatorIndex * ValidatorInfo))) :=
  par_collect (fun iv => is_active_validator (snd iv) e)
    (fun iv => vi <- validator_info pk_deserialize (snd iv) ;; Ok (fst iv, vi)) pieces sched.

(** builder.rs:124-145: the two sets, as the lists of their members (a member may be listed twice; the
    sets are only iterated over in [hash_order]). *)
Definition index_sets (t : cuts) (indices : list N) : list N * list N :=
  par_reduce (fun i => (get_branch_indices i, get_path_indices i)) ([], [])
    (fun a b => (fst a ++ fst b, snd a ++ snd b)) t indices.
(** builder.rs:146-148: an order in which [HashSet::difference] may list its members. *)
Definition hash_order (sets : list N * list N) (order : list N) : Prop :=
  NoDup order /\ forall x, In x order <-> In x (fst sets) /\ ~ In x (snd sets).
(** builder.rs:150-157. *)
Definition sorted_indices (order indices : list N) : list (N * bool) :=
  sort_lex (map (fun a => (a, false)) order ++ map (fun a => (a, true)) indices).
(** builder.rs:78-121 [build]. *)
Definition par_build {E} (node_at : N -> outcome E bytes) (order indices : list N)
           (pieces : list (list N)) (sched : list (nat * bool)) : option (outcome E Multiproof) :=
  let im := sorted_indices order indices in
  match par_collect (fun _ => true) node_at pieces sched with
  | None => None
  | Some r => Some
      (nodes <- r ;;
       let d := compute_proof_descriptor (map fst im) in
       md <- calculate_max_stack_depth d ;;
       Ok (mkMultiproof (concat nodes) (map snd im) d md))
  end.
