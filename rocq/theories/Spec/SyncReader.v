(** A reader of the log of [sync], for C95: what somebody who has only the file can tell. *)
From Coq Require Import String List NArith Bool.
From Coq.Init Require Import Byte.
From Verif.Model Require Import Base Types ConsensusState ConfigYaml StateJson.
From Verif.Spec Require Import StateJsonSpec GenSource.
Import ListNotations.
Open Scope list_scope.
Open Scope N_scope.

(** What a line says: the step and what came of it. *)
Inductive verdict := Confirmed | Differs (expected got : ConsensusState) | Failed (text : bytes).
Record entry := mkEntry { e_from : ConsensusState; e_to : ConsensusState; e_verdict : verdict }.

Definition hex_letter (b : byte) : bool := is_digit b || between 97 102 b.
Definition read_checkpoint (l : bytes) : option (Checkpoint * bytes) :=
  x <~? after (s "Checkpoint(Checkpoint { epoch: Epoch(") l ;;
  let '(d, y) := span_of is_digit x in
  z <~? after (s "), root: 0x") y ;;
  let '(h, w) := span_of hex_letter z in
  r <~? unhex_digits h ;; v <~? after (s " })") w ;;
  match d with [] => None | _ => Some (mkCheckpoint (decimal_value d) r, v) end.
Definition read_state (l : bytes) : option (ConsensusState * bytes) :=
  x <~? after (s "ConsensusState { current_justified_checkpoint: ") l ;;
  j <~? read_checkpoint x ;;
  y <~? after (s ", finalized_checkpoint: ") (snd j) ;;
  f <~? read_checkpoint y ;;
  z <~? after (s " }") (snd f) ;; Some (mkCS (fst j) (fst f), z).
Definition read_verdict (l : bytes) : option verdict :=
  if bytes_eqb l (s "Ok") then Some Confirmed
  else match after (s "New state mismatch: expected ") l with
       | Some x => a <~? read_state x ;; y <~? after (s ", got ") (snd a) ;; b <~? read_state y ;;
                   match snd b with [] => Some (Differs (fst a) (fst b)) | _ => None end
       | None => option_map Failed (after (s "Verification failed: ") l)
       end.
Definition read_entry (l : bytes) : option entry :=
  a <~? read_state l ;; x <~? after (s " -> ") (snd a) ;; b <~? read_state x ;;
  match snd b with
  | c :: y => if byte_eqb c x09 then option_map (mkEntry (fst a) (fst b)) (read_verdict y) else None
  | [] => None
  end.
Fixpoint read_entries (ls : list bytes) : option (list entry) :=
  match ls with
  | [] => Some []
  | l :: r => e <~? read_entry l ;; es <~? read_entries r ;; Some (e :: es)
  end.
(** The lines that end; what is behind the last end of line is not a line yet. *)
Definition read_log (t : bytes) : option (list entry) := let '(h, r) := lines t in read_entries (removelast (h :: r)).
