(** host/src/beacon_client.rs:102-200: the middlewares of the client, their order, and the rate limit in time.
    The limiter of the crate governor is external and written out from its documentation (the generic cell rate
    algorithm); a request that has to wait asks again at times that are up to the scheduler. What the node answers is in
    Model/BeaconClient.v; here only when requests reach it. Times are in nanoseconds; 64-bit overflow of times (after
    centuries) is not modelled. *)
From Coq Require Import List NArith Bool.
From Verif.Model Require Import Base.
From Verif.Model Require Args.
Import ListNotations.
Open Scope N_scope.

(** ** The limiter (governor, external) *)
(** [Quota::per_second]: one request more every second / n, in whole nanoseconds, and n at once. *)
Definition interval (n : N) : N := 1000000000 / n.
Definition burst_time (n : N) : N := interval n * n.
(** [check]: the limiter holds the theoretical arrival time of the next request. *)
Definition check (t tau : N) (tat : option N) (now : N) : option N :=
  let a := match tat with Some a => a | None => now + t end in
  if now <? a - tau then None else Some (N.max a now + t).

(** ** The client *)
Inductive middleware := Caching | Limiting (n : N).
(** :143-148 the fields of [BeaconClientBuilder] that matter here. *)
Record builder := mkBuilder { b_cache : bool; b_limit : option N }.
Inductive call := WithCache | WithRateLimit (n : N).
(** :116-125 [RateLimitMiddleware::new] *)
Definition limiting {E} (n : N) : outcome E N := if n =? 0 then Panic else Ok n.
(** :161-184 [with_cache], [with_rate_limit] *)
Definition apply {E} (b : builder) (c : call) : outcome E builder :=
  match c with
  | WithCache => Ok (mkBuilder true (b_limit b))
  | WithRateLimit n =>
      if n =? 0 then Ok (mkBuilder (b_cache b) None)
      else m <- limiting n ;; Ok (mkBuilder (b_cache b) (Some m))
  end.
(** :150-159 [new] *)
Definition new : builder := mkBuilder false None.
Fixpoint applied {E} (b : builder) (cs : list call) : outcome E builder :=
  match cs with [] => Ok b | c :: cs' => b' <- apply b c ;; applied b' cs' end.
(** :186-199 [build]: the first in the list sees the request first. *)
Definition build (b : builder) : list middleware :=
  (if b_cache b then [Caching] else []) ++ match b_limit b with Some n => [Limiting n] | None => [] end.

(** host/src/bin/zkasper_cli.rs:174-176: the calls that the program makes. *)
Definition program_calls (a : Args.Args) : list call := [WithRateLimit (Args.a_rps a)].

(** ** Requests in time *)
(** A request: its number and its URL. *)
Definition request : Type := (nat * bytes)%type.
Record client_state := mkState {
  arrival : option N;                              (* the limiter *)
  waiting : list (request * (N * list middleware)); (* in [until_ready], with the rate and what comes behind *)
  sent : list (N * request);                       (* reached the node, newest first *)
  served : list request;                           (* answered from the cache *)
  kept : list bytes;                               (* URLs in the cache *)
  asked : nat                                      (* how many requests there were *)
}.
Definition start : client_state := mkState None [] [] [] [] 0.
(** What happens, when: the program makes a request, a waiting request tries, the answer to a request
    comes and the cache keeps it. *)
Inductive event := Ask (u : bytes) | Try (k : nat) | Keep (u : bytes).
(** A request at the rest of the middlewares. :128-140 [handle] waits and goes on. *)
Fixpoint enter (ms : list middleware) (now : N) (r : request) (s : client_state) : client_state :=
  match ms with
  | [] => mkState (arrival s) (waiting s) ((now, r) :: sent s) (served s) (kept s) (asked s)
  | Caching :: ms' =>
      if existsb (bytes_eqb (snd r)) (kept s)
      then mkState (arrival s) (waiting s) (sent s) (r :: served s) (kept s) (asked s)
      else enter ms' now r s
  | Limiting n :: ms' => mkState (arrival s) (waiting s ++ [(r, (n, ms'))]) (sent s) (served s) (kept s) (asked s)
  end.
(** The waiting request of that number, and the others. *)
Fixpoint pick (k : nat) (l : list (request * (N * list middleware))) :=
  match l with
  | [] => None
  | x :: l' => if Nat.eqb (fst (fst x)) k then Some (x, l')
               else match pick k l' with Some (y, m) => Some (y, x :: m) | None => None end
  end.
Definition step (ms : list middleware) (s : client_state) (e : N * event) : client_state :=
  let '(now, e) := e in
  match e with
  | Ask u => enter ms now (asked s, u) (mkState (arrival s) (waiting s) (sent s) (served s) (kept s) (S (asked s)))
  | Try k =>
      match pick k (waiting s) with
      | None => s
      | Some ((r, (n, ms')), rest) =>
          match check (interval n) (burst_time n) (arrival s) now with
          | None => s
          | Some a => enter ms' now r (mkState (Some a) rest (sent s) (served s) (kept s) (asked s))
          end
      end
  | Keep u => if existsb (fun m => match m with Caching => true | _ => false end) ms
              then mkState (arrival s) (waiting s) (sent s) (served s) (u :: kept s) (asked s) else s
  end.
Definition run (ms : list middleware) (es : list (N * event)) : client_state := fold_left (step ms) es start.
