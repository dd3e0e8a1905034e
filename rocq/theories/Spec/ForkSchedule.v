(** The public fork schedules of the two networks, for C65. *)
From Coq Require Import List NArith.
From Coq.Init Require Import Byte.
From Verif.Model Require Import Base Types Networks.
Import ListNotations.
Open Scope N_scope.

(** Each fork's first epoch and version, from the genesis version to Fulu. *)
Definition schedule (n : Network) : list (Epoch * Version) :=
  match n with
  | Mainnet => [(0, [x00; x00; x00; x00]); (74240, [x01; x00; x00; x00]); (144896, [x02; x00; x00; x00]); (194048, [x03; x00; x00; x00]);
                (269568, [x04; x00; x00; x00]); (364032, [x05; x00; x00; x00]); (411392, [x06; x00; x00; x00])]
  | Sepolia => [(0, [x90; x00; x00; x69]); (50, [x90; x00; x00; x70]); (100, [x90; x00; x00; x71]); (56832, [x90; x00; x00; x72]);
                (132608, [x90; x00; x00; x73]); (222464, [x90; x00; x00; x74]); (272640, [x90; x00; x00; x75])]
  end.
(** The [i]-th entry is in force at [e]: it has started and the next one has not. *)
Definition in_force (n : Network) (i : nat) (start : Epoch) (v : Version) (e : Epoch) : Prop :=
  nth_error (schedule n) i = Some (start, v) /\ start <= e /\
  forall start' v', nth_error (schedule n) (S i) = Some (start', v') -> e < start'.
