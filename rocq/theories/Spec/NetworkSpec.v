(** The public parameters of the two networks, for the statements of C65. *)
From Coq Require Import List NArith.
From Coq.Init Require Import Byte.
From Verif.Model Require Import Base Types Networks.
Import ListNotations.
Open Scope N_scope.

(** First epochs of the Electra and Fulu forks, their fork versions, and the share of the active
    balance (in percent) that must have voted. *)
Definition electra_epoch (n : Network) : N := match n with Mainnet => 364032 | Sepolia => 222464 end.
Definition fulu_epoch (n : Network) : N := match n with Mainnet => 411392 | Sepolia => 272640 end.
Definition electra_version (n : Network) : bytes :=
  match n with Mainnet => [x05; x00; x00; x00] | Sepolia => [x90; x00; x00; x74] end.
Definition fulu_version (n : Network) : bytes :=
  match n with Mainnet => [x06; x00; x00; x00] | Sepolia => [x90; x00; x00; x75] end.
Definition percent (n : Network) : N := match n with Mainnet => 85 | Sepolia => 70 end.
