(** host/src/bin/gen_gindices.rs: the text of the file that the program writes, and the writing of it. The text
    of a function is that of [prettyplease] (external), as in the file that is checked in; that file is here
    byte for byte. What is emitted, without the text, is in Model/GenGindices.v. *)
From Coq Require Import String List NArith.
From Coq.Init Require Import Byte.
From Verif.Model Require Import Base HostStore GenGindices.
From Verif.Spec Require Import Beacon.
Import ListNotations.
Open Scope list_scope.
Open Scope N_scope.

(** core/src/guest_gindices.rs:1-120 *)
Definition checked_in_source : string :=
"// Copyright 2026 Boundless Foundation, Inc.
//
// Licensed under the Apache License, Version 2.0 (the ""License"");
// you may not use this file except in compliance with the License.
// You may obtain a copy of the License at
//
//     http://www.apache.org/licenses/LICENSE-2.0
//
// Unless required by applicable law or agreed to in writing, software
// distributed under the License is distributed on an ""AS IS"" BASIS,
// WITHOUT WARRANTIES OR CONDITIONS OF ANY KIND, either express or implied.
// See the License for the specific language governing permissions and
// limitations under the License.

// This file is generated by `gen_gindices.rs`.

/// Returns the gindex of slot from BeaconState
#[inline(always)]
pub(crate) const fn slot_gindex() -> u64 {
    66u64
}
/// Returns the gindex of finalized_checkpoint_epoch from BeaconState
#[inline(always)]
pub(crate) const fn finalized_checkpoint_epoch_gindex() -> u64 {
    168u64
}
/// Returns the gindex of genesis_validators_root from BeaconState
#[inline(always)]
pub(crate) const fn genesis_validators_root_gindex() -> u64 {
    65u64
}
/// Returns the gindex of fork_previous_version from BeaconState
#[inline(always)]
pub(crate) const fn fork_previous_version_gindex() -> u64 {
    268u64
}
/// Returns the gindex of fork_current_version from BeaconState
#[inline(always)]
pub(crate) const fn fork_current_version_gindex() -> u64 {
    269u64
}
/// Returns the gindex of fork_epoch from BeaconState
#[inline(always)]
pub(crate) const fn fork_epoch_gindex() -> u64 {
    270u64
}
/// Returns the gindex of validators from BeaconState
#[inline(always)]
pub(crate) const fn validators_gindex() -> u64 {
    75u64
}
/// Returns the gindex of earliest_exit_epoch from BeaconState
#[inline(always)]
pub(crate) const fn earliest_exit_epoch_gindex() -> u64 {
    95u64
}
/// Returns the gindex of earliest_consolidation_epoch from BeaconState
#[inline(always)]
pub(crate) const fn earliest_consolidation_epoch_gindex() -> u64 {
    97u64
}
/// Returns the gindex of state_root from BeaconBlock
#[inline(always)]
pub(crate) const fn state_root_gindex() -> u64 {
    11u64
}
/// Returns the gindex of slot from BeaconBlock
#[inline(always)]
pub(crate) const fn block_slot_gindex() -> u64 {
    8u64
}
/// Returns the gindex of public_key_0 from Validator i
#[inline(always)]
pub(crate) const fn public_key_0_gindex(i: crate::ValidatorIndex) -> u64 {
    const CHUNK_OFFSET: u64 = 16u64 / 8u64;
    const WITHIN_CHUNK: u64 = 16u64 % 8u64;
    (2199023255552u64 + (i as u64)) * 8u64 * CHUNK_OFFSET + WITHIN_CHUNK
}
/// Returns the gindex of public_key_1 from Validator i
#[inline(always)]
pub(crate) const fn public_key_1_gindex(i: crate::ValidatorIndex) -> u64 {
    const CHUNK_OFFSET: u64 = 17u64 / 8u64;
    const WITHIN_CHUNK: u64 = 17u64 % 8u64;
    (2199023255552u64 + (i as u64)) * 8u64 * CHUNK_OFFSET + WITHIN_CHUNK
}
/// Returns the gindex of effective_balance from Validator i
#[inline(always)]
pub(crate) const fn effective_balance_gindex(i: crate::ValidatorIndex) -> u64 {
    const CHUNK_OFFSET: u64 = 10u64 / 8u64;
    const WITHIN_CHUNK: u64 = 10u64 % 8u64;
    (2199023255552u64 + (i as u64)) * 8u64 * CHUNK_OFFSET + WITHIN_CHUNK
}
/// Returns the gindex of activation_eligibility_epoch from Validator i
#[inline(always)]
pub(crate) const fn activation_eligibility_epoch_gindex(i: crate::ValidatorIndex) -> u64 {
    const CHUNK_OFFSET: u64 = 12u64 / 8u64;
    const WITHIN_CHUNK: u64 = 12u64 % 8u64;
    (2199023255552u64 + (i as u64)) * 8u64 * CHUNK_OFFSET + WITHIN_CHUNK
}
/// Returns the gindex of activation_epoch from Validator i
#[inline(always)]
pub(crate) const fn activation_epoch_gindex(i: crate::ValidatorIndex) -> u64 {
    const CHUNK_OFFSET: u64 = 13u64 / 8u64;
    const WITHIN_CHUNK: u64 = 13u64 % 8u64;
    (2199023255552u64 + (i as u64)) * 8u64 * CHUNK_OFFSET + WITHIN_CHUNK
}
/// Returns the gindex of exit_epoch from Validator i
#[inline(always)]
pub(crate) const fn exit_epoch_gindex(i: crate::ValidatorIndex) -> u64 {
    const CHUNK_OFFSET: u64 = 14u64 / 8u64;
    const WITHIN_CHUNK: u64 = 14u64 % 8u64;
    (2199023255552u64 + (i as u64)) * 8u64 * CHUNK_OFFSET + WITHIN_CHUNK
}
/// Returns the gindex of slashed from Validator i
#[inline(always)]
pub(crate) const fn slashed_gindex(i: crate::ValidatorIndex) -> u64 {
    const CHUNK_OFFSET: u64 = 11u64 / 8u64;
    const WITHIN_CHUNK: u64 = 11u64 % 8u64;
    (2199023255552u64 + (i as u64)) * 8u64 * CHUNK_OFFSET + WITHIN_CHUNK
}
".
Definition checked_in : bytes := list_byte_of_string checked_in_source.
(** gen_gindices.rs:26-41 *)
Definition preamble_source : string :=
"// Copyright 2026 Boundless Foundation, Inc.
//
// Licensed under the Apache License, Version 2.0 (the ""License"");
// you may not use this file except in compliance with the License.
// You may obtain a copy of the License at
//
//     http://www.apache.org/licenses/LICENSE-2.0
//
// Unless required by applicable law or agreed to in writing, software
// distributed under the License is distributed on an ""AS IS"" BASIS,
// WITHOUT WARRANTIES OR CONDITIONS OF ANY KIND, either express or implied.
// See the License for the specific language governing permissions and
// limitations under the License.

// This file is generated by `gen_gindices.rs`.
".
Definition preamble : bytes := list_byte_of_string preamble_source.

(** A function with its comment, before it is printed. *)
Inductive decl :=
| DFixed (name root : string) (value : N)                                          (* :72-91 *)
| DValidator (name : string) (base chunks value : N).                              (* :123-140 *)
Definition emitted (d : decl) : Emitted :=
  match d with
  | DFixed n _ v => ((n ++ "_gindex")%string, fun _ : N => v)
  | DValidator n base chunks v => ((n ++ "_gindex")%string, indexed_body base chunks v)
  end.
(** The lines of a function. *)
Definition t (s : string) : bytes := list_byte_of_string s.
Definition u64_literal (n : N) : bytes := decimal n ++ t "u64".
Definition lines_of_decl (d : decl) : list bytes :=
  match d with
  | DFixed n root v =>
      [t "/// Returns the gindex of " ++ t n ++ t " from " ++ t root;
       t "#[inline(always)]";
       t "pub(crate) const fn " ++ t n ++ t "_gindex() -> u64 {";
       t "    " ++ u64_literal v;
       t "}"]
  | DValidator n base chunks v =>
      [t "/// Returns the gindex of " ++ t n ++ t " from Validator i";
       t "#[inline(always)]";
       t "pub(crate) const fn " ++ t n ++ t "_gindex(i: crate::ValidatorIndex) -> u64 {";
       t "    const CHUNK_OFFSET: u64 = " ++ u64_literal v ++ t " / " ++ u64_literal chunks ++ t ";";
       t "    const WITHIN_CHUNK: u64 = " ++ u64_literal v ++ t " % " ++ u64_literal chunks ++ t ";";
       t "    (" ++ u64_literal base ++ t " + (i as u64)) * " ++ u64_literal chunks ++ t " * CHUNK_OFFSET + WITHIN_CHUNK";
       t "}"]
  end.
Definition unlines (ls : list bytes) : bytes := concat (map (fun l => l ++ [x0a]) ls).
Definition text_of (ds : list decl) : bytes := concat (map (fun d => unlines (lines_of_decl d)) ds).
(** :43-66 and :93-159: the functions in order; a path that the type does not have panics. *)
Definition declarations {E} (state : ssz_type) : outcome E (list decl) :=
  s <- gen_each state beacon_paths ;;
  b <- gen_each T_header block_paths ;;
  base <- expect (generalized_index (TList T_validator (2 ^ 40)) [Index 0] 1) ;;
  g <- gen_each T_validator validator_paths ;;
  Ok (map (fun nv => DFixed (fst nv) "BeaconState" (snd nv)) s ++ map (fun nv => DFixed (fst nv) "BeaconBlock" (snd nv)) b
      ++ map (fun nv => DValidator (fst nv) base (chunk_count T_validator) (snd nv)) g).
(** :67 [format!]. *)
Definition formatted (ds : list decl) : bytes := preamble ++ [x0a] ++ text_of ds.
(** What the file system does: the file cannot be opened; [write] fails; or it takes that many bytes. *)
Inductive fs := NoOpen | NoWrite | Wrote (n : nat).
(** :43-70 [main], from the file before to the file behind. The file is emptied when it is opened, before
    anything is generated; [write] is called once and the number of bytes it took is dropped. *)
Definition gen_main (state : ssz_type) (f : fs) (before : option bytes) : option bytes * outcome unit unit :=
  match f with
  | NoOpen => (before, Panic)
  | _ => match declarations (E := unit) state, f with
         | Ok ds, Wrote n => (Some (firstn n (formatted ds)), Ok tt)
         | _, _ => (Some [], Panic)
         end
  end.
