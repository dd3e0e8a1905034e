(** C91: the chain spec comes from the text of the configuration file. *)
From Coq Require Import String List Arith NArith ZArith Bool Lia Permutation ZifyBool ZifyN ZifyNat.
From Coq.Init Require Import Byte.
From Verif.Model Require Import Base Types HostStore StateJson Networks ConfigText ConfigYaml.
From Verif.Spec Require Import StateJsonSpec FlatYaml.
From Verif.Proof Require Import BaseLemmas HostStoreP StateJsonP FlatYamlP.
Import ListNotations.
Open Scope list_scope.
Open Scope N_scope.

(** ** Digits *)
Lemma hex_val_sound c n : hex_val c = Some n -> hex_is c n /\ n < 16.
Proof.
  unfold hex_is, hex_val. intros H.
  destruct ((48 <=? Byte.to_N c) && (Byte.to_N c <=? 57)) eqn:E; [injection H as <-; lia|].
  destruct ((97 <=? Byte.to_N c) && (Byte.to_N c <=? 102)) eqn:E1; [injection H as <-; lia|].
  destruct ((65 <=? Byte.to_N c) && (Byte.to_N c <=? 70)) eqn:E2; [injection H as <-; lia|discriminate].
Qed.
Lemma unhex_sound : forall b s, unhex_digits s = Some b -> hex_digits b s.
Proof.
  induction b as [|x b IH]; intros [|h [|l s]]; cbn [unhex_digits hex_digits]; try discriminate; auto.
  - destruct (hex_val h), (hex_val l), (unhex_digits s); discriminate.
  - destruct (hex_val h) as [p|] eqn:E1; [|discriminate]. destruct (hex_val l) as [q|] eqn:E2; [|discriminate].
    destruct (unhex_digits s) as [t|] eqn:E3; [|discriminate]. remember (16 * p + q) as m eqn:Em. intros [= <- <-].
    apply hex_val_sound in E1 as [H1 L1], E2 as [H2 L2].
    rewrite byte_of_N_to_N, (N.mod_small m 256) by lia. rewrite Em.
    replace ((16 * p + q) / 16) with p by (apply (N.div_unique _ _ _ q); lia).
    replace ((16 * p + q) mod 16) with q by (apply (N.mod_unique _ _ p); lia). auto.
Qed.

(** ** Fields *)
Lemma filter_silent (es : list entry) n : silent es n -> filter (fun e => bytes_eqb (fst e) n) es = [].
Proof.
  unfold silent. induction es as [|[m s] es IH]; [reflexivity|]. cbn [map fst In filter]. intros H.
  destruct (bytes_eqb m n) eqn:E; [apply bytes_eqb_eq in E; tauto|]. apply IH. tauto.
Qed.
Lemma eqb_refl (n : bytes) : bytes_eqb n n = true. Proof. now apply bytes_eqb_eq. Qed.
Lemma field_says {A} es n (d : option A) r s : says es n s -> field es n d r = r s.
Proof.
  intros (a & b & -> & Ha & Hb). unfold field. rewrite filter_app. cbn [filter fst]. rewrite eqb_refl.
  now rewrite (filter_silent a n Ha), (filter_silent b n Hb).
Qed.
Lemma field_silent {A} es n (d : option A) r : silent es n -> field es n d r = d.
Proof. intros H. unfold field. now rewrite filter_silent. Qed.
Lemma field_repeated {A} es n (d : option A) r : repeated es n -> field es n d r = None.
Proof.
  intros (a & s & b & s' & c & ->). unfold field. rewrite filter_app. cbn [filter fst]. rewrite eqb_refl, filter_app. cbn [filter fst]. rewrite eqb_refl.
  match goal with |- context [filter ?p a] => generalize (filter p a) (filter p b) (filter p c) end. intros x y z.
  destruct x as [|x0 [|x1 x]], y as [|y0 y]; cbn [app]; try destruct x0; reflexivity.
Qed.
Lemma in_first (es : list entry) n : In n (map fst es) -> exists a s b, es = a ++ (n, s) :: b /\ ~ In n (map fst a).
Proof.
  induction es as [|[m s] es IH]; [intros []|]. cbn [map fst In]. intros H. destruct (bytes_eqb m n) eqn:E.
  - apply bytes_eqb_eq in E as ->. exists [], s, es. auto.
  - assert (Hm : m <> n) by (intros X; apply bytes_eqb_eq in X; congruence).
    destruct H as [H|H]; [contradiction|]. destruct (IH H) as (a & s' & b & -> & Ha). exists ((m, s) :: a), s', b.
    split; [reflexivity|]. cbn. tauto.
Qed.
Lemma bytes_in (n : bytes) l : {In n l} + {~ In n l}.
Proof. apply in_dec. intros a b. destruct (bytes_eqb a b) eqn:E; [left; now apply bytes_eqb_eq|right; intros X; apply bytes_eqb_eq in X; congruence]. Qed.
Lemma three_cases es n : silent es n \/ (exists s, says es n s) \/ repeated es n.
Proof.
  destruct (bytes_in n (map fst es)) as [H|H]; [right|now left]. apply in_first in H as (a & s & b & -> & Ha).
  destruct (bytes_in n (map fst b)) as [H|H]; [right|left; exists s, a, b; auto].
  apply in_first in H as (b1 & s' & c & -> & _). exists a, s, b1, s', c. reflexivity.
Qed.
Lemma field_iff {A} es n (d : option A) r x : field es (name n) d r = Some x <-> gives es n d r x.
Proof.
  unfold gives. split.
  - intros H. destruct (three_cases es (name n)) as [S|[[s S]|R]].
    + right. split; [exact S|]. now rewrite field_silent in H.
    + left. exists s. split; [exact S|]. now rewrite (field_says _ _ _ _ _ S) in H.
    + rewrite field_repeated in H by exact R. discriminate.
  - intros [(s & S & H)|[S H]]; [now rewrite (field_says _ _ _ _ _ S)|now rewrite field_silent].
Qed.
Lemma version_iff es f v : read_fork_version es f = Some v <-> version_given es f v.
Proof. unfold read_fork_version, version_given, k. destruct f; apply field_iff. Qed.
Definition dflt (f : ForkName) : option N := if has_default f then Some u64_max else None.
Lemma epoch_field es f : read_fork_epoch es f =
  option_map (fun n => if n =? u64_max then None else Some n) (field es (k (fork_key f ++ "_FORK_EPOCH")) (dflt f) u64_of).
Proof.
  unfold read_fork_epoch, field, dflt. match goal with |- context [filter ?p es] => generalize (filter p es) end. intros [|[m s] [|x l]]; try reflexivity. destruct (has_default f); reflexivity.
Qed.
Lemma epoch_iff es f e : f <> BaseFork -> (read_fork_epoch es f = Some e <-> epoch_given es f e).
Proof.
  intros Hf. rewrite epoch_field.
  assert (G : epoch_given es f e <-> exists n, gives es (fork_name f ++ "_FORK_EPOCH") (dflt f) u64_of n /\ e = (if n =? u64_max then None else Some n))
    by (destruct f; [contradiction|..]; reflexivity).
  rewrite G. setoid_rewrite <- field_iff. change (name (fork_name f ++ "_FORK_EPOCH")) with (k (fork_key f ++ "_FORK_EPOCH")).
  split.
  - destruct (field _ _ _ _) as [n|]; [|discriminate]. cbn [option_map]. intros [= <-]. eauto.
  - intros (n & -> & ->). reflexivity.
Qed.

(** ** The theorems *)
(** Which files are read, and as what. *)
Theorem C91_entries : forall t es, read_text t = Some es <-> file_text es t.
Proof. intros. apply read_text_iff. Qed.
(** The chain spec is the one that the entries describe; when they describe none, the program panics. *)
Lemma spec_described es cs : spec_of es = Some cs -> described es cs.
Proof.
  unfold spec_of. destruct (field es (k "PRESET_BASE") None _) as [p|] eqn:Ep; [|discriminate].
  destruct (read_fork_version es BaseFork) as [v0|] eqn:V0; [|discriminate].
  destruct (read_fork_version es Altair) as [v1|] eqn:V1; [|discriminate].
  destruct (read_fork_epoch es Altair) as [e1|] eqn:E1; [|discriminate].
  destruct (read_fork_version es Bellatrix) as [v2|] eqn:V2; [|discriminate].
  destruct (read_fork_epoch es Bellatrix) as [e2|] eqn:E2; [|discriminate].
  destruct (read_fork_version es Capella) as [v3|] eqn:V3; [|discriminate].
  destruct (read_fork_epoch es Capella) as [e3|] eqn:E3; [|discriminate].
  destruct (read_fork_version es Deneb) as [v4|] eqn:V4; [|discriminate].
  destruct (read_fork_epoch es Deneb) as [e4|] eqn:E4; [|discriminate].
  destruct (read_fork_version es Electra) as [v5|] eqn:V5; [|discriminate].
  destruct (read_fork_epoch es Electra) as [e5|] eqn:E5; [|discriminate].
  destruct (read_fork_version es Fulu) as [v6|] eqn:V6; [|discriminate].
  destruct (read_fork_epoch es Fulu) as [e6|] eqn:E6; [|discriminate].
  destruct (read_fork_version es Gloas) as [v7|] eqn:V7; [|discriminate].
  destruct (read_fork_epoch es Gloas) as [e7|] eqn:E7; [|discriminate].
  destruct (field es (k "MIN_PER_EPOCH_CHURN_LIMIT_ELECTRA") _ _) as [c|] eqn:Ec; [|discriminate].
  destruct (field es (k "CHURN_LIMIT_QUOTIENT") _ _) as [q|] eqn:Eq; [|discriminate].
  destruct (bytes_eqb p (k "mainnet")) eqn:Em; [|discriminate]. apply bytes_eqb_eq in Em as ->. intros [= <-].
  unfold described. cbn [cs_fork_epoch cs_fork_version far_future_epoch min_seed_lookahead max_seed_lookahead shuffle_round_count
    effective_balance_increment min_activation_balance min_per_epoch_churn_limit_electra churn_limit_quotient
    max_committees_per_slot target_committee_size domain_beacon_attester slots_per_epoch epochs_per_historical_vector].
  split; [now apply field_iff|]. split.
  - intros []; [reflexivity|..]; (apply epoch_iff; [discriminate|assumption]).
  - split; [intros []; now apply version_iff|]. split; [now apply field_iff|]. split; [now apply field_iff|]. repeat split.
Qed.
Theorem C91_described : forall t cs, load t = Some (Ok cs) -> exists es, file_text es t /\ described es cs.
Proof.
  intros t cs. unfold load. destruct (read_text t) as [es|] eqn:E; [|discriminate]. cbn [option_map]. intros H.
  exists es. split; [now apply read_text_iff|]. apply spec_described. destruct (spec_of es) as [cs'|]; [now injection H as ->|discriminate].
Qed.
Theorem C91_loads : forall t es cs, file_text es t -> described es cs ->
  exists cs', load t = Some (Ok cs') /\ same_spec cs cs'.
Proof.
  intros t es cs Ht (Hp & He & Hv & Hc & Hq & Hrest). apply read_text_iff in Ht. unfold load. rewrite Ht. cbn [option_map].
  assert (V : forall f, read_fork_version es f = Some (cs_fork_version cs f)) by (intros f; apply version_iff, Hv).
  assert (E : forall f, f <> BaseFork -> read_fork_epoch es f = Some (cs_fork_epoch cs f)) by (intros f Hf; apply epoch_iff; auto).
  apply field_iff in Hp, Hc, Hq. unfold spec_of. change k with name. rewrite Hp. rewrite !V, !E by discriminate.
  change (128 * 10 ^ 9) with 128000000000 in Hc. rewrite Hc, Hq, eqb_refl. eexists. split; [reflexivity|].
  unfold same_spec. cbn [cs_fork_epoch cs_fork_version far_future_epoch min_seed_lookahead max_seed_lookahead shuffle_round_count
    effective_balance_increment min_activation_balance min_per_epoch_churn_limit_electra churn_limit_quotient
    max_committees_per_slot target_committee_size domain_beacon_attester slots_per_epoch epochs_per_historical_vector].
  split; [intros []; auto; exact (He BaseFork)|]. split; [now intros []|].
  destruct Hrest as (R1 & R2 & R3 & R4 & R5 & R6 & R7 & R8 & R9 & R10 & R11). intuition.
Qed.
Theorem C91_refused : forall t es, file_text es t -> (forall cs, ~ described es cs) -> load t = Some Panic.
Proof.
  intros t es Ht H. apply read_text_iff in Ht. unfold load. rewrite Ht. cbn [option_map].
  destruct (spec_of es) as [cs|] eqn:E; [|reflexivity]. apply spec_described in E. now apply H in E.
Qed.
(** In particular: a name that is looked at must not be repeated, and the names without a default must be
    there. *)
Lemma gives_repeated {A} es n (d : option A) r x : repeated es (name n) -> ~ gives es n d r x.
Proof. intros R H. apply field_iff in H. rewrite field_repeated in H by exact R. discriminate. Qed.
Theorem C91_repeated : forall t es n, file_text es t -> In n looked_at -> repeated es n -> load t = Some Panic.
Proof.
  intros t es n Ht Hn R. apply (C91_refused t es Ht). intros cs (Hp & He & Hv & Hc & Hq & _).
  unfold looked_at in Hn. apply in_map_iff in Hn as (m & <- & Hm). apply in_app_iff in Hm as [Hm|Hm].
  - destruct Hm as [<-|[<-|[<-|[]]]]; revert R; [intros R; now apply (gives_repeated _ _ _ _ _ R) in Hp|..];
      intros R; [now apply (gives_repeated _ _ _ _ _ R) in Hc|now apply (gives_repeated _ _ _ _ _ R) in Hq].
  - apply in_app_iff in Hm as [Hm|Hm]; apply in_map_iff in Hm as (f & <- & Hf).
    + apply (gives_repeated _ _ _ _ _ R (Hv f)).
    + specialize (He f). destruct f; [cbn in Hf; intuition discriminate|..]; destruct He as (x & Hx & _);
        now apply (gives_repeated _ _ _ _ _ R) in Hx.
Qed.
Theorem C91_missing : forall t es n, file_text es t ->
  In n ["PRESET_BASE"; "GENESIS_FORK_VERSION"; "ALTAIR_FORK_VERSION"; "ALTAIR_FORK_EPOCH"; "CHURN_LIMIT_QUOTIENT"]%string ->
  silent es (name n) -> load t = Some Panic.
Proof.
  intros t es n Ht Hn S. apply (C91_refused t es Ht). intros cs (Hp & He & Hv & Hc & Hq & _).
  assert (G : forall A (r : scalar -> option A) x, ~ gives es n None r x).
  { intros A r x H. apply field_iff in H. rewrite field_silent in H by exact S. discriminate. }
  destruct Hn as [<-|[<-|[<-|[<-|[<-|[]]]]]].
  - now apply G in Hp.
  - specialize (Hv BaseFork). now apply G in Hv.
  - specialize (Hv Altair). now apply G in Hv.
  - destruct (He Altair) as (x & Hx & _). now apply G in Hx.
  - now apply G in Hq.
Qed.
(** Order, comments, spacing, and entries of other names do not matter. *)
Lemma filter_known es n : In n looked_at ->
  filter (fun e : entry => bytes_eqb (fst e) n) es
  = filter (fun e : entry => bytes_eqb (fst e) n) (filter (fun e : entry => if bytes_in (fst e) looked_at then true else false) es).
Proof.
  intros Hn. induction es as [|[m s] es IH]; [reflexivity|]. cbn [filter fst].
  destruct (bytes_in m looked_at) as [Hm|Hm]; cbn [filter fst]; [now rewrite IH|].
  destruct (bytes_eqb m n) eqn:E; [apply bytes_eqb_eq in E as ->; contradiction|exact IH].
Qed.
Lemma field_layout {A} es es' n (d : option A) r : In n looked_at ->
  Permutation (filter (fun e : entry => if bytes_in (fst e) looked_at then true else false) es)
              (filter (fun e : entry => if bytes_in (fst e) looked_at then true else false) es') ->
  field es n d r = field es' n d r.
Proof.
  intros Hn P. unfold field.
  generalize (filter_known es n Hn) (filter_known es' n Hn). revert P. unfold entry in *. intros P -> ->.
  revert P. match goal with |- Permutation (filter ?p _) _ -> _ => generalize (filter p es) (filter p es') end. intros x y P.
  assert (Q : Permutation (filter (fun e : entry => bytes_eqb (fst e) n) x) (filter (fun e : entry => bytes_eqb (fst e) n) y)).
  { induction P as [|a l l' P IH|a b l|l l' l'' P1 IH1 P2 IH2]; cbn [filter]; auto.
    - destruct (bytes_eqb (fst a) n); auto.
    - destruct (bytes_eqb (fst a) n), (bytes_eqb (fst b) n); auto. constructor.
    - now transitivity (filter (fun e : entry => bytes_eqb (fst e) n) l'). }
  revert Q. unfold entry in *. match goal with |- Permutation (filter ?p _) _ -> _ => generalize (filter p x) (filter p y) end. intros u v Q.
  destruct u as [|a [|b l]].
  - apply Permutation_nil in Q. now rewrite Q.
  - apply Permutation_length_1_inv in Q. now rewrite Q.
  - pose proof (Permutation_length Q) as L. destruct v as [|a' [|b' l']]; try discriminate. destruct a, a'. reflexivity.
Qed.
Theorem C91_layout : forall t t' es es', file_text es t -> file_text es' t' ->
  Permutation (filter (fun e : entry => if bytes_in (fst e) looked_at then true else false) es)
              (filter (fun e : entry => if bytes_in (fst e) looked_at then true else false) es') ->
  load t = load t'.
Proof.
  intros t t' es es' Ht Ht' P. apply read_text_iff in Ht, Ht'. unfold load. rewrite Ht, Ht'. cbn [option_map].
  enough (spec_of es = spec_of es') as -> by reflexivity.
  assert (F : forall A n (d : option A) r, In n looked_at -> field es n d r = field es' n d r) by (intros; now apply field_layout).
  assert (V : forall f, read_fork_version es f = read_fork_version es' f).
  { intros f. unfold read_fork_version. apply F. destruct f; vm_compute; tauto. }
  assert (E : forall f, f <> BaseFork -> read_fork_epoch es f = read_fork_epoch es' f).
  { intros f Hf. unfold read_fork_epoch. apply F. destruct f; [contradiction|..]; vm_compute; tauto. }
  unfold spec_of. rewrite !V, !E by discriminate. rewrite !F by (vm_compute; tauto). reflexivity.
Qed.
(** The files in the repository give the parameters of the two guest programs. *)
Theorem C91_networks : forall n, load (config_text n) = Some (Ok (network_spec n)).
Proof. intros []; vm_compute; reflexivity. Qed.
(** Numbers are written in decimal (among others). *)
Theorem C91_numbers : forall b, is_decimal b ->
  u64_of (Plain b) = (if decimal_value b <? 2 ^ 64 then Some (decimal_value b) else None) /\
  u64_of (Quoted b) = (if decimal_value b <? 2 ^ 64 then Some (decimal_value b) else None).
Proof.
  intros b Hb.
  assert (P : parse_u64 b = if decimal_value b <? 2 ^ 64 then Some (decimal_value b) else None).
  { destruct Hb as [Hn Hd]. unfold parse_u64.
    assert ((match b with x2b :: r => r | _ => b end) = b) as ->.
    { destruct b as [|c r]; auto. inversion Hd; subst. destruct c; auto. cbn in *. lia. }
    destruct b as [|c r]; [congruence|]. rewrite digits_val_fold by assumption. reflexivity. }
  split; [|exact P]. cbn [u64_of]. destruct b as [|z [|p [|d r]]]; try exact P.
  destruct Hb as [_ Hd]. inversion Hd as [|? ? _ Hd']; subst. inversion Hd' as [|? ? Hp _]; subst.
  assert (X : forall q, 57 < Byte.to_N q -> byte_eqb p q = false).
  { intros q Hq. apply not_true_iff_false. intros Y. apply byte_eqb_eq in Y as ->. lia. }
  rewrite !X by (vm_compute; reflexivity). rewrite !andb_false_r. exact P.
Qed.
(** Or, out of quotes, to another base. *)
Lemma radix_app base d c : forall acc, radix_val base acc (d ++ [c]) =
  match radix_val base acc d with Some n => if alnum_val c <? base then Some (base * n + alnum_val c) else None | None => None end.
Proof. induction d as [|x d IH]; intros acc; cbn [app radix_val]; [reflexivity|]. destruct (alnum_val x <? base); auto. Qed.
Lemma hex_alnum c m : hex_is c m -> alnum_val c = m.
Proof.
  unfold hex_is, alnum_val. intros H. destruct (Byte.to_N c <=? 57) eqn:E; [lia|]. destruct (Byte.to_N c <=? 90) eqn:E2; lia.
Qed.
Lemma base_number_val base d n : base_number base d n -> radix_val base 0 d = Some n.
Proof.
  induction 1 as [|d n c m _ IH Hc L]; [reflexivity|]. rewrite radix_app, IH, (hex_alnum _ _ Hc). now rewrite (proj2 (N.ltb_lt _ _)).
Qed.
Theorem C91_bases : forall prefix base d n, In (prefix, base) [("0x"%string, 16); ("0o"%string, 8); ("0b"%string, 2)] ->
  d <> [] -> base_number base d n ->
  u64_of (Plain (name prefix ++ d)) = (if n <? 2 ^ 64 then Some n else None) /\ u64_of (Quoted (name prefix ++ d)) = None.
Proof.
  intros prefix base d n Hp Hd H. destruct d as [|c d]; [contradiction|]. apply base_number_val in H.
  destruct Hp as [[= <- <-]|[[= <- <-]|[[= <- <-]|[]]]]; (split; [|reflexivity]).
  - change (u64_of (Plain (name "0x" ++ c :: d))) with (below64 (radix_val 16 0 (c :: d))). rewrite H. reflexivity.
  - change (u64_of (Plain (name "0o" ++ c :: d))) with (below64 (radix_val 8 0 (c :: d))). rewrite H. reflexivity.
  - change (u64_of (Plain (name "0b" ++ c :: d))) with (below64 (radix_val 2 0 (c :: d))). rewrite H. reflexivity.
Qed.
(** Never a number of more than 64 bits. *)
Theorem C91_numbers_only : forall s n, u64_of s = Some n -> n < 2 ^ 64.
Proof.
  assert (P : forall b n, parse_u64 b = Some n -> n < 2 ^ 64).
  { intros b n. unfold parse_u64. destruct (match b with x2b :: r => r | _ => b end); [discriminate|].
    destruct (digits_val _ _) as [v|]; [|discriminate]. change two64 with (2 ^ 64). destruct (v <? 2 ^ 64) eqn:E; [|discriminate].
    intros [= <-]. now apply N.ltb_lt. }
  assert (B : forall o n, below64 o = Some n -> n < 2 ^ 64).
  { intros [v|] n; [|discriminate]. unfold below64. change two64 with (2 ^ 64). destruct (v <? 2 ^ 64) eqn:E; [|discriminate]. intros [= <-]. now apply N.ltb_lt. }
  intros [b|b] n; [|apply P]. cbn [u64_of]. destruct b as [|z [|p [|d r]]]; try apply P.
  destruct (byte_eqb z x30 && byte_eqb p x78); [apply B|]. destruct (byte_eqb z x30 && byte_eqb p x6f); [apply B|].
  destruct (byte_eqb z x30 && byte_eqb p x62); [apply B|apply P].
Qed.
(** Versions are 0x and eight hexadecimal digits, in quotes or not. *)
Theorem C91_versions : forall s v, version_of s = Some v <-> hex_string v (string_of s) /\ length v = 4%nat.
Proof.
  intros s v. unfold version_of, StateFile.blen. split.
  - destruct (unhex (string_of s)) as [b|] eqn:E; [|discriminate]. destruct (N.of_nat (length b) =? 4) eqn:L; [|discriminate].
    intros [= <-]. split; [|lia]. unfold unhex in E. revert E. destruct (string_of s) as [|a r]; [discriminate|].
    destruct a; try discriminate. destruct r as [|a r]; [discriminate|]. destruct a; try discriminate. intros E.
    exists r. split; [reflexivity|]. now apply unhex_sound.
  - intros [H L]. rewrite (unhex_string _ _ H), L. reflexivity.
Qed.
(** A fork that the file does not have is scheduled by one line; from its epoch on every epoch is of that
    fork, before it nothing changes. *)
Definition gloas_line (e : Epoch) : bytes := name "GLOAS_FORK_EPOCH: " ++ decimal e.
Lemma says_cons es n s m s0 : m <> n -> says es n s -> says ((m, s0) :: es) n s.
Proof. intros Hm (a & b & -> & Ha & Hb). exists ((m, s0) :: a), b. split; [reflexivity|]. cbn. tauto. Qed.
Lemma gives_cons {A} es n (d : option A) r x m s0 : m <> name n -> gives es n d r x -> gives ((m, s0) :: es) n d r x.
Proof.
  intros Hm [(s & S & H)|[S H]]; [left; exists s; split; [now apply says_cons|exact H]|right; split; [|exact H]].
  unfold silent in *. cbn. tauto.
Qed.
Theorem C91_schedule : forall n e, e < 2 ^ 64 - 1 ->
  exists cs, load (gloas_line e ++ x0a :: config_text n) = Some (Ok cs) /\
    (forall e', fork_name_at_epoch cs e' = if e <=? e' then Gloas else fork_name_at_epoch (network_spec n) e') /\
    (forall f, f <> Gloas -> cs_fork_epoch cs f = cs_fork_epoch (network_spec n) f) /\
    (forall f, cs_fork_version cs f = cs_fork_version (network_spec n) f).
Proof.
  intros n e He. destruct (C91_described _ _ (C91_networks n)) as (es & Ht & Hd).
  set (cs0 := mkChainSpec (fun f => match f with Gloas => Some e | _ => cs_fork_epoch (network_spec n) f end)
    (cs_fork_version (network_spec n)) (far_future_epoch (network_spec n)) (min_seed_lookahead (network_spec n))
    (max_seed_lookahead (network_spec n)) (shuffle_round_count (network_spec n)) (effective_balance_increment (network_spec n))
    (min_activation_balance (network_spec n)) (min_per_epoch_churn_limit_electra (network_spec n)) (churn_limit_quotient (network_spec n))
    (max_committees_per_slot (network_spec n)) (target_committee_size (network_spec n)) (domain_beacon_attester (network_spec n))
    (slots_per_epoch (network_spec n)) (epochs_per_historical_vector (network_spec n))).
  assert (Hl : line_text [(name "GLOAS_FORK_EPOCH", Plain (decimal e))] (gloas_line e)).
  { unfold gloas_line. destruct (decimal_ok e) as [[Dn Dd] _].
    replace (name "GLOAS_FORK_EPOCH: " ++ decimal e) with (name "GLOAS_FORK_EPOCH" ++ x3a :: [x20] ++ decimal e ++ [] ++ [])
      by (cbn [app]; rewrite app_nil_r; reflexivity).
    constructor; try (now constructor); try discriminate; try contradiction.
    - split; [discriminate|]. apply (forallb_iff is_key); [apply is_key_iff|reflexivity].
    - constructor; [exact Dn|]. eapply Forall_impl; [|exact Dd]. intros b Hb. left. right. exact Hb. }
  assert (Hsil : silent es (name "GLOAS_FORK_EPOCH")).
  { destruct Hd as (_ & Hep & _). destruct (Hep Gloas) as (x & Hx & Ex).
    destruct (three_cases es (name "GLOAS_FORK_EPOCH")) as [S|S]; [exact S|exfalso].
    apply read_text_iff in Ht. assert (X : exists l, read_text (config_text n) = Some l /\ silent l (name "GLOAS_FORK_EPOCH")).
    { destruct n; (eexists; split; [vm_compute; reflexivity|]); unfold silent; cbn [map fst In]; intros H;
        repeat (destruct H as [H|H]; [vm_compute in H; discriminate H|]); exact H. }
    destruct X as (l & El & Sl). rewrite Ht in El. injection El as <-. destruct S as [[s S]|S].
    - destruct S as (a & b & -> & _). apply Sl. rewrite map_app. apply in_app_iff. right. now left.
    - destruct S as (a & s & b & s' & c & ->). apply Sl. rewrite map_app. apply in_app_iff. right. now left. }
  destruct (C91_loads (gloas_line e ++ x0a :: config_text n) ([(name "GLOAS_FORK_EPOCH", Plain (decimal e))] ++ es) cs0) as (cs & El & Hs).
  { now constructor. }
  { destruct Hd as (Hp & Hep & Hv & Hc & Hq & Hrest). cbn [app]. unfold described.
    split; [apply gives_cons; [discriminate|exact Hp]|].
    split; [|split; [intros f; specialize (Hv f); destruct f; (apply gives_cons; [discriminate|exact Hv])|
             split; [apply gives_cons; [discriminate|exact Hc]|split; [apply gives_cons; [discriminate|exact Hq]|exact Hrest]]]].
    intros f. specialize (Hep f). destruct f; [exact Hep|..];
      try (destruct Hep as (x & Hx & Ex); exists x; split; [apply gives_cons; [discriminate|exact Hx]|exact Ex]).
    exists e. split.
    - left. exists (Plain (decimal e)). split; [exists [], es; auto|].
      destruct (decimal_ok e) as [Dd Dv]. destruct (C91_numbers _ Dd) as [-> _]. rewrite Dv. now rewrite (proj2 (N.ltb_lt _ _)) by lia.
    - cbn. now rewrite (proj2 (N.eqb_neq _ _)) by lia. }
  exists cs. split; [exact El|]. destruct Hs as (Se & Sv & _).
  split; [|split; [intros f Hf; rewrite <- Se; destruct f; try reflexivity; contradiction|intros f; now rewrite <- Sv]].
  intros e'. unfold fork_name_at_epoch, forks_desc. cbn [fork_name_from]. rewrite <- !Se. cbn [cs0 cs_fork_epoch].
  replace (cs_fork_epoch (network_spec n) Gloas) with (@None Epoch) by (destruct n; reflexivity). reflexivity.
Qed.

(** ** Cases *)
Example C91_nonvacuous : exists es, file_text es (config_text Mainnet) /\ described es (network_spec Mainnet) /\
  In (name "FULU_FORK_EPOCH", Plain (name "411392")) es /\ silent es (name "GLOAS_FORK_EPOCH").
Proof.
  destruct (C91_described _ _ (C91_networks Mainnet)) as (es & Ht & Hd). exists es. split; [exact Ht|]. split; [exact Hd|].
  apply read_text_iff in Ht.
  assert (B : option_map (fun l => existsb (fun e : entry => bytes_eqb (fst e) (name "FULU_FORK_EPOCH") && bytes_eqb (string_of (snd e)) (name "411392")
                 && match snd e with Plain _ => true | _ => false end) l
              && negb (existsb (fun e : entry => bytes_eqb (fst e) (name "GLOAS_FORK_EPOCH")) l)) (read_text (config_text Mainnet)) = Some true)
    by (vm_compute; reflexivity).
  rewrite Ht in B. cbn [option_map] in B. injection B as B. apply andb_true_iff in B as [B1 B2]. split.
  - apply existsb_exists in B1 as ([m s] & Hin & B1). cbn [fst snd] in B1. apply andb_true_iff in B1 as [B1 B3]. apply andb_true_iff in B1 as [B0 B1].
    apply bytes_eqb_eq in B0 as ->. destruct s as [v|v]; [|discriminate]. cbn in B1. apply bytes_eqb_eq in B1 as ->. exact Hin.
  - apply negb_true_iff in B2. intros H. apply in_map_iff in H as (x & Ex & Hx). apply not_true_iff_false in B2. apply B2.
    apply existsb_exists. exists x. split; [exact Hx|]. rewrite Ex. apply eqb_refl.
Qed.
Example C91_commented : load (name "# a comment" ++ x0a :: config_text Sepolia) = load (config_text Sepolia).
Proof. vm_compute. reflexivity. Qed.
Example C91_twice : load (name "CHURN_LIMIT_QUOTIENT: 65536" ++ x0a :: config_text Sepolia) = Some Panic.
Proof. vm_compute. reflexivity. Qed.
Example C91_too_large : load (name "GLOAS_FORK_EPOCH: 18446744073709551616" ++ x0a :: config_text Sepolia) = Some Panic.
Proof. vm_compute. reflexivity. Qed.
Example C91_without : load (name "PRESET_BASE: 'mainnet' # and nothing else") = Some Panic.
Proof. vm_compute. reflexivity. Qed.
(** The schedule is one that is met, and the epoch before it still is of the fork that it was of. *)
Example C91_scheduled : exists cs, load (gloas_line 500000 ++ x0a :: config_text Mainnet) = Some (Ok cs) /\
  fork_name_at_epoch cs 500000 = Gloas /\ fork_name_at_epoch cs 499999 = Fulu.
Proof.
  destruct (C91_schedule Mainnet 500000) as (cs & E & H & _); [reflexivity|]. exists cs. split; [exact E|].
  split; rewrite H; vm_compute; reflexivity.
Qed.
Example C91_numbers_met : is_decimal (name "411392") /\ decimal_value (name "411392") = 411392.
Proof. vm_compute. repeat split; try discriminate. repeat (constructor; [split; discriminate|]). constructor. Qed.
Example C91_bases_met : base_number 16 (name "2a") 42 /\ base_number 8 (name "17") 15 /\ base_number 2 (name "10") 2.
Proof.
  split; [|split].
  - apply (bn_more 16 [x32] 2 x61 10); [apply (bn_more 16 [] 0 x32 2); [constructor|..]|..]; vm_compute; intuition discriminate.
  - apply (bn_more 8 [x31] 1 x37 7); [apply (bn_more 8 [] 0 x31 1); [constructor|..]|..]; vm_compute; intuition discriminate.
  - apply (bn_more 2 [x31] 1 x30 0); [apply (bn_more 2 [] 0 x31 1); [constructor|..]|..]; vm_compute; intuition discriminate.
Qed.
Example C91_versions_met : version_of (Quoted (name "0x00abCD01")) = Some [x00; xab; xcd; x01].
Proof. reflexivity. Qed.

Print Assumptions C91_entries.
Print Assumptions C91_described.
Print Assumptions C91_loads.
Print Assumptions C91_refused.
Print Assumptions C91_repeated.
Print Assumptions C91_missing.
Print Assumptions C91_layout.
Print Assumptions C91_networks.
Print Assumptions C91_numbers.
Print Assumptions C91_bases.
Print Assumptions C91_numbers_only.
Print Assumptions C91_versions.
Print Assumptions C91_schedule.
