(** C77 and C78: configuration files. [lit], [entry], [show], [setting_of], [name],
    [spelled], [faithful], [accepted], [reason] and [well_formed] are in ConfigSpec.v.
    [stod] reads a decimal number, [env] is the environment. *)
From Coq Require Import NArith ZArith Ascii String.
From stdpp Require Import base option list.
From Verif Require Import Base HexModel ConfigModel ConfigSpec ConfigText ConfigProofs ConfigOptions ConfigCheck
  ConfigTotal ConfigExamples.
Open Scope N_scope.

(** C77: what is written in a file is read back: of every setting the first value, as the
    kind of value it was written as, whatever else the file says. *)
Theorem C77_read_back {D} (stod : string -> option D) env es : Forall writable es ->
  exists p, init stod (show es) = Val p /\
  forall k, env (upper k) = None ->
    get_string stod env p k = Val (text_of (setting_of es k)) /\
    get_ulong stod env p k = Val (number_of (setting_of es k)).
Proof. exact (read_back stod env es). Qed.
Print Assumptions C77_read_back.

(** C77: an environment variable takes precedence over the file. *)
Theorem C77_environment_wins {D} (stod : string -> option D) env p k v :
  match v with Text s => True | Number n => n < two64 end ->
  env (upper k) = Some (show_lit v) ->
  get_string stod env p k = Val (text_of (Some v)) /\
  get_ulong stod env p k = Val (number_of (Some v)).
Proof. exact (env_wins stod env p k v). Qed.
Print Assumptions C77_environment_wins.

(** C77: no two settings share a name, nor an environment variable. *)
Theorem C77_names_differ n m : known n -> known m ->
  spelled n = spelled m \/ upper (spelled n) = upper (spelled m) -> n = m.
Proof. exact (names_differ n m). Qed.
Print Assumptions C77_names_differ.

(** C77: an endpoint is read as it was written. *)
Theorem C77_endpoint host port : 58 ∉ host -> port <= 65535 ->
  parse_ip_port (host ++ txt ":" ++ dec port) = Val (host, port).
Proof. exact (endpoint_read host port). Qed.
Print Assumptions C77_endpoint.

(** C77, refuted if other lines may contain an equals sign: a comment that does ends the
    program. *)
Theorem C77_comment_refuted : exists ls, ls = ["# a=b"; "2pc=1"]%string /\
  init (D := unit) (fun _ => Some tt) (file ls) = Threw.
Proof. eexists. split; [reflexivity|exact comment_case]. Qed.
Print Assumptions C77_comment_refuted.

(** C77, refuted for values of any other form: a negative number is read as a huge one, a
    number with something behind it as that number, a setting with a blank before the equals
    sign or with a quoted number not at all, and a text with one quote loses a character. *)
Theorem C77_odd_values_refuted :
  let number ls k := p <~ init (D := unit) (fun _ => Some tt) (file ls);
    get_ulong (fun _ => Some tt) (fun _ => None) p (txt k) in
  let text ls k := p <~ init (D := unit) (fun _ => Some tt) (file ls);
    get_string (fun _ => Some tt) (fun _ => None) p (txt k) in
  number ["shard_count=-1"]%string "shard_count"%string = Val (Some 18446744073709551615) /\
  number ["shard_count=12abc"]%string "shard_count"%string = Val (Some 12) /\
  number ["shard_count = 2"]%string "shard_count"%string = Val None /\
  number ["shard_count=""2"""]%string "shard_count"%string = Val None /\
  text ["archiver0_db=path"""]%string "archiver0_db"%string = Val (Some (txt "ath")) /\
  text ["archiver0_db=""path"]%string "archiver0_db"%string = Val (Some (txt "pat")).
Proof. exact odd_values_case. Qed.
Print Assumptions C77_odd_values_refuted.

(** C77, refuted for an environment variable that is set to nothing: the program reads
    outside the text. *)
Theorem C77_empty_variable_refuted : exists env p k, env (upper k) = Some [] /\
  get_ulong (D := unit) (fun _ => Some tt) env p k = Undefined.
Proof.
  exists (fun k => if bool_decide (k = txt "SHARD_COUNT") then Some [] else None), [], (txt "shard_count").
  split; [reflexivity|exact empty_env_case].
Qed.
Print Assumptions C77_empty_variable_refuted.

(** C77, refuted for other endpoints: an IPv6 address ends the program with an exception, a
    port that is missing or too large by a failed assertion. *)
Theorem C77_endpoint_refuted :
  parse_ip_port (txt "::1:5555") = Threw /\
  parse_ip_port (txt "localhost") = Assertion /\
  parse_ip_port (txt "localhost:70000") = Assertion.
Proof. exact odd_endpoints_case. Qed.
Print Assumptions C77_endpoint_refuted.

Example C77_case : Forall writable ex_entries /\
  setting_of ex_entries (txt "sentinel_count") = Some (Number 2) /\
  setting_of ex_entries (txt "archiver0_db") = Some (Text (txt "a=b")) /\
  setting_of ex_entries (txt "shard_count") = None.
Proof. exact entries_case. Qed.
Example C77_names_case : known (OfNode "shard" 3 12 "raft_endpoint") /\
  spelled (OfNode "shard" 3 12 "raft_endpoint") = txt "shard3_12_raft_endpoint" /\
  upper (spelled (Of "sentinel" 7 "public_key")) = txt "SENTINEL7_PUBLIC_KEY".
Proof.
  split; [|vm_compute; split; reflexivity].
  apply elem_of_list_In. cbn. right. left. reflexivity.
Qed.
Example C77_endpoint_case : parse_ip_port (txt "127.0.0.1:5555") = Val (txt "127.0.0.1", 5555).
Proof. vm_compute. reflexivity. Qed.

(** C78: options that were accepted are what the file and the environment say, each
    setting under its own name, and the default where they say nothing. *)
Theorem C78_faithful {D} (stod : string -> option D) zero one env file o :
  load_options stod zero one env file = Val o ->
  exists p, init stod file = Val p /\ faithful stod zero one env p o.
Proof.
  intros H. destruct (load_val stod zero one env file o H) as (p & Hp & _ & F & _).
  exact (ex_intro _ p (conj Hp F)).
Qed.
Print Assumptions C78_faithful.

(** C78: options that were accepted describe a system that can run: there is somebody for
    every role, there are enough different sentinel keys, seeds come with a key and a value,
    and all that is said about the components of one kind is said about all of them. *)
Theorem C78_accepted {D} (stod : string -> option D) zero one env file o :
  load_options stod zero one env file = Val o -> accepted o.
Proof. exact (load_accepted stod zero one env file o). Qed.
Print Assumptions C78_accepted.

(** C78: options are refused for the reason given: the setting named is required and
    absent, or the rule named is broken. *)
Theorem C78_refusal_has_reason {D} (stod : string -> option D) zero one env file e :
  load_options stod zero one env file = Bad e -> reason stod zero one env file e.
Proof. exact (load_bad stod zero one env file e). Qed.
Print Assumptions C78_refusal_has_reason.

(** C78, in part: if every value can be read, every endpoint is one and every key has 64
    digits, the options are accepted or refused. *)
Theorem C78_accepted_or_refused_partial {D} (stod : string -> option D) zero one env file p :
  well_formed stod env file p ->
  (exists o, load_options stod zero one env file = Val o) \/
  (exists e, load_options stod zero one env file = Bad e).
Proof. exact (load_total stod zero one env file p). Qed.
Print Assumptions C78_accepted_or_refused_partial.

(** C78, refuted: accepted options may leave hashes to no shard ... *)
Theorem C78_coverage_refuted : exists file, exists o h,
  load_options (D := unit) (fun _ => Some tt) tt tt (fun _ => None) file = Val o /\
  is_hash h /\ ~ covered o h.
Proof.
  exists (ex_shards "0" "63" "128" "191"). pose proof gap_case as C.
  destruct (load_options _ _ _ _ _) as [o| | | |]; try (exfalso; exact C).
  exists o, (200 * 2 ^ 248). split; [reflexivity|]. split; [reflexivity|]. exact (proj1 (proj2 C)).
Qed.
Print Assumptions C78_coverage_refuted.

(** ... a range that ends at 256 ends at 0 ... *)
Theorem C78_range_end_refuted :
  match load_options (D := unit) (fun _ => Some tt) tt tt (fun _ => None) (ex_shards "0" "256" "128" "255") with
  | Val o => o_shard_ranges (o_shards o) = [(0, 0); (128, 255)]
  | _ => False end.
Proof. exact end_256_case. Qed.
Print Assumptions C78_range_end_refuted.

(** ... a shard may have no node ... *)
Theorem C78_nodes_refuted :
  match load_options (D := unit) (fun _ => Some tt) tt tt (fun _ => None) (ex_shards "0" "127" "128" "255") with
  | Val o => o_ls_eps (o_locking o) = [[(txt "h", 1)]; []]
  | _ => False end.
Proof. exact no_nodes_case. Qed.
Print Assumptions C78_nodes_refuted.

(** ... an attestation threshold written as "2" or as 2.0 is 1, and a time of 2^31
    is negative ... *)
Theorem C78_threshold_refuted :
  let load f := load_options (D := unit) (fun _ => Some tt) tt tt (fun _ => None) f in
  match load (ex_threshold "2" ex_key) with
  | Val o => o_threshold (o_sentinels o) = 2 /\ o_election_upper (o_raft o) = (-2147483648)%Z | _ => False end /\
  match load (ex_threshold """2""" ex_key) with
  | Val o => o_threshold (o_sentinels o) = 1 | _ => False end /\
  match load (ex_threshold "2.0" ex_key) with
  | Val o => o_threshold (o_sentinels o) = 1 | _ => False end.
Proof. exact threshold_case. Qed.
Print Assumptions C78_threshold_refuted.

(** ... and a key of any other length is neither accepted nor refused: a longer one is
    written beyond its array, a shorter one leaves bytes unset. *)
Theorem C78_key_length_refuted :
  let load f := load_options (D := unit) (fun _ => Some tt) tt tt (fun _ => None) f in
  load (ex_threshold "1" (append ex_key "00")) = Undefined /\ load (ex_threshold "1" "00") = Undefined.
Proof. exact key_length_case. Qed.
Print Assumptions C78_key_length_refuted.

(** The two files that come with the code are accepted; four that are refused. *)
Example C78_twophase_case :
  match load_options (D := unit) (fun _ => Some tt) tt tt (fun _ => None) compose_2pc with
  | Val o => o_twophase o = true /\
      o_sentinel_eps (o_sentinels o) = [(txt "sentinel0", 5555)] /\
      o_ls_eps (o_locking o) = [[(txt "shard0", 6666)]] /\
      o_co_raft (o_coordinators o) = [[(txt "coordinator0", 7778)]] /\
      o_shard_ranges (o_shards o) = [(0, 255)] /\ o_co_threads (o_coordinators o) = 100 /\
      o_threshold (o_sentinels o) = 1
  | _ => False
  end.
Proof. exact compose_2pc_case. Qed.
Example C78_atomizer_case :
  match load_options (D := unit) (fun _ => Some tt) tt tt (fun _ => None) compose_atomizer with
  | Val o => o_twophase o = false /\
      o_shard_eps (o_shards o) = [(txt "shard0", 6555)] /\ o_shard_dbs (o_shards o) = [txt "shard0"] /\
      o_wt_internal (o_watchtowers o) = [(txt "watchtower0", 8556)] /\
      o_block_interval (o_atomizers o) = 3000 /\ o_wt_blocks (o_watchtowers o) = 50
  | _ => False
  end.
Proof. exact compose_atomizer_case. Qed.
Example C78_refused_case :
  let load f := load_options (D := unit) (fun _ => Some tt) tt tt (fun _ => None) f in
  load (ex_threshold "2" "eaa649f21f51bdbae7be4ae34ce6e5217a58fdce7f47f9aa7f3b58fa2120e2b3")
    = Bad (Broken RulePublicKeys) /\
  load (file ["2pc=1"]%string) = Bad (Broken RuleSentinel) /\
  load (file ["sentinel_count=1"]%string) = Bad (Missing (txt "sentinel0_endpoint")) /\
  load (file ["seed_from=0"; "seed_to=10"; "seed_privkey=""00"""]%string) = Bad (Broken RuleSeedKeyLength).
Proof. exact refused_case. Qed.
Example C78_well_formed_case : exists p,
  well_formed (D := unit) (fun _ => Some tt) (fun _ => None) compose_2pc p.
Proof. exact compose_well_formed. Qed.
