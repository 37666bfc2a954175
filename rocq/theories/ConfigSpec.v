(** What the properties C77-C79 say about configuration files. *)
From Coq Require Import NArith ZArith Ascii String.
From stdpp Require Import base option list.
From Verif Require Import Base HexModel ConfigModel.
Open Scope N_scope.

(** * C77: what a file says *)

(** A file a user writes: settings, whose value is a text in quotes or a number, and other
    lines without an equals sign (comments, blank lines). *)
Inductive lit := Text (s : string) | Number (n : N).
Inductive entry := Setting (k : string) (v : lit) | Other (l : string).

Definition show_lit (v : lit) : string :=
  match v with
  | Text s => txt """" ++ s ++ txt """"
  | Number n => dec n
  end.
Definition show_entry (e : entry) : string :=
  match e with
  | Setting k v => k ++ txt "=" ++ show_lit v
  | Other l => l
  end.
Definition newline : string := [10].
Definition show (es : list entry) : string := concat (map (fun e => show_entry e ++ newline) es).

(** One line each, and numbers that fit 64 bits. *)
Definition writable (e : entry) : Prop :=
  match e with
  | Setting k v =>
      61 ∉ k /\ 10 ∉ k /\
      match v with Text s => 10 ∉ s | Number n => n < two64 end
  | Other l => 61 ∉ l /\ 10 ∉ l
  end.

(** The first setting with a name counts. *)
Fixpoint setting_of (es : list entry) (k : string) : option lit :=
  match es with
  | Setting k' v :: es' => if bool_decide (k' = k) then Some v else setting_of es' k
  | Other _ :: es' => setting_of es' k
  | [] => None
  end.
Definition text_of (o : option lit) : option string :=
  match o with Some (Text s) => Some s | _ => None end.
Definition number_of (o : option lit) : option N :=
  match o with Some (Number n) => Some n | _ => None end.

(** * The names of all settings *)
Inductive name :=
| Plain (k : String.string)
| Of (component : String.string) (i : N) (what : String.string)
| OfNode (component : String.string) (i j : N) (what : String.string).

Definition spelled (n : name) : string :=
  match n with
  | Plain k => txt k
  | Of c i w => txt c ++ dec i ++ txt "_" ++ txt w
  | OfNode c i j w => txt c ++ dec i ++ txt "_" ++ dec j ++ txt "_" ++ txt w
  end.

Definition plain_names : list String.string :=
  ["2pc"; "attestation_threshold"; "sentinel_count"; "shard_count";
   "shard_completed_txs_cache_size"; "seed_from"; "seed_to"; "seed_privkey"; "seed_value";
   "atomizer_count"; "target_block_interval"; "stxo_cache_depth"; "archiver_count";
   "watchtower_count"; "watchtower_block_cache_size"; "watchtower_error_cache_size";
   "coordinator_count"; "coordinator_max_threads"; "election_timeout_upper";
   "election_timeout_lower"; "heartbeat"; "snapshot_distance"; "raft_max_batch";
   "batch_size"; "loadgen_sendtx_input_count"; "loadgen_sendtx_output_count";
   "loadgen_invalid_tx_rate"; "loadgen_fixed_tx_rate"; "window_size"; "initial_mint_count";
   "initial_mint_value"; "loadgen_count"]%string.

(** What can be said of the component with a number ... *)
Definition numbered_names : list (String.string * String.string) :=
  [("shard", "endpoint"); ("shard", "db"); ("shard", "start"); ("shard", "end");
   ("shard", "loglevel"); ("shard", "count");
   ("atomizer", "endpoint"); ("atomizer", "raft_endpoint"); ("atomizer", "loglevel");
   ("sentinel", "endpoint"); ("sentinel", "loglevel"); ("sentinel", "private_key");
   ("sentinel", "public_key");
   ("archiver", "endpoint"); ("archiver", "loglevel"); ("archiver", "db");
   ("watchtower", "client_endpoint"); ("watchtower", "internal_endpoint");
   ("watchtower", "loglevel"); ("coordinator", "loglevel"); ("coordinator", "count")]%string.

(** ... and of one of its nodes. *)
Definition node_names : list (String.string * String.string) :=
  [("shard", "endpoint"); ("shard", "raft_endpoint"); ("shard", "readonly_endpoint");
   ("coordinator", "endpoint"); ("coordinator", "raft_endpoint")]%string.

Definition known (n : name) : Prop :=
  match n with
  | Plain k => k ∈ plain_names
  | Of c _ w => (c, w) ∈ numbered_names
  | OfNode c _ _ w => (c, w) ∈ node_names
  end.

(** * C78: the options mean what the file says *)
Section Options.
Context {D : Type} (stod : string -> option D) (zero one : D).
Context (env : string -> option string).
Implicit Types (p : parser (D := D)) (o : options (D := D)).

(** The three ways to read a setting. *)
Definition says_number p (n : name) (x : option N) : Prop := get_ulong stod env p (spelled n) = Val x.
Definition says_text p (n : name) (x : option string) : Prop := get_string stod env p (spelled n) = Val x.
Definition says_decimal p (n : name) (x : option D) : Prop := get_decimal stod env p (spelled n) = Val x.

Definition number_is p (n : name) (x : N) : Prop := says_number p n (Some x).
Definition number_or p (n : name) (d x : N) : Prop := exists y, says_number p n y /\ x = default d y.
Definition decimal_or p (n : name) (d x : D) : Prop := exists y, says_decimal p n y /\ x = default d y.
Definition text_is p (n : name) (x : string) : Prop := says_text p n (Some x).
Definition endpoint_is p (n : name) (e : endpoint) : Prop :=
  exists s, text_is p n s /\ parse_ip_port s = Val e.
(** The levels by their names; every other text, and no text, mean WARN. *)
Definition level_names : list (string * log_level) :=
  [(txt "TRACE", LTrace); (txt "DEBUG", LDebug); (txt "INFO", LInfo); (txt "WARN", LWarn);
   (txt "ERROR", LError); (txt "FATAL", LFatal)].
Definition log_is p (n : name) (l : log_level) : Prop :=
  exists y, says_text p n y /\
    ((exists s, y = Some s /\ In (s, l) level_names) \/
     (l = LWarn /\ forall s l', y = Some s -> ~ In (s, l') level_names)).
Definition key_is p (n : name) (k : option bytes) : Prop :=
  match k with
  | Some b => exists s, text_is p n s /\ hash_from_hex s = HashIs b
  | None => says_text p n None
  end.

(** [n] elements, of which the [i]th is as [R i] says. *)
Definition listed {A} (n : N) (R : N -> A -> Prop) (l : list A) : Prop :=
  N.of_nat (length l) = n /\
  forall i a, l !! i = Some a -> R (N.of_nat i) a.

(** Every option is what the file and the environment say about the setting the user
    knows it by, and the default if they say nothing. Numbers of another type are cut down
    to it: eight bits for the ends of a range, 32 signed bits for the raft settings. *)
Record faithful p o : Prop := Faithful {
  f_mode : exists m, number_or p (Plain "2pc") 0 m /\ (o_twophase o = true <-> m <> 0);
  f_threshold : number_or p (Plain "attestation_threshold") 1 (o_threshold (o_sentinels o));
  f_sentinels : exists n, number_or p (Plain "sentinel_count") 0 n /\
    listed n (fun i => endpoint_is p (Of "sentinel" i "endpoint")) (o_sentinel_eps (o_sentinels o)) /\
    listed n (fun i => log_is p (Of "sentinel" i "loglevel")) (o_sentinel_logs (o_sentinels o)) /\
    listed n (fun i => key_is p (Of "sentinel" i "private_key")) (o_sentinel_priv (o_sentinels o)) /\
    listed n (fun i k => key_is p (Of "sentinel" i "public_key") k /\
                         (k = None -> o_threshold (o_sentinels o) = 0))
      (o_sentinel_pub (o_sentinels o));
  f_locking : if o_twophase o
    then exists n, number_or p (Plain "shard_count") 0 n /\
      listed n (fun i l => exists m, number_is p (Of "shard" i "count") m /\
        listed m (fun j => endpoint_is p (OfNode "shard" i j "endpoint")) l) (o_ls_eps (o_locking o)) /\
      listed n (fun i l => exists m, number_is p (Of "shard" i "count") m /\
        listed m (fun j => endpoint_is p (OfNode "shard" i j "raft_endpoint")) l) (o_ls_raft (o_locking o)) /\
      listed n (fun i l => exists m, number_is p (Of "shard" i "count") m /\
        listed m (fun j => endpoint_is p (OfNode "shard" i j "readonly_endpoint")) l) (o_ls_ro (o_locking o))
    else o_locking o = LockingOpts [] [] [];
  f_shards : exists n, number_or p (Plain "shard_count") 0 n /\
    (if o_twophase o then o_shard_eps (o_shards o) = [] /\ o_shard_dbs (o_shards o) = []
     else listed n (fun i => endpoint_is p (Of "shard" i "endpoint")) (o_shard_eps (o_shards o)) /\
          listed n (fun i => text_is p (Of "shard" i "db")) (o_shard_dbs (o_shards o))) /\
    listed n (fun i => log_is p (Of "shard" i "loglevel")) (o_shard_logs (o_shards o)) /\
    listed n (fun i r => exists a b, number_is p (Of "shard" i "start") a /\
                number_is p (Of "shard" i "end") b /\ r = (a mod 256, b mod 256))
      (o_shard_ranges (o_shards o));
  f_cache : number_or p (Plain "shard_completed_txs_cache_size") 10000000 (o_completed_cache (o_shards o));
  f_seed_from : number_or p (Plain "seed_from") 0 (o_seed_from (o_shards o));
  f_seed_to : number_or p (Plain "seed_to") 0 (o_seed_to (o_shards o));
  f_seed : if o_seed_from (o_shards o) =? o_seed_to (o_shards o)
    then o_seed_priv (o_shards o) = None /\ o_seed_value (o_shards o) = 0
    else (exists s b, text_is p (Plain "seed_privkey") s /\ length s = 64%nat /\
            hash_from_hex s = HashIs b /\ o_seed_priv (o_shards o) = Some b) /\
         number_or p (Plain "seed_value") 0 (o_seed_value (o_shards o));
  f_atomizers : exists n, number_or p (Plain "atomizer_count") 0 n /\
    listed n (fun i => endpoint_is p (Of "atomizer" i "endpoint")) (o_atomizer_eps (o_atomizers o)) /\
    listed n (fun i => log_is p (Of "atomizer" i "loglevel")) (o_atomizer_logs (o_atomizers o)) /\
    listed n (fun i => endpoint_is p (Of "atomizer" i "raft_endpoint")) (o_atomizer_raft (o_atomizers o));
  f_interval : number_or p (Plain "target_block_interval") 250 (o_block_interval (o_atomizers o));
  f_depth : number_or p (Plain "stxo_cache_depth") 1 (o_stxo_depth (o_atomizers o));
  f_archivers : exists n, number_or p (Plain "archiver_count") 0 n /\
    listed n (fun i => endpoint_is p (Of "archiver" i "endpoint")) (o_archiver_eps (o_archivers o)) /\
    listed n (fun i => log_is p (Of "archiver" i "loglevel")) (o_archiver_logs (o_archivers o)) /\
    listed n (fun i => text_is p (Of "archiver" i "db")) (o_archiver_dbs (o_archivers o));
  f_watchtowers : exists n, number_or p (Plain "watchtower_count") 0 n /\
    listed n (fun i => endpoint_is p (Of "watchtower" i "client_endpoint")) (o_wt_client (o_watchtowers o)) /\
    listed n (fun i => endpoint_is p (Of "watchtower" i "internal_endpoint")) (o_wt_internal (o_watchtowers o)) /\
    listed n (fun i => log_is p (Of "watchtower" i "loglevel")) (o_wt_logs (o_watchtowers o));
  f_blocks : number_or p (Plain "watchtower_block_cache_size") 100 (o_wt_blocks (o_watchtowers o));
  f_errors : number_or p (Plain "watchtower_error_cache_size") 1000000 (o_wt_errors (o_watchtowers o));
  f_coordinators : exists n, number_or p (Plain "coordinator_count") 0 n /\
    listed n (fun i => log_is p (Of "coordinator" i "loglevel")) (o_co_logs (o_coordinators o)) /\
    listed n (fun i l => exists m, number_is p (Of "coordinator" i "count") m /\
      listed m (fun j => endpoint_is p (OfNode "coordinator" i j "raft_endpoint")) l) (o_co_raft (o_coordinators o)) /\
    listed n (fun i l => exists m, number_is p (Of "coordinator" i "count") m /\
      listed m (fun j => endpoint_is p (OfNode "coordinator" i j "endpoint")) l) (o_co_eps (o_coordinators o));
  f_threads : number_or p (Plain "coordinator_max_threads") 75 (o_co_threads (o_coordinators o));
  f_upper : exists x, number_or p (Plain "election_timeout_upper") 4000 x /\ o_election_upper (o_raft o) = i32 x;
  f_lower : exists x, number_or p (Plain "election_timeout_lower") 2000 x /\ o_election_lower (o_raft o) = i32 x;
  f_heartbeat : exists x, number_or p (Plain "heartbeat") 1000 x /\ o_heartbeat (o_raft o) = i32 x;
  f_snapshot : exists x, number_or p (Plain "snapshot_distance") 0 x /\ o_snapshot (o_raft o) = i32 x;
  f_max_batch : exists x, number_or p (Plain "raft_max_batch") 100000 x /\ o_max_batch (o_raft o) = i32 x;
  f_batch : number_or p (Plain "batch_size") 2000 (o_batch (o_raft o));
  f_inputs : number_or p (Plain "loadgen_sendtx_input_count") 2 (o_inputs (o_loadgen o));
  f_outputs : number_or p (Plain "loadgen_sendtx_output_count") 2 (o_outputs (o_loadgen o));
  f_invalid : decimal_or p (Plain "loadgen_invalid_tx_rate") zero (o_invalid (o_loadgen o));
  f_fixed : decimal_or p (Plain "loadgen_fixed_tx_rate") one (o_fixed_rate (o_loadgen o));
  f_fixed_mode : o_fixed_mode (o_loadgen o) = true <->
    o_inputs (o_loadgen o) <> 0 /\ o_outputs (o_loadgen o) <> 0;
  f_window : number_or p (Plain "window_size") 10000 (o_window (o_loadgen o));
  f_mint_count : number_or p (Plain "initial_mint_count") 20000 (o_mint_count (o_loadgen o));
  f_mint_value : number_or p (Plain "initial_mint_value") 100 (o_mint_value (o_loadgen o));
  f_loadgens : number_or p (Plain "loadgen_count") 0 (o_loadgens (o_loadgen o))
}.

(** What a program may rely on once its options were accepted. *)
Record accepted o : Prop := Accepted {
  ac_twophase : o_twophase o = true ->
    o_sentinel_eps (o_sentinels o) <> [] /\ o_ls_eps (o_locking o) <> [] /\
    o_co_eps (o_coordinators o) <> [];
  ac_atomizer : o_twophase o = false ->
    o_wt_client (o_watchtowers o) <> [] /\ o_archiver_eps (o_archivers o) <> [] /\
    o_atomizer_eps (o_atomizers o) <> [] /\
    (o_sentinel_eps (o_sentinels o) <> [] -> o_shard_eps (o_shards o) <> []);
  (* enough sentinels with different keys exist *)
  ac_keys : exists ks : list bytes, base.NoDup ks /\ (forall k, k ∈ ks -> Some k ∈ o_sentinel_pub (o_sentinels o)) /\
    o_threshold (o_sentinels o) <= N.of_nat (length ks);
  ac_enough : o_threshold (o_sentinels o) <= N.of_nat (length (o_sentinel_eps (o_sentinels o)));
  ac_seed : o_seed_from (o_shards o) = o_seed_to (o_shards o) \/
    o_seed_from (o_shards o) < o_seed_to (o_shards o) /\ o_seed_value (o_shards o) <> 0 /\
    exists k, o_seed_priv (o_shards o) = Some k /\ length k = 32%nat;
  (* the vectors one component's number is used to index have one length *)
  ac_sentinels : length (o_sentinel_logs (o_sentinels o)) = length (o_sentinel_eps (o_sentinels o)) /\
    length (o_sentinel_priv (o_sentinels o)) = length (o_sentinel_eps (o_sentinels o));
  ac_shards : let n := length (o_shard_ranges (o_shards o)) in
    length (o_shard_logs (o_shards o)) = n /\
    if o_twophase o
    then length (o_ls_eps (o_locking o)) = n /\ length (o_ls_raft (o_locking o)) = n /\
         length (o_ls_ro (o_locking o)) = n /\
         forall i a b c, o_ls_eps (o_locking o) !! i = Some a -> o_ls_raft (o_locking o) !! i = Some b ->
           o_ls_ro (o_locking o) !! i = Some c -> length a = length b /\ length a = length c
    else length (o_shard_eps (o_shards o)) = n /\ length (o_shard_dbs (o_shards o)) = n;
  ac_atomizers : length (o_atomizer_logs (o_atomizers o)) = length (o_atomizer_eps (o_atomizers o)) /\
    length (o_atomizer_raft (o_atomizers o)) = length (o_atomizer_eps (o_atomizers o));
  ac_archivers : length (o_archiver_logs (o_archivers o)) = length (o_archiver_eps (o_archivers o)) /\
    length (o_archiver_dbs (o_archivers o)) = length (o_archiver_eps (o_archivers o));
  ac_watchtowers : length (o_wt_logs (o_watchtowers o)) = length (o_wt_client (o_watchtowers o)) /\
    length (o_wt_internal (o_watchtowers o)) = length (o_wt_client (o_watchtowers o));
  ac_coordinators : length (o_co_logs (o_coordinators o)) = length (o_co_eps (o_coordinators o)) /\
    length (o_co_raft (o_coordinators o)) = length (o_co_eps (o_coordinators o)) /\
    forall i a b, o_co_eps (o_coordinators o) !! i = Some a -> o_co_raft (o_coordinators o) !! i = Some b ->
      length a = length b
}.

(** Which settings a configuration cannot do without, given its counts. *)
Inductive kind := AsNumber | AsText.
Inductive needed p : name -> kind -> Prop :=
| nd_sentinel n i : number_or p (Plain "sentinel_count") 0 n -> i < n ->
    needed p (Of "sentinel" i "endpoint") AsText
| nd_sentinel_key n i t : number_or p (Plain "sentinel_count") 0 n -> i < n ->
    number_or p (Plain "attestation_threshold") 1 t -> t <> 0 ->
    needed p (Of "sentinel" i "public_key") AsText
| nd_shard_nodes n i m : number_or p (Plain "shard_count") 0 n -> i < n ->
    number_or p (Plain "2pc") 0 m -> m <> 0 -> needed p (Of "shard" i "count") AsNumber
| nd_shard_node n i m k j w : number_or p (Plain "shard_count") 0 n -> i < n ->
    number_or p (Plain "2pc") 0 m -> m <> 0 ->
    number_is p (Of "shard" i "count") k -> j < k ->
    w ∈ ["endpoint"; "raft_endpoint"; "readonly_endpoint"]%string ->
    needed p (OfNode "shard" i j w) AsText
| nd_shard n i w : number_or p (Plain "shard_count") 0 n -> i < n ->
    number_or p (Plain "2pc") 0 0 -> w ∈ ["endpoint"; "db"]%string -> needed p (Of "shard" i w) AsText
| nd_shard_range n i w : number_or p (Plain "shard_count") 0 n -> i < n ->
    w ∈ ["start"; "end"]%string -> needed p (Of "shard" i w) AsNumber
| nd_atomizer n i w : number_or p (Plain "atomizer_count") 0 n -> i < n ->
    w ∈ ["endpoint"; "raft_endpoint"]%string -> needed p (Of "atomizer" i w) AsText
| nd_archiver n i w : number_or p (Plain "archiver_count") 0 n -> i < n ->
    w ∈ ["endpoint"; "db"]%string -> needed p (Of "archiver" i w) AsText
| nd_watchtower n i w : number_or p (Plain "watchtower_count") 0 n -> i < n ->
    w ∈ ["client_endpoint"; "internal_endpoint"]%string -> needed p (Of "watchtower" i w) AsText
| nd_coordinator_nodes n i : number_or p (Plain "coordinator_count") 0 n -> i < n ->
    needed p (Of "coordinator" i "count") AsNumber
| nd_coordinator_node n i k j w : number_or p (Plain "coordinator_count") 0 n -> i < n ->
    number_is p (Of "coordinator" i "count") k -> j < k ->
    w ∈ ["endpoint"; "raft_endpoint"]%string -> needed p (OfNode "coordinator" i j w) AsText.

Definition absent p (n : name) (k : kind) : Prop :=
  match k with AsNumber => says_number p n None | AsText => says_text p n None end.

(** What each rule forbids. *)
Definition breaks o (r : rule) : Prop :=
  match r with
  | RuleSentinel => o_twophase o = true /\ o_sentinel_eps (o_sentinels o) = []
  | RuleAttestors => N.of_nat (length (o_sentinel_eps (o_sentinels o))) < o_threshold (o_sentinels o)
  | RuleShard => o_twophase o = true /\ o_ls_eps (o_locking o) = []
  | RuleCoordinator => o_twophase o = true /\ o_co_eps (o_coordinators o) = []
  | RuleWatchtower => o_twophase o = false /\ o_wt_client (o_watchtowers o) = []
  | RuleArchiver => o_twophase o = false /\ o_archiver_eps (o_archivers o) = []
  | RuleSentinelShard => o_twophase o = false /\ o_shard_eps (o_shards o) = [] /\
      o_sentinel_eps (o_sentinels o) <> []
  | RuleAtomizer => o_twophase o = false /\ o_atomizer_eps (o_atomizers o) = []
  | RuleSeedOrder => o_seed_to (o_shards o) < o_seed_from (o_shards o)
  | RuleSeedValue => o_seed_from (o_shards o) <> o_seed_to (o_shards o) /\ o_seed_value (o_shards o) = 0
  | RulePublicKeys => forall ks : list bytes, base.NoDup ks ->
      (forall k, k ∈ ks -> Some k ∈ o_sentinel_pub (o_sentinels o)) ->
      N.of_nat (length ks) < o_threshold (o_sentinels o)
  | RuleSeedKey | RuleSeedKeyLength => False
  end.

(** Why options are refused. *)
Definition reason (file : string) (e : cfg_error) : Prop :=
  exists p, init stod file = Val p /\
  match e with
  | Missing k => exists n kd, k = spelled n /\ needed p n kd /\ absent p n kd
  | Broken RuleSeedKey =>
      (exists a b, number_or p (Plain "seed_from") 0 a /\ number_or p (Plain "seed_to") 0 b /\ a <> b) /\
      says_text p (Plain "seed_privkey") None
  | Broken RuleSeedKeyLength =>
      (exists a b, number_or p (Plain "seed_from") 0 a /\ number_or p (Plain "seed_to") 0 b /\ a <> b) /\
      exists s, text_is p (Plain "seed_privkey") s /\ length s <> 64%nat
  | Broken r => exists o, faithful p o /\ breaks o r
  end.

(** A configuration none of whose values is malformed. *)
Record well_formed (file : string) p : Prop := WellFormed {
  w_file : init stod file = Val p;
  w_env : forall k v, env k = Some v -> exists x, parse_value stod v = Val x;
  w_endpoint : forall n s, known n -> text_is p n s ->
    match n with
    | Of _ _ w | OfNode _ _ _ w =>
        w ∈ ["endpoint"; "raft_endpoint"; "readonly_endpoint"; "client_endpoint"; "internal_endpoint"]%string ->
        exists e, parse_ip_port s = Val e
    | Plain _ => True
    end;
  w_key : forall i w s, w ∈ ["private_key"; "public_key"]%string -> text_is p (Of "sentinel" i w) s ->
    length s = 64%nat;
  w_shards : forall n, number_is p (Plain "shard_count") n -> n <= vec_max;
  w_coordinators : forall n, number_is p (Plain "coordinator_count") n -> n <= vec_max
}.

(** A hash some shard is responsible for. *)
Definition covered o (h : hash) : Prop := exists r, r ∈ o_shard_ranges (o_shards o) /\ in_range r h = true.

End Options.
