(** Model of the configuration files, src/util/common/config.cpp and config.hpp, and
    parse_loglevel, src/util/common/logging.cpp:70-90.

    Simplifications, valid for the whole file:
    - a file and the value of an environment variable are lists of character codes;
      [env] is std::getenv, "C" locale;
    - std::stod is the parameter [stod] ([None]: it throws) and its results the type [D];
    - an error message is replaced by the name of the setting it complains about, or by the
      rule that was broken;
    - the vectors the code resizes before it fills them (config.cpp:248-250, 366-367) are
      built element by element: whenever the options are returned, every element has been
      visited. That resizing fails if there is not enough memory is not modelled, but that
      it throws std::length_error beyond max_size() is;
    - each read_..._options returns what it writes into the options, and read_options puts
      the parts together. *)
From Coq Require Import NArith ZArith Ascii String.
From stdpp Require Import base option list.
From Verif Require Import Base HexModel.
Open Scope N_scope.

(** A string literal of the C++ source. *)
Definition txt (x : String.string) : string := map N_of_ascii (String.list_ascii_of_string x).
Arguments txt x%string.

(** The rules of check_options, config.cpp:680-734, and the two of read_shard_options about
    the seed key, 345-352. *)
Inductive rule :=
| RuleSentinel | RuleAttestors | RuleShard | RuleCoordinator
| RuleWatchtower | RuleArchiver | RuleSentinelShard | RuleAtomizer
| RuleSeedOrder | RuleSeedValue | RulePublicKeys | RuleSeedKey | RuleSeedKeyLength.

Inductive cfg_error := Missing (k : string) | Broken (r : rule).

(** How a call ends: with a value, with an error message, with an exception nobody catches,
    with a failed assertion, or with undefined behaviour. *)
Inductive outcome (A : Type) :=
| Val (a : A) | Bad (e : cfg_error) | Threw | Assertion | Undefined.
Arguments Val {A} a. Arguments Bad {A} e. Arguments Threw {A}. Arguments Assertion {A}.
Arguments Undefined {A}.

Definition obind {A B} (m : outcome A) (f : A -> outcome B) : outcome B :=
  match m with
  | Val a => f a
  | Bad e => Bad e
  | Threw => Threw
  | Assertion => Assertion
  | Undefined => Undefined
  end.
Notation "x <~ m ; f" := (obind m (fun x => f))
  (at level 60, m at next level, right associativity).
Notation "' p <~ m ; f" := (obind m (fun x => let 'p := x in f))
  (at level 60, p pattern, m at next level, right associativity).

(** * Text *)

(** What std::getline reads up to the delimiter, and what is left after it. *)
Fixpoint split_at (d : N) (s : string) : string * string :=
  match s with
  | [] => ([], [])
  | c :: r => if c =? d then ([], r) else let '(a, b) := split_at d r in (c :: a, b)
  end.

(** std::getline: fails if there is nothing at all to read. *)
Definition getline (d : N) (s : string) : option (string * string) :=
  match s with
  | [] => None
  | _ => Some (split_at d s)
  end.

(** The lines successive calls of std::getline return. *)
Fixpoint lines (s : string) : list string :=
  match s with
  | [] => []
  | c :: r =>
      if c =? 10 then [] :: lines r
      else match lines r with
           | [] => [[c]]
           | l :: ls => (c :: l) :: ls
           end
  end.

Definition is_digit (c : N) : bool := (48 <=? c) && (c <=? 57).

(** The decimal digits at the start of a text; [seen]: one was read before. *)
Fixpoint read_dec (s : string) (acc : N) (seen : bool) : option N :=
  match s with
  | c :: r =>
      if is_digit c then read_dec r (10 * acc + (c - 48)) true
      else if seen then Some acc else None
  | [] => if seen then Some acc else None
  end.

(** std::stoull and std::stoul (64 bits): white space, a sign, digits; what follows is
    ignored. No digit and a value above 2^64-1 throw; a minus sign negates modulo 2^64. *)
Definition stoull (s : string) : outcome N :=
  let s1 := skip_space s in
  let '(neg, s2) := match s1 with
                    | c :: r => if c =? 45 then (true, r)
                                else if c =? 43 then (false, r) else (false, s1)
                    | [] => (false, [])
                    end in
  match read_dec s2 0 false with
  | None => Threw
  | Some v => if two64 <=? v then Threw
              else Val (if neg : bool then wrap64 (two64 - v) else v)
  end.

(** std::toupper and std::transform over a key. *)
Definition upper_char (c : N) : N := if (97 <=? c) && (c <=? 122) then c - 32 else c.
Definition upper (s : string) : string := map upper_char s.

(** [ss << n] of a size_t, and std::to_string. *)
Fixpoint dec_digits (fuel : nat) (n : N) (acc : string) : string :=
  match fuel with
  | O => acc
  | S f => let acc' := (48 + n mod 10) :: acc in
           if n <? 10 then acc' else dec_digits f (n / 10) acc'
  end.
Definition dec (n : N) : string := dec_digits (S (N.to_nat (N.log2 n))) n [].

(** * The names of the settings, config.cpp:31-242 and config.hpp:64-137 *)

(** get_shard_key_prefix and the other prefixes: the name of the component, its number
    and the separator. *)
Definition numbered (prefix : String.string) (i : N) (rest : string) : string :=
  txt prefix ++ dec i ++ txt "_" ++ rest.
Arguments numbered prefix%string i rest.

Definition get_shard_endpoint_key (i : N) : string := numbered "shard" i (txt "endpoint").
Definition get_shard_db_key (i : N) : string := numbered "shard" i (txt "db").
Definition get_shard_start_key (i : N) : string := numbered "shard" i (txt "start").
Definition get_shard_end_key (i : N) : string := numbered "shard" i (txt "end").
Definition get_shard_loglevel_key (i : N) : string := numbered "shard" i (txt "loglevel").
Definition get_shard_node_count_key (i : N) : string := numbered "shard" i (txt "count").
Definition get_shard_node_endpoint_key (i j : N) : string :=
  numbered "shard" i (dec j ++ txt "_" ++ txt "endpoint").
Definition get_shard_raft_endpoint_key (i j : N) : string :=
  numbered "shard" i (dec j ++ txt "_" ++ txt "raft_endpoint").
Definition get_shard_readonly_endpoint_key (i j : N) : string :=
  numbered "shard" i (dec j ++ txt "_" ++ txt "readonly" ++ txt "_" ++ txt "endpoint").
Definition get_atomizer_endpoint_key (i : N) : string := numbered "atomizer" i (txt "endpoint").
Definition get_atomizer_raft_endpoint_key (i : N) : string :=
  numbered "atomizer" i (txt "raft_endpoint").
Definition get_atomizer_loglevel_key (i : N) : string := numbered "atomizer" i (txt "loglevel").
Definition get_sentinel_endpoint_key (i : N) : string := numbered "sentinel" i (txt "endpoint").
Definition get_sentinel_loglevel_key (i : N) : string := numbered "sentinel" i (txt "loglevel").
Definition get_sentinel_private_key_key (i : N) : string :=
  numbered "sentinel" i (txt "private_key").
Definition get_sentinel_public_key_key (i : N) : string :=
  numbered "sentinel" i (txt "public_key").
Definition get_archiver_endpoint_key (i : N) : string := numbered "archiver" i (txt "endpoint").
Definition get_archiver_loglevel_key (i : N) : string := numbered "archiver" i (txt "loglevel").
Definition get_archiver_db_key (i : N) : string := numbered "archiver" i (txt "db").
Definition get_watchtower_client_endpoint_key (i : N) : string :=
  numbered "watchtower" i (txt "client_endpoint").
Definition get_watchtower_internal_endpoint_key (i : N) : string :=
  numbered "watchtower" i (txt "internal_endpoint").
Definition get_watchtower_loglevel_key (i : N) : string :=
  numbered "watchtower" i (txt "loglevel").
Definition get_coordinator_loglevel_key (i : N) : string :=
  numbered "coordinator" i (txt "loglevel").
Definition get_coordinator_node_count_key (i : N) : string :=
  numbered "coordinator" i (txt "count").
Definition get_coordinator_endpoint_key (i j : N) : string :=
  numbered "coordinator" i (dec j ++ txt "_" ++ txt "endpoint").
Definition get_coordinator_raft_endpoint_key (i j : N) : string :=
  numbered "coordinator" i (dec j ++ txt "_" ++ txt "raft_endpoint").

(** * parse_loglevel, logging.cpp:70-90 *)

Inductive log_level := LTrace | LDebug | LInfo | LWarn | LError | LFatal.

Definition parse_loglevel (s : string) : option log_level :=
  if bool_decide (s = txt "TRACE") then Some LTrace
  else if bool_decide (s = txt "DEBUG") then Some LDebug
  else if bool_decide (s = txt "INFO") then Some LInfo
  else if bool_decide (s = txt "WARN") then Some LWarn
  else if bool_decide (s = txt "ERROR") then Some LError
  else if bool_decide (s = txt "FATAL") then Some LFatal
  else None.

(** parse_ip_port, config.cpp:13-29. *)
Definition endpoint : Type := string * N.
Definition parse_ip_port (s : string) : outcome endpoint :=
  match getline 58 s with
  | None => Assertion
  | Some (host, r) =>
      match getline 58 r with
      | None => Assertion
      | Some (port_str, _) =>
          port <~ stoull port_str;
          if port <=? 65535 then Val (host, port) else Assertion
      end
  end.

(** The loop [for(i = 0; i < n; i++)]. *)
Fixpoint each {A} (f : N -> outcome A) (n : nat) (i : N) : outcome (list A) :=
  match n with
  | O => Val []
  | S n' =>
      a <~ f i;
      l <~ each f n' (i + 1);
      Val (a :: l)
  end.
Definition upto {A} (n : N) (f : N -> outcome A) : outcome (list A) := each f (N.to_nat n) 0.

(** max_size() of a vector of vectors (24 bytes each), libstdc++. *)
Definition vec_max : N := 384307168202282325.
Definition resize (n : N) : outcome unit := if vec_max <? n then Threw else Val tt.

(** [if(!x) return "No ... (key)"]. *)
Definition required {A} (k : string) (m : outcome (option A)) : outcome A :=
  o <~ m;
  match o with
  | Some a => Val a
  | None => Bad (Missing k)
  end.

(** [value_or] of a number. *)
Definition value_or {A} (d : A) (m : outcome (option A)) : outcome A :=
  o <~ m; Val (default d o).

Section Config.
Context {D : Type} (stod : string -> option D) (zero one : D).
Context (env : string -> option string).

(** value_t, config.hpp:369. *)
Inductive value := VStr (s : string) | VNum (n : N) | VDbl (d : D).

(** parser::parse_value, config.cpp:846-858. For the empty text [value[size() - 1]] reads
    outside the string. *)
Definition parse_value (s : string) : outcome value :=
  match s with
  | [] => Undefined
  | c :: r =>
      if negb (c =? 34) && negb (List.last s 0 =? 34) then
        if existsb (N.eqb 46) s
        then match stod s with Some d => Val (VDbl d) | None => Threw end
        else n <~ stoull s; Val (VNum n)
      else Val (VStr (firstn (length s - 2) r))
  end.

(** m_options: a map; emplace keeps what is there. *)
Definition parser : Type := list (string * value).

Definition find (k : string) (p : parser) : option value :=
  snd <$> List.find (fun e : string * value => bool_decide (e.1 = k)) p.

Definition emplace (p : parser) (k : string) (v : value) : parser :=
  match find k p with
  | Some _ => p
  | None => p ++ [(k, v)]
  end.

(** One line of the loop of parser::init, config.cpp:778-787. *)
Definition init_line (p : parser) (line : string) : outcome parser :=
  match getline 61 line with
  | None => Val p
  | Some (key, r) =>
      match r with
      | [] => Val p
      | _ => v <~ parse_value r; Val (emplace p key v)
      end
  end.

Fixpoint init_lines (p : parser) (ls : list string) : outcome parser :=
  match ls with
  | [] => Val p
  | l :: ls' => p' <~ init_line p l; init_lines p' ls'
  end.

(** parser::init, config.cpp:776-788. *)
Definition init (file : string) : outcome parser := init_lines [] (lines file).

(** parser::find_or_env, config.cpp:824-844. *)
Definition find_or_env (p : parser) (k : string) : outcome (option value) :=
  match env (upper k) with
  | Some v => x <~ parse_value v; Val (Some x)
  | None => Val (find k p)
  end.

(** get_string, get_ulong, get_decimal: get_val, config.hpp:374-386. *)
Definition get_string (p : parser) (k : string) : outcome (option string) :=
  o <~ find_or_env p k;
  Val match o with Some (VStr s) => Some s | _ => None end.
Definition get_ulong (p : parser) (k : string) : outcome (option N) :=
  o <~ find_or_env p k;
  Val match o with Some (VNum n) => Some n | _ => None end.
Definition get_decimal (p : parser) (k : string) : outcome (option D) :=
  o <~ find_or_env p k;
  Val match o with Some (VDbl d) => Some d | _ => None end.

(** parser::get_endpoint, config.cpp:800-808. *)
Definition get_endpoint (p : parser) (k : string) : outcome (option endpoint) :=
  o <~ get_string p k;
  match o with
  | None => Val None
  | Some s => e <~ parse_ip_port s; Val (Some e)
  end.

(** parser::get_loglevel, config.cpp:810-817, with [value_or(defaults::log_level)]. *)
Definition loglevel (p : parser) (k : string) : outcome log_level :=
  o <~ get_string p k;
  Val (default LWarn (s ← o; parse_loglevel s)).

(** hash_from_hex where its result is stored (hash.cpp:26-38). A text of fewer than 64
    digits leaves bytes of the key unset, a longer one is written beyond the array. *)
Definition key_of_hex (s : string) : outcome bytes :=
  match hash_from_hex s with
  | HashIs b => Val b
  | _ => Undefined
  end.

(** * The options, config.hpp:139-290 *)
Record sentinel_opts := SentinelOpts {
  o_threshold : N;
  o_sentinel_eps : list endpoint;
  o_sentinel_logs : list log_level;
  o_sentinel_priv : list (option bytes);    (* by sentinel; absent if not configured *)
  o_sentinel_pub : list (option bytes)      (* inserted into a set, see [pubkeys] *)
}.
Record locking_opts := LockingOpts {
  o_ls_eps : list (list endpoint);
  o_ls_raft : list (list endpoint);
  o_ls_ro : list (list endpoint)
}.
Record shard_opts := ShardOpts {
  o_shard_eps : list endpoint;
  o_shard_dbs : list string;
  o_shard_logs : list log_level;
  o_shard_ranges : list (N * N);
  o_completed_cache : N;
  o_seed_from : N; o_seed_to : N;
  o_seed_priv : option bytes;
  o_seed_value : N
}.
Record atomizer_opts := AtomizerOpts {
  o_atomizer_eps : list endpoint;
  o_atomizer_logs : list log_level;
  o_atomizer_raft : list endpoint;
  o_block_interval : N; o_stxo_depth : N
}.
Record archiver_opts := ArchiverOpts {
  o_archiver_eps : list endpoint;
  o_archiver_logs : list log_level;
  o_archiver_dbs : list string
}.
Record watchtower_opts := WatchtowerOpts {
  o_wt_client : list endpoint;
  o_wt_internal : list endpoint;
  o_wt_logs : list log_level;
  o_wt_blocks : N; o_wt_errors : N
}.
Record coordinator_opts := CoordinatorOpts {
  o_co_logs : list log_level;
  o_co_raft : list (list endpoint);
  o_co_eps : list (list endpoint);
  o_co_threads : N
}.
Record raft_opts := RaftOpts {
  o_election_upper : Z; o_election_lower : Z; o_heartbeat : Z; o_snapshot : Z;
  o_max_batch : Z; o_batch : N
}.
Record loadgen_opts := LoadgenOpts {
  o_inputs : N; o_outputs : N; o_invalid : D; o_fixed_rate : D; o_fixed_mode : bool;
  o_window : N; o_mint_count : N; o_mint_value : N; o_loadgens : N
}.
Record options := Options {
  o_twophase : bool;
  o_sentinels : sentinel_opts;
  o_locking : locking_opts;
  o_shards : shard_opts;
  o_atomizers : atomizer_opts;
  o_archivers : archiver_opts;
  o_watchtowers : watchtower_opts;
  o_coordinators : coordinator_opts;
  o_raft : raft_opts;
  o_loadgen : loadgen_opts
}.

(** m_sentinel_public_keys, an unordered_set. *)
Definition pubkeys (o : sentinel_opts) : list bytes := remove_dups (omap id (o_sentinel_pub o)).

(** * Reading, config.cpp:244-666 *)

Definition ulong_or (p : parser) (k : string) (d : N) : outcome N := value_or d (get_ulong p k).

(** The body of the loop of read_sentinel_options, config.cpp:416-454. *)
Definition read_sentinel (p : parser) (threshold i : N) :
    outcome (endpoint * log_level * option bytes * option bytes) :=
  ep <~ required (get_sentinel_endpoint_key i) (get_endpoint p (get_sentinel_endpoint_key i));
  lg <~ loglevel p (get_sentinel_loglevel_key i);
  priv_s <~ get_string p (get_sentinel_private_key_key i);
  priv <~ match priv_s with
          | Some s => b <~ key_of_hex s; Val (Some b)
          | None => Val None
          end;
  pub_s <~ get_string p (get_sentinel_public_key_key i);
  pub <~ match pub_s with
         | Some s => b <~ key_of_hex s; Val (Some b)
         | None => if threshold =? 0 then Val None
                   else Bad (Missing (get_sentinel_public_key_key i))
         end;
  Val (ep, lg, priv, pub).

(** read_sentinel_options, config.cpp:409-457. *)
Definition read_sentinel_options (p : parser) : outcome sentinel_opts :=
  threshold <~ ulong_or p (txt "attestation_threshold") 1;
  n <~ ulong_or p (txt "sentinel_count") 0;
  l <~ upto n (read_sentinel p threshold);
  Val (SentinelOpts threshold
         ((fun x : endpoint * log_level * option bytes * option bytes => x.1.1.1) <$> l)
         ((fun x : endpoint * log_level * option bytes * option bytes => x.1.1.2) <$> l)
         ((fun x : endpoint * log_level * option bytes * option bytes => x.1.2) <$> l)
         ((fun x : endpoint * log_level * option bytes * option bytes => x.2) <$> l)).

(** The body of the inner loop of read_shard_endpoints, config.cpp:258-288. *)
Definition read_shard_node (p : parser) (i j : N) : outcome (endpoint * endpoint * endpoint) :=
  raft <~ required (get_shard_raft_endpoint_key i j)
            (get_endpoint p (get_shard_raft_endpoint_key i j));
  ep <~ required (get_shard_node_endpoint_key i j)
          (get_endpoint p (get_shard_node_endpoint_key i j));
  ro <~ required (get_shard_readonly_endpoint_key i j)
          (get_endpoint p (get_shard_readonly_endpoint_key i j));
  Val (raft, ep, ro).

Definition read_shard_nodes (p : parser) (i : N) : outcome (list (endpoint * endpoint * endpoint)) :=
  n <~ required (get_shard_node_count_key i) (get_ulong p (get_shard_node_count_key i));
  upto n (read_shard_node p i).

(** read_shard_endpoints, config.cpp:244-293. *)
Definition read_shard_endpoints (p : parser) (twophase : bool) : outcome locking_opts :=
  n <~ ulong_or p (txt "shard_count") 0;
  if twophase then
    _ <~ resize n;
    l <~ upto n (read_shard_nodes p);
    Val (LockingOpts
           (map (fun x : endpoint * endpoint * endpoint => x.1.2) <$> l)
           (map (fun x : endpoint * endpoint * endpoint => x.1.1) <$> l)
           (map (fun x : endpoint * endpoint * endpoint => x.2) <$> l))
  else Val (LockingOpts [] [] []).

(** static_cast<uint8_t>. *)
Definition u8 (n : N) : N := n mod 256.

(** The body of the loop of read_shard_options, config.cpp:299-338. *)
Definition read_shard (p : parser) (twophase : bool) (i : N) :
    outcome (option (endpoint * string) * log_level * (N * N)) :=
  loc <~ (if twophase then Val None
          else
            ep <~ required (get_shard_endpoint_key i) (get_endpoint p (get_shard_endpoint_key i));
            db <~ required (get_shard_db_key i) (get_string p (get_shard_db_key i));
            Val (Some (ep, db)));
  lg <~ loglevel p (get_shard_loglevel_key i);
  a <~ required (get_shard_start_key i) (get_ulong p (get_shard_start_key i));
  b <~ required (get_shard_end_key i) (get_ulong p (get_shard_end_key i));
  Val (loc, lg, (u8 a, u8 b)).

(** read_shard_options, config.cpp:295-360. *)
Definition read_shard_options (p : parser) (twophase : bool) : outcome shard_opts :=
  n <~ ulong_or p (txt "shard_count") 0;
  l <~ upto n (read_shard p twophase);
  cache <~ ulong_or p (txt "shard_completed_txs_cache_size") 10000000;
  from <~ ulong_or p (txt "seed_from") 0;
  to <~ ulong_or p (txt "seed_to") 0;
  '(priv, val) <~
    (if from =? to then Val (None, 0)
     else
       ps <~ get_string p (txt "seed_privkey");
       match ps with
       | None => Bad (Broken RuleSeedKey)
       | Some s =>
           if (length s =? 64)%nat then
             k <~ key_of_hex s;
             v <~ ulong_or p (txt "seed_value") 0;
             Val (Some k, v)
           else Bad (Broken RuleSeedKeyLength)
       end);
  Val (ShardOpts
         (omap (fun x : option (endpoint * string) * log_level * (N * N) => fst <$> x.1.1) l)
         (omap (fun x : option (endpoint * string) * log_level * (N * N) => snd <$> x.1.1) l)
         ((fun x : option (endpoint * string) * log_level * (N * N) => x.1.2) <$> l)
         ((fun x : option (endpoint * string) * log_level * (N * N) => x.2) <$> l)
         cache from to priv val).

(** read_atomizer_options, config.cpp:459-496. *)
Definition read_atomizer (p : parser) (i : N) : outcome (endpoint * log_level * endpoint) :=
  ep <~ required (get_atomizer_endpoint_key i) (get_endpoint p (get_atomizer_endpoint_key i));
  lg <~ loglevel p (get_atomizer_loglevel_key i);
  raft <~ required (get_atomizer_raft_endpoint_key i)
            (get_endpoint p (get_atomizer_raft_endpoint_key i));
  Val (ep, lg, raft).
Definition read_atomizer_options (p : parser) : outcome atomizer_opts :=
  n <~ ulong_or p (txt "atomizer_count") 0;
  l <~ upto n (read_atomizer p);
  interval <~ ulong_or p (txt "target_block_interval") 250;
  depth <~ ulong_or p (txt "stxo_cache_depth") 1;
  Val (AtomizerOpts
         ((fun x : endpoint * log_level * endpoint => x.1.1) <$> l)
         ((fun x : endpoint * log_level * endpoint => x.1.2) <$> l)
         ((fun x : endpoint * log_level * endpoint => x.2) <$> l) interval depth).

(** read_archiver_options, config.cpp:498-527. *)
Definition read_archiver (p : parser) (i : N) : outcome (endpoint * log_level * string) :=
  ep <~ required (get_archiver_endpoint_key i) (get_endpoint p (get_archiver_endpoint_key i));
  lg <~ loglevel p (get_archiver_loglevel_key i);
  db <~ required (get_archiver_db_key i) (get_string p (get_archiver_db_key i));
  Val (ep, lg, db).
Definition read_archiver_options (p : parser) : outcome archiver_opts :=
  n <~ ulong_or p (txt "archiver_count") 0;
  l <~ upto n (read_archiver p);
  Val (ArchiverOpts
         ((fun x : endpoint * log_level * string => x.1.1) <$> l)
         ((fun x : endpoint * log_level * string => x.1.2) <$> l)
         ((fun x : endpoint * log_level * string => x.2) <$> l)).

(** read_watchtower_options, config.cpp:529-574. *)
Definition read_watchtower (p : parser) (i : N) : outcome (endpoint * endpoint * log_level) :=
  c <~ required (get_watchtower_client_endpoint_key i)
         (get_endpoint p (get_watchtower_client_endpoint_key i));
  n <~ required (get_watchtower_internal_endpoint_key i)
         (get_endpoint p (get_watchtower_internal_endpoint_key i));
  lg <~ loglevel p (get_watchtower_loglevel_key i);
  Val (c, n, lg).
Definition read_watchtower_options (p : parser) : outcome watchtower_opts :=
  n <~ ulong_or p (txt "watchtower_count") 0;
  l <~ upto n (read_watchtower p);
  blocks <~ ulong_or p (txt "watchtower_block_cache_size") 100;
  errors <~ ulong_or p (txt "watchtower_error_cache_size") 1000000;
  Val (WatchtowerOpts
         ((fun x : endpoint * endpoint * log_level => x.1.1) <$> l)
         ((fun x : endpoint * endpoint * log_level => x.1.2) <$> l)
         ((fun x : endpoint * endpoint * log_level => x.2) <$> l) blocks errors).

(** read_coordinator_options, config.cpp:362-407. *)
Definition read_coordinator_node (p : parser) (i j : N) : outcome (endpoint * endpoint) :=
  raft <~ required (get_coordinator_raft_endpoint_key i j)
            (get_endpoint p (get_coordinator_raft_endpoint_key i j));
  ep <~ required (get_coordinator_endpoint_key i j)
          (get_endpoint p (get_coordinator_endpoint_key i j));
  Val (raft, ep).
Definition read_coordinator (p : parser) (i : N) : outcome (log_level * list (endpoint * endpoint)) :=
  lg <~ loglevel p (get_coordinator_loglevel_key i);
  n <~ required (get_coordinator_node_count_key i) (get_ulong p (get_coordinator_node_count_key i));
  l <~ upto n (read_coordinator_node p i);
  Val (lg, l).
Definition read_coordinator_options (p : parser) : outcome coordinator_opts :=
  n <~ ulong_or p (txt "coordinator_count") 0;
  _ <~ resize n;
  l <~ upto n (read_coordinator p);
  threads <~ ulong_or p (txt "coordinator_max_threads") 75;
  Val (CoordinatorOpts
         ((fun x : log_level * list (endpoint * endpoint) => x.1) <$> l)
         ((fun x : log_level * list (endpoint * endpoint) => fst <$> x.2) <$> l)
         ((fun x : log_level * list (endpoint * endpoint) => snd <$> x.2) <$> l) threads).

(** static_cast<int32_t>. *)
Definition i32 (n : N) : Z :=
  let m := n mod 4294967296 in
  if m <? 2147483648 then Z.of_N m else (Z.of_N m - 4294967296)%Z.

(** read_raft_options, config.cpp:576-594. *)
Definition read_raft_options (p : parser) : outcome raft_opts :=
  up <~ ulong_or p (txt "election_timeout_upper") 4000;
  lo <~ ulong_or p (txt "election_timeout_lower") 2000;
  hb <~ ulong_or p (txt "heartbeat") 1000;
  sn <~ ulong_or p (txt "snapshot_distance") 0;
  mb <~ ulong_or p (txt "raft_max_batch") 100000;
  b <~ ulong_or p (txt "batch_size") 2000;
  Val (RaftOpts (i32 up) (i32 lo) (i32 hb) (i32 sn) (i32 mb) b).

(** read_loadgen_options, config.cpp:596-617. *)
Definition read_loadgen_options (p : parser) : outcome loadgen_opts :=
  i <~ ulong_or p (txt "loadgen_sendtx_input_count") 2;
  o <~ ulong_or p (txt "loadgen_sendtx_output_count") 2;
  inv <~ value_or zero (get_decimal p (txt "loadgen_invalid_tx_rate"));
  fix_ <~ value_or one (get_decimal p (txt "loadgen_fixed_tx_rate"));
  w <~ ulong_or p (txt "window_size") 10000;
  mc <~ ulong_or p (txt "initial_mint_count") 20000;
  mv <~ ulong_or p (txt "initial_mint_value") 100;
  n <~ ulong_or p (txt "loadgen_count") 0;
  Val (LoadgenOpts i o inv fix_ (negb (i =? 0) && negb (o =? 0)) w mc mv n).

(** read_options, config.cpp:619-666, of a file that can be read. *)
Definition read_options (file : string) : outcome options :=
  p <~ init file;
  mode <~ ulong_or p (txt "2pc") 0;
  let twophase := negb (mode =? 0) in
  sen <~ read_sentinel_options p;
  loc <~ read_shard_endpoints p twophase;
  sh <~ read_shard_options p twophase;
  at_ <~ read_atomizer_options p;
  ar <~ read_archiver_options p;
  wt <~ read_watchtower_options p;
  co <~ read_coordinator_options p;
  ra <~ read_raft_options p;
  lo <~ read_loadgen_options p;
  Val (Options twophase sen loc sh at_ ar wt co ra lo).

Definition empty {A} (l : list A) : bool := match l with [] => true | _ => false end.

(** check_options, config.cpp:680-734: the first rule that is broken. *)
Definition check_options (o : options) : option rule :=
  let mode_rule :=
    if o_twophase o then
      if empty (o_sentinel_eps (o_sentinels o)) then Some RuleSentinel
      else if N.of_nat (length (o_sentinel_eps (o_sentinels o))) <? o_threshold (o_sentinels o)
      then Some RuleAttestors
      else if empty (o_ls_eps (o_locking o)) then Some RuleShard
      else if empty (o_co_eps (o_coordinators o)) then Some RuleCoordinator
      else None
    else
      if empty (o_wt_client (o_watchtowers o)) then Some RuleWatchtower
      else if empty (o_archiver_eps (o_archivers o)) then Some RuleArchiver
      else if empty (o_shard_eps (o_shards o)) && negb (empty (o_sentinel_eps (o_sentinels o)))
      then Some RuleSentinelShard
      else if empty (o_atomizer_eps (o_atomizers o)) then Some RuleAtomizer
      else None in
  match mode_rule with
  | Some r => Some r
  | None =>
      let from := o_seed_from (o_shards o) in
      let to := o_seed_to (o_shards o) in
      if negb (from =? to) && (to <? from) then Some RuleSeedOrder
      else if negb (from =? to) && (o_seed_value (o_shards o) =? 0) then Some RuleSeedValue
      else if N.of_nat (length (pubkeys (o_sentinels o))) <? o_threshold (o_sentinels o)
      then Some RulePublicKeys
      else None
  end.

(** load_options, config.cpp:668-678. *)
Definition load_options (file : string) : outcome options :=
  o <~ read_options file;
  match check_options o with
  | Some r => Bad (Broken r)
  | None => Val o
  end.

(** loadgen_seed_range, config.cpp:741-749. *)
Definition loadgen_seed_range (o : options) (gen_id : N) : outcome (N * N) :=
  let from := o_seed_from (o_shards o) in
  if gen_id <? o_loadgens (o_loadgen o) then
    let sz := sub64 (o_seed_to (o_shards o)) from / o_loadgens (o_loadgen o) in
    let start := add64 from (mul64 gen_id sz) in
    Val (start, sub64 (add64 start sz) 1)
  else Assertion.

End Config.
