(** Model of the command line of the PArSEC programs: src/parsec/util.cpp:12-190 (split,
    parse_args, read_endpoints, read_cluster_endpoints, read_config) and util.hpp:17-58.

    An argument is the list of its character codes. std::stod is the parameter [stod]
    ([None]: it throws) and its results the type [D]. An outcome is as in ConfigModel;
    [Val None] is std::nullopt. The unordered_map is a list in which the first entry with a
    key counts, as emplace keeps what is there. *)
From Coq Require Import NArith String.
From stdpp Require Import base option list.
From Verif Require Import Base HexModel ConfigModel.
Open Scope N_scope.

(** [s] begins with [delim]. *)
Fixpoint starts (delim s : string) : bool :=
  match delim, s with
  | [], _ => true
  | d :: ds, c :: r => (d =? c) && starts ds r
  | _ :: _, [] => false
  end.

(** The loop of split, util.cpp:18-24: [cur] are the characters since pos_start, the last one
    first; [skip] the characters of a delimiter that was found and not passed yet. *)
Fixpoint split_from (delim : string) (skip : nat) (s cur : string) : list string :=
  match s with
  | [] => [rev cur]
  | c :: r =>
      match skip with
      | S k => split_from delim k r cur
      | O => if starts delim s then rev cur :: split_from delim (length delim - 1) r []
             else split_from delim O r (c :: cur)
      end
  end.

(** split, util.cpp:12-26. *)
Definition split (s delim : string) : list string := split_from delim O s [].

Definition opts : Type := list (string * string).

(** opts.find. *)
Definition find_opt (k : string) (o : opts) : option string :=
  snd <$> List.find (fun e : string * string => bool_decide (e.1 = k)) o.

(** The body of the loop of parse_args, util.cpp:33-45. *)
Definition parse_arg (arg : string) : option (string * string) :=
  match split arg (txt "--") with
  | [a0; a1] =>
      if negb (bool_decide (a0 = [])) || bool_decide (a1 = []) then None
      else match split a1 (txt "=") with
           | [k; v] => Some (k, v)
           | _ => None
           end
  | _ => None
  end.

(** parse_args, util.cpp:28-48. *)
Definition parse_args (args : list string) : option opts := mapM parse_arg (drop 1 args).

(** The loop of read_endpoints, util.cpp:63-71. *)
Fixpoint endpoints_from (o : opts) (component_name : string) (n : nat) (i : N)
    : outcome (option (list endpoint)) :=
  match n with
  | O => Val (Some [])
  | S n' =>
      match find_opt (component_name ++ dec i ++ txt "_endpoint") o with
      | None => Val None
      | Some t => e <~ parse_ip_port t;
                  rest <~ endpoints_from o component_name n' (i + 1);
                  Val (cons e <$> rest)
      end
  end.

(** read_endpoints, util.cpp:50-74. *)
Definition read_endpoints (o : opts) (component_name : string)
    : outcome (option (list endpoint)) :=
  match find_opt (component_name ++ txt "_count") o with
  | None => Val None
  | Some t => count <~ stoull t; endpoints_from o component_name (N.to_nat count) 0
  end.

(** The loop of read_cluster_endpoints, util.cpp:90-97. *)
Fixpoint clusters_from (o : opts) (component_name : string) (n : nat) (i : N)
    : outcome (option (list (list endpoint))) :=
  match n with
  | O => Val (Some [])
  | S n' =>
      eps <~ read_endpoints o (component_name ++ dec i);
      match eps with
      | None => Val None
      | Some l => rest <~ clusters_from o component_name n' (i + 1);
                  Val (cons l <$> rest)
      end
  end.

(** read_cluster_endpoints, util.cpp:76-100. *)
Definition read_cluster_endpoints (o : opts) (component_name : string)
    : outcome (option (list (list endpoint))) :=
  match find_opt (component_name ++ txt "_count") o with
  | None => Val None
  | Some t => count <~ stoull t; clusters_from o component_name (N.to_nat count) 0
  end.

(** load_type and runner_type, util.hpp:15-29. *)
Inductive load_type := Transfer | Erc20.
Inductive runner_type := Lua | Evm.

Section Config.
Context {D : Type} (stod : string -> option D) (zero : D).

(** config, util.hpp:32-58. *)
Record config := Config {
  m_ticket_machine_endpoints : list endpoint;
  m_component_id : N;
  m_loglevel : log_level;
  m_shard_endpoints : list (list endpoint);
  m_node_id : option N;
  m_agent_endpoints : list endpoint;
  m_runner_type : runner_type;
  m_loadgen_accounts : N;
  m_load_type : load_type;
  m_contention_rate : D
}.

(** Where the code returns std::nullopt. *)
Definition some_or {A B} (m : outcome (option A)) (f : A -> outcome (option B))
    : outcome (option B) :=
  x <~ m; match x with Some a => f a | None => Val None end.

(** [it = opts->find(key); if(it != opts->end()) ...], for the options that may be absent. *)
Definition optional {A} (o : opts) (key : string) (d : A) (f : string -> outcome (option A))
    : outcome (option A) :=
  match find_opt key o with
  | Some t => f t
  | None => Val (Some d)
  end.

(** read_config, util.cpp:102-190. config{} makes the load type the first one, transfer. *)
Definition read_config (args : list string) : outcome (option config) :=
  match parse_args args with
  | None => Val None
  | Some o =>
      match find_opt (txt "component_id") o with
      | None => Val None
      | Some t =>
          component_id <~ stoull t;
          some_or (optional o (txt "loglevel") LTrace
                     (fun v => Val (Some (default LTrace (parse_loglevel v)))))
            (fun loglevel =>
          some_or (read_endpoints o (txt "ticket_machine")) (fun ticket_machines =>
          some_or (optional o (txt "node_id") None
                     (fun v => n <~ stoull v; Val (Some (Some n)))) (fun node_id =>
          some_or (read_cluster_endpoints o (txt "shard")) (fun shards =>
          some_or (read_endpoints o (txt "agent")) (fun agents =>
          some_or (optional o (txt "loadgen_txtype") Transfer
                     (fun v => Val (if bool_decide (v = txt "transfer") then Some Transfer
                                    else if bool_decide (v = txt "erc20") then Some Erc20
                                    else None))) (fun load =>
          some_or (optional o (txt "contention_rate") zero
                     (fun v => match stod v with Some d => Val (Some d) | None => Threw end))
            (fun contention =>
          some_or (optional o (txt "loadgen_accounts") 1000
                     (fun v => n <~ stoull v; Val (Some n))) (fun accounts =>
          some_or (optional o (txt "runner_type") Evm
                     (fun v => Val (if bool_decide (v = txt "evm") then Some Evm
                                    else if bool_decide (v = txt "lua") then Some Lua
                                    else None))) (fun runner =>
          Val (Some (Config ticket_machines component_id loglevel shards node_id agents
                       runner accounts load contention)))))))))))
      end
  end.
End Config.
