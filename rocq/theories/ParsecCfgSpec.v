(** What users know of the command line of the PArSEC programs: arguments [--name=value], and
    the names of the options for a deployment. *)
From Coq Require Import NArith String.
From stdpp Require Import base option list.
From Verif Require Import Base HexModel ConfigModel ParsecCfgModel.
Open Scope N_scope.

(** [--name=value] *)
Definition shown (k v : string) : string := txt "--" ++ k ++ txt "=" ++ v.

(** A text without "=" and "--". *)
Definition has_dashes (t : string) : Prop := exists a b, t = a ++ txt "--" ++ b.
Definition clean (t : string) : Prop := 61 ∉ t /\ ~ has_dashes t.

(** [a] sets [k] to [v]. *)
Definition setting (a k v : string) : Prop :=
  a = shown k v /\ 61 ∉ k /\ 61 ∉ v /\ ~ has_dashes (k ++ txt "=" ++ v).

(** The first argument that sets [k] sets it to [v]; none does. *)
Definition given (args : list string) (k v : string) : Prop :=
  exists before after, args = before ++ shown k v :: after /\ forall w, shown k w ∉ before.
Definition absent (args : list string) (k : string) : Prop := forall w, shown k w ∉ args.

(** The endpoints of the [name] with as many as [name_count] says, each from
    [name<number>_endpoint]. *)
Definition endpoints_are (args : list string) (name : string) (l : list endpoint) : Prop :=
  (exists t, given args (name ++ txt "_count") t /\ stoull t = Val (N.of_nat (length l))) /\
  forall i e, l !! i = Some e ->
    exists t, given args (name ++ dec (N.of_nat i) ++ txt "_endpoint") t /\
              parse_ip_port t = Val e.

Definition clusters_are (args : list string) (name : string) (l : list (list endpoint)) : Prop :=
  (exists t, given args (name ++ txt "_count") t /\ stoull t = Val (N.of_nat (length l))) /\
  forall i c, l !! i = Some c -> endpoints_are args (name ++ dec (N.of_nat i)) c.

(** An option that may be absent. *)
Definition option_is {A} (args : list string) (name : string) (d : A) (R : string -> A -> Prop)
    (a : A) : Prop :=
  (exists t, given args name t /\ R t a) \/ (absent args name /\ a = d).

Definition level_names : list (string * log_level) :=
  [(txt "TRACE", LTrace); (txt "DEBUG", LDebug); (txt "INFO", LInfo); (txt "WARN", LWarn);
   (txt "ERROR", LError); (txt "FATAL", LFatal)].

Section Spec.
Context {D : Type} (stod : string -> option D) (zero : D).

(** Every part of the configuration is what the arguments say. *)
Definition means (args : list string) (c : config (D := D)) : Prop :=
  (exists t, given args (txt "component_id") t /\ stoull t = Val (m_component_id c)) /\
  option_is args (txt "node_id") None
    (fun t x => exists n, x = Some n /\ stoull t = Val n) (m_node_id c) /\
  option_is args (txt "loglevel") LTrace
    (fun t l => In (t, l) level_names \/
                (l = LTrace /\ forall l', ~ In (t, l') level_names)) (m_loglevel c) /\
  endpoints_are args (txt "ticket_machine") (m_ticket_machine_endpoints c) /\
  clusters_are args (txt "shard") (m_shard_endpoints c) /\
  endpoints_are args (txt "agent") (m_agent_endpoints c) /\
  option_is args (txt "loadgen_txtype") Transfer
    (fun t x => (t = txt "transfer" /\ x = Transfer) \/ (t = txt "erc20" /\ x = Erc20))
    (m_load_type c) /\
  option_is args (txt "contention_rate") zero (fun t x => stod t = Some x)
    (m_contention_rate c) /\
  option_is args (txt "loadgen_accounts") 1000 (fun t x => stoull t = Val x)
    (m_loadgen_accounts c) /\
  option_is args (txt "runner_type") Evm
    (fun t x => (t = txt "evm" /\ x = Evm) \/ (t = txt "lua" /\ x = Lua)) (m_runner_type c).

(** A deployment, as an operator thinks of it. *)
Record deployment := Deployment {
  d_component : N;
  d_node : option N;
  d_log : option log_level;
  d_tickets : list endpoint;
  d_shards : list (list endpoint);
  d_agents : list endpoint;
  d_load : option load_type;
  d_rate : option (string * D);
  d_accounts : option N;
  d_runner : option runner_type
}.

(** The names of the options. *)
Inductive pname :=
  | Word (w : String.string)
  | TicketMachine (i : N)
  | ShardSize (i : N)
  | ShardNode (i j : N)
  | Agent (i : N).

Definition spelled (n : pname) : string :=
  match n with
  | Word w => txt w
  | TicketMachine i => txt "ticket_machine" ++ dec i ++ txt "_endpoint"
  | ShardSize i => txt "shard" ++ dec i ++ txt "_count"
  | ShardNode i j => txt "shard" ++ dec i ++ dec j ++ txt "_endpoint"
  | Agent i => txt "agent" ++ dec i ++ txt "_endpoint"
  end.

Definition show_endpoint (e : endpoint) : string := e.1 ++ txt ":" ++ dec e.2.
Definition show_level (l : log_level) : string :=
  match l with
  | LTrace => txt "TRACE" | LDebug => txt "DEBUG" | LInfo => txt "INFO"
  | LWarn => txt "WARN" | LError => txt "ERROR" | LFatal => txt "FATAL"
  end.
Definition size {A} (l : list A) : string := dec (N.of_nat (length l)).

(** What the operator writes for each option. *)
Definition words (d : deployment) : list (String.string * option string) :=
  [("component_id", Some (dec (d_component d)));
   ("node_id", dec <$> d_node d);
   ("loglevel", show_level <$> d_log d);
   ("ticket_machine_count", Some (size (d_tickets d)));
   ("shard_count", Some (size (d_shards d)));
   ("agent_count", Some (size (d_agents d)));
   ("loadgen_txtype",
      (fun t => match t with Transfer => txt "transfer" | Erc20 => txt "erc20" end) <$> d_load d);
   ("contention_rate", fst <$> d_rate d);
   ("loadgen_accounts", dec <$> d_accounts d);
   ("runner_type",
      (fun t => match t with Evm => txt "evm" | Lua => txt "lua" end) <$> d_runner d)]%string.

Definition says (d : deployment) (n : pname) (v : string) : Prop :=
  match n with
  | Word w => In (w, Some v) (words d)
  | TicketMachine i => exists e, d_tickets d !! N.to_nat i = Some e /\ v = show_endpoint e
  | ShardSize i => exists c, d_shards d !! N.to_nat i = Some c /\ v = size c
  | ShardNode i j => exists c e, d_shards d !! N.to_nat i = Some c /\
                                 c !! N.to_nat j = Some e /\ v = show_endpoint e
  | Agent i => exists e, d_agents d !! N.to_nat i = Some e /\ v = show_endpoint e
  end.

(** The arguments say all of it and nothing else, in any order. *)
Definition written (d : deployment) (args : list string) : Prop :=
  (forall a, In a args -> exists n v, says d n v /\ a = shown (spelled n) v) /\
  (forall n v, says d n v -> In (shown (spelled n) v) args).

(** What the programs should make of it. *)
Definition meaning (d : deployment) : config :=
  Config (d_tickets d) (d_component d) (default LTrace (d_log d)) (d_shards d) (d_node d)
    (d_agents d) (default Evm (d_runner d)) (default 1000 (d_accounts d))
    (default Transfer (d_load d)) (default zero (snd <$> d_rate d)).

(** Numbers have 64 bits, ports 16; host names are clean and have no colon. *)
Definition endpoint_fits (e : endpoint) : Prop := 58 ∉ e.1 /\ clean e.1 /\ e.2 <= 65535.
Definition list_fits (l : list endpoint) : Prop :=
  N.of_nat (length l) < 2 ^ 64 /\ Forall endpoint_fits l.
Definition fits (d : deployment) : Prop :=
  d_component d < 2 ^ 64 /\ (forall n, d_node d = Some n -> n < 2 ^ 64) /\
  (forall n, d_accounts d = Some n -> n < 2 ^ 64) /\
  (forall t x, d_rate d = Some (t, x) -> clean t /\ stod t = Some x) /\
  list_fits (d_tickets d) /\ list_fits (d_agents d) /\
  N.of_nat (length (d_shards d)) < 2 ^ 64 /\ Forall list_fits (d_shards d).

(** At most ten nodes. *)
Definition small_clusters (d : deployment) : Prop :=
  Forall (fun c : list endpoint => (length c <= 10)%nat) (d_shards d).
End Spec.
