(** C92: the command line of the PArSEC programs. *)
From Coq Require Import NArith String.
From stdpp Require Import base option list.
From Verif Require Import Base HexModel ConfigModel ParsecCfgModel ParsecCfgSpec ParsecCfgProofs
  ParsecCfgRound ParsecCfgExamples.
Open Scope N_scope.

(** C92: options that describe a deployment, in any order, configure that deployment (missing:
    shards of more than ten nodes, refuted below). *)
Theorem C92_round_trip_partial {D} (stod : string -> option D) zero d p args :
  fits stod d -> small_clusters d -> written d args ->
  read_config stod zero (p :: args) = Val (Some (meaning zero d)).
Proof. exact (fun F S W => round_trip stod zero d F S p args W). Qed.
Print Assumptions C92_round_trip_partial.

Example C92_round_trip_example :
  (fits (fun _ => None) ex_deployment /\ small_clusters ex_deployment) /\
  written ex_deployment ex_args.
Proof. exact (conj ex_fits ex_written). Qed.

(** C92: whatever is accepted, each part of the configuration is what the first option with
    its name says, or the default if no option has the name. *)
Theorem C92_faithful {D} (stod : string -> option D) zero p args c :
  read_config stod zero (p :: args) = Val (Some c) -> means stod zero args c.
Proof. exact (faithful stod zero p args c). Qed.
Print Assumptions C92_faithful.

Example C92_faithful_example : read_config (fun _ => None) 0 (txt "agentd" :: ex_args)
  = Val (Some (meaning 0 ex_deployment)).
Proof. exact ex_read. Qed.

(** C92: an argument that is not [--name=value] is refused. *)
Theorem C92_malformed {D} (stod : string -> option D) zero p args a :
  In a args -> (forall k v, ~ setting a k v) -> read_config stod zero (p :: args) = Val None.
Proof. exact (malformed stod zero p args a). Qed.
Print Assumptions C92_malformed.

(** There is a deployment that no arguments whatsoever describe: the names of node 10 of
    shard 1 and of node 0 of shard 11 are the same. *)
Theorem C92_nodes_refuted : exists d : deployment (D := N), fits (fun _ => None) d /\
  forall p args, read_config (fun _ => None) 0 (p :: args) <> Val (Some (meaning 0 d)).
Proof. exact nodes_refuted. Qed.
Print Assumptions C92_nodes_refuted.

(** In general, nodes whose numbers give the same digits get the same endpoint. *)
Theorem C92_clash {D} (stod : string -> option D) zero p args c i j i' j' c1 c2 e e' :
  read_config stod zero (p :: args) = Val (Some c) ->
  dec (N.of_nat i) ++ dec (N.of_nat j) = dec (N.of_nat i') ++ dec (N.of_nat j') ->
  m_shard_endpoints c !! i = Some c1 -> c1 !! j = Some e ->
  m_shard_endpoints c !! i' = Some c2 -> c2 !! j' = Some e' -> e = e'.
Proof. exact (clash stod zero p args c i j i' j' c1 c2 e e'). Qed.
Print Assumptions C92_clash.

(** Misspelt options are ignored; an unknown log level, and none, mean TRACE although WARN is
    documented; a system without shards is accepted. *)
Theorem C92_ignored_refuted :
  (exists c, read_config (fun _ => None : option N) 0
               (txt "agentd" :: args_of (few ++ ["--runer_type=lua"%string])) = Val (Some c) /\
             m_runner_type c = Evm) /\
  (exists c, read_config (fun _ => None : option N) 0
               (txt "agentd" :: args_of (few ++ ["--loglevel=warning"%string])) = Val (Some c) /\
             m_loglevel c = LTrace) /\
  (exists c, read_config (fun _ => None : option N) 0 (txt "agentd" :: args_of few)
             = Val (Some c) /\ m_loglevel c = LTrace /\ m_shard_endpoints c = []).
Proof. exact misspelt_witness. Qed.
Print Assumptions C92_ignored_refuted.

(** A number that is none throws, an endpoint without a port fails an assertion. *)
Theorem C92_refused_refuted :
  read_config (fun _ => None : option N) 0
    (args_of ["agentd"; "--component_id=first"]%string) = Threw /\
  read_config (fun _ => None : option N) 0
    (args_of ["agentd"; "--component_id=0"; "--ticket_machine_count=1";
              "--ticket_machine0_endpoint=host"]%string) = Assertion.
Proof. exact throws_witness. Qed.
Print Assumptions C92_refused_refuted.
