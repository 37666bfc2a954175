(** Vocabulary for property C96: contracts that run at the same time on one shard. *)
From Coq Require Import NArith List.
From stdpp Require Import base option list gmap.
From Verif Require Import Base LuaModel LuaPayModel ParsecShardModel ParsecShardSpec.
Import ListNotations.
Open Scope N_scope.

Section contracts.
  (** The contract of each ticket, where it starts, and its parameter; [name] numbers the keys,
      which are strings (see ParsecShardModel). *)
  Context {L : Type} (resume : L -> bytes -> resumed L) (fuel : nat)
    (start : ticket_no -> L) (param : ticket_no -> bytes) (name : bytes -> key).

  (** Given the values of [db] for the keys [ks] it asks for, the contract of ticket [tn]
      reports the updates [u]. *)
  Definition alone (db : bytes -> bytes) (tn : ticket_no) (ks : list bytes)
      (u : list (bytes * bytes)) : Prop :=
    LuaModel.run resume fuel (Some (start tn)) (param tn) true
      (map (fun k => (Value (db k), true)) ks) =
    (Finished, map ALock ks ++ [AReport (Updates u)]).

  (** The contracts of these tickets run one after the other, each on what the one before
      left. *)
  Inductive serial (db0 : bytes -> bytes) : list ticket_no -> (bytes -> bytes) -> Prop :=
  | serial_none db : (forall k, db k = db0 k) -> serial db0 [] db
  | serial_next l db tn ks u db' : serial db0 l db -> alone db tn ks u ->
      (forall k, db' k = store db u k) -> serial db0 (l ++ [tn]) db'.

  (** Updates as they are sent to the shard. *)
  Definition update_map (u : list (bytes * bytes)) : gmap key bytes :=
    list_to_map (map (fun e => (name (fst e), snd e)) u).

  (** What agents do (C75, C88): the updates that are prepared for a ticket are those its
      contract reported, given the values the ticket's locks were granted with. The requests of
      tickets that fail, give up or start again are arbitrary. *)
  Definition agents_follow (state : gmap key bytes) (tr : list (op * list event)) : Prop :=
    forall tr1 tn br m ev tr2, tr = tr1 ++ (OPrepare tn br m, ev) :: tr2 ->
      succeeded ev = true ->
      exists got ks u, alone got tn ks u /\ m = update_map u /\
        forall k, k ∈ ks -> v_got (view_of (view0 state ∅) tr1) !! (tn, name k) = Some (got k).
End contracts.

(** The tickets that were committed, in order. *)
Definition committed (tr : list (op * list event)) : list ticket_no :=
  omap (fun p => match fst p with
                 | OCommit tn => if succeeded (snd p) then Some tn else None
                 | _ => None
                 end) tr.

(** What is stored under a key, before and after. *)
Definition at_start (name : bytes -> key) (state : gmap key bytes) (k : bytes) : bytes :=
  lookup_store state (name k).
Definition in_shard (name : bytes -> key) (s : shard) (k : bytes) : bytes := e_val (el s (name k)).
