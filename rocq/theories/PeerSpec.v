(** Specification vocabulary of property C73: a connection that is kept up. *)
From stdpp Require Import base option list.
From Coq Require Import NArith.
From Verif Require Import Base PeerModel.

(** No thread of the peer can take a step by itself: all wait for the network or the
    user. *)
Definition at_rest (s : peer) : Prop :=
  (forall ok, p_step s (PSender ok) = None) /\ p_step s PReceiver = None /\
  (forall ok, p_step s (PKeeper ok) = None) /\
  (p_shutter s <> XOff -> p_step s PShutdown = None).

(** The peer is connected and both its threads wait for work; nothing is left to send. *)
Definition connected_idle (s : peer) : Prop :=
  alive s = true /\ p_running s = true /\ p_sender s = SPop /\ p_receiver s = RRead /\
  p_queue s = [].

(** The number of times the network broke a connection. *)
Fixpoint breaks (l : list pop) : nat :=
  match l with [] => O | PBreak _ :: r => S (breaks r) | _ :: r => breaks r end.

(** The number of connections the socket has had. *)
Definition connections (s : peer) : nat := length (p_conns s).

(** [l] is in the order of its first components. *)
Definition by_connection (l : list (nat * bytes)) : Prop :=
  forall i j x y, (i < j)%nat -> l !! i = Some x -> l !! j = Some y -> (fst x <= fst y)%nat.
