(** Specification vocabulary of property C72: the connection manager's queues. *)
From stdpp Require Import base option list.
From Coq Require Import NArith.
From Verif Require Import Base DispatchModel.
Open Scope N_scope.

(** The connections that were added. *)
Fixpoint adds (l : list gop) : nat :=
  match l with [] => O | GAdd :: r => S (adds r) | _ :: r => adds r end.

(** The packets that arrived on connection [a], in order. *)
Definition received_from (s : manager) (a : nat) : list bytes :=
  map snd (List.filter (fun x => Nat.eqb (fst x) a) (g_received s)).

(** The packets with peer ID [id] that handle_messages returned, in order. *)
Definition taken_of (s : manager) (id : N) : list bytes :=
  map (fun x => m_pkt (snd x)) (List.filter (fun x => N.eqb (m_peer_id (snd x)) id) (g_taken s)).

(** The messages that a handler thread took, that it called the handler with, and that it
    still has. *)
Definition by_thread (t : nat) (l : list (nat * message)) : list message :=
  map snd (List.filter (fun x => Nat.eqb (fst x) t) l).
Definition in_work (s : manager) (t : nat) : list message :=
  match g_handlers s !! t with Some (HWork l) => l | _ => [] end.

(** The ID of a connection. *)
Definition peer_id_of (s : manager) (a : nat) : option N :=
  match g_adds s !! a with
  | Some (AddPeer id _) => Some id
  | _ => None
  end.

(** The packets of connection [a] that wait in its queue. *)
Definition queued (s : manager) (a : nat) : list bytes :=
  match g_adds s !! a with
  | Some (AddPeer _ q) => match g_queues s !! q with Some l => map m_pkt l | None => [] end
  | _ => []
  end.

Definition awake (h : handler) : bool :=
  match h with HTop | HWait | HChecked | HWork _ => true | HAsleep | HDone => false end.

(** The number of times handle_messages returned during [l] from [s]. *)
Definition collects (s : manager) (o : gop) : nat :=
  match o with
  | GHandler t _ =>
      match g_handlers s !! t with
      | Some HWait => match g_mutex s with
                      | None => if negb (g_running s) || g_data s then 1%nat else O
                      | Some _ => O end
      | _ => O
      end
  | _ => O
  end.
Fixpoint all_collects (s : manager) (l : list gop) : nat :=
  match l with
  | [] => O
  | o :: r => (collects s o + match g_step s o with Some s' => all_collects s' r | None => O end)%nat
  end.

(** No thread of the manager can take a step. *)
Definition stuck (s : manager) : Prop :=
  (forall t resp, g_step s (GHandler t resp) = None) /\
  (forall who, g_step s (GNotify who) = None) /\ g_step s GClose = None.
