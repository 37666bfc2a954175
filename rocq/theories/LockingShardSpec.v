(** What a user of a locking shard relies on, in terms of the requests sent and
    the answers received, with no reference to the shard's members. *)
From Coq Require Import NArith List Bool.
From stdpp Require Import base decidable list gmap.
From Verif Require Import Base TxModel LockingShardModel.
Import ListNotations.
Open Scope N_scope.

(** A transaction is named by its distributed transaction and its position. *)
Inductive event :=
| Locked (d : N) (i : nat) (t : compact_tx)     (** lock answered true *)
| Refused (d : N) (i : nat) (t : compact_tx)    (** lock answered false *)
| Completed (d : N) (i : nat) (t : compact_tx)  (** applied with flag true *)
| Cancelled (d : N) (i : nat) (t : compact_tx). (** applied with flag false *)

Fixpoint lock_events (d : N) (i : nat) (txs : list compact_tx) (oks : list bool)
  : list event :=
  match txs, oks with
  | t :: ts, ok :: os =>
      (if ok then Locked d i t else Refused d i t) :: lock_events d (S i) ts os
  | _, _ => []
  end.
Fixpoint apply_events (d : N) (i : nat) (txs : list compact_tx) (flags : list bool)
  : list event :=
  match txs, flags with
  | t :: ts, f :: fs =>
      (if f then Completed d i t else Cancelled d i t) :: apply_events d (S i) ts fs
  | _, _ => []
  end.

(** Reading a history: [open] maps every distributed transaction that was locked
    and not applied since to its transactions. A repeated lock or a repeated
    apply is no event. *)
Definition read_call (open : gmap N (list compact_tx)) (rq : sreq) (rp : sresp)
  : gmap N (list compact_tx) * list event :=
  match rq, rp with
  | RLock d txs, ALock oks =>
      match open !! d with
      | Some _ => (open, [])
      | None => (<[d := txs]> open, lock_events d 0 txs oks)
      end
  | RApply d flags, AApply =>
      match open !! d with
      | Some txs => (delete d open, apply_events d 0 txs flags)
      | None => (open, [])
      end
  | _, _ => (open, [])
  end.
Fixpoint read_history (open : gmap N (list compact_tx))
    (rqs : list sreq) (rps : list sresp) : list event :=
  match rqs, rps with
  | rq :: rqs', rp :: rps' =>
      let '(open', evs) := read_call open rq rp in
      evs ++ read_history open' rqs' rps'
  | _, _ => []
  end.
(** The events of a history that starts with a fresh shard. *)
Definition history (rqs : list sreq) (rps : list sresp) : list event :=
  read_history ∅ rqs rps.

Definition spends (r : N * N) (t : compact_tx) (x : N) : bool :=
  in_range r x && bool_decide (x ∈ ctx_inputs t).
Definition creates (r : N * N) (t : compact_tx) (x : N) : bool :=
  in_range r x && bool_decide (x ∈ ctx_outputs t).

(** How often [x] was spent, and created, by completed transactions. *)
Fixpoint times_spent (r : N * N) (x : N) (evs : list event) : nat :=
  match evs with
  | Completed _ _ t :: e => (if spends r t x then 1 else 0) + times_spent r x e
  | _ :: e => times_spent r x e
  | [] => 0
  end.
Fixpoint times_created (r : N * N) (x : N) (evs : list event) : nat :=
  match evs with
  | Completed _ _ t :: e => (if creates r t x then 1 else 0) + times_created r x e
  | _ :: e => times_created r x e
  | [] => 0
  end.

(** Transactions that were locked and neither completed nor cancelled since. *)
Definition hold_step (h : list (N * nat * compact_tx)) (e : event)
  : list (N * nat * compact_tx) :=
  match e with
  | Locked d i t => (d, i, t) :: h
  | Refused _ _ _ => h
  | Completed d i _ | Cancelled d i _ =>
      List.filter (fun k => negb (bool_decide (fst k = (d, i)))) h
  end.
Definition holding (evs : list event) : list (N * nat * compact_tx) :=
  fold_left hold_step evs [].

(** The ideal unspent set: what the completed transactions leave of the initial
    set. *)
Definition unspent_step (r : N * N) (x : N) (b : bool) (e : event) : bool :=
  match e with
  | Completed _ _ t => (b || creates r t x) && negb (spends r t x)
  | _ => b
  end.
Definition unspent (r : N * N) (preseed : gset N) (evs : list event) (x : N) : bool :=
  fold_left (unspent_step r x) evs (bool_decide (x ∈ preseed)).

(** Rules the callers follow. *)

(** A transaction is only completed if this shard locked it. *)
Definition completes_locked (evs : list event) : Prop :=
  forall e1 d i t e2, evs = e1 ++ Completed d i t :: e2 ->
    In (d, i, t) (holding e1).

(** When a transaction that was refused is cancelled, no other transaction is
    holding one of its inputs. The shard does not check this. *)
Definition no_conflicting_cancel (r : N * N) (evs : list event) : Prop :=
  forall e1 d i t e2 d' i' t' x, evs = e1 ++ Cancelled d i t :: e2 ->
    ~ In (d, i, t) (holding e1) -> In (d', i', t') (holding e1) ->
    spends r t x = true -> spends r t' x = false.

(** A completed transaction creates UHS IDs that are not unspent already. *)
Definition fresh_outputs (r : N * N) (preseed : gset N) (evs : list event) : Prop :=
  forall e1 d i t e2 x, evs = e1 ++ Completed d i t :: e2 ->
    creates r t x = true -> unspent r preseed e1 x = false.

(** The shard of a history that starts with a new shard. *)
Definition reaches (c : shard_cfg) (preseed : gset N) (cache : N)
    (rqs : list sreq) (s : shard) (rps : list sresp) : Prop :=
  run_shard c (shard_new preseed cache) rqs = Done (s, rps).

(** IDs, owned by this shard, of the transactions that were applied, completed or
    not, in order. *)
Fixpoint finished_ids (r : N * N) (evs : list event) : list N :=
  match evs with
  | Completed _ _ t :: e | Cancelled _ _ t :: e =>
      if in_range r (ctx_id t) then ctx_id t :: finished_ids r e
      else finished_ids r e
  | _ :: e => finished_ids r e
  | [] => []
  end.

(** Requests that mention a distributed transaction. *)
Definition is_lock (d : N) (q : sreq) : Prop := exists txs, q = RLock d txs.
Definition is_apply (d : N) (q : sreq) : Prop := exists flags, q = RApply d flags.
Definition is_discard (d : N) (q : sreq) : Prop := q = RDiscard d.
