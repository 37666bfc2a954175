(** What a user of the two-phase-commit system relies on. *)
From Coq Require Import NArith List Bool.
From stdpp Require Import base decidable list gmap.
From Verif Require Import Base CodecModel TxModel CacheModel LockingShardModel
  LockingShardSpec TwoPhaseModel.
Import ListNotations.
Open Scope N_scope.

(** The transactions of a batch that concern the shard with range [r], each with
    its index in the batch. *)
Definition concerns (r : N * N) (t : compact_tx) : Prop :=
  in_range r (ctx_id t) = true \/
  (exists x, In x (ctx_inputs t) /\ in_range r x = true) \/
  (exists x, In x (ctx_outputs t) /\ in_range r x = true).
#[global] Instance concerns_dec r t : Decision (concerns r t).
Proof.
  unfold concerns. apply or_dec; [apply _|]. apply or_dec.
  - destruct (existsb (in_range r) (ctx_inputs t)) eqn:E.
    + left. now apply existsb_exists.
    + right. intros H. apply existsb_exists in H. congruence.
  - destruct (existsb (in_range r) (ctx_outputs t)) eqn:E.
    + left. now apply existsb_exists.
    + right. intros H. apply existsb_exists in H. congruence.
Defined.
Fixpoint relevant (r : N * N) (k : nat) (batch : list compact_tx)
  : list (nat * compact_tx) :=
  match batch with
  | [] => []
  | t :: b => if decide (concerns r t) then (k, t) :: relevant r (S k) b
              else relevant r (S k) b
  end.

(** Shard [i] received transaction [t], number [k] of the batch, at position [j]. *)
Definition sent (cfgs : list shard_cfg) (batch : list compact_tx)
    (i j k : nat) (t : compact_tx) : Prop :=
  exists c, cfgs !! i = Some c /\ relevant (sc_range c) 0 batch !! j = Some (k, t).

(** Ranges that cover prefixes lo..hi, in order, without gap or overlap. *)
Fixpoint contiguous (lo : N) (rs : list (N * N)) (hi : N) : Prop :=
  match rs with
  | [] => False
  | [r] => fst r = lo /\ snd r = hi /\ lo <= hi
  | r :: rest => fst r = lo /\ lo <= snd r /\ contiguous (snd r + 1) rest hi
  end.

(** The events of shard [i]'s log. *)
Definition events_at (s : sys) (i : nat) : list event :=
  match sy_nodes s !! i with
  | Some nd => history (nd_rqs nd) (nd_rps nd)
  | None => []
  end.

(** The system is in state [s] after some schedule, with any crashes. *)
Definition reachable (cfgs : list shard_cfg) (preseeds : list (gset N)) (cache : N)
    (s : sys) : Prop :=
  length preseeds = length cfgs /\
  exists ls, run cfgs (sys_new preseeds cache) ls = SOk s.

(** Events about one distributed transaction. *)
Definition about (d : N) (e : event) : bool :=
  match e with
  | Locked d' _ _ | Refused d' _ _ | Completed d' _ _ | Cancelled d' _ _ =>
      bool_decide (d' = d)
  end.

(** Transactions that do not list an input twice (what sentinels check). *)
Definition proper_label (l : label) : Prop :=
  match l with
  | LNew _ txs => List.Forall (fun t => List.NoDup (ctx_inputs t)) txs
  | _ => True
  end.

(** A coordinator carries distributed transaction [d] through to its end, every
    call answered, with [n] shards. Calls that are not due are skipped. *)
Definition finish (n : nat) (d : N) : list label :=
  map (fun i => LLock d i true) (seq 0 n) ++ [LDecide d]
  ++ map (fun i => LApply d i true) (seq 0 n) ++ [LFinish d]
  ++ map (fun i => LDiscard d i true) (seq 0 n) ++ [LDone d].
(** Its coordinator crashes and another one takes over. *)
Definition takeover (n : nat) (d : N) : list label :=
  LCrash d :: LRecover d :: finish n d.

(** [d] is in the coordinators' replicated state. *)
Definition in_progress (s : sys) (d : N) : Prop :=
  rs_prepare (sy_rsm s) !! d <> None \/ rs_commit (sy_rsm s) !! d <> None \/
  d ∈ rs_discard (sy_rsm s).

(** What later requests depend on: everything but the memory of applied IDs. *)
Definition ledger (s : sys) (i : nat)
  : option (gset N * gset N * gmap N prepared_dtx * cache_set N) :=
  match sy_nodes s !! i with
  | Some nd => Some (sh_uhs (nd_shard nd), sh_locked (nd_shard nd),
                     sh_prepared (nd_shard nd), sh_completed (nd_shard nd))
  | None => None
  end.

(** The system is in state [s] after some schedule of well-formed transactions. *)
Definition reachable_proper (cfgs : list shard_cfg) (preseeds : list (gset N)) (cache : N)
    (s : sys) : Prop :=
  length preseeds = length cfgs /\
  exists ls, List.Forall proper_label ls /\ run cfgs (sys_new preseeds cache) ls = SOk s.

(** Labels of the execution of [d]: its coordinators work, crash and recover. *)
Definition label_dtx (l : label) : N :=
  match l with
  | LNew d _ | LPrepare d | LLock d _ _ | LDecide d | LApply d _ _ | LFinish d
  | LDiscard d _ _ | LDone d | LCrash d | LRecover d => d
  end.
