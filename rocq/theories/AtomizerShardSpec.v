(** Histories of one atomizer shard. *)
From Coq Require Import NArith List Bool.
From stdpp Require Import base decidable list gmap.
From Verif Require Import Base CodecModel TxModel MsgModel AtomizerModel AtomizerShardModel AtomizerSpec.
Import ListNotations.
Open Scope N_scope.

(** What happens to a shard: it receives a block (any block), the process dies and the
    shard is started again, or the process dies while a block is being digested, before
    ([false]) or after ([true]) leveldb wrote the batch. *)
Inductive shard_event :=
| EvBlock (b : block)
| EvRestart
| EvCrashIn (b : block) (written : bool).

(** The new state and the block the shard has applied, if any. *)
Definition shard_do (s : ashard) (e : shard_event) : ashard * list block :=
  match e with
  | EvBlock b => let '(s', ok) := ashard_digest_block true s b in (s', if ok then [b] else [])
  | EvRestart => (ashard_open (as_range s) (as_db s), [])
  | EvCrashIn b w =>
      let '(s', ok) := ashard_digest_block true s b in
      if w then (ashard_open (as_range s) (as_db s'), if ok then [b] else [])
      else (ashard_open (as_range s) (as_db s), [])
  end.
Fixpoint shard_run (s : ashard) (es : list shard_event) : ashard * list block :=
  match es with
  | [] => (s, [])
  | e :: r => let '(s1, b1) := shard_do s e in
              let '(s2, b2) := shard_run s1 r in (s2, b1 ++ b2)
  end.

(** The blocks of the chain a shard has applied give its unspent set: the IDs of its
    range that the transactions left unspent. *)
Definition shard_holds (range : N * N) (bs : list block) (u : gset N) : Prop :=
  forall x, x ∈ u <-> in_range range x = true /\ x ∈ utxo (chain_txs bs).

(** The answer a shard that has applied the blocks [bs] owes to a transaction. *)
Definition truthful (range : N * N) (bs : list block) (t : compact_tx) (r : notif + tx_err) : Prop :=
  let missing x := in_range range x = true /\ x ∉ utxo (chain_txs bs) in
  match r with
  | inl n =>
      nt_tx n = t /\ nt_height n = len bs /\ bs <> [] /\ ctx_inputs t <> [] /\
      (forall x, x ∈ ctx_inputs t -> ~ missing x) /\
      (forall i, i ∈ nt_atts n <->
         exists x, ctx_inputs t !! N.to_nat i = Some x /\ in_range range x = true) /\
      base.NoDup (nt_atts n)
  | inr (TxErr id ESync) => id = ctx_id t /\ bs = []
  | inr (TxErr id (EInputsDne ids)) =>
      id = ctx_id t /\ bs <> [] /\
      (forall x, x ∈ ids <-> x ∈ ctx_inputs t /\ missing x) /\
      (ids = [] -> ctx_inputs t = [])
  | _ => False
  end.
