(** The atomizer architecture as a system: shards, atomizer nodes that aggregate
    notifications, and the replicated state machine.

    Messages and crashes: a notification that was sent may reach any node any number of
    times, at any time, or never. A batch of complete transactions handed to Raft may be
    committed at any later time or never. A block may reach a shard at any time, also when
    it is not the next one. A crashed node loses what it had aggregated, a crashed shard
    reopens its database. The state machine is one replicated log (NuRaft is not
    modelled); see AtomizerSnapshot*.v for replicas. *)
From Coq Require Import NArith List Bool.
From stdpp Require Import base decidable list gmap.
From Verif Require Import Base CodecModel TxModel MsgModel AtomizerModel AtomizerShardModel.
Import ListNotations.
Open Scope N_scope.

Record asys := ASys {
  ys_shards : list ashard;
  ys_sent : list notif;
  ys_nodes : list agg;
  ys_flight : list (list (N * compact_tx));
  ys_at : atomizer;
  ys_chain : list block }.

(** Start of the components: fresh databases, state machine at height 0 (controller.cpp:
    63-64 of the atomizer passes the depth only; sm_new). *)
Definition asys_new (ranges : list (N * N)) (nodes : nat) (depth : N) : asys :=
  ASys (map (fun r => ashard_open r (Adb None ∅)) ranges) [] (repeat agg_new nodes) []
       (atomizer_new 0 depth) [].

Inductive alabel :=
| LTx (i : nat) (t : compact_tx)      (* shard i receives a transaction *)
| LMint (t : compact_tx) (h : N)      (* somebody sends the notification of an inputless one *)
| LDeliver (j k : nat)                (* node j receives the k-th notification ever sent *)
| LFlush (j : nat)                    (* node j hands its complete transactions to Raft *)
| LCommit (k : nat)                   (* a batch in flight is committed *)
| LBlock                              (* the state machine makes a block *)
| LDigest (i k : nat)                 (* shard i receives the k-th block of the chain *)
| LCrashNode (j : nat)
| LCrashShard (i : nat).

Section system.
Context (attested : compact_tx -> bool).

Definition with_shard (y : asys) (i : nat) (s : ashard) : asys :=
  ASys (<[i := s]> (ys_shards y)) (ys_sent y) (ys_nodes y) (ys_flight y) (ys_at y) (ys_chain y).
Definition with_node (y : asys) (j : nat) (g : agg) : asys :=
  ASys (ys_shards y) (ys_sent y) (<[j := g]> (ys_nodes y)) (ys_flight y) (ys_at y) (ys_chain y).
Definition with_sent (y : asys) (n : notif) : asys :=
  ASys (ys_shards y) (ys_sent y ++ [n]) (ys_nodes y) (ys_flight y) (ys_at y) (ys_chain y).

(** The state machine's atomizer did something undefined or never returns: [None] is
    "this step is not possible"; the two other outcomes are results of the system. *)
Inductive aresult :=
| YOk (y : asys)
| YNo
| YUndefined
| YHang.

Definition of_aout {A} (x : aout A) (f : A -> aresult) : aresult :=
  match x with ADone a => f a | AUndefined => YUndefined | AHang => YHang end.

Definition asys_step (y : asys) (l : alabel) : aresult :=
  match l with
  | LTx i t =>
      (* shard/controller.cpp:152-198: check_attestations, then digest_transaction *)
      match ys_shards y !! i with
      | Some s =>
          if attested t then
            match ashard_digest_tx (fun _ => false) s t with
            | inl n => YOk (with_sent y n)
            | inr _ => YOk y
            end
          else YOk y
      | None => YNo
      end
  | LMint t h =>
      (* atomizer_client::send_mint_tx, uhs/client/atomizer_client.cpp *)
      match ctx_inputs t with [] => YOk (with_sent y (Notif t [] h)) | _ => YNo end
  | LDeliver j k =>
      match ys_nodes y !! j, ys_sent y !! k with
      | Some g, Some n => YOk (with_node y j (tx_notify attested g n))
      | _, _ => YNo
      end
  | LFlush j =>
      match ys_nodes y !! j with
      | Some g =>
          let '(g', b) := send_complete_txs g in
          YOk (ASys (ys_shards y) (ys_sent y) (<[j := g']> (ys_nodes y)) (ys_flight y ++ [b])
                    (ys_at y) (ys_chain y))
      | None => YNo
      end
  | LCommit k =>
      match ys_flight y !! k with
      | Some b =>
          of_aout (insert_all (ys_at y) b) (fun '(a, _) =>
            YOk (ASys (ys_shards y) (ys_sent y) (ys_nodes y) (delete k (ys_flight y)) a (ys_chain y)))
      | None => YNo
      end
  | LBlock =>
      of_aout (make_block (ys_at y)) (fun '(a, (b, _)) =>
        YOk (ASys (ys_shards y) (ys_sent y) (ys_nodes y) (ys_flight y) a (ys_chain y ++ [b])))
  | LDigest i k =>
      match ys_shards y !! i, ys_chain y !! k with
      | Some s, Some b => YOk (with_shard y i (fst (ashard_digest_block true s b)))
      | _, _ => YNo
      end
  | LCrashNode j =>
      match ys_nodes y !! j with Some _ => YOk (with_node y j agg_new) | None => YNo end
  | LCrashShard i =>
      match ys_shards y !! i with
      | Some s => YOk (with_shard y i (ashard_open (as_range s) (as_db s)))
      | None => YNo
      end
  end.

Fixpoint asys_run (y : asys) (ls : list alabel) : aresult :=
  match ls with
  | [] => YOk y
  | l :: r => match asys_step y l with YOk y' => asys_run y' r | x => x end
  end.
End system.
