(** The watchtower: src/uhs/atomizer/watchtower/{block_cache,error_cache,watchtower,controller}.cpp,
    and the way shards follow the block stream, shard/controller.cpp. The locks of the
    watchtower make each of its functions atomic. *)
From Coq Require Import NArith List Bool.
From stdpp Require Import base decidable list gmap.
From Verif Require Import Base CodecModel TxModel MsgModel AtomizerModel AtomizerShardModel.
Import ListNotations.
Open Scope N_scope.

(** std::unordered_map::insert: an existing entry stays. *)
Definition m_insert {V} (m : gmap N V) (k : N) (v : V) : gmap N V :=
  match m !! k with Some _ => m | None => <[k := v]> m end.
(** Erasing and inserting a range of keys. *)
Definition m_erase_all {V} (ks : list N) (m : gmap N V) : gmap N V :=
  fold_left (fun m k => delete k m) ks m.
Definition m_insert_all {V} (ks : list N) (v : V) (m : gmap N V) : gmap N V :=
  fold_left (fun m k => m_insert m k v) ks m.

(** block_cache, block_cache.hpp:28-66: k, the queue (oldest first), the best height, and
    for an unspent or spent ID the height and transaction. *)
Record bcache := BCache {
  bc_k : N;
  bc_blks : list block;
  bc_best : N;
  bc_unspent : gmap N (N * N);
  bc_spent : gmap N (N * N) }.
(** The constructor, block_cache.cpp:9-14 (without the reserve calls). *)
Definition bc_new (k : N) : bcache := BCache k [] 0 ∅ ∅.

(** The eviction loop, block_cache.cpp:19-26. *)
Definition bc_evict_tx (m : gmap N (N * N) * gmap N (N * N)) (t : compact_tx) :=
  (m_erase_all (ctx_outputs t) (fst m), m_erase_all (ctx_inputs t) (snd m)).
(** The insertion loop, block_cache.cpp:33-43. *)
Definition bc_add_tx (h : N) (m : gmap N (N * N) * gmap N (N * N)) (t : compact_tx) :=
  (m_insert_all (V := N * N) (ctx_outputs t) (h, ctx_id t) (m_erase_all (ctx_inputs t) (fst m)),
   m_insert_all (V := N * N) (ctx_inputs t) (h, ctx_id t) (snd m)).
(** push_block, block_cache.cpp:16-45. *)
Definition bc_push (c : bcache) (b : block) : bcache :=
  let '(q, m) :=
    match bc_blks c with
    | old :: q => if negb (bc_k c =? 0) && (len (bc_blks c) =? bc_k c)
                  then (q, fold_left bc_evict_tx (blk_txs old) (bc_unspent c, bc_spent c))
                  else (bc_blks c, (bc_unspent c, bc_spent c))
    | [] => ([], (bc_unspent c, bc_spent c))
    end in
  let '(u, s) := fold_left (bc_add_tx (blk_height b)) (blk_txs b) m in
  BCache (bc_k c) (q ++ [b]) (N.max (bc_best c) (blk_height b)) u s.
(** check_unspent, check_spent, block_cache.cpp:47-63. *)
Definition check_unspent (c : bcache) (id : N) : option (N * N) := bc_unspent c !! id.
Definition check_spent (c : bcache) (id : N) : option (N * N) := bc_spent c !! id.

(** error_cache, error_cache.hpp:21-47. *)
Record ecache := ECache {
  ec_k : N;
  ec_errs : list tx_err;
  ec_uhs : gmap N tx_err;
  ec_txs : gmap N tx_err }.
Definition ec_new (k : N) : ecache := ECache k [] ∅ ∅.

(** The IDs of inputs_dne and inputs_spent errors, error_cache.cpp:22-38, 46-61. *)
Definition err_ids (e : tx_err) : list N :=
  match te_info e with
  | EInputsDne ids | EInputsSpent ids => ids
  | _ => []
  end.
(** push_errors for one error, error_cache.cpp:17-62. *)
Definition ec_push (c : ecache) (e : tx_err) : ecache :=
  let '(q, us, ts) :=
    match ec_errs c with
    | old :: q => if negb (ec_k c =? 0) && (len (ec_errs c) =? ec_k c)
                  then (q, m_erase_all (err_ids old) (ec_uhs c), delete (te_id old) (ec_txs c))
                  else (ec_errs c, ec_uhs c, ec_txs c)
    | [] => ([], ec_uhs c, ec_txs c)
    end in
  ECache (ec_k c) (q ++ [e]) (m_insert_all (err_ids e) e us) (m_insert ts (te_id e) e).
(** check_tx_id, check_uhs_id, error_cache.cpp:65-81. *)
Definition check_err_tx (c : ecache) (id : N) : option tx_err := ec_txs c !! id.
Definition check_err_uhs (c : ecache) (id : N) : option tx_err := ec_uhs c !! id.

(** watchtower, watchtower.hpp:101-142. *)
Record watchtower := WT { wt_bc : bcache; wt_ec : ecache }.
Definition wt_new (kb ke : N) : watchtower := WT (bc_new kb) (ec_new ke).
(** add_block, watchtower.cpp:15-18. *)
Definition wt_add_block (w : watchtower) (b : block) : watchtower := WT (bc_push (wt_bc w) b) (wt_ec w).
(** repeated_tx_filter, watchtower.cpp:24-53: the error is about a transaction a cached
    block contains. *)
Definition repeated_tx (c : bcache) (e : tx_err) : bool :=
  existsb (fun id =>
    match check_spent c id with Some (_, t) => te_id e =? t | None => false end ||
    match check_unspent c id with Some (_, t) => te_id e =? t | None => false end) (err_ids e).
(** add_errors, watchtower.cpp:20-58. *)
Definition wt_add_errors (w : watchtower) (es : list tx_err) : watchtower :=
  WT (wt_bc w) (fold_left ec_push (List.filter (fun e => negb (repeated_tx (wt_bc w) e)) es) (wt_ec w)).

(** search_status and status_update_state, status_update.hpp:21-80. *)
Inductive search_status :=
| SNoHistory | SUnspent | SSpent | STxRejected | SInvalidInput | SInternalError.
Record status_state := Status { su_status : search_status; su_height : N; su_id : N }.

(** The body of the loop of check_uhs_id_statuses, watchtower.cpp:68-115. *)
Definition uhs_statuses (w : watchtower) (tx : N) (internal_err tx_err : bool) (best id : N) : list status_state :=
  let l1 := if internal_err then [Status SInternalError best id]
            else if tx_err then
              match check_err_uhs (wt_ec w) id with
              | Some _ => [Status SInvalidInput best id]
              | None => [Status STxRejected best id]
              end
            else [] in
  let l2 := match check_spent (wt_bc w) id with
            | Some (h, t) => if t =? tx then [Status SSpent h id] else []
            | None => match check_unspent (wt_bc w) id with
                      | Some (h, t) => if t =? tx then [Status SUnspent h id] else []
                      | None => []
                      end
            end in
  match l1 ++ l2 with [] => [Status SNoHistory best id] | l => l end.

(** handle_status_update_request for one transaction, watchtower.cpp:130-146. *)
Definition internal (e : option tx_err) : bool :=
  match e with
  | Some e => match te_info e with ESync | EStxoRange => true | _ => false end
  | None => false
  end.
Definition tx_statuses (w : watchtower) (tx : N) (ids : list N) : list status_state :=
  let e := check_err_tx (wt_ec w) tx in
  concat (map (uhs_statuses w tx (internal e) (match e with Some _ => true | None => false end)
                            (bc_best (wt_bc w))) ids).
(** The whole request, watchtower.cpp:119-151: the keys of the request, which is a map,
    are distinct. *)
Definition wt_status (w : watchtower) (req : list (N * list N)) : list (N * list status_state) :=
  map (fun p => (fst p, tx_statuses w (fst p) (snd p))) req.

(** Following the block stream. [ask n h] is what the archiver answers to the [n]-th
    request, for the block at height [h]. *)
Definition archive := nat -> N -> option block.

(** The watchtower, watchtower/controller.cpp:107-125: m_last_blk_height and the cache.
    [fuel] bounds the requests to the archiver; [None] if the handler has not returned
    by then. *)
Fixpoint wt_follow (fuel : nat) (ask : archive) (n : nat) (last : N) (w : watchtower) (b : block)
  : option (nat * N * watchtower) :=
  if blk_height b =? add64 last 1 then Some (n, blk_height b, wt_add_block w b)
  else match fuel with
       | O => None
       | S f =>
           match ask n (add64 last 1) with
           | None => wt_follow f ask (S n) last w b
           | Some m => wt_follow f ask (S n) (blk_height m) (wt_add_block w m) b
           end
       end.

(** The inner loop of a shard, shard/controller.cpp:134-147. *)
Fixpoint sh_fill (fuel : nat) (ask : archive) (n : nat) (s : ashard) (i h : N) : option (nat * ashard) :=
  if negb (i <? h) then Some (n, s)
  else match fuel with
       | O => None
       | S f =>
           match ask n i with
           | Some m => sh_fill f ask (S n) (fst (ashard_digest_block true s m)) (add64 i 1) h
           | None => sh_fill f ask (S n) s i h
           end
       end.
(** The outer loop, shard/controller.cpp:124-148. *)
Fixpoint sh_follow (fuel inner : nat) (ask : archive) (n : nat) (s : ashard) (b : block) : option (nat * ashard) :=
  match fuel with
  | O => None
  | S f =>
      let '(s1, ok) := ashard_digest_block true s b in
      if ok then Some (n, s1)
      else if blk_height b <=? as_best s1 then Some (n, s1)
      else match sh_fill inner ask n s1 (add64 (as_best s1) 1) (blk_height b) with
           | None => None
           | Some (n2, s2) => sh_follow f inner ask n2 s2 b
           end
  end.
