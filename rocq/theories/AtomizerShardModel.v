(** The shard of the atomizer architecture: src/uhs/atomizer/shard/{shard,controller}.cpp.

    The database holds UHS IDs (as keys with an empty value) and the key
    "bestBlockHeight", which is no UHS ID since it has another length (shard.hpp:84).
    A leveldb write batch is applied as a whole or not at all. *)
From Coq Require Import NArith List Bool.
From stdpp Require Import base decidable list gmap.
From Verif Require Import Base CodecModel TxModel MsgModel AtomizerModel.
Import ListNotations.
Open Scope N_scope.

(** What survives a crash: the database. *)
Record adb := Adb { db_best : option N; db_uhs : gset N }.

(** Members of shard, shard.hpp:66-84. *)
Record ashard := AShard {
  as_range : N * N;
  as_best : N;
  as_db : adb;
  as_snp : N * gset N }.

(** shard::open_db, shard.cpp:14-55 (the directory can be opened). *)
Definition ashard_open (range : N * N) (db : adb) : ashard :=
  let best := match db_best db with Some h => h | None => 0 end in
  AShard range best (Adb (Some best) (db_uhs db)) (best, db_uhs db).

(** One transaction of the loop of digest_block, shard.cpp:65-87: the outputs on the
    shard are put, then the inputs on the shard are deleted. *)
Definition ashard_apply (range : N * N) (u : gset N) (t : compact_tx) : gset N :=
  fold_left (fun u x => if in_range range x then u ∖ {[ x ]} else u) (ctx_inputs t)
    (fold_left (fun u x => if in_range range x then u ∪ {[ x ]} else u) (ctx_outputs t) u).

(** shard::digest_block, shard.cpp:57-103. [written]: leveldb wrote the batch; the result
    of Write (line 98) is not looked at. update_snapshot is shard.cpp:177-185. *)
Definition ashard_digest_block (written : bool) (s : ashard) (b : block) : ashard * bool :=
  if negb (blk_height b =? add64 (as_best s) 1) then (s, false)
  else
    let best := add64 (as_best s) 1 in
    let db := if written
              then Adb (Some best) (fold_left (ashard_apply (as_range s)) (blk_txs b) (db_uhs (as_db s)))
              else as_db s in
    (AShard (as_range s) best db (best, db_uhs db), true).

(** The loop over the inputs, shard.cpp:130-151. [fails x]: reading [x] fails with an
    error other than "not found", which the code takes for "found". *)
Fixpoint ashard_scan (range : N * N) (fails : N -> bool) (u : gset N) (i : N) (ins : list N)
  : list N * list N :=
  match ins with
  | [] => ([], [])
  | x :: r =>
      let '(atts, dne) := ashard_scan range fails u (i + 1) r in
      if in_range range x then
        if bool_decide (x ∈ u) || fails x then (i :: atts, dne) else (atts, x :: dne)
      else (atts, dne)
  end.

(** shard::digest_transaction, shard.cpp:105-167. *)
Definition ashard_digest_tx (fails : N -> bool) (s : ashard) (t : compact_tx) : notif + tx_err :=
  if fst (as_snp s) =? 0 then inr (TxErr (ctx_id t) ESync)
  else match ctx_inputs t with
       | [] => inr (TxErr (ctx_id t) (EInputsDne []))
       | ins =>
           match ashard_scan (as_range s) fails (snd (as_snp s)) 0 ins with
           | (atts, []) => inl (Notif t atts (fst (as_snp s)))
           | (_, dne) => inr (TxErr (ctx_id t) (EInputsDne dne))
           end
       end.

(** The part of the controller that catches up with a block: controller.cpp:111-149. [bs]
    is the sequence of blocks the archiver hands over (get_block of best + 1 and so on)
    before the packet's block is tried again. *)
Definition ashard_catch_up (s : ashard) (bs : list block) (b : block) : ashard :=
  fst (ashard_digest_block true
         (fold_left (fun s b => fst (ashard_digest_block true s b)) bs s) b).
