(** C20, C21, C22, C24, C25: the atomizer architecture. The vocabulary is in
    AtomizerSpec.v and AtomizerShardSpec.v. C23 is in P_AtomizerSnapshot.v. *)
From Coq Require Import NArith List Bool.
From stdpp Require Import base decidable list gmap.
From Verif Require Import Base CodecModel TxModel MsgModel AtomizerModel AtomizerShardModel
  AtomizerSystemModel AtomizerSpec AtomizerShardSpec AtomizerProofs AtomizerSmProofs
  AtomizerShardProofs AtomizerCalls AtomizerSystemProofs AtomizerExamples.
Import ListNotations.
Open Scope N_scope.

(** ** C20. Entry of transactions

    [calls_ok]: heights + depth and the block count stay below 2^64, and equal IDs mean
    equal inputs and outputs. Both are needed: C20_wrapped_height_refuted,
    C21_id_collision_refuted. *)
Theorem C20_complete_transactions h0 d cs a tr o t :
  calls_ok h0 d cs -> do_calls (atomizer_new h0 d) cs = ADone (a, tr) ->
  o + d < two64 -> ctx_inputs t <> [] ->
  let best := h0 + nblocks tr in
  let fits := o <= best <= o + d in
  let spent x := exists u, u ∈ accepted_from h0 o tr /\ x ∈ ctx_inputs u in
  exists a' r, do_call a (CComplete o t) = ADone (a', r) /\
    ( (r = RTx None true /\ fits /\ forall x, x ∈ ctx_inputs t -> ~ spent x)
   \/ (r = RTx (Some (TxErr (ctx_id t) EStxoRange)) false /\ ~ fits /\ a' = a)
   \/ (exists ids, r = RTx (Some (TxErr (ctx_id t) (EInputsSpent ids))) false /\ fits /\ a' = a /\
         ids <> [] /\ forall x, x ∈ ids <-> x ∈ ctx_inputs t /\ spent x)).
Proof. exact (complete_exact h0 d cs a tr o t). Qed.
Print Assumptions C20_complete_transactions.

Theorem C20_attested_transactions h0 d cs a tr h t atts a' e :
  calls_ok h0 d (cs ++ [CInsert h t atts]) ->
  (forall h' t' as', CInsert h' t' as' ∈ cs ++ [CInsert h t atts] -> ctx_id t' = ctx_id t ->
     forall i, i ∈ as' -> i < len (ctx_inputs t)) ->
  do_calls (atomizer_new h0 d) cs = ADone (a, tr) ->
  do_call a (CInsert h t atts) = ADone (a', RTx e true) ->
  let best := h0 + nblocks tr in
  e = None /\
  exists oldest, oldest <= best <= oldest + d /\
    (forall i, i < len (ctx_inputs t) ->
       exists h' t' as', CInsert h' t' as' ∈ cs ++ [CInsert h t atts] /\
         ctx_id t' = ctx_id t /\ i ∈ as' /\ oldest <= h' <= best) /\
    (forall x u, x ∈ ctx_inputs t -> u ∈ accepted_from h0 oldest tr -> x ∉ ctx_inputs u).
Proof. exact (insert_accepts h0 d cs a tr h t atts a' e). Qed.
Print Assumptions C20_attested_transactions.

Example C20_case : calls_ok 5 2 calls1 /\
  outcome (do_calls (atomizer_new 5 2) calls1) =
  Some [RTx None false; RBlock (Block 6 []) []; RTx None true;
        RTx (Some (TxErr 102 (EInputsSpent [1]))) false;
        RTx (Some (TxErr 103 EStxoRange)) false; RTx None true;
        RBlock (Block 7 [tA; tC]) []].
Proof. exact (conj calls1_ok calls1_run). Qed.

(** Not true: "no ID is spent by two of the blocks covered by the cache". The second
    transaction comes with a newer attestation. *)
Theorem C20_cache_wide_refuted : exists d cs b1 b2 t1 t2 x r1 r2,
  outcome (do_calls (atomizer_new 0 d) cs) = Some [r1; RBlock b1 []; r2; RBlock b2 []] /\
  blk_height b2 - blk_height b1 < d /\ t1 ∈ blk_txs b1 /\ t2 ∈ blk_txs b2 /\
  x ∈ ctx_inputs t1 /\ x ∈ ctx_inputs t2.
Proof. exact cache_wide_case. Qed.
Print Assumptions C20_cache_wide_refuted.

(** Not true without the hypothesis on indices: attestations of inputs the transaction
    does not have are counted. *)
Theorem C20_indices_refuted : exists t, ctx_inputs t <> [] /\
  outcome (do_calls (atomizer_new 0 5) [CInsert 0 t [7; 8]; CMake]) =
    Some [RTx None true; RBlock (Block 1 [t]) []].
Proof. exact indices_case. Qed.
Print Assumptions C20_indices_refuted.

(** Not true without the bound on heights: one far above the best height is accepted. *)
Theorem C20_wrapped_height_refuted : exists t, ctx_inputs t <> [] /\
  outcome (do_calls (atomizer_new 0 5) [CComplete (two64 - 1) t; CMake]) =
    Some [RTx None true; RBlock (Block 1 [t]) []].
Proof. exact wrapped_height_case. Qed.
Print Assumptions C20_wrapped_height_refuted.

(** Not true: "every call returns". *)
Theorem C20_total_refuted :
  (exists t, insert_complete (atomizer_new 0 2) 1 t = AHang) /\
  (exists t, insert (atomizer_new 5 2) 1 t [] = AUndefined).
Proof. exact total_case. Qed.
Print Assumptions C20_total_refuted.

(** Not true: "a transaction gets at most one error". *)
Theorem C20_one_error_refuted : exists t1 t2,
  outcome (do_calls (atomizer_new 0 1) [CInsert 0 t1 [0; 1]; CInsert 0 t2 [0]; CMake; CMake]) =
  Some [RTx None true; RTx (Some (TxErr (ctx_id t2) (EInputsSpent [1]))) false;
        RBlock (Block 1 [t1]) []; RBlock (Block 2 []) [TxErr (ctx_id t2) EIncomplete]].
Proof. exact one_error_case. Qed.
Print Assumptions C20_one_error_refuted.

(** ** C21. The system never spends twice, nor what was not created *)
Theorem C21_no_double_spend attested d ranges nodes ls y :
  asys_run attested (asys_new ranges nodes d) ls = YOk y ->
  ids_honest (map nt_tx (ys_sent y)) ->
  len (ys_chain y) + 2 < two64 -> len (ys_chain y) + d < two64 ->
  no_double_spend (chain_txs (ys_chain y)).
Proof. exact (system_no_double_spend attested d ranges nodes ls y). Qed.
Print Assumptions C21_no_double_spend.

(** Nothing a reachable system can be asked to do hangs or is undefined. *)
Theorem C21_always_answers attested d ranges nodes ls y l :
  asys_run attested (asys_new ranges nodes d) ls = YOk y ->
  ids_honest (map nt_tx (ys_sent y)) ->
  len (ys_chain y) + 2 < two64 -> len (ys_chain y) + d < two64 ->
  asys_step attested y l <> YUndefined /\ asys_step attested y l <> YHang.
Proof. exact (system_safe attested d ranges nodes ls y l). Qed.
Print Assumptions C21_always_answers.

Example C21_case :
  (exists y, asys_run (fun _ => true) (asys_new rng2 1 4) labels1 = YOk y /\
     ids_honest (map nt_tx (ys_sent y)) /\
     len (ys_chain y) + 2 < two64 /\ len (ys_chain y) + 4 < two64) /\
  ysum (asys_run (fun _ => true) (asys_new rng2 1 4) labels1) = Some ([[200]; [201]; [203]], [2; 2]).
Proof. exact (conj labels1_ok labels1_run). Qed.

(** Not true if two transactions may share an ID. *)
Theorem C21_id_collision_refuted : exists ls y,
  asys_run (fun _ => true) (asys_new rng2 1 4) ls = YOk y /\
  ~ no_double_spend (chain_txs (ys_chain y)).
Proof. exact collision_case. Qed.
Print Assumptions C21_id_collision_refuted.

(** ** C22. Blocks *)

(** The state machine implements the ledger of AtomizerSpec.v: same answers to every
    sequence of requests. *)
Theorem C22_implements_ledger d rs :
  (forall r, r ∈ rs -> request_ok d r) -> block_requests rs < two64 - 1 ->
  exists s' xs g', sm_run (sm_new d) rs = ADone (s', xs) /\
    ledger_run d (Ledger [] [] []) rs g' xs.
Proof. exact (sm_refines_ledger d rs). Qed.
Print Assumptions C22_implements_ledger.

Theorem C22_consecutive d rs s' xs :
  (forall r, r ∈ rs -> request_ok d r) -> block_requests rs < two64 - 1 ->
  sm_run (sm_new d) rs = ADone (s', xs) ->
  consecutive 1 (blocks_of xs) /\ len (blocks_of xs) = block_requests rs.
Proof. exact (sm_heights d rs s' xs). Qed.
Print Assumptions C22_consecutive.

Theorem C22_block_contents h0 d cs a tr a' b es :
  calls_ok h0 d (cs ++ [CMake]) ->
  do_calls (atomizer_new h0 d) cs = ADone (a, tr) ->
  do_call a CMake = ADone (a', RBlock b es) ->
  blk_height b = h0 + nblocks tr + 1 /\
  Forall2 (fun t1 t2 => ctx_id t1 = ctx_id t2 /\ same_tx t1 t2) (blk_txs b) (accepted_since [] tr).
Proof. exact (block_contents h0 d cs a tr a' b es). Qed.
Print Assumptions C22_block_contents.

Theorem C22_blocks_kept_until_pruned d rs1 rs2 rs3 s' b es xs1 xs2 x xs3 :
  (forall r, r ∈ rs1 ++ QMakeBlock :: rs2 ++ QGetBlock (blk_height b) :: rs3 -> request_ok d r) ->
  block_requests (rs1 ++ QMakeBlock :: rs2 ++ QGetBlock (blk_height b) :: rs3) < two64 - 1 ->
  sm_run (sm_new d) (rs1 ++ QMakeBlock :: rs2 ++ QGetBlock (blk_height b) :: rs3) =
    ADone (s', xs1 ++ Some (SBlock b es) :: xs2 ++ x :: xs3) ->
  length xs1 = length rs1 -> length xs2 = length rs2 ->
  (forall r, r ∈ rs2 -> prunes_above (blk_height b) r = false) ->
  x = Some (SGet b).
Proof. exact (sm_get_block d rs1 rs2 rs3 s' b es xs1 xs2 x xs3). Qed.
Print Assumptions C22_blocks_kept_until_pruned.

Example C22_case :
  ((forall r, r ∈ requests1 -> request_ok 3 r) /\ block_requests requests1 < two64 - 1) /\
  sm_outcome (sm_run (sm_new 3) requests1) =
  Some [None; Some (SBlock (Block 1 [tmint]) []);
        Some (SErrors [TxErr 102 (EInputsSpent [1])]);
        Some (SBlock (Block 2 [tA]) []);
        Some (SGet (Block 1 [tmint])); None; None; Some (SGet (Block 2 [tA]))].
Proof. exact (conj requests1_ok requests1_run). Qed.

(** ** C24. The shard's unspent set *)
Theorem C24_unspent_set r es s bs : len es + 1 < two64 ->
  shard_run (ashard_open r (Adb None ∅)) es = (s, bs) ->
  shard_holds r bs (db_uhs (as_db s)) /\ as_best s = len bs /\ consecutive 1 bs.
Proof. exact (shard_history r es s bs). Qed.
Print Assumptions C24_unspent_set.

Theorem C24_next_block_only r es s bs b : len es + 2 < two64 ->
  shard_run (ashard_open r (Adb None ∅)) es = (s, bs) ->
  (blk_height b = len bs + 1 -> exists s', ashard_digest_block true s b = (s', true) /\
     shard_holds r (bs ++ [b]) (db_uhs (as_db s'))) /\
  (blk_height b <> len bs + 1 -> ashard_digest_block true s b = (s, false)).
Proof. exact (shard_block r es s bs b). Qed.
Print Assumptions C24_next_block_only.

Theorem C24_restart_loses_nothing r es s bs : len es + 1 < two64 ->
  shard_run (ashard_open r (Adb None ∅)) es = (s, bs) -> shard_do s EvRestart = (s, []).
Proof. exact (shard_restart r es s bs). Qed.
Print Assumptions C24_restart_loses_nothing.

Theorem C24_crash_is_all_or_nothing r es s bs b w : len es + 2 < two64 ->
  shard_run (ashard_open r (Adb None ∅)) es = (s, bs) ->
  shard_do s (EvCrashIn b w) = if w then shard_do s (EvBlock b) else (s, []).
Proof. exact (shard_crash_in r es s bs b w). Qed.
Print Assumptions C24_crash_is_all_or_nothing.

(** In the whole system every shard holds a prefix of the one chain. *)
Theorem C24_shards_follow_the_chain attested d ranges nodes ls y i s :
  asys_run attested (asys_new ranges nodes d) ls = YOk y ->
  ids_honest (map nt_tx (ys_sent y)) ->
  len (ys_chain y) + 2 < two64 -> len (ys_chain y) + d < two64 ->
  ys_shards y !! i = Some s ->
  consecutive 1 (ys_chain y) /\
  exists n, (n <= length (ys_chain y))%nat /\ as_best s = N.of_nat n /\
    shard_holds (as_range s) (take n (ys_chain y)) (db_uhs (as_db s)).
Proof. exact (system_shards attested d ranges nodes ls y i s). Qed.
Print Assumptions C24_shards_follow_the_chain.

Example C24_case :
  let '(s, bs) := shard_run (ashard_open (0, 255) (Adb None ∅)) events1 in
  map blk_height bs = [1; 2; 3] /\
  bool_decide (5 ∈ db_uhs (as_db s)) = true /\ bool_decide (3 ∈ db_uhs (as_db s)) = false.
Proof. exact events1_run. Qed.

(** Not true when leveldb fails to write: the status of Write is ignored. *)
Theorem C24_write_failure_refuted : exists r b,
  let s := fst (ashard_digest_block false (ashard_open r (Adb None ∅)) b) in
  snd (ashard_digest_block false (ashard_open r (Adb None ∅)) b) = true /\
  as_best s = 1 /\ ~ shard_holds r [b] (db_uhs (as_db s)).
Proof. exact write_failure_case. Qed.
Print Assumptions C24_write_failure_refuted.

(** ** C25. Attestations *)
Theorem C25_truthful r es s bs t : len es + 1 < two64 ->
  shard_run (ashard_open r (Adb None ∅)) es = (s, bs) ->
  truthful r bs t (ashard_digest_tx (fun _ => false) s t).
Proof. exact (shard_answers r es s bs t). Qed.
Print Assumptions C25_truthful.

(** Not true when leveldb fails to read: any error but "not found" counts as found. *)
Theorem C25_read_error_refuted : exists r b t fails,
  let s := fst (ashard_digest_block true (ashard_open r (Adb None ∅)) b) in
  ashard_digest_tx fails s t = inl (Notif t [0] 1) /\
  ~ truthful r [b] t (ashard_digest_tx fails s t).
Proof. exact read_error_case. Qed.
Print Assumptions C25_read_error_refuted.
