(** Specification vocabulary for the atomizer properties; nothing here mentions the
    atomizer's or the shard's own data structures. *)
From Coq Require Import NArith List Bool.
From stdpp Require Import base decidable list gmap.
From Verif Require Import Base CodecModel TxModel MsgModel AtomizerModel.
Import ListNotations.
Open Scope N_scope.

(** The transactions of a chain, in order. *)
Definition chain_txs (c : list block) : list compact_tx := concat (map blk_txs c).

(** The unspent set a sequence of transactions leaves: each adds its outputs and then
    removes its inputs. *)
Definition apply_tx (u : gset N) (t : compact_tx) : gset N :=
  (u ∪ list_to_set (ctx_outputs t)) ∖ list_to_set (ctx_inputs t).
Definition utxo (l : list compact_tx) : gset N := fold_left apply_tx l ∅.

(** Every input of every transaction was created by an earlier one, and not spent since. *)
Definition no_double_spend (l : list compact_tx) : Prop :=
  forall q tq x, l !! q = Some tq -> x ∈ ctx_inputs tq ->
    exists r tr, l !! r = Some tr /\ (r < q)%nat /\ x ∈ ctx_outputs tr /\
      forall p tp, l !! p = Some tp -> (r <= p < q)%nat -> x ∉ ctx_inputs tp.

(** Heights 1, 2, 3, ... *)
Definition consecutive (first : N) (c : list block) : Prop :=
  forall i b, c !! i = Some b -> blk_height b = first + N.of_nat i.

(** Equal IDs identify the inputs and outputs (what tx_id's collision resistance gives;
    the sentinels' attestations may differ). *)
Definition same_tx (t1 t2 : compact_tx) : Prop :=
  ctx_inputs t1 = ctx_inputs t2 /\ ctx_outputs t1 = ctx_outputs t2.
Definition ids_honest (l : list compact_tx) : Prop :=
  forall t1 t2, t1 ∈ l -> t2 ∈ l -> ctx_id t1 = ctx_id t2 -> same_tx t1 t2.

(** ** Calls of the atomizer and what the caller sees *)

Inductive call :=
| CInsert (h : N) (t : compact_tx) (atts : list N)
| CComplete (oldest : N) (t : compact_tx)
| CMake.
(** [RTx err more]: the error if any; [more]: pending_transactions() grew. *)
Inductive result :=
| RTx (err : option tx_err) (more : bool)
| RBlock (b : block) (errs : list tx_err).
Definition trace := list (call * result).

Definition do_call (a : atomizer) (c : call) : aout (atomizer * result) :=
  match c with
  | CInsert h t atts =>
      abind (insert a h t atts) (fun '(a', e) =>
        ADone (a', RTx e (len (at_complete a) <? len (at_complete a'))))
  | CComplete o t =>
      abind (insert_complete a o t) (fun '(a', e) =>
        ADone (a', RTx e (len (at_complete a) <? len (at_complete a'))))
  | CMake => abind (make_block a) (fun '(a', (b, es)) => ADone (a', RBlock b es))
  end.
Fixpoint do_calls (a : atomizer) (cs : list call) : aout (atomizer * trace) :=
  match cs with
  | [] => ADone (a, [])
  | c :: r =>
      abind (do_call a c) (fun '(a1, x) =>
      abind (do_calls a1 r) (fun '(a2, tr) => ADone (a2, (c, x) :: tr)))
  end.

Definition call_tx (c : call) : option compact_tx :=
  match c with CInsert _ t _ | CComplete _ t => Some t | CMake => None end.

(** Number of blocks made in a trace. *)
Fixpoint nblocks (tr : trace) : N :=
  match tr with
  | [] => 0
  | (CMake, _) :: r => 1 + nblocks r
  | _ :: r => nblocks r
  end.

(** The transaction a step of a trace accepted, if any. *)
Definition step_accepted (p : call * result) : list compact_tx :=
  match p with
  | (CInsert _ t _, RTx _ true) | (CComplete _ t, RTx _ true) => [t]
  | _ => []
  end.

(** The transactions accepted since the last block. *)
Fixpoint accepted_since (acc : list compact_tx) (tr : trace) : list compact_tx :=
  match tr with
  | [] => acc
  | (CMake, _) :: r => accepted_since [] r
  | p :: r => accepted_since (acc ++ step_accepted p) r
  end.

(** The transactions accepted while the best height was at least [h], when the trace
    starts at height [h0]: those are the transactions of the blocks after [h] and those
    waiting for the next block. *)
Fixpoint accepted_from (h0 h : N) (tr : trace) : list compact_tx :=
  match tr with
  | [] => []
  | (CMake, _) :: r => accepted_from (h0 + 1) h r
  | p :: r => (if h <=? h0 then step_accepted p else []) ++ accepted_from h0 h r
  end.

(** ** The ledger the state machine implements

    No caches: the chain so far, the transactions accepted since its last block, and the
    blocks that were not pruned. *)
Record ledger := Ledger {
  lg_chain : list block;
  lg_next : list compact_tx;
  lg_kept : list block }.

(** IDs spent by the blocks after height [o] or by a transaction waiting for the next. *)
Definition spent_after (g : ledger) (o : N) (x : N) : Prop :=
  (exists b t, b ∈ lg_chain g /\ o < blk_height b /\ t ∈ blk_txs b /\ x ∈ ctx_inputs t) \/
  (exists t, t ∈ lg_next g /\ x ∈ ctx_inputs t).

(** Verdict on a transaction whose oldest attestation is [o], when up to [d] blocks may
    lie between the attestation and now. *)
Inductive verdict (d : N) (g : ledger) (o : N) (t : compact_tx) : option tx_err -> Prop :=
| VInputless : ctx_inputs t = [] -> verdict d g o t None
| VAccept : ctx_inputs t <> [] ->
    o <= len (lg_chain g) <= o + d ->
    (forall x, x ∈ ctx_inputs t -> ~ spent_after g o x) ->
    verdict d g o t None
| VTooOld : ctx_inputs t <> [] ->
    (len (lg_chain g) < o \/ o + d < len (lg_chain g)) ->
    verdict d g o t (Some (TxErr (ctx_id t) EStxoRange))
| VSpent ids : ctx_inputs t <> [] ->
    o <= len (lg_chain g) <= o + d -> ids <> [] ->
    (forall x, x ∈ ids <-> x ∈ ctx_inputs t /\ spent_after g o x) ->
    verdict d g o t (Some (TxErr (ctx_id t) (EInputsSpent ids))).

Inductive ledger_batch (d : N) : ledger -> list (N * compact_tx) -> ledger -> list tx_err -> Prop :=
| LBNil g : ledger_batch d g [] g []
| LBOk g o t r g' es :
    verdict d g o t None ->
    ledger_batch d (Ledger (lg_chain g) (lg_next g ++ [t]) (lg_kept g)) r g' es ->
    ledger_batch d g ((o, t) :: r) g' es
| LBErr g o t r g' e es :
    verdict d g o t (Some e) -> ledger_batch d g r g' es ->
    ledger_batch d g ((o, t) :: r) g' (e :: es).

Inductive ledger_step (d : N) : ledger -> sm_request -> ledger -> option sm_response -> Prop :=
| LSAgg g txs g' es :
    ledger_batch d g txs g' es ->
    ledger_step d g (QAgg txs) g' (match es with [] => None | _ => Some (SErrors es) end)
| LSBlock g b : b = Block (len (lg_chain g) + 1) (lg_next g) ->
    ledger_step d g QMakeBlock (Ledger (lg_chain g ++ [b]) [] (lg_kept g ++ [b])) (Some (SBlock b []))
| LSGet g h b : b ∈ lg_kept g -> blk_height b = h ->
    ledger_step d g (QGetBlock h) g (Some (SGet b))
| LSMiss g h : (forall b, b ∈ lg_kept g -> blk_height b <> h) ->
    ledger_step d g (QGetBlock h) g None
| LSPrune g h :
    ledger_step d g (QPrune h)
      (Ledger (lg_chain g) (lg_next g) (List.filter (fun b => h <=? blk_height b) (lg_kept g))) None.

Inductive ledger_run (d : N) : ledger -> list sm_request -> ledger -> list (option sm_response) -> Prop :=
| LRNil g : ledger_run d g [] g []
| LRCons g r g1 x rs g2 xs :
    ledger_step d g r g1 x -> ledger_run d g1 rs g2 xs -> ledger_run d g (r :: rs) g2 (x :: xs).

(** Requests as the atomizer nodes make them: attestation heights far from 2^64, and
    inputless transactions without an attestation (oldest = 0). *)
Definition request_ok (d : N) (r : sm_request) : Prop :=
  match r with
  | QAgg txs => forall o t, (o, t) ∈ txs -> o + d < two64 /\ (ctx_inputs t = [] -> o = 0)
  | _ => True
  end.
Definition block_requests (rs : list sm_request) : N :=
  len (List.filter (fun r => match r with QMakeBlock => true | _ => false end) rs).
