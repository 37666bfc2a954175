(** The locking shard of the two-phase-commit architecture:
    src/uhs/twophase/locking_shard/locking_shard.{hpp,cpp}, and the replicated
    state machine in front of it, state_machine.cpp. *)
From Coq Require Import NArith List Bool.
From stdpp Require Import base decidable list gmap.
From Verif Require Import Base CodecModel TxModel CacheModel.
Import ListNotations.
Open Scope N_scope.

(** What a shard is started with (locking_shard.cpp:24-54). [sc_attested] is
    check_attestations applied to the configured keys and threshold.
    [sc_asserts] says whether the program was compiled with assertions. *)
Record shard_cfg := ShardCfg {
  sc_range : N * N; sc_attested : compact_tx -> bool; sc_asserts : bool }.

(** The configuration the program builds: check_attestations with
    m_opts.m_sentinel_public_keys and m_opts.m_attestation_threshold,
    locking_shard.cpp:106-109. *)
Definition shard_cfg_of (sha : bytes -> hash) (pk_parse : N -> bool)
    (schnorr : N -> hash -> N -> bool) (keys : list N) (threshold : N)
    (range : N * N) (asserts : bool) : shard_cfg :=
  ShardCfg range
    (fun t => check_attestations sha pk_parse schnorr t keys threshold) asserts.

(** locking_shard::prepared_dtx, locking_shard.hpp. *)
Record prepared_dtx := PreparedDtx {
  pd_txs : list compact_tx; pd_results : list bool }.

(** The data members of locking_shard. The mutex is not modelled: every method
    that changes the members holds it exclusively from its first line, so calls
    are atomic. *)
Record shard := Shard {
  sh_running : bool;
  sh_uhs : gset N; sh_locked : gset N;
  sh_prepared : gmap N prepared_dtx; sh_applied : gset N;
  sh_completed : cache_set N }.

(** What a call does: returns a state and an answer, exits through
    logger->fatal, or fails an assert. *)
Inductive outcome (A : Type) :=
| Done (x : A)
| Fatal
| AssertFailed.
Arguments Done {A}.
Arguments Fatal {A}.
Arguments AssertFailed {A}.

Definition obind {A B} (x : outcome A) (f : A -> outcome B) : outcome B :=
  match x with
  | Done a => f a
  | Fatal => Fatal
  | AssertFailed => AssertFailed
  end.

(** A shard after construction (locking_shard.cpp:24-54) with the UHS IDs of the
    preseed file (read_preseed_file, 56-76). *)
Definition shard_new (preseed : gset N) (cache : N) : shard :=
  Shard true preseed ∅ ∅ ∅ (cache_new cache).

(** interface::hash_in_shard_range, interface.cpp:16-18. *)
Definition mine (c : shard_cfg) (h : N) : bool := in_range (sc_range c) h.

(** Second loop of check_and_lock_tx, locking_shard.cpp:123-131, over
    (m_uhs, m_locked). *)
Fixpoint lock_inputs (c : shard_cfg) (ins : list N) (uhs locked : gset N)
  : outcome (gset N * gset N) :=
  match ins with
  | [] => Done (uhs, locked)
  | x :: r =>
      if mine c x then
        if sc_asserts c && negb (bool_decide (x ∈ uhs)) then AssertFailed
        else lock_inputs c r (uhs ∖ {[x]}) (locked ∪ {[x]})
      else lock_inputs c r uhs locked
  end.

(** First loop of check_and_lock_tx, locking_shard.cpp:114-122. *)
Definition all_unspent (c : shard_cfg) (ins : list N) (uhs : gset N) : bool :=
  forallb (fun x => negb (mine c x && negb (bool_decide (x ∈ uhs)))) ins.

(** check_and_lock_tx, locking_shard.cpp:104-133. *)
Definition check_and_lock_tx (c : shard_cfg) (t : compact_tx)
    (uhs locked : gset N) : outcome (gset N * gset N * bool) :=
  if sc_attested c t && all_unspent c (ctx_inputs t) uhs then
    obind (lock_inputs c (ctx_inputs t) uhs locked)
      (fun ul => Done (fst ul, snd ul, true))
  else Done (uhs, locked, false).

(** The loop of lock_outputs, locking_shard.cpp:92-96. *)
Fixpoint lock_txs (c : shard_cfg) (txs : list compact_tx) (uhs locked : gset N)
  : outcome (gset N * gset N * list bool) :=
  match txs with
  | [] => Done (uhs, locked, [])
  | t :: r =>
      obind (check_and_lock_tx c t uhs locked) (fun x =>
      let '(uhs1, locked1, ok) := x in
      obind (lock_txs c r uhs1 locked1) (fun y =>
      let '(uhs2, locked2, oks) := y in
      Done (uhs2, locked2, ok :: oks)))
  end.

(** lock_outputs, locking_shard.cpp:78-102. [None] is std::nullopt. *)
Definition lock_outputs (c : shard_cfg) (s : shard) (txs : list compact_tx)
    (d : N) : outcome (shard * option (list bool)) :=
  if negb (sh_running s) then Done (s, None)
  else match sh_prepared s !! d with
  | Some p => Done (s, Some (pd_results p))
  | None =>
      obind (lock_txs c txs (sh_uhs s) (sh_locked s)) (fun x =>
      let '(uhs, locked, oks) := x in
      Done (Shard true uhs locked
              (<[d := PreparedDtx txs oks]> (sh_prepared s))
              (sh_applied s) (sh_completed s), Some oks))
  end.

(** Loop over the outputs, locking_shard.cpp:164-168. *)
Definition add_outputs (c : shard_cfg) (complete : bool) (outs : list N)
    (uhs : gset N) : gset N :=
  fold_left (fun u x => if mine c x && complete then u ∪ {[x]} else u) outs uhs.

(** Loop over the inputs, locking_shard.cpp:169-176. *)
Definition release_inputs (c : shard_cfg) (complete : bool) (ins : list N)
    (ul : gset N * gset N) : gset N * gset N :=
  fold_left (fun ul x =>
    let '(u, l) := ul in
    if mine c x then
      (if negb complete && bool_decide (x ∈ l) then u ∪ {[x]} else u,
       l ∖ {[x]})
    else (u, l)) ins ul.

(** One iteration of the loop of apply_outputs, locking_shard.cpp:158-177. *)
Definition apply_tx (c : shard_cfg) (complete : bool) (t : compact_tx)
    (st : gset N * gset N * cache_set N) : gset N * gset N * cache_set N :=
  let '(u, l, q) := st in
  let q := if mine c (ctx_id t) then fst (cache_add q (ctx_id t)) else q in
  let u := add_outputs c complete (ctx_outputs t) u in
  let '(u, l) := release_inputs c complete (ctx_inputs t) (u, l) in
  (u, l, q).

(** The loop of apply_outputs. The two lists have the same length when it is
    entered. *)
Fixpoint apply_txs (c : shard_cfg) (flags : list bool) (txs : list compact_tx)
    (st : gset N * gset N * cache_set N) : gset N * gset N * cache_set N :=
  match flags, txs with
  | f :: fs, t :: ts => apply_txs c fs ts (apply_tx c f t st)
  | _, _ => st
  end.

(** apply_outputs, locking_shard.cpp:135-182. *)
Definition apply_outputs (c : shard_cfg) (s : shard) (flags : list bool) (d : N)
  : outcome (shard * bool) :=
  if negb (sh_running s) then Done (s, false)
  else match sh_prepared s !! d with
  | None => if bool_decide (d ∈ sh_applied s) then Done (s, true) else Fatal
  | Some p =>
      if negb (length flags =? length (pd_txs p))%nat then Fatal
      else
        let '(u, l, q) := apply_txs c flags (pd_txs p)
                            (sh_uhs s, sh_locked s, sh_completed s) in
        Done (Shard true u l (delete d (sh_prepared s))
                (sh_applied s ∪ {[d]}) q, true)
  end.

(** discard_dtx, locking_shard.cpp:15-22. *)
Definition discard_dtx (s : shard) (d : N) : shard * bool :=
  if sh_running s then
    (Shard true (sh_uhs s) (sh_locked s) (sh_prepared s)
       (sh_applied s ∖ {[d]}) (sh_completed s), true)
  else (s, false).

(** stop, locking_shard.cpp:184-186. *)
Definition stop_shard (s : shard) : shard :=
  Shard false (sh_uhs s) (sh_locked s) (sh_prepared s) (sh_applied s)
    (sh_completed s).

(** check_unspent, locking_shard.cpp:188-193. *)
Definition check_unspent (s : shard) (x : N) : bool :=
  bool_decide (x ∈ sh_uhs s) || bool_decide (x ∈ sh_locked s).

(** check_tx_id, locking_shard.cpp:195-198. *)
Definition check_tx_id (s : shard) (x : N) : bool :=
  cache_contains (sh_completed s) x.

(** A request to a shard (rpc::request, messages.hpp: dtx id and one of
    lock_params, apply_params, discard_params) and its answer. *)
Inductive sreq :=
| RLock (d : N) (txs : list compact_tx)
| RApply (d : N) (flags : list bool)
| RDiscard (d : N).
Inductive sresp :=
| ALock (results : list bool)
| AApply
| ADiscard.

(** state_machine::process_request, state_machine.cpp:80-117: the asserts on the
    result fail when the shard was stopped; without assertions res.value() of
    an empty optional throws (lock), modelled by the same outcome, and the other
    two answer. *)
Definition process_request (c : shard_cfg) (s : shard) (r : sreq)
  : outcome (shard * sresp) :=
  match r with
  | RLock d txs =>
      obind (lock_outputs c s txs d) (fun x =>
        match snd x with
        | Some oks => Done (fst x, ALock oks)
        | None => AssertFailed
        end)
  | RApply d flags =>
      obind (apply_outputs c s flags d) (fun x =>
        if sc_asserts c && negb (snd x) then AssertFailed
        else Done (fst x, AApply))
  | RDiscard d =>
      let x := discard_dtx s d in
      if sc_asserts c && negb (snd x) then AssertFailed
      else Done (fst x, ADiscard)
  end.

(** The replicated log applied in order, state_machine::commit,
    state_machine.cpp:33-49; every replica applies the same requests. *)
Fixpoint run_shard (c : shard_cfg) (s : shard) (rs : list sreq)
  : outcome (shard * list sresp) :=
  match rs with
  | [] => Done (s, [])
  | r :: rest =>
      obind (process_request c s r) (fun x =>
      obind (run_shard c (fst x) rest) (fun y =>
      Done (fst y, snd x :: snd y)))
  end.
