(** The two-phase-commit coordinator and the system it forms with the locking
    shards: src/uhs/twophase/coordinator/{distributed_tx,state_machine,
    controller}.cpp. *)
From Coq Require Import NArith List Bool.
From stdpp Require Import base decidable list gmap.
From Verif Require Import Base CodecModel TxModel CacheModel LockingShardModel.
Import ListNotations.
Open Scope N_scope.

(** ** The coordinator's replicated state machine *)

(** controller::coordinator_state, controller.hpp: m_prepare_txs, m_commit_txs,
    m_discard_txs. The values are kept decoded; C08_coord_state_raw shows
    that the raw buffers and the decoded values have the same bytes. *)
Record rsm := Rsm {
  rs_prepare : gmap N (list compact_tx);
  rs_commit : gmap N (list bool * list (list nat));
  rs_discard : gset N }.

(** controller::sm_command. The [get] command reads the state and is modelled by
    reading [rsm] in [recover]. *)
Inductive sm_command :=
| CPrepare (d : N) (txs : list compact_tx)
| CCommit (d : N) (complete : list bool) (idxs : list (list nat))
| CDiscard (d : N)
| CDone (d : N).

Definition rsm_empty : rsm := Rsm ∅ ∅ ∅.

(** state_machine::commit, state_machine.cpp:14-92. unordered_map::emplace and
    unordered_set::emplace keep an existing element. *)
Definition rsm_commit (m : rsm) (cm : sm_command) : outcome rsm :=
  match cm with
  | CPrepare d txs =>
      match rs_prepare m !! d with
      | Some _ => Fatal
      | None => Done (Rsm (<[d := txs]> (rs_prepare m)) (rs_commit m) (rs_discard m))
      end
  | CCommit d complete idxs =>
      match rs_prepare m !! d with
      | None => Fatal
      | Some _ =>
          Done (Rsm (delete d (rs_prepare m))
                 (match rs_commit m !! d with
                  | Some _ => rs_commit m
                  | None => <[d := (complete, idxs)]> (rs_commit m) end)
                 (rs_discard m))
      end
  | CDiscard d =>
      match rs_commit m !! d with
      | None => Fatal
      | Some _ =>
          Done (Rsm (rs_prepare m) (delete d (rs_commit m)) (rs_discard m ∪ {[d]}))
      end
  | CDone d =>
      if bool_decide (d ∈ rs_discard m)
      then Done (Rsm (rs_prepare m) (rs_commit m) (rs_discard m ∖ {[d]}))
      else Fatal
  end.

(** ** One distributed transaction *)

(** Where an execution of a distributed_tx stands. PhStart: constructed, execute
    has not replicated the prepare command. PhPrepare: waiting for the answers
    of lock_outputs, one slot per shard (distributed_tx.cpp:31-46). PhCommit,
    PhDiscard: waiting for the shards that have no [true] yet. PhDone: execute
    returned. *)
Inductive phase :=
| PhStart
| PhPrepare (got : list (option (list bool)))
| PhCommit (acked : list bool)
| PhDiscard (acked : list bool)
| PhDone.

(** distributed_tx, distributed_tx.hpp: m_full_txs, m_txs, m_tx_idxs,
    m_complete_txs and the state. [dx_client] says that clients wait for its
    result (batch_executor_func, controller.cpp:412-430), which is not so for
    recovered ones (recovery_func, 297-311). *)
Record dtx := Dtx {
  dx_full : list compact_tx; dx_txs : list (list compact_tx);
  dx_idxs : list (list nat); dx_complete : list bool;
  dx_phase : phase; dx_client : bool }.

(** distributed_tx::distributed_tx, distributed_tx.cpp:11-21. *)
Definition dtx_new (n : nat) (client : bool) : dtx :=
  Dtx [] (repeat [] n) (repeat [] n) [] PhStart client.

(** The test of add_tx, distributed_tx.cpp:152-169. *)
Definition active (r : N * N) (t : compact_tx) : bool :=
  in_range r (ctx_id t) || existsb (in_range r) (ctx_inputs t)
  || existsb (in_range r) (ctx_outputs t).

(** add_tx, distributed_tx.cpp:147-178. *)
Definition add_tx (rs : list (N * N)) (x : dtx) (t : compact_tx) : dtx :=
  Dtx (dx_full x ++ [t])
    (zip_with (fun r l => if active r t then l ++ [t] else l) rs (dx_txs x))
    (zip_with (fun r l => if active r t then l ++ [length (dx_full x)] else l)
       rs (dx_idxs x))
    (dx_complete x) (dx_phase x) (dx_client x).

Definition add_txs (rs : list (N * N)) (x : dtx) (txs : list compact_tx) : dtx :=
  fold_left (add_tx rs) txs x.

(** Inner loop of prepare, distributed_tx.cpp:62-66. *)
Fixpoint merge_one (idxs : list nat) (res : list bool) (ret : list bool) : list bool :=
  match idxs, res with
  | k :: ks, b :: bs => merge_one ks bs (if b then ret else <[k := false]> ret)
  | _, _ => ret
  end.

(** Second loop of prepare, distributed_tx.cpp:47-67: shards without transactions
    were not asked; [Done None] while an answer is missing. *)
Fixpoint merge_all (idxs : list (list nat)) (got : list (option (list bool)))
    (ret : list bool) : outcome (option (list bool)) :=
  match idxs, got with
  | [] :: ks, _ :: gs => merge_all ks gs ret
  | (_ :: _) :: _, None :: _ => Done None
  | ((_ :: _) as k) :: ks, Some res :: gs =>
      if (length res =? length k)%nat then merge_all ks gs (merge_one k res ret)
      else Fatal
  | _, _ => Done (Some ret)
  end.

(** shard_complete_txs of commit, distributed_tx.cpp:87-90; [None] is an access
    outside the vector. *)
Definition shard_flags (complete : list bool) (idxs : list nat) : option (list bool) :=
  mapM (fun k => complete !! k) idxs.

(** All shards that take part have answered. *)
Definition all_acked (idxs : list (list nat)) (acked : list bool) : bool :=
  forallb (fun p => match fst p with [] => true | _ => snd p end) (combine idxs acked).

(** ** The system *)

(** A shard cluster: the state of its leader and the log of requests it
    committed, with the answers. *)
Record node := Node {
  nd_shard : shard; nd_rqs : list sreq; nd_rps : list sresp }.

(** [sy_dtx] are the executions in progress, in every coordinator;
    [sy_rsm] the replicated state (of all coordinator clusters together: the
    maps are keyed by dtx ID). [sy_batches] records every batch ever started,
    [sy_answers] what clients were told. *)
Record sys := Sys {
  sy_nodes : list node; sy_rsm : rsm; sy_dtx : gmap N dtx;
  sy_batches : gmap N (list compact_tx); sy_answers : gmap N (list bool) }.

Inductive sres :=
| SOk (s : sys)
| SShardDown      (** a shard called fatal or failed an assert *)
| SCoordDown      (** a coordinator or its state machine called fatal *)
| SUndefined.     (** access outside a vector *)

(** A shard executes one request: the client's call reached the leader and was
    replicated (locking_shard/client.cpp:26-72, state_machine.cpp:33-49). *)
Definition shard_call (cfgs : list shard_cfg) (s : sys) (i : nat) (rq : sreq)
    (k : sys -> sresp -> sres) : sres :=
  match sy_nodes s !! i, cfgs !! i with
  | Some nd, Some c =>
      match process_request c (nd_shard nd) rq with
      | Done (sh, rp) =>
          k (Sys (<[i := Node sh (nd_rqs nd ++ [rq]) (nd_rps nd ++ [rp])]> (sy_nodes s))
               (sy_rsm s) (sy_dtx s) (sy_batches s) (sy_answers s)) rp
      | _ => SShardDown
      end
  | _, _ => SOk s
  end.

(** replicate_sm_command, controller.cpp:460-470. *)
Definition replicate (s : sys) (cm : sm_command) (k : sys -> sres) : sres :=
  match rsm_commit (sy_rsm s) cm with
  | Done m => k (Sys (sy_nodes s) m (sy_dtx s) (sy_batches s) (sy_answers s))
  | _ => SCoordDown
  end.

Definition set_dtx (s : sys) (d : N) (x : dtx) : sys :=
  Sys (sy_nodes s) (sy_rsm s) (<[d := x]> (sy_dtx s)) (sy_batches s) (sy_answers s).
Definition drop_dtx (s : sys) (d : N) : sys :=
  Sys (sy_nodes s) (sy_rsm s) (delete d (sy_dtx s)) (sy_batches s) (sy_answers s).
Definition set_phase (x : dtx) (p : phase) : dtx :=
  Dtx (dx_full x) (dx_txs x) (dx_idxs x) (dx_complete x) p (dx_client x).

(** One scheduler choice. [recv = false]: the request was executed but the answer
    was lost, so that the client sends it again (client.cpp:52-72). A label that
    is not enabled changes nothing. *)
Inductive label :=
| LNew (d : N) (txs : list compact_tx)
| LPrepare (d : N)
| LLock (d : N) (i : nat) (recv : bool)
| LDecide (d : N)
| LApply (d : N) (i : nat) (recv : bool)
| LFinish (d : N)
| LDiscard (d : N) (i : nat) (recv : bool)
| LDone (d : N)
| LCrash (d : N)
| LRecover (d : N).

Definition ranges (cfgs : list shard_cfg) : list (N * N) := map sc_range cfgs.

(** The executor of a recovered distributed transaction, recovery_func,
    controller.cpp:219-329 with recover_prepare, recover_commit,
    recover_discard (distributed_tx.cpp:238-256). The constructor is given all
    shards; after recover_discard m_tx_idxs is still empty. *)
Definition recovered (rs : list (N * N)) (m : rsm) (d : N) : option dtx :=
  let n := length rs in
  match rs_prepare m !! d with
  | Some txs =>
      let x := add_txs rs (dtx_new n false) txs in
      Some (set_phase x (PhPrepare (repeat None n)))
  | None =>
      match rs_commit m !! d with
      | Some (complete, idxs) =>
          Some (Dtx [] (repeat [] n) idxs complete (PhCommit (repeat false n)) false)
      | None =>
          if bool_decide (d ∈ rs_discard m)
          then Some (set_phase (dtx_new n false) (PhDiscard (repeat false n)))
          else None
      end
  end.

Definition step (cfgs : list shard_cfg) (s : sys) (l : label) : sres :=
  let rs := ranges cfgs in
  let n := length cfgs in
  match l with
  | LNew d txs =>
      (** a new batch with a fresh random ID, filled by execute_transaction
          (controller.cpp:364-405, 684-731) *)
      match sy_batches s !! d with
      | Some _ => SOk s
      | None =>
          SOk (Sys (sy_nodes s) (sy_rsm s)
                 (<[d := add_txs rs (dtx_new n true) txs]> (sy_dtx s))
                 (<[d := txs]> (sy_batches s)) (sy_answers s))
      end
  | LPrepare d =>
      (** prepare callback, distributed_tx.cpp:24-30 *)
      match sy_dtx s !! d with
      | Some x =>
          match dx_phase x with
          | PhStart =>
              replicate s (CPrepare d (dx_full x)) (fun s =>
                SOk (set_dtx s d (set_phase x (PhPrepare (repeat None n)))))
          | _ => SOk s
          end
      | None => SOk s
      end
  | LLock d i recv =>
      (** lock_outputs call to shard i, distributed_tx.cpp:34-45 *)
      match sy_dtx s !! d with
      | Some x =>
          match dx_phase x, dx_idxs x !! i, dx_txs x !! i with
          | PhPrepare got, Some (_ :: _), Some txs =>
              match got !! i with
              | Some None =>
                  shard_call cfgs s i (RLock d txs) (fun s rp =>
                    match rp with
                    | ALock res =>
                        if recv then
                          SOk (set_dtx s d (set_phase x
                            (PhPrepare (<[i := Some res]> got))))
                        else SOk s
                    | _ => SCoordDown
                    end)
              | _ => SOk s
              end
          | _, _, _ => SOk s
          end
      | None => SOk s
      end
  | LDecide d =>
      (** all answers are in: distributed_tx.cpp:47-69, 116-126, then the commit
          callback, 74-80 *)
      match sy_dtx s !! d with
      | Some x =>
          match dx_phase x with
          | PhPrepare got =>
              match merge_all (dx_idxs x) got (repeat true (length (dx_full x))) with
              | Done (Some complete) =>
                  replicate s (CCommit d complete (dx_idxs x)) (fun s =>
                    SOk (set_dtx s d (Dtx (dx_full x) (dx_txs x) (dx_idxs x) complete
                           (PhCommit (repeat false n)) (dx_client x))))
              | Done None => SOk s
              | _ => SCoordDown
              end
          | _ => SOk s
          end
      | None => SOk s
      end
  | LApply d i recv =>
      (** apply_outputs call to shard i, distributed_tx.cpp:82-97 *)
      match sy_dtx s !! d with
      | Some x =>
          match dx_phase x, dx_idxs x !! i with
          | PhCommit acked, Some ((_ :: _) as ks) =>
              match acked !! i with
              | Some false =>
                  match shard_flags (dx_complete x) ks with
                  | None => SUndefined
                  | Some flags =>
                      shard_call cfgs s i (RApply d flags) (fun s _ =>
                        if recv then
                          SOk (set_dtx s d (set_phase x (PhCommit (<[i := true]> acked))))
                        else SOk s)
                  end
              | _ => SOk s
              end
          | _, _ => SOk s
          end
      | None => SOk s
      end
  | LFinish d =>
      (** commit returned, discard callback: distributed_tx.cpp:98-106, 181-187 *)
      match sy_dtx s !! d with
      | Some x =>
          match dx_phase x with
          | PhCommit acked =>
              if all_acked (dx_idxs x) acked then
                replicate s (CDiscard d) (fun s =>
                  SOk (set_dtx s d (set_phase x (PhDiscard (repeat false n)))))
              else SOk s
          | _ => SOk s
          end
      | None => SOk s
      end
  | LDiscard d i recv =>
      (** discard_dtx call to shard i, distributed_tx.cpp:188-199 *)
      match sy_dtx s !! d with
      | Some x =>
          match dx_phase x, dx_idxs x !! i with
          | PhDiscard acked, Some (_ :: _) =>
              match acked !! i with
              | Some false =>
                  shard_call cfgs s i (RDiscard d) (fun s _ =>
                    if recv then
                      SOk (set_dtx s d (set_phase x (PhDiscard (<[i := true]> acked))))
                    else SOk s)
              | _ => SOk s
              end
          | _, _ => SOk s
          end
      | None => SOk s
      end
  | LDone d =>
      (** done callback, distributed_tx.cpp:207-216; the result is sent to the
          clients, controller.cpp:412-430 *)
      match sy_dtx s !! d with
      | Some x =>
          match dx_phase x with
          | PhDiscard acked =>
              if all_acked (dx_idxs x) acked then
                replicate s (CDone d) (fun s =>
                  let s := set_dtx s d (set_phase x PhDone) in
                  SOk (Sys (sy_nodes s) (sy_rsm s) (sy_dtx s) (sy_batches s)
                         (if dx_client x then <[d := dx_complete x]> (sy_answers s)
                          else sy_answers s)))
              else SOk s
          | _ => SOk s
          end
      | None => SOk s
      end
  | LCrash d => SOk (drop_dtx s d)
  | LRecover d =>
      match sy_dtx s !! d with
      | Some _ => SOk s
      | None =>
          match recovered rs (sy_rsm s) d with
          | Some x => SOk (set_dtx s d x)
          | None => SOk s
          end
      end
  end.

Fixpoint run (cfgs : list shard_cfg) (s : sys) (ls : list label) : sres :=
  match ls with
  | [] => SOk s
  | l :: r =>
      match step cfgs s l with
      | SOk s' => run cfgs s' r
      | e => e
      end
  end.

(** Freshly started shards with their preseeded UHS IDs, no transactions. *)
Definition sys_new (preseeds : list (gset N)) (cache : N) : sys :=
  Sys (map (fun p => Node (shard_new p cache) [] []) preseeds) rsm_empty ∅ ∅ ∅.
