(** Model of the PArSEC agent that runs one request of a client,
    src/parsec/agent/impl.cpp and impl.hpp, and of the server that owns it,
    src/parsec/agent/server_interface.cpp, runners/lua/server.cpp and
    runners/evm/http_server.cpp:1388-1443.

    Simplifications, valid for the whole file:
    - the agent's recursive mutex is held by every method, so a method runs in one step;
    - the broker and the runner are the environment. A request made to one of them gets a
      number, and the environment may call the callback passed with it at any later time,
      with any value of the right kind, any number of times or never. What the broker does
      with each request of a step — refuse it (return false), keep it, or call the callback
      before it returns — is an input of the step. A callback called before the request
      returns is modelled exactly for locks; for the other requests nothing follows the
      call in the agent's code, so it is the same as a callback called right afterwards;
    - [run()] of a runner either returns false and never calls back, or returns true;
    - [m_restarted] only chooses the thread the runner uses, and is dropped, as are the
      runner's other arguments (they never change) and the log;
    - [a_tr] is not in the code: it records, newest first, what the agent was told and
      what it asked for, so that theorems can speak about the past. *)
From stdpp Require Import base option list gmap fin_maps.
From Coq Require Import NArith.
From Verif Require Import Base ParsecShardModel BrokerModel.
Open Scope N_scope.

(** state, impl.hpp:26-63. *)
Inductive ast :=
| AInit | ABeginSent | ABeginFailed
| AGetSent | AGetFailed | AGetError
| AStarted | AFailed | AException
| ACommitSent | ACommitFailed | ACommitError
| AFinishSent | AFinishFailed | AFinishComplete
| ARollbackSent | ARollbackFailed | ARollbackComplete.

Global Instance ast_eq_dec : EqDecision ast.
Proof. solve_decision. Defined.

(** error_code, agent/interface.hpp:29-46. *)
Inductive aerror :=
| XUnreachable | XTicket | XRetrieval | XExecution | XCommit | XFinish | XRollback | XRetry.

Global Instance aerror_eq_dec : EqDecision aerror.
Proof. solve_decision. Defined.

Definition updates := gmap key bytes.

(** exec_return_type, agent/interface.hpp:48-50. *)
Inductive ares := Done (u : updates) | Fail (e : aerror).

(** run_return_type, runners/interface.hpp:51-55: only whether an error is [wounded]
    matters to the agent. *)
Inductive rres := Ran (u : updates) | RanWounded | RanError.

(** Who asked for a lock: the agent, taking back the locks of the last attempt for the
    [c]th execution of handle_function, or the runner started by request [r]. *)
Inductive asker := Reacq (c : N) | Runner (r : N).

(** What the agent asks of its broker and of its runner. *)
Inductive areq :=
| QaBegin
| QaFunction (t : ticket_no) (m : lock_type)
| QaLock (w : asker) (t : ticket_no) (k : key) (m : lock_type)
| QaRun (v : bytes)
| QaCommit (t : ticket_no) (u : updates)
| QaRollback (t : ticket_no)
| QaFinish (t : ticket_no).

(** What the broker does with a request while it is being made. *)
Inductive reply := Refuse | Later | Now (r : result).

(** How a process ends. *)
Inductive death := AssertFails | FatalResult | NoTicket | Unfinished | Freed.

Inductive aevent :=
| EvExec
| EvAnswer (id : N) (r : result)
| EvRan (id : N) (r : rres)
| EvLock (run : N) (k : key) (m : lock_type).

Inductive aout :=
| OReq (id : option N) (q : areq)   (* a request, and its number if it was taken *)
| OLock (run : N) (r : result)      (* the runner's callback for a lock is called *)
| OReport (r : ares)                (* the result callback is called *)
| ODie (d : death).

Inductive item := In (e : aevent) | Out (o : aout).

(** The members of impl, impl.hpp:124-139, then: the callbacks made so far (by request
    number), the shared counters of handle_function (impl.cpp:264: how many locks were
    taken back, of how many, and the function's code), the broker's behaviour during
    this step, whether the process has ended, and the record of the past. *)
Record agent := Agent {
  a_st : ast;
  a_tk : option ticket_no;
  a_res : option ares;
  a_perm : bool;
  a_wound : bool;
  a_locks : gmap key lock_type;
  a_next : N;
  a_made : gmap N areq;
  a_cnt : gmap N (N * N * bytes);
  a_try : N;
  a_ch : list reply;
  a_dead : bool;
  a_tr : list item
}.

Definition agent0 : agent :=
  Agent AInit None None false false ∅ 0 ∅ ∅ 0 [] false [].

Definition with_st (a : agent) (s : ast) : agent :=
  Agent s (a_tk a) (a_res a) (a_perm a) (a_wound a) (a_locks a) (a_next a) (a_made a)
    (a_cnt a) (a_try a) (a_ch a) (a_dead a) (a_tr a).
Definition with_tk (a : agent) (t : ticket_no) : agent :=
  Agent (a_st a) (Some t) (a_res a) (a_perm a) (a_wound a) (a_locks a) (a_next a) (a_made a)
    (a_cnt a) (a_try a) (a_ch a) (a_dead a) (a_tr a).
Definition with_res (a : agent) (r : option ares) : agent :=
  Agent (a_st a) (a_tk a) r (a_perm a) (a_wound a) (a_locks a) (a_next a) (a_made a)
    (a_cnt a) (a_try a) (a_ch a) (a_dead a) (a_tr a).
Definition with_perm (a : agent) (p : bool) : agent :=
  Agent (a_st a) (a_tk a) (a_res a) p (a_wound a) (a_locks a) (a_next a) (a_made a)
    (a_cnt a) (a_try a) (a_ch a) (a_dead a) (a_tr a).
Definition with_wound (a : agent) (w : bool) : agent :=
  Agent (a_st a) (a_tk a) (a_res a) (a_perm a) w (a_locks a) (a_next a) (a_made a)
    (a_cnt a) (a_try a) (a_ch a) (a_dead a) (a_tr a).
Definition with_locks (a : agent) (l : gmap key lock_type) : agent :=
  Agent (a_st a) (a_tk a) (a_res a) (a_perm a) (a_wound a) l (a_next a) (a_made a)
    (a_cnt a) (a_try a) (a_ch a) (a_dead a) (a_tr a).
Definition with_cnt (a : agent) (c : gmap N (N * N * bytes)) (n : N) : agent :=
  Agent (a_st a) (a_tk a) (a_res a) (a_perm a) (a_wound a) (a_locks a) (a_next a) (a_made a)
    c n (a_ch a) (a_dead a) (a_tr a).
Definition with_ch (a : agent) (ch : list reply) : agent :=
  Agent (a_st a) (a_tk a) (a_res a) (a_perm a) (a_wound a) (a_locks a) (a_next a) (a_made a)
    (a_cnt a) (a_try a) ch (a_dead a) (a_tr a).
Definition emit (a : agent) (i : item) : agent :=
  Agent (a_st a) (a_tk a) (a_res a) (a_perm a) (a_wound a) (a_locks a) (a_next a) (a_made a)
    (a_cnt a) (a_try a) (a_ch a) (a_dead a) (i :: a_tr a).

(** The process ends: assert, log::fatal, an exception nobody catches, or a call into
    memory that has been freed. *)
Definition die (a : agent) (d : death) : agent :=
  Agent (a_st a) (a_tk a) (a_res a) (a_perm a) (a_wound a) (a_locks a) (a_next a) (a_made a)
    (a_cnt a) (a_try a) (a_ch a) true (Out (ODie d) :: a_tr a).

(** A request to the broker or the runner is made. *)
Definition ask (a : agent) (q : areq) : agent * reply :=
  let c := match a_ch a with [] => Later | c :: _ => c end in
  let a1 := with_ch a (tail (a_ch a)) in
  match c with
  | Refuse => (emit a1 (Out (OReq None q)), c)
  | _ =>
      (Agent (a_st a) (a_tk a) (a_res a) (a_perm a) (a_wound a) (a_locks a)
         (a_next a + 1) (<[a_next a := q]> (a_made a)) (a_cnt a) (a_try a)
         (tail (a_ch a)) (a_dead a) (Out (OReq (Some (a_next a)) q) :: a_tr a), c)
  end.

(** The end of do_result, impl.cpp:542-546: the callback, then a log message that reads
    [m_ticket_number.value()], which throws if there is none. *)
Definition report (a : agent) : agent :=
  match a_res a with
  | None => die a AssertFails
  | Some r =>
      let a1 := emit a (Out (OReport r)) in
      match a_tk a with
      | Some _ => a1
      | None => die a1 NoTicket
      end
  end.

(** do_rollback, impl.cpp:602-628. Its do_result, in state rollback_failed, goes straight
    to the callback (impl.cpp:525-531). *)
Definition do_rollback (a : agent) (finish : bool) : agent :=
  match a_st a, a_tk a with
  | (ACommitFailed | ARollbackSent | AException | AFailed | ACommitError | AGetFailed
     | AGetError | AStarted | ARollbackFailed), Some t =>
      let '(a1, c) := ask (with_perm (with_st a ARollbackSent) finish) (QaRollback t) in
      match c with
      | Refuse => report (with_res (with_st a1 ARollbackFailed) (Some (Fail XUnreachable)))
      | _ => a1
      end
  | _, _ => die a AssertFails
  end.

(** do_result, impl.cpp:480-547. *)
Definition do_result (a : agent) : agent :=
  match a_res a with
  | None => die a AssertFails
  | Some r =>
      match a_st a with
      | AInit | ABeginSent | AGetSent | ACommitSent | AFinishSent | AStarted
      | ARollbackSent => die a FatalResult
      | ARollbackComplete =>
          match r with
          | Fail XRetry => report a
          | _ => die a FatalResult
          end
      | ABeginFailed | AFinishFailed | ARollbackFailed => report a
      | AGetFailed | AFailed | ACommitFailed => do_rollback a false
      | AGetError | ACommitError | AException => do_rollback a true
      | AFinishComplete =>
          match a_tk a with
          | None => die a NoTicket
          | Some _ => report a
          end
      end
  end.

(** A request failed: the state and the result are set and do_result called (for
    instance impl.cpp:102-106). *)
Definition fail (a : agent) (s : ast) (e : aerror) : agent :=
  do_result (with_res (with_st a s) (Some (Fail e))).

(** do_finish, impl.cpp:549-573. *)
Definition do_finish (a : agent) : agent :=
  match a_st a, a_tk a with
  | (ACommitSent | AFinishFailed | AFinishSent | ARollbackComplete), Some t =>
      let '(a1, c) := ask (with_st a AFinishSent) (QaFinish t) in
      match c with
      | Refuse => fail a1 AFinishFailed XUnreachable
      | _ => a1
      end
  | _, _ => die a AssertFails
  end.

Section Agent.
(** The function's key, the type of the lock on it, and whether the run is read-only. *)
Context (fn : bytes) (ilt : lock_type) (ro : bool).

(** do_commit, impl.cpp:354-382. *)
Definition do_commit (a : agent) : agent :=
  match a_st a, a_res a, a_tk a with
  | (AStarted | ACommitFailed | ACommitSent), Some (Done u), Some t =>
      let '(a1, c) := ask (with_st a ACommitSent) (QaCommit t (if ro then ∅ else u)) in
      match c with
      | Refuse => fail a1 ACommitFailed XUnreachable
      | _ => a1
      end
  | _, _, _ => die a AssertFails
  end.

(** do_runner, impl.cpp:321-352. *)
Definition do_runner (a : agent) (v : bytes) : agent :=
  match a_tk a with
  | None => die a NoTicket
  | Some _ =>
      let '(a1, c) := ask a (QaRun v) in
      match c with
      | Refuse => fail a1 AFailed XExecution
      | _ => a1
      end
  end.

(** What handle_try_lock_response calls: the runner's callback, or the counter of
    impl.cpp:276-290. *)
Definition lock_cb (a : agent) (w : asker) (r : result) : agent :=
  match w with
  | Runner run => emit a (Out (OLock run r))
  | Reacq c =>
      match a_cnt a !! c with
      | None => a
      | Some (n, size, v) =>
          let a1 := with_cnt a (<[c := (n + 1, size, v)]> (a_cnt a)) (a_try a) in
          if n + 1 =? size then do_runner a1 v else a1
      end
  end.

Definition is_wounded (r : result) : bool :=
  match r with
  | RShardErr (ErWounded, _) => true
  | _ => false
  end.

(** handle_try_lock_response, impl.cpp:173-191. *)
Definition handle_lock (a : agent) (w : asker) (r : result) : agent :=
  match a_st a with
  | AStarted => lock_cb (if is_wounded r then with_wound a true else a) w r
  | _ => a
  end.

(** do_try_lock_request, impl.cpp:193-240. The flag is what it returns. *)
Definition take_lock (a : agent) (w : asker) (k : key) (m : lock_type) : agent * bool :=
  match a_tk a with
  | None => (die a AssertFails, true)
  | Some t =>
      match a_st a with
      | AStarted =>
          if ro && bool_decide (m = Write) then (a, false)
          else if a_wound a
          then (handle_lock a w (RShardErr (ErWounded, None)), true)
          else
            let a1 := match a_locks a !! k with
                      | Some Write => a
                      | _ => with_locks a (<[k := m]> (a_locks a))
                      end in
            let '(a2, c) := ask a1 (QaLock w t k (if ro then Read else m)) in
            match c with
            | Refuse => (a2, false)
            | Later => (a2, true)
            | Now r => (handle_lock (emit a2 (In (EvAnswer (a_next a1) r))) w r, true)
            end
      | _ => (a, false)
      end
  end.

(** The loop of handle_function, impl.cpp:265-301. *)
Fixpoint reacquire (a : agent) (c : N) (l : list (key * lock_type)) : agent :=
  match l with
  | [] => a
  | (k, m) :: l' =>
      let '(a1, ok) := take_lock a (Reacq c) k m in
      if a_dead a1 then a1
      else if ok then reacquire a1 c l'
      else fail a1 AGetFailed XRetrieval
  end.

(** handle_function, impl.cpp:242-319. The order in which the unordered map of locks is
    visited is a function of the map. *)
Definition handle_function (a : agent) (r : result) : agent :=
  match a_st a with
  | AGetSent =>
      match r with
      | RValue v =>
          let l := map_to_list (a_locks a) in
          let a1 := with_locks (with_st a AStarted) ∅ in
          match l with
          | [] => do_runner a1 v
          | _ =>
              let c := a_try a in
              reacquire (with_cnt a1 (<[c := (0, N.of_nat (length l), v)]> (a_cnt a1)) (c + 1)) c l
          end
      | RErr _ => fail a AGetFailed XRetrieval
      | RShardErr (e, _) =>
          match e with
          | ErWounded => fail a AGetFailed XRetrieval
          | _ => fail a AGetError XRetrieval
          end
      | _ => a
      end
  | _ => a
  end.

(** do_start, impl.cpp:133-171. *)
Definition do_start (a : agent) : agent :=
  match a_st a, a_tk a with
  | (ABeginSent | ARollbackComplete), Some t =>
      let a1 := with_st a AGetSent in
      if ro && (length fn =? 0)%nat then handle_function a1 (RValue [])
      else if (length fn =? 1)%nat then handle_function a1 (RValue fn)
      else
        let '(a2, c) := ask a1 (QaFunction t (if ro then Read else ilt)) in
        match c with
        | Refuse => fail a2 AGetFailed XUnreachable
        | _ => a2
        end
  | _, _ => die a AssertFails
  end.

(** handle_begin, impl.cpp:109-131. *)
Definition handle_begin (a : agent) (r : result) : agent :=
  match a_st a with
  | ABeginSent =>
      match r with
      | RTicket n => do_start (with_tk a n)
      | RErr _ => fail a ABeginFailed XTicket
      | _ => a
      end
  | _ => a
  end.

(** handle_run, impl.cpp:384-418. *)
Definition handle_run (a : agent) (r : rres) : agent :=
  match a_st a with
  | AStarted =>
      match r with
      | Ran u => do_commit (with_res a (Some (Done u)))
      | RanWounded => fail a AFailed XExecution
      | RanError => fail a AException XExecution
      end
  | _ => a
  end.

(** handle_commit, impl.cpp:420-478. *)
Definition handle_commit (a : agent) (r : result) : agent :=
  match a_st a with
  | ACommitSent =>
      match r with
      | ROk => do_finish a
      | RErr ECommitHazard => fail a ACommitError XCommit
      | RErr _ => fail a ACommitFailed XCommit
      | RShardErr (ErWounded, _) => fail a ACommitFailed XCommit
      | RShardErr _ => fail a ACommitError XCommit
      | _ => a
      end
  | _ => a
  end.

(** handle_finish, impl.cpp:575-600. *)
Definition handle_finish (a : agent) (r : result) : agent :=
  match a_st a with
  | AFinishSent =>
      match r with
      | RErr _ => fail a AFinishFailed XFinish
      | ROk => do_result (with_st a AFinishComplete)
      | _ => a
      end
  | _ => a
  end.

(** handle_rollback, impl.cpp:630-662. *)
Definition handle_rollback (a : agent) (r : result) : agent :=
  match a_st a with
  | ARollbackSent =>
      match r with
      | RErr _ => fail a ARollbackFailed XRollback
      | ROk =>
          let a1 := with_st a ARollbackComplete in
          if a_perm a1 then do_finish a1
          else do_result (with_res a1 (Some (Fail XRetry)))
      | _ => a
      end
  | _ => a
  end.

(** exec, impl.cpp:38-107. *)
Definition exec (a : agent) : agent :=
  match a_st a with
  | AInit | ABeginSent | ABeginFailed =>
      let '(a1, c) := ask (with_st (with_res a None) ABeginSent) QaBegin in
      match c with
      | Refuse => fail a1 ABeginFailed XUnreachable
      | _ => a1
      end
  | ARollbackComplete => do_start (with_wound (with_res a None) false)
  | ACommitFailed | ACommitSent => do_commit a
  | ARollbackFailed | ARollbackSent => do_rollback a (a_perm a)
  | AGetSent | AGetFailed | AFailed | AStarted => do_rollback a false
  | AFinishSent | AFinishFailed => do_finish a
  | AGetError | ACommitError | AException | AFinishComplete => a
  end.

(** What can happen: the callback passed with a request is called with a value of its type
    (impl.cpp:97, 158, 235, 371, 562, 617), the runner's result callback is called (329),
    the runner asks for a lock (332), or somebody calls exec. *)
Definition fits (a : agent) (e : aevent) : bool :=
  match e with
  | EvExec => true
  | EvAnswer id r =>
      match a_made a !! id, r with
      | Some QaBegin, (RTicket _ | RErr _) => true
      | Some (QaFunction _ _ | QaLock _ _ _ _), (RValue _ | RErr _ | RShardErr _) => true
      | Some (QaCommit _ _), (ROk | RErr _ | RShardErr _) => true
      | Some (QaRollback _ | QaFinish _), (ROk | RErr _) => true
      | _, _ => false
      end
  | EvRan id _ | EvLock id _ _ =>
      match a_made a !! id with
      | Some (QaRun _) => true
      | _ => false
      end
  end.

Definition dispatch (a : agent) (e : aevent) : agent :=
  match e with
  | EvExec => exec a
  | EvAnswer id r =>
      match a_made a !! id with
      | Some QaBegin => handle_begin a r
      | Some (QaFunction _ _) => handle_function a r
      | Some (QaLock w _ _ _) => handle_lock a w r
      | Some (QaCommit _ _) => handle_commit a r
      | Some (QaRollback _) => handle_rollback a r
      | Some (QaFinish _) => handle_finish a r
      | _ => a
      end
  | EvRan _ r => handle_run a r
  | EvLock run k m => (take_lock a (Runner run) k m).1
  end.

(** One call into the agent, with the broker's behaviour during it. *)
Definition astep (a : agent) (p : aevent * list reply) : agent :=
  if a_dead a then a
  else if fits a p.1 then dispatch (emit (with_ch a p.2) (In p.1)) p.1
  else a.

Definition arun (l : list (aevent * list reply)) : agent := foldl astep agent0 l.

(** * The server *)

(** What a server's result callback was called with, newest first. *)
Definition reports (tr : list item) : list ares :=
  omap (fun i : item => match i with Out (OReport r) => Some r | _ => None end) tr.

Definition is_retry (r : ares) : bool :=
  match r with Fail XRetry => true | _ => false end.

(** What the client was told: every result but [retry] (runners/lua/server.cpp:54-65,
    runners/evm/http_server.cpp:1399-1421). *)
Definition told (a : agent) : list ares :=
  filter (fun r : ares => is_retry r = false) (reports (a_tr a)).

(** How often the result callback put the agent in the retry queue, and in the cleanup
    queue: the Lua server after every final result, the EVM server only after success. *)
Definition retries (a : agent) : nat :=
  length (filter (fun r : ares => is_retry r = true) (reports (a_tr a))).
Definition releases (lua : bool) (a : agent) : nat :=
  length (filter (fun r : ares =>
                    match r with Done _ => true | Fail _ => lua end = true) (told a)).

(** A server, as far as one request is concerned: its agent, how many times the retry
    thread and the cleanup thread have taken it from their queue, and whether the agent
    was destroyed. *)
Record server := Server {
  v_ag : agent;
  v_retried : nat;
  v_cleaned : nat;
  v_gone : bool
}.
Definition server0 : server := Server agent0 0 0 false.

Definition set_agent (v : server) (a : agent) : server :=
  Server a (v_retried v) (v_cleaned v) (v_gone v).

Inductive sevent :=
| SRequest (ch : list reply)                  (* request_handler, lua/server.cpp:40-78 *)
| SRetry (ch : list reply)                    (* the retry thread, server_interface.cpp:24-37 *)
| SClean                                      (* the cleanup thread, 17-23 *)
| SOther (e : aevent) (ch : list reply).      (* the broker or the runner *)

Definition sstep (lua : bool) (v : server) (e : sevent) : server :=
  if a_dead (v_ag v) then v else
  match e with
  | SRequest ch =>
      match a_st (v_ag v) with
      | AInit => set_agent v (astep (v_ag v) (EvExec, ch))
      | _ => v
      end
  | SRetry ch =>
      if (v_retried v <? retries (v_ag v))%nat then
        let v1 := Server (v_ag v) (S (v_retried v)) (v_cleaned v) (v_gone v) in
        if v_gone v then set_agent v1 (die (v_ag v) AssertFails)
        else set_agent v1 (astep (v_ag v) (EvExec, ch))
      else v
  | SClean =>
      if (v_cleaned v <? releases lua (v_ag v))%nat then
        let v1 := Server (v_ag v) (v_retried v) (S (v_cleaned v)) true in
        (* erasing an agent that is not there any more does nothing; ~impl, impl.cpp:664-672 *)
        if v_gone v then v1
        else if bool_decide (a_st (v_ag v) = AFinishComplete) then v1
        else set_agent v1 (die (v_ag v) Unfinished)
      else v
  | SOther e ch =>
      match e with
      | EvExec => v
      | _ =>
          if fits (v_ag v) e then
            (* the callbacks hold a pointer to the agent *)
            if v_gone v then set_agent v (die (emit (v_ag v) (In e)) Freed)
            else set_agent v (astep (v_ag v) (e, ch))
          else v
      end
  end.

Definition srun (lua : bool) (l : list sevent) : server := foldl (sstep lua) server0 l.

End Agent.
