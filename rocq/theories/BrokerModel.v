(** Model of the PArSEC broker, src/parsec/broker/impl.cpp and impl.hpp, and of the
    system it makes with the runtime locking shards.

    Simplifications, valid for the whole file:
    - a client's callback is represented by a number; calling it is an output
      [OCall]. The callbacks [recover] passes to its own finish, commit and rollback
      are modelled as the code they run (impl.cpp:1032-1083);
    - a method runs in one step, with the broker's mutex held over its critical
      section. The callback it calls after releasing the mutex runs in the same step;
    - the directory answers before [key_location] returns, as directory::impl does
      (directory/impl.cpp:11-20); [loc] is its answer, [nsh] the number of shards;
    - the order in which an unordered_map of shards is iterated, and the shards a
      request cannot be sent to, are inputs of each step ([ord], [down]);
    - [begin]'s exchange with the ticket machine is one step that delivers a number
      (property C41 is about the numbers);
    - log messages are dropped. *)
From stdpp Require Import base option list gmap fin_maps fin_sets.
From Coq Require Import NArith.
From Verif Require Import Base ParsecShardModel.
Open Scope N_scope.

(** ticket_state, impl.hpp:90-96. *)
Inductive bstate := BBegun | BPrepared | BCommitted | BAborted.

Global Instance bstate_eq_dec : EqDecision bstate.
Proof. solve_decision. Defined.

(** shard_state_type, impl.hpp:107-118. *)
Inductive sstate :=
| SBegun | SPreparing | SPrepared | SWounded | SCommitting | SCommitted
| SRollingBack | SRolledBack | SFinishing | SFinished.

Global Instance sstate_eq_dec : EqDecision sstate.
Proof. solve_decision. Defined.

(** key_state_type, impl.hpp:120-129. A locked key always has a value
    (impl.cpp:100-101 sets both). *)
Inductive kstate := KLocking (m : lock_type) | KLocked (m : lock_type) (v : bytes).

(** shard_state, impl.hpp:131-137. *)
Record sst := Sst { ss_keys : gmap key kstate; ss_state : sstate }.
Definition sst0 : sst := Sst ∅ SBegun.

(** state, impl.hpp:141-144. *)
Record btk := Btk { bt_state : bstate; bt_sh : gmap N sst }.
Definition btk0 : btk := Btk BBegun ∅.

(** The members of impl that change, impl.hpp:105-154. *)
Record broker := Broker {
  b_tk : gmap ticket_no btk;
  b_high : ticket_no;
  b_rec : gmap N (gmap ticket_no ticket_state)
}.
Definition broker0 : broker := Broker ∅ 0 ∅.

(** error_code, interface.hpp:42-83 (those impl.cpp's modelled part uses). *)
Inductive berror :=
| EUnknownTicket | EPrepared | EShardUnreachable | ECommitted | ENotPrepared | EBegun
| EAborted | EInvalidShardState | EWaitingForLocks | ECommitError | ERollbackError
| EFinishError | ECommitHazard.

(** What a callback is called with. *)
Inductive result :=
| ROk
| RTicket (n : ticket_no)
| RValue (v : bytes)
| RErr (e : berror)
| RShardErr (e : shard_error).

(** Whose callback it is: the client's, for its call number [cid], or the one passed
    to [recover]. *)
Inductive caller := Client (cid : N) | Recovery.

(** The callback passed to commit, finish or rollback: the client's, or one of the
    lambdas of impl.cpp:995-1026, 1042-1045 and 1077-1080. *)
Inductive cback :=
| CUser (cid : N)
| CRecCommit (tn : ticket_no)
| CRecRollback (tn : ticket_no)
| CRecFinish.

(** The requests a broker makes to a shard. *)
Inductive breq :=
| QLock (tn : ticket_no) (k : key) (m : lock_type) (first : bool)
| QPrepare (tn : ticket_no) (upd : gmap key bytes)
| QCommit (tn : ticket_no)
| QRollback (tn : ticket_no)
| QFinish (tn : ticket_no)
| QGet.

(** The lambda a request's answer is handed to. *)
Inductive cont :=
| KLock (cid : N) (tn : ticket_no) (k : key)
| KPrepare (cb : cback) (tn : ticket_no)
| KCommit (cb : cback) (tn : ticket_no)
| KRollback (cb : cback) (tn : ticket_no)
| KFinish (cb : cback) (tn : ticket_no)
| KGet.

Inductive out :=
| OSend (i : N) (q : breq) (c : cont)
| OCall (w : caller) (r : result).

(** An answer of a shard. *)
Inductive rsp :=
| PLock (a : answer)
| PReply (r : option shard_error)
| PTickets (m : gmap ticket_no ticket_state).

Definition set_btk (b : broker) (tn : ticket_no) (t : btk) : broker :=
  Broker (<[tn := t]> (b_tk b)) (b_high b) (b_rec b).
Definition del_btk (b : broker) (tn : ticket_no) : broker :=
  Broker (delete tn (b_tk b)) (b_high b) (b_rec b).

(** [m_shard_states[i]] (operator[] creates a default state). *)
Definition sh (t : btk) (i : N) : sst := default sst0 (bt_sh t !! i).
Definition set_sh (t : btk) (i : N) (s : sst) : btk := Btk (bt_state t) (<[i := s]> (bt_sh t)).
Definition touch (t : btk) (i : N) : btk := set_sh t i (sh t i).
Definition mark (t : btk) (i : N) (x : sstate) : btk := set_sh t i (Sst (ss_keys (sh t i)) x).
Definition all_in (t : btk) (x : sstate) : bool :=
  forallb (fun p : N * sst => bool_decide (ss_state p.2 = x)) (map_to_list (bt_sh t)).

(** The loop over [m_shard_states] that do_prepare (impl.cpp:450-488), do_commit
    (285-305), finish (528-555) and rollback (598-626) have in common: skip the shards
    that are in state [skip], put each of the others in state [busy] and send it a
    request; stop at the first shard that cannot be reached. The flag is false if
    there was one. (The test for an aborted ticket inside the loops of do_prepare and
    do_commit never succeeds: the mutex is held and no callback runs inside.) *)
Fixpoint visit (skip busy : sstate) (mk : N -> sst -> breq * cont)
    (shs : gmap N sst) (ord : list N) (down : gset N) : gmap N sst * list out * bool :=
  match ord with
  | [] => (shs, [], true)
  | i :: r =>
      match shs !! i with
      | None => visit skip busy mk shs r down
      | Some s =>
          if bool_decide (ss_state s = skip) then visit skip busy mk shs r down
          else
            let shs' := <[i := Sst (ss_keys s) busy]> shs in
            if bool_decide (i ∈ down) then (shs', [], false)
            else let '(shs2, o, ok) := visit skip busy mk shs' r down in
                 (shs2, OSend i (mk i s).1 (mk i s).2 :: o, ok)
      end
  end.

(** What a broker method leaves: its state, the requests it sent, and the value it
    called its callback with, if it did. *)
Definition outcome := (broker * list out * option result)%type.

(** begin and handle_ticket_number, impl.cpp:25-68: the ticket machine delivered [n]. *)
Definition b_begin (b : broker) (cid : N) (n : ticket_no) : broker * list out :=
  (Broker (match b_tk b !! n with Some _ => b_tk b | None => <[n := btk0]> (b_tk b) end)
     (N.max (b_high b) n) (b_rec b),
   [OCall (Client cid) (RTicket n)]).

Section Broker.
Context (loc : key -> N) (nsh : N) (self : N).

(** try_lock and handle_find_key, impl.cpp:132-180 and 731-802. [up]: the request can
    be sent. *)
Definition b_lock (b : broker) (cid : N) (tn : ticket_no) (k : key) (m : lock_type)
    (up : bool) : broker * list out :=
  let err e := (b, [OCall (Client cid) (RErr e)]) in
  let go (t : btk) :=
    let i := loc k in
    let ss := sh t i in
    let first := bool_decide (ss_keys ss = ∅) in
    let ask :=
      let b' := set_btk b tn (set_sh t i (Sst (<[k := KLocking m]> (ss_keys ss)) (ss_state ss))) in
      if up then (b', [OSend i (QLock tn k m first) (KLock cid tn k)])
      else (b', [OCall (Client cid) (RErr EShardUnreachable)]) in
    match ss_keys ss !! k with
    | Some (KLocked m' v) =>
        if lt_ge m' m then (set_btk b tn (touch t i), [OCall (Client cid) (RValue v)])
        else ask
    | _ => ask
    end in
  match b_tk b !! tn with
  | None => err EUnknownTicket
  | Some t =>
      match bt_state t with
      | BBegun => go t
      | BPrepared => err EPrepared
      | BCommitted => err ECommitted
      | BAborted => go (Btk BBegun ∅)
      end
  end.

(** handle_lock, impl.cpp:74-130. *)
Definition h_lock (b : broker) (i : N) (cid : N) (tn : ticket_no) (k : key) (a : answer)
    : broker * list out :=
  match a with
  | Refused e => (b, [OCall (Client cid) (RShardErr e)])
  | Granted v =>
      match b_tk b !! tn with
      | None => (b, [OCall (Client cid) (RErr EUnknownTicket)])
      | Some t =>
          let ss := sh t i in
          match ss_keys ss !! k with
          | Some (KLocking m) =>
              (set_btk b tn (set_sh t i (Sst (<[k := KLocked m v]> (ss_keys ss)) (ss_state ss))),
               [OCall (Client cid) (RValue v)])
          | _ => (set_btk b tn (touch t i), [OCall (Client cid) (RErr EInvalidShardState)])
          end
      end
  end.

(** finish, impl.cpp:492-569. *)
Definition b_finish (b : broker) (tn : ticket_no) (cb : cback) (ord : list N) (down : gset N)
    : outcome :=
  match b_tk b !! tn with
  | None => (b, [], Some (RErr EUnknownTicket))
  | Some t =>
      match bt_state t with
      | BBegun => (b, [], Some (RErr EBegun))
      | BPrepared => (b, [], Some (RErr EPrepared))
      | BAborted => (del_btk b tn, [], Some ROk)
      | BCommitted =>
          let '(shs, o, ok) :=
            visit SFinished SFinishing (fun _ _ => (QFinish tn, KFinish cb tn))
              (bt_sh t) ord down in
          (set_btk b tn (Btk BCommitted shs), o, if ok then None else Some (RErr EShardUnreachable))
      end
  end.

(** What calling a callback of finish, commit or rollback does: the client's is an
    output; handle_recovery_finish, handle_recovery_commit and handle_recovery_rollback
    are impl.cpp:1054-1067, 1032-1052 and 1069-1083. *)
Definition call_fin (b : broker) (r : result) : list out :=
  match r with
  | ROk => if bool_decide (b_tk b = ∅) then [OCall Recovery ROk] else []
  | _ => [OCall Recovery (RErr EFinishError)]
  end.
Definition then_finish (b : broker) (tn : ticket_no) (ord : list N) (down : gset N)
    : broker * list out :=
  let '(b', o, r) := b_finish b tn CRecFinish ord down in
  (b', o ++ match r with Some r => call_fin b' r | None => [] end).
Definition call (b : broker) (cb : cback) (r : result) (ord : list N) (down : gset N)
    : broker * list out :=
  match cb with
  | CUser cid => (b, [OCall (Client cid) r])
  | CRecFinish => (b, call_fin b r)
  | CRecCommit tn =>
      match r with
      | ROk => then_finish b tn ord down
      | _ => (b, [OCall Recovery (RErr ECommitError)])
      end
  | CRecRollback tn =>
      match r with
      | ROk => then_finish b tn ord down
      | _ => (b, [OCall Recovery (RErr ERollbackError)])
      end
  end.
Definition call_opt (x : outcome) (cb : cback) (ord : list N) (down : gset N)
    : broker * list out :=
  let '(b, o, r) := x in
  match r with
  | None => (b, o)
  | Some r => let '(b', o') := call b cb r ord down in (b', o ++ o')
  end.

(** do_commit, impl.cpp:281-307. *)
Definition do_commit (b : broker) (tn : ticket_no) (t : btk) (cb : cback) (ord : list N)
    (down : gset N) : outcome :=
  let '(shs, o, ok) :=
    visit SCommitted SCommitting (fun _ _ => (QCommit tn, KCommit cb tn)) (bt_sh t) ord down in
  (set_btk b tn (Btk (bt_state t) shs), o, if ok then None else Some (RErr EShardUnreachable)).

(** do_prepare, impl.cpp:445-490: a shard gets the updates of the keys the ticket asked
    it for. *)
Definition for_shard (upd : gmap key bytes) (s : sst) : gmap key bytes :=
  filter (fun p => is_Some (ss_keys s !! p.1)) upd.
Definition do_prepare (b : broker) (tn : ticket_no) (t : btk) (upd : gmap key bytes) (cb : cback)
    (ord : list N) (down : gset N) : outcome :=
  let '(shs, o, ok) :=
    visit SPrepared SPreparing (fun _ s => (QPrepare tn (for_shard upd s), KPrepare cb tn))
      (bt_sh t) ord down in
  (set_btk b tn (Btk (bt_state t) shs), o, if ok then None else Some (RErr EShardUnreachable)).

(** The checks of commit before it sends anything, impl.cpp:383-429. *)
Definition keys_of (t : btk) : list (key * kstate) :=
  flat_map (fun p : N * sst => map_to_list (ss_keys p.2)) (map_to_list (bt_sh t)).
Definition commit_check (b : broker) (tn : ticket_no) (upd : gmap key bytes) : berror + btk :=
  match b_tk b !! tn with
  | None => inl EUnknownTicket
  | Some t =>
      match bt_state t with
      | BCommitted => inl ECommitted
      | BAborted => inl EAborted
      | _ =>
          if existsb (fun p : key * kstate => match p.2 with KLocking _ => true | _ => false end)
               (keys_of t)
          then inl EWaitingForLocks
          else if forallb (fun p : key * bytes => bool_decide (p.1 ∈ (keys_of t).*1))
                    (map_to_list upd)
               then inr t
               else inl ECommitHazard
      end
  end.

(** commit, impl.cpp:376-443. *)
Definition b_commit (b : broker) (tn : ticket_no) (upd : gmap key bytes) (cb : cback)
    (ord : list N) (down : gset N) : outcome :=
  match commit_check b tn upd with
  | inl e => (b, [], Some (RErr e))
  | inr t =>
      match bt_state t with
      | BPrepared => do_commit b tn t cb ord down
      | _ => do_prepare b tn t upd cb ord down
      end
  end.

(** handle_prepare and do_handle_prepare, impl.cpp:182-279. *)
Definition h_prepare (b : broker) (i : N) (cb : cback) (tn : ticket_no) (r : option shard_error)
    (ord : list N) (down : gset N) : outcome :=
  match b_tk b !! tn with
  | None => (b, [], Some (RErr EUnknownTicket))
  | Some t =>
      match bt_state t with
      | BPrepared => (b, [], Some (RErr EPrepared))
      | BCommitted => (b, [], Some (RErr ECommitted))
      | BAborted => (b, [], Some (RErr EAborted))
      | BBegun =>
          let b1 := set_btk b tn (touch t i) in
          if negb (bool_decide (ss_state (sh t i) = SPreparing)) then (b1, [], None)
          else match r with
               | Some (ErWounded, d) =>
                   if existsb (fun p : N * sst => bool_decide (ss_state p.2 = SWounded))
                        (map_to_list (bt_sh t))
                   then (b1, [], None)
                   else (set_btk b tn (mark t i SWounded), [], Some (RShardErr (ErWounded, d)))
               | Some e => (b1, [], Some (RShardErr e))
               | None =>
                   let t' := mark t i SPrepared in
                   if all_in t' SPrepared
                   then do_commit b tn (Btk BPrepared (bt_sh t')) cb ord down
                   else (set_btk b tn t', [], None)
               end
      end
  end.

(** handle_commit, impl.cpp:309-374. *)
Definition h_commit (b : broker) (i : N) (tn : ticket_no) (r : option shard_error) : outcome :=
  match b_tk b !! tn with
  | None => (b, [], Some (RErr EUnknownTicket))
  | Some t =>
      match bt_state t with
      | BBegun => (b, [], Some (RErr ENotPrepared))
      | BCommitted => (b, [], Some (RErr ECommitted))
      | BAborted => (b, [], Some (RErr EAborted))
      | BPrepared =>
          let b1 := set_btk b tn (touch t i) in
          if negb (bool_decide (ss_state (sh t i) = SCommitting))
          then (b1, [], Some (RErr EInvalidShardState))
          else match r with
               | Some _ => (b1, [], Some (RErr ECommitError))
               | None =>
                   let t' := mark t i SCommitted in
                   if all_in t' SCommitted
                   then (set_btk b tn (Btk BCommitted (bt_sh t')), [], Some ROk)
                   else (set_btk b tn t', [], None)
               end
      end
  end.

(** rollback, impl.cpp:571-650. *)
Definition b_rollback (b : broker) (tn : ticket_no) (cb : cback) (ord : list N) (down : gset N)
    : outcome :=
  match b_tk b !! tn with
  | None => (b, [], Some (RErr EUnknownTicket))
  | Some t =>
      match bt_state t with
      | BPrepared => (b, [], Some (RErr EPrepared))
      | BCommitted => (b, [], Some (RErr ECommitted))
      | BAborted => (b, [], Some (RErr EAborted))
      | BBegun =>
          if bool_decide (bt_sh t = ∅) then (set_btk b tn (Btk BAborted ∅), [], Some ROk)
          else
            let '(shs, o, ok) :=
              visit SRolledBack SRollingBack (fun _ _ => (QRollback tn, KRollback cb tn))
                (bt_sh t) ord down in
            (set_btk b tn (Btk BBegun shs), o, if ok then None else Some (RErr EShardUnreachable))
      end
  end.

(** handle_rollback, impl.cpp:652-729. *)
Definition h_rollback (b : broker) (i : N) (tn : ticket_no) (r : option shard_error) : outcome :=
  match b_tk b !! tn with
  | None => (b, [], Some (RErr EUnknownTicket))
  | Some t =>
      match bt_state t with
      | BPrepared => (b, [], Some (RErr EPrepared))
      | BCommitted => (b, [], Some (RErr ECommitted))
      | BAborted => (b, [], Some (RErr EAborted))
      | BBegun =>
          let b1 := set_btk b tn (touch t i) in
          if negb (bool_decide (ss_state (sh t i) = SRollingBack))
          then (b1, [], Some (RErr EInvalidShardState))
          else match r with
               | Some _ => (b1, [], Some (RErr ERollbackError))
               | None =>
                   let t' := set_sh t i (Sst ∅ SRolledBack) in
                   if all_in t' SRolledBack
                   then (set_btk b tn (Btk BAborted (bt_sh t')), [], Some ROk)
                   else (set_btk b tn t', [], None)
               end
      end
  end.

(** handle_finish, impl.cpp:804-880. *)
Definition h_finish (b : broker) (i : N) (tn : ticket_no) (r : option shard_error) : outcome :=
  match b_tk b !! tn with
  | None => (b, [], Some (RErr EUnknownTicket))
  | Some t =>
      match bt_state t with
      | BBegun => (b, [], Some (RErr EBegun))
      | BPrepared => (b, [], Some (RErr EPrepared))
      | BAborted => (b, [], Some (RErr EAborted))
      | BCommitted =>
          let b1 := set_btk b tn (touch t i) in
          if negb (bool_decide (ss_state (sh t i) = SFinishing))
          then (b1, [], Some (RErr EInvalidShardState))
          else match r with
               | Some _ => (b1, [], Some (RErr EFinishError))
               | None =>
                   let t' := mark t i SFinished in
                   if all_in t' SFinished then (del_btk b tn, [], Some ROk)
                   else (set_btk b tn t', [], None)
               end
      end
  end.

(** recover, impl.cpp:882-905: ask every shard, in order, until one cannot be reached.
    (The returned boolean is dropped: [down] tells it.) *)
Fixpoint ask_tickets (shards : list N) (down : gset N) : list out :=
  match shards with
  | [] => []
  | i :: r => if bool_decide (i ∈ down) then [] else OSend i QGet KGet :: ask_tickets r down
  end.
Definition shards : list N := N.of_nat <$> seq 0 (N.to_nat nsh).
Definition b_recover (b : broker) (down : gset N) : list out :=
  if bool_decide (b_tk b = ∅) then ask_tickets shards down else [].

(** The tickets found, impl.cpp:921-952: the state each shard reported becomes the
    state of that shard in the ticket. *)
Definition found_state (x : ticket_state) : sstate :=
  match x with
  | Begun => SBegun | Committed => SCommitted | Prepared => SPrepared | Wounded => SWounded
  end.
Definition merge_one (i : N) (tk : gmap ticket_no btk) (p : ticket_no * ticket_state)
    : gmap ticket_no btk :=
  <[p.1 := mark (default btk0 (tk !! p.1)) i (found_state p.2)]> tk.
Definition merge (tk : gmap ticket_no btk) (rc : gmap N (gmap ticket_no ticket_state))
    : gmap ticket_no btk :=
  fold_left (fun tk p => fold_left (merge_one p.1) (map_to_list p.2) tk) (map_to_list rc) tk.

(** The body of do_recovery's loop, impl.cpp:975-1027, for one ticket. A shard state
    other than the four found ones is logged as fatal, which ends the process; the
    model then leaves the ticket alone. *)
Definition recoverable (t : btk) : bool :=
  forallb (fun p : N * sst => match ss_state p.2 with
                              | SBegun | SPrepared | SWounded | SCommitted => true
                              | _ => false end) (map_to_list (bt_sh t)).
Definition committed_count (t : btk) : nat :=
  length (List.filter (fun p : N * sst => bool_decide (ss_state p.2 = SCommitted))
            (map_to_list (bt_sh t))).
Definition recover_one (ord : list N) (down : gset N) (x : broker * list out) (tn : ticket_no)
    : broker * list out :=
  let '(b, o) := x in
  match b_tk b !! tn with
  | None => x
  | Some t =>
      if negb (recoverable t) then x
      else
        let n := committed_count t in
        let '(b', o') :=
          if (n =? size (bt_sh t))%nat
          then call_opt (b_finish (set_btk b tn (Btk BCommitted (bt_sh t))) tn CRecFinish ord down)
                 CRecFinish ord down
          else if (0 <? n)%nat
          then call_opt (b_commit (set_btk b tn (Btk BPrepared (bt_sh t))) tn ∅ (CRecCommit tn) ord down)
                 (CRecCommit tn) ord down
          else call_opt (b_rollback (set_btk b tn (Btk BBegun (bt_sh t))) tn (CRecRollback tn) ord down)
                 (CRecRollback tn) ord down in
        (b', o ++ o')
  end.

(** handle_get_tickets and do_recovery, impl.cpp:907-1030. [emplace] keeps an entry
    that is already there. *)
Definition h_get (b : broker) (i : N) (m : gmap ticket_no ticket_state) (ord : list N)
    (down : gset N) : broker * list out :=
  let rc := match b_rec b !! i with Some _ => b_rec b | None => <[i := m]> (b_rec b) end in
  if negb (N.of_nat (size rc) =? nsh) then (Broker (b_tk b) (b_high b) rc, [])
  else
    let tk := merge (b_tk b) rc in
    if bool_decide (tk = ∅) then (Broker tk (b_high b) rc, [OCall Recovery ROk])
    else fold_left (recover_one ord down) (map_to_list tk).*1 (Broker tk (b_high b) ∅, []).

(** The lambda a request was sent with gets its answer. *)
Definition handle (b : broker) (i : N) (c : cont) (p : rsp) (ord : list N) (down : gset N)
    : broker * list out :=
  match c, p with
  | KLock cid tn k, PLock a => h_lock b i cid tn k a
  | KPrepare cb tn, PReply r => call_opt (h_prepare b i cb tn r ord down) cb ord down
  | KCommit cb tn, PReply r => call_opt (h_commit b i tn r) cb ord down
  | KRollback cb tn, PReply r => call_opt (h_rollback b i tn r) cb ord down
  | KFinish cb tn, PReply r => call_opt (h_finish b i tn r) cb ord down
  | KGet, PTickets m => h_get b i m ord down
  | _, _ => (b, [])
  end.

(** ** The system

    One broker, its shards, and between the broker and each shard two queues: the
    requests not yet executed and the answers not yet handled, both first in, first
    out (a TCP connection each way; a shard executes the requests of one broker in
    the order it receives them). Other brokers use the same shards: [AOther].
    A crash of the broker loses its memory and both queues: requests it had sent are
    either executed before the crash step or lost. Shard failures are the subject of
    C38 and not part of this system. *)

(** The shard operation a request becomes. *)
Definition to_op (rid : N) (q : breq) : op :=
  match q with
  | QLock tn k m first => OTryLock rid tn self k m first
  | QPrepare tn u => OPrepare tn self u
  | QCommit tn => OCommit tn
  | QRollback tn => ORollback tn
  | QFinish tn => OFinish tn
  | QGet => OGetTickets self
  end.

Record net := Net {
  n_b : broker;
  n_sh : N -> shard;
  n_req : N -> list (breq * cont);
  n_rsp : N -> list (cont * rsp);
  n_wait : gmap N cont;      (* lock requests not yet answered: request id to lambda *)
  n_next : N                 (* the next request id *)
}.

Definition net0 : net := Net broker0 (fun _ => shard0) (fun _ => []) (fun _ => []) ∅ 0.

Inductive act :=
| ABegin (cid : N) (n : ticket_no)
| ALock (cid : N) (tn : ticket_no) (k : key) (m : lock_type) (up : bool)
| ACommit (cid : N) (tn : ticket_no) (upd : gmap key bytes) (ord : list N) (down : gset N)
| ARollback (cid : N) (tn : ticket_no) (ord : list N) (down : gset N)
| AFinish (cid : N) (tn : ticket_no) (ord : list N) (down : gset N)
| ARecover (down : gset N)
| AShard (i : N)                                    (* shard i executes a request *)
| AAnswer (i : N) (ord : list N) (down : gset N)    (* the broker handles an answer *)
| AOther (i : N) (o : op)                           (* another broker's request *)
| ACrash.

Definition upd {A} (f : N -> A) (i : N) (x : A) : N -> A := fun j => if j =? i then x else f j.

(** Hand over a method's requests; what is left are the callbacks. *)
Fixpoint post (req : N -> list (breq * cont)) (os : list out) : N -> list (breq * cont) :=
  match os with
  | [] => req
  | OSend i q c :: r => post (upd req i (req i ++ [(q, c)])) r
  | OCall _ _ :: r => post req r
  end.
Definition calls (os : list out) : list (caller * result) :=
  omap (fun o => match o with OCall w r => Some (w, r) | _ => None end) os.

(** The answers in a shard's events that are for this broker. [c]: the lambda of the
    request just executed, if it was this broker's. *)
Definition answers (wait : gmap N cont) (c : option cont) (ev : list event) : list (cont * rsp) :=
  omap (fun e => match e with
        | ELock rid a => (fun c' => (c', PLock a)) <$> wait !! rid
        | EReply r => (fun c' => (c', PReply r)) <$> c
        | ETickets m => (fun c' => (c', PTickets m)) <$> c
        end) ev.

Definition with_broker (n : net) (x : broker * list out) : net :=
  Net x.1 (n_sh n) (post (n_req n) x.2) (n_rsp n) (n_wait n) (n_next n).

(** One step, and the callbacks it calls; None if the step is not possible: nothing in
    the queue, or the shard's process ended. *)
Definition n_step (n : net) (a : act) : option (net * list (caller * result)) :=
  let api x := Some (with_broker n x, calls x.2) in
  match a with
  | ABegin cid tn => api (b_begin (n_b n) cid tn)
  | ALock cid tn k m up => api (b_lock (n_b n) cid tn k m up)
  | ACommit cid tn u ord down =>
      api (call_opt (b_commit (n_b n) tn u (CUser cid) ord down) (CUser cid) ord down)
  | ARollback cid tn ord down =>
      api (call_opt (b_rollback (n_b n) tn (CUser cid) ord down) (CUser cid) ord down)
  | AFinish cid tn ord down =>
      api (call_opt (b_finish (n_b n) tn (CUser cid) ord down) (CUser cid) ord down)
  | ARecover down => api (n_b n, b_recover (n_b n) down)
  | AShard i =>
      match n_req n i with
      | [] => None
      | (q, c) :: r =>
          let rid := 2 * n_next n in
          let wait := match q with QLock _ _ _ _ => <[rid := c]> (n_wait n) | _ => n_wait n end in
          match step (n_sh n i) (to_op rid q) with
          | Done (s', ev) =>
              Some (Net (n_b n) (upd (n_sh n) i s') (upd (n_req n) i r)
                      (upd (n_rsp n) i (n_rsp n i ++ answers wait (Some c) ev))
                      wait (n_next n + 1), [])
          | _ => None
          end
      end
  | AAnswer i ord down =>
      match n_rsp n i with
      | [] => None
      | (c, p) :: r =>
          let x := handle (n_b n) i c p ord down in
          Some (Net x.1 (n_sh n) (post (n_req n) x.2) (upd (n_rsp n) i r) (n_wait n) (n_next n),
                calls x.2)
      end
  | AOther i o =>
      match step (n_sh n i) o with
      | Done (s', ev) =>
          Some (Net (n_b n) (upd (n_sh n) i s') (n_req n)
                  (upd (n_rsp n) i (n_rsp n i ++ answers (n_wait n) None ev))
                  (n_wait n) (n_next n), [])
      | _ => None
      end
  | ACrash => Some (Net broker0 (n_sh n) (fun _ => []) (fun _ => []) ∅ (n_next n), [])
  end.

End Broker.
