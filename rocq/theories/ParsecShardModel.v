(** Model of the PArSEC runtime locking shard,
    src/parsec/runtime_locking_shard/impl.cpp and impl.hpp.

    Simplifications, valid for the whole file:
    - a key (a byte buffer) is represented by a number, since the shard only
      compares keys; a value stays a byte string;
    - a result callback is represented by the number [rid] of the request it was
      passed with; calling it is the event [ELock rid answer]. [prepare], [commit],
      [rollback], [finish] and [get_tickets] call their own callback before they
      return: the event [EReply] (or [ETickets]);
    - every method holds the shard's only mutex over its whole critical section,
      and calls the callbacks after it: a method is one atomic step, an execution
      is a sequence of steps in the order the mutex was taken;
    - unordered containers are iterated in the order of std++'s [elements] and
      [map_to_list]; the order is visible only in the order of the events one step
      emits, which no property mentions;
    - an element of [m_state] that is absent is the same as the default one
      ([operator[]] creates it);
    - log messages are dropped, except that [m_log->fatal] ends the process. *)
From stdpp Require Import base option list gmap fin_maps fin_sets.
From Coq Require Import NArith.
From Verif Require Import Base.
Open Scope N_scope.

Definition ticket_no := N.
Definition key := N.

(** lock_type, interface.hpp:30-35. *)
Inductive lock_type := Read | Write.

Global Instance lock_type_eq_dec : EqDecision lock_type.
Proof. solve_decision. Defined.

(** [lock_it->second >= locktype] on the enumeration's values. *)
Definition lt_ge (a b : lock_type) : bool :=
  match a, b with Read, Write => false | _, _ => true end.

(** error_code, interface.hpp:38-63 ([internal_error] is not used by impl.cpp). *)
Inductive error_code :=
| ErPrepared | ErWounded | ErLockHeld | ErLockQueued | ErUnknownTicket
| ErLockNotHeld | ErReadLockOnly | ErNotPrepared | ErCommitted | ErNotCommitted.

(** ticket_state, interface.hpp:84-93. *)
Inductive ticket_state := Begun | Wounded | Prepared | Committed.

Global Instance ticket_state_eq_dec : EqDecision ticket_state.
Proof. solve_decision. Defined.

(** wounded_details and shard_error, interface.hpp:66-81. *)
Definition wounded_details := (ticket_no * key)%type.
Definition shard_error := (error_code * option wounded_details)%type.

(** lock_queue_element_type together with its key in [m_queue]. *)
Record qent := QEnt { q_tn : ticket_no; q_mode : lock_type; q_rid : N }.

(** state_element_type and rw_lock_type, impl.hpp:101-110. [m_queue] is a std::map
    keyed by ticket number: a list in increasing order of ticket number. *)
Record elem := Elem {
  e_val : bytes;
  e_writer : option ticket_no;
  e_readers : gset ticket_no;
  e_queue : list qent
}.
Definition elem0 : elem := Elem [] None ∅ [].

(** ticket_state_type, impl.hpp:115-125. *)
Record ticket := Ticket {
  t_state : ticket_state;
  t_held : gmap key lock_type;
  t_queued : gset key;
  t_update : gmap key bytes;
  t_broker : N;
  t_details : option wounded_details
}.
Definition ticket0 : ticket := Ticket Begun ∅ ∅ ∅ 0 None.

(** The members of impl, impl.hpp:137-143. *)
Record shard := Shard {
  s_st : gmap key elem;
  s_tk : gmap ticket_no ticket
}.
Definition shard0 : shard := Shard ∅ ∅.

Inductive answer := Granted (v : bytes) | Refused (e : shard_error).

Inductive event :=
| ELock (rid : N) (a : answer)
| EReply (r : option shard_error)
| ETickets (m : gmap ticket_no ticket_state).

(** How a step can end. [Fatal]: logging::log::fatal exits the process.
    [Undefined]: C++ undefined behaviour or a failed assert. [NoFuel]: the model's
    loop bound was reached (proved not to happen). *)
Inductive res (A : Type) :=
| Done (a : A)
| Fatal
| Undefined
| NoFuel.
Arguments Done {A} a. Arguments Fatal {A}. Arguments Undefined {A}. Arguments NoFuel {A}.

Definition bind {A B} (r : res A) (f : A -> res B) : res B :=
  match r with
  | Done a => f a
  | Fatal => Fatal | Undefined => Undefined | NoFuel => NoFuel
  end.

(** [m_state[key]]. *)
Definition el (s : shard) (k : key) : elem := default elem0 (s_st s !! k).
Definition set_el (s : shard) (k : key) (e : elem) : shard :=
  Shard (<[k := e]> (s_st s)) (s_tk s).
(** [m_tickets[tn]] (operator[] creates a default ticket). *)
Definition tkt (s : shard) (tn : ticket_no) : ticket := default ticket0 (s_tk s !! tn).
Definition set_tk (s : shard) (tn : ticket_no) (t : ticket) : shard :=
  Shard (s_st s) (<[tn := t]> (s_tk s)).

(** [m_queue.emplace(tn, element)]: keeps the order of the map and does nothing if
    the ticket is already in it. *)
Fixpoint q_emplace (q : list qent) (x : qent) : list qent :=
  match q with
  | [] => [x]
  | y :: r =>
      if q_tn x <? q_tn y then x :: y :: r
      else if q_tn x =? q_tn y then y :: r
      else y :: q_emplace r x
  end.

(** [m_queue.extract(tn)]: the node, if any, and the queue without it. *)
Fixpoint q_extract (q : list qent) (tn : ticket_no) : option qent * list qent :=
  match q with
  | [] => (None, [])
  | y :: r =>
      if q_tn y =? tn then (Some y, r)
      else let '(x, r') := q_extract r tn in (x, y :: r')
  end.

(** impl::get_waiting_on, impl.cpp:156-178. *)
Definition get_waiting_on (tn : ticket_no) (m : lock_type) (e : elem) : list ticket_no :=
  (match m with
   | Write => List.filter (fun r => tn <? r) (elements (e_readers e))
   | Read => []
   end)
  ++ match e_writer e with
     | Some w => if tn <? w then [w] else []
     | None => []
     end.

(** The first loop of impl::release_locks, impl.cpp:306-317: take the ticket's
    queued requests out of the queues and answer them. [queue_node.mapped()] on an
    empty node is undefined behaviour. *)
Fixpoint release_queued (s : shard) (tn : ticket_no) (d : option wounded_details)
    (ks : list key) : res (shard * list event) :=
  match ks with
  | [] => Done (s, [])
  | k :: r =>
      let e := el s k in
      match q_extract (e_queue e) tn with
      | (None, _) => Undefined
      | (Some x, q') =>
          let s' := set_el s k (Elem (e_val e) (e_writer e) (e_readers e) q') in
          bind (release_queued s' tn d r) (fun '(s'', ev) =>
            Done (s'', ELock (q_rid x) (Refused (ErWounded, d)) :: ev))
      end
  end.

(** The second loop of impl::release_locks, impl.cpp:321-342. *)
Fixpoint release_held (s : shard) (tn : ticket_no) (ls : list (key * lock_type)) : shard :=
  match ls with
  | [] => s
  | (k, m) :: r =>
      let e := el s k in
      let e' :=
        match m with
        | Read => Elem (e_val e) (e_writer e) (e_readers e ∖ {[tn]}) (e_queue e)
        | Write => Elem (e_val e) None (e_readers e) (e_queue e)
        end in
      release_held (set_el s k e') tn r
  end.

(** impl::release_locks, impl.cpp:301-345, on the ticket [tn] of [m_tickets].
    Returns the callbacks to call and the affected keys. *)
Definition release_locks (s : shard) (tn : ticket_no)
    : res (shard * list event * gset key) :=
  let t := tkt s tn in
  bind (release_queued s tn (t_details t) (elements (t_queued t))) (fun '(s1, ev) =>
    let s2 := release_held s1 tn (map_to_list (t_held t)) in
    let t' := Ticket (t_state t) ∅ ∅ (t_update t) (t_broker t) (t_details t) in
    Done (set_tk s2 tn t', ev, t_queued t ∪ dom (t_held t))).

(** impl::acquire_lock, impl.cpp:482-540. The boolean is its result. *)
Definition acquire_lock (s : shard) (k : key) : shard * list event * bool :=
  let e := el s k in
  match e_queue e with
  | [] => (s, [], false)
  | x :: q' =>
      let tn := q_tn x in
      let t := tkt s tn in
      let give (wr : option ticket_no) (rd : gset ticket_no) (next : bool) :=
        (set_tk (set_el s k (Elem (e_val e) wr rd q')) tn
           (Ticket (t_state t) (<[k := q_mode x]> (t_held t)) (t_queued t ∖ {[k]})
              (t_update t) (t_broker t) (t_details t)),
         [ELock (q_rid x) (Granted (e_val e))], next) in
      match q_mode x with
      | Read =>
          match e_writer e with
          | Some _ => (s, [], false)
          | None => give None (e_readers e ∪ {[tn]}) true
          end
      | Write =>
          match e_writer e with
          | Some _ => (s, [], false)
          | None =>
              if (1 <? size (e_readers e))%nat then (s, [], false)
              else if (size (e_readers e) =? 1)%nat then
                if bool_decide (e_readers e = {[tn]})
                then give (Some tn) ∅ false
                else (s, [], false)
              else give (Some tn) (e_readers e) false
          end
      end
  end.

(** [while(acquire_lock(key, callbacks)) {}], impl.cpp:352. Each round that goes on
    takes one request out of the queue, so the queue's length bounds the rounds. *)
Fixpoint acquire_key (fuel : nat) (s : shard) (k : key) : res (shard * list event) :=
  match fuel with
  | O => NoFuel
  | S f =>
      match acquire_lock s k with
      | (s', ev, false) => Done (s', ev)
      | (s', ev, true) =>
          bind (acquire_key f s' k) (fun '(s'', ev') => Done (s'', ev ++ ev'))
      end
  end.

(** impl::acquire_locks, impl.cpp:347-355. *)
Fixpoint acquire_locks (s : shard) (ks : list key) : res (shard * list event) :=
  match ks with
  | [] => Done (s, [])
  | k :: r =>
      bind (acquire_key (S (length (e_queue (el s k)))) s k) (fun '(s', ev) =>
        bind (acquire_locks s' r) (fun '(s'', ev') => Done (s'', ev ++ ev')))
  end.

(** The loop of impl::wound_tickets, impl.cpp:125-142. *)
Fixpoint wound_loop (s : shard) (k : key) (blocking : list ticket_no) (tn : ticket_no)
    : res (shard * list event * gset key) :=
  match blocking with
  | [] => Done (s, [], ∅)
  | b :: r =>
      let t := tkt s b in
      match t_state t with
      | Prepared => wound_loop (set_tk s b t) k r tn
      | _ =>
          let s1 := set_tk s b (Ticket Wounded (t_held t) (t_queued t) (t_update t)
                                  (t_broker t) (Some (tn, k))) in
          bind (release_locks s1 b) (fun '(s2, ev, ks) =>
            bind (wound_loop s2 k r tn) (fun '(s3, ev', ks') =>
              Done (s3, ev ++ ev', ks ∪ ks')))
      end
  end.

(** impl::wound_tickets, impl.cpp:119-154. *)
Definition wound_tickets (s : shard) (k : key) (blocking : list ticket_no)
    (tn : ticket_no) : res (shard * list event) :=
  bind (wound_loop s k blocking tn) (fun '(s1, ev, ks) =>
    bind (acquire_locks s1 (elements (ks ∪ {[k]}))) (fun '(s2, ev') =>
      Done (s2, ev ++ ev'))).

(** impl::try_lock, impl.cpp:14-117. *)
Definition try_lock (s : shard) (rid : N) (tn : ticket_no) (broker : N) (k : key)
    (m : lock_type) (first : bool) : res (shard * list event) :=
  let refuse s' e d := Done (s', [ELock rid (Refused (e, d))]) in
  let go (s' : shard) (t : ticket) :=
    match t_state t with
    | Prepared => refuse s' ErPrepared None
    | Committed => refuse s' ErCommitted None
    | Wounded => refuse s' ErWounded (t_details t)
    | Begun =>
        if (match t_held t !! k with Some h => lt_ge h m | None => false end)
        then refuse s' ErLockHeld None
        else if bool_decide (k ∈ t_queued t) then refuse s' ErLockQueued None
        else
          let e := el s' k in
          let s1 := set_el s' k (Elem (e_val e) (e_writer e) (e_readers e)
                                   (q_emplace (e_queue e) (QEnt tn m rid))) in
          let s2 := set_tk s1 tn (Ticket (t_state t) (t_held t) (t_queued t ∪ {[k]})
                                    (t_update t) broker (t_details t)) in
          wound_tickets s2 k (get_waiting_on tn m e) tn
    end in
  match s_tk s !! tn with
  | Some t => if first then Fatal else go s t
  | None =>
      if first then go (set_tk s tn ticket0) ticket0
      else refuse s ErUnknownTicket None
  end.

(** The check of the update against the held locks, impl.cpp:222-237. The first key
    that fails decides the error; the keys come in an unspecified order. *)
Fixpoint check_update (held : gmap key lock_type) (ks : list key) : option error_code :=
  match ks with
  | [] => None
  | k :: r =>
      match held !! k with
      | None => Some ErLockNotHeld
      | Some Read => Some ErReadLockOnly
      | Some Write => check_update held r
      end
  end.

(** impl::prepare, impl.cpp:180-245. *)
Definition prepare (s : shard) (tn : ticket_no) (upd : gmap key bytes)
    : res (shard * list event) :=
  let refuse e d := Done (s, [EReply (Some (e, d))]) in
  match s_tk s !! tn with
  | None => refuse ErUnknownTicket None
  | Some t =>
      match t_state t with
      | Prepared => refuse ErPrepared None
      | Committed => refuse ErCommitted None
      | Wounded => refuse ErWounded (t_details t)
      | Begun =>
          if negb (bool_decide (t_queued t = ∅)) then refuse ErLockQueued None
          else match check_update (t_held t) (elements (dom upd)) with
               | Some e => refuse e None
               | None =>
                   Done (set_tk s tn (Ticket Prepared (t_held t) (t_queued t) upd
                                        (t_broker t) (t_details t)),
                         [EReply None])
               end
      end
  end.

(** The loop of impl::commit that writes the values, impl.cpp:268-270. *)
Fixpoint write_values (s : shard) (ws : list (key * bytes)) : shard :=
  match ws with
  | [] => s
  | (k, v) :: r =>
      let e := el s k in
      write_values (set_el s k (Elem v (e_writer e) (e_readers e) (e_queue e))) r
  end.

(** impl::commit, impl.cpp:247-299. The values of [m_state_update] are moved from;
    nothing reads them afterwards, so the model leaves them. *)
Definition commit (s : shard) (tn : ticket_no) : res (shard * list event) :=
  let refuse e := Done (s, [EReply (Some (e, None))]) in
  match s_tk s !! tn with
  | None => refuse ErUnknownTicket
  | Some t =>
      match t_state t with
      | Prepared =>
          let s1 := write_values s (map_to_list (t_update t)) in
          bind (release_locks s1 tn) (fun '(s2, wounded, ks) =>
            match wounded with
            | _ :: _ => Undefined (* the assert on line 274 *)
            | [] =>
                bind (acquire_locks s2 (elements ks)) (fun '(s3, ev) =>
                  let t3 := tkt s3 tn in
                  Done (set_tk s3 tn (Ticket Committed (t_held t3) (t_queued t3)
                                        (t_update t3) (t_broker t3) (t_details t3)),
                        ev ++ [EReply None]))
            end)
      | _ => refuse ErNotPrepared
      end
  end.

(** impl::rollback, impl.cpp:357-396. *)
Definition rollback (s : shard) (tn : ticket_no) : res (shard * list event) :=
  match s_tk s !! tn with
  | None => Done (s, [EReply (Some (ErUnknownTicket, None))])
  | Some t =>
      bind (release_locks s tn) (fun '(s1, wounded, ks) =>
        bind (acquire_locks s1 (elements ks)) (fun '(s2, ev) =>
          Done (Shard (s_st s2) (delete tn (s_tk s2)), ev ++ wounded ++ [EReply None])))
  end.

(** impl::finish, impl.cpp:398-429. *)
Definition finish (s : shard) (tn : ticket_no) : res (shard * list event) :=
  match s_tk s !! tn with
  | None => Done (s, [EReply (Some (ErUnknownTicket, None))])
  | Some t =>
      match t_state t with
      | Committed => Done (Shard (s_st s) (delete tn (s_tk s)), [EReply None])
      | _ => Done (s, [EReply (Some (ErNotCommitted, None))])
      end
  end.

(** impl::get_tickets, impl.cpp:431-447. *)
Definition get_tickets (s : shard) (broker : N) : res (shard * list event) :=
  Done (s, [ETickets (t_state <$> filter (fun p => t_broker p.2 = broker) (s_tk s))]).

(** replicated_shard_interface::ticket_type, replicated_shard_interface.hpp:33-40. *)
Record rticket := RTicket {
  r_broker : N;
  r_update : gmap key bytes;
  r_committed : bool
}.

(** The inner loop of impl::recover, impl.cpp:469-472. *)
Definition recover_writer (tn : ticket_no) (s : shard) (k : key) : shard :=
  let e := el s k in set_el s k (Elem (e_val e) (Some tn) (e_readers e) (e_queue e)).

(** The loop over the tickets, impl.cpp:460-478. [m_tickets.emplace] keeps an
    existing ticket. *)
Definition recover_ticket (s : shard) (p : ticket_no * rticket) : shard :=
  let '(tn, r) := p in
  let s1 := if r_committed r then s
            else fold_left (recover_writer tn) (elements (dom (r_update r))) s in
  let t := Ticket (if r_committed r then Committed else Prepared)
             (if r_committed r then ∅ else (fun _ => Write) <$> r_update r)
             ∅ (r_update r) (r_broker r) None in
  Shard (s_st s1) (match s_tk s1 !! tn with
                   | Some _ => s_tk s1
                   | None => <[tn := t]> (s_tk s1)
                   end).

(** impl::recover, impl.cpp:449-480; [None] when it returns false. *)
Definition recover (s : shard) (state : gmap key bytes) (tickets : gmap ticket_no rticket)
    : option shard :=
  if negb (bool_decide (s_tk s = ∅)) && negb (bool_decide (s_st s = ∅)) then None
  else
    let s1 := Shard (s_st s ∪ ((fun v => Elem v None ∅ []) <$> state)) (s_tk s) in
    Some (fold_left recover_ticket (map_to_list tickets) s1).

(** One request of the shard's interface. *)
Inductive op :=
| OTryLock (rid : N) (tn : ticket_no) (broker : N) (k : key) (m : lock_type) (first : bool)
| OPrepare (tn : ticket_no) (broker : N) (upd : gmap key bytes)
| OCommit (tn : ticket_no)
| ORollback (tn : ticket_no)
| OFinish (tn : ticket_no)
| OGetTickets (broker : N).

Definition step (s : shard) (o : op) : res (shard * list event) :=
  match o with
  | OTryLock rid tn b k m first => try_lock s rid tn b k m first
  | OPrepare tn _ upd => prepare s tn upd
  | OCommit tn => commit s tn
  | ORollback tn => rollback s tn
  | OFinish tn => finish s tn
  | OGetTickets b => get_tickets s b
  end.

(** An execution: the requests in order, each with the events it caused. *)
Fixpoint run (s : shard) (os : list op) : res (shard * list (op * list event)) :=
  match os with
  | [] => Done (s, [])
  | o :: r =>
      bind (step s o) (fun '(s1, ev) =>
        bind (run s1 r) (fun '(s2, tr) => Done (s2, (o, ev) :: tr)))
  end.
