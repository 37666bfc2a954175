(** Model of put_row and get_row, src/parsec/util.cpp:192-344: writing and reading one key
    through a broker, and of mint_initial_accounts, which writes the test accounts.

    The broker is whatever it likes to be: it answers each call when it wants, before the call
    returns or long after, on any thread, more than once or not at all, and makes the call
    return true or false. A run is a list of inputs: what the broker does and, for get_row,
    when the waiting thread and the answering thread go on.

    Simplifications, valid for the whole file:
    - the body of a callback between two calls to the broker is one step, except in get_row
      where the value of the promise is set in a first step and the rest is a second one
      (another thread may return from get_row in between);
    - an answer of a kind the call cannot have (a value to a commit) is not an input: the
      step ignores it;
    - values of errors are those of BrokerModel, with the three codes get_row adds. *)
From stdpp Require Import base option list.
From Coq Require Import NArith.
From Verif Require Import Base ParsecShardModel.
Open Scope N_scope.

(** error_code, broker/interface.hpp:42-83, and shard_error: those this code produces itself,
    and any other, which it passes on. *)
Inductive rerror :=
| TicketNumberAssignment | ShardUnreachable | CommitError | FinishError
| OtherCode (n : N) | ShardError (e : shard_error).

(** The methods of broker::interface, broker/interface.hpp:85-180. *)
Inductive bcall :=
| CBegin
| CLock (t : ticket_no) (k : key) (m : lock_type)
| CCommit (t : ticket_no) (upd : list (key * bytes))
| CFinish (t : ticket_no)
| CRollback (t : ticket_no).

(** What a callback is called with: ticket number, value, error, or no error. *)
Inductive answer := ATicket (t : ticket_no) | AValue (v : bytes) | AErr (e : rerror) | AOk.

(** What is seen of a run. Calls are numbered from 0 in the order they are made. *)
Inductive revent :=
| ECall (n : nat) (c : bcall)          (* the broker is called *)
| EAnswer (n : nat) (a : answer)       (* it calls the callback of its call [n] *)
| EReturn (n : nat) (b : bool)         (* its call [n] returns *)
| EResult (r : answer)                 (* result_callback; AOk for true, AErr for false *)
| EDone (r : answer)                   (* the function returns; put_row: AOk for true *)
| EUndefined                           (* an object is used after the end of its life *)
| EThrow.                              (* std::future_error *)

(** What happens next. *)
Inductive rinput :=
| IAnswer (n : nat) (a : answer)
| IReturn (n : nat) (b : bool)
| IGo (n : nat)                        (* the callback of call [n] goes on; get_row only *)
| IWake.                               (* the thread in get_row wakes up *)

(** ** put_row, util.cpp:192-248 *)

(** The calls made, whether they have returned, and what was seen. *)
Record pst := Pst { p_calls : list (bcall * bool); p_hist : list revent }.

Definition p_emit (s : pst) (e : revent) : pst := Pst (p_calls s) (p_hist s ++ [e]).
Definition p_call (s : pst) (c : bcall) : pst :=
  Pst (p_calls s ++ [(c, false)]) (p_hist s ++ [ECall (length (p_calls s)) c]).

(** result_callback(true), result_callback(false). put_row does not say which error. *)
Definition failure : answer := AErr (OtherCode 0).

Section put.
  Context (k : key) (v : bytes).

  (** The callbacks passed to begin (util.cpp:196-245), try_lock (212-240), commit
      (219-234) and finish (226-228). *)
  Definition put_answer (s : pst) (n : nat) (a : answer) : pst :=
    match p_calls s !! n with
    | Some (CBegin, _) =>
        match a with
        | ATicket t => p_call (p_emit s (EAnswer n a)) (CLock t k Write)
        | AErr _ => p_emit (p_emit s (EAnswer n a)) (EResult failure)
        | _ => s
        end
    | Some (CLock t _ _, _) =>
        match a with
        | AValue _ => p_call (p_emit s (EAnswer n a)) (CCommit t [(k, v)])
        | AErr _ => p_emit (p_emit s (EAnswer n a)) (EResult failure)
        | _ => s
        end
    | Some (CCommit t _, _) =>
        match a with
        | AOk => p_call (p_emit s (EAnswer n a)) (CFinish t)
        | AErr _ => p_emit (p_emit s (EAnswer n a)) (EResult failure)
        | _ => s
        end
    | Some (CFinish _, _) =>
        match a with
        | AOk => p_emit (p_emit s (EAnswer n a)) (EResult AOk)
        | AErr _ => p_emit (p_emit s (EAnswer n a)) (EResult failure)
        | _ => s
        end
    | _ => s
    end.

  (** [!lock_res], [!commit_res], [!finish_res] (util.cpp:229-232, 235-238, 241-244) and
      [return begin_res] (247). *)
  Definition put_return (s : pst) (n : nat) (b : bool) : pst :=
    match p_calls s !! n with
    | Some (c, false) =>
        let s1 := Pst (<[n := (c, true)]> (p_calls s)) (p_hist s ++ [EReturn n b]) in
        match c with
        | CBegin => p_emit s1 (EDone (if b then AOk else failure))
        | _ => if b then s1 else p_emit s1 (EResult failure)
        end
    | _ => s
    end.

  Definition put_step (s : pst) (i : rinput) : pst :=
    match i with
    | IAnswer n a => put_answer s n a
    | IReturn n b => put_return s n b
    | _ => s
    end.

  (** [broker->begin] is called at once (util.cpp:196). *)
  Definition put0 : pst := p_call (Pst [] []) CBegin.

  (** What is seen of put_row(broker, k, v, result_callback) when this happens. *)
  Definition put_row (ins : list rinput) : list revent := p_hist (fold_left put_step ins put0).
End put.

(** ** get_row, util.cpp:250-344 *)

(** The rest of a callback, after the promise is set: call result_callback with [r]; if the
    value was read, commit ticket [t] then (util.cpp:281-319). *)
Inductive grest := GResult (r : answer) | GCommit (t : ticket_no) (r : answer).

(** [g_prom]: the value of res_promise; [g_done]: get_row has returned, so its locals
    (res_promise, key, finish_cb) and the arguments of its caller are gone; [g_begin]:
    begin has returned, the thread waits at util.cpp:343; [g_stop]: the behaviour is undefined
    or an exception was thrown. *)
Record gst := Gst {
  g_calls : list (bcall * bool); g_hist : list revent; g_rest : list (nat * grest);
  g_prom : option answer; g_begin : bool; g_done : bool; g_stop : bool
}.

Definition g_emit (s : gst) (e : revent) : gst :=
  Gst (g_calls s) (g_hist s ++ [e]) (g_rest s) (g_prom s) (g_begin s) (g_done s) (g_stop s).
Definition g_call (s : gst) (c : bcall) : gst :=
  Gst (g_calls s ++ [(c, false)]) (g_hist s ++ [ECall (length (g_calls s)) c]) (g_rest s)
    (g_prom s) (g_begin s) (g_done s) (g_stop s).
Definition g_halt (s : gst) (e : revent) : gst :=
  Gst (g_calls s) (g_hist s ++ [e]) (g_rest s) (g_prom s) (g_begin s) (g_done s) true.

(** res_promise.set_value(r), then the rest. The promise is a local of get_row: it is gone
    when get_row has returned; setting it twice throws. *)
Definition g_set (s : gst) (n : nat) (r : answer) (rest : grest) : gst :=
  if g_done s then g_halt s EUndefined
  else match g_prom s with
  | Some _ => g_halt s EThrow
  | None => Gst (g_calls s) (g_hist s) ((n, rest) :: g_rest s) (Some r) (g_begin s) false
              (g_stop s)
  end.

Section get.
  Context (k : key).

  (** begin_cb (util.cpp:268-338), the callback of try_lock (286-328), commit_cb (299-321) and
      finish_cb (260-264). Both errors of begin and of try_lock are replaced by a fixed code
      (272-276, 288-293). begin_cb and the callback of try_lock capture by reference, commit_cb
      and finish_cb by value. *)
  Definition get_answer (s : gst) (n : nat) (a : answer) : gst :=
    match g_calls s !! n with
    | Some (CBegin, _) =>
        match a with
        | ATicket t =>
            if g_done s then g_halt (g_emit s (EAnswer n a)) EUndefined
            else g_call (g_emit s (EAnswer n a)) (CLock t k Read)
        | AErr _ =>
            g_set (g_emit s (EAnswer n a)) n (AErr TicketNumberAssignment)
              (GResult (AErr TicketNumberAssignment))
        | _ => s
        end
    | Some (CLock t _ _, _) =>
        match a with
        | AValue w => g_set (g_emit s (EAnswer n a)) n (AValue w) (GCommit t (AValue w))
        | AErr _ =>
            g_set (g_emit s (EAnswer n a)) n (AErr ShardUnreachable)
              (GResult (AErr ShardUnreachable))
        | _ => s
        end
    | Some (CCommit t _, _) =>
        match a with
        | AErr e => g_emit (g_emit s (EAnswer n a)) (EResult (AErr e))
        | AOk => g_call (g_emit s (EAnswer n a)) (CFinish t)
        | _ => s
        end
    | Some (CFinish _, _) =>
        match a with
        | AErr e => g_emit (g_emit s (EAnswer n a)) (EResult (AErr e))
        | AOk => g_emit s (EAnswer n a)
        | _ => s
        end
    | _ => s
    end.

  (** The callback goes on after it set the promise. It uses result_callback and broker, the
      arguments of get_row, by reference; the callback of try_lock also reads ticket_number
      (util.cpp:280, a local of begin_cb) to capture it by value in commit_cb (299): begin_cb
      ends when try_lock has returned. *)
  Definition get_go (s : gst) (n : nat) : gst :=
    match list_find (fun p => p.1 = n) (g_rest s) with
    | Some (i, (_, rest)) =>
        let s1 := Gst (g_calls s) (g_hist s) (delete i (g_rest s)) (g_prom s) (g_begin s)
                    (g_done s) (g_stop s) in
        if g_done s then g_halt s1 EUndefined
        else match rest with
        | GResult r => g_emit s1 (EResult r)
        | GCommit t r =>
            match g_calls s !! n with
            | Some (_, true) => g_halt (g_emit s1 (EResult r)) EUndefined
            | _ => g_call (g_emit s1 (EResult r)) (CCommit t [])
            end
        end
    | None => s
    end.

  (** [!lock_res] (333-337, in begin_cb, by reference), [!commit_res] (323-327, in the callback
      of try_lock, by reference) and [!finish_res] (315-319, in commit_cb, by value). *)
  Definition get_return (s : gst) (n : nat) (b : bool) : gst :=
    match g_calls s !! n with
    | Some (c, false) =>
        let s1 := Gst (<[n := (c, true)]> (g_calls s)) (g_hist s ++ [EReturn n b]) (g_rest s)
                    (g_prom s) (match c with CBegin => true | _ => g_begin s end) (g_done s)
                    (g_stop s) in
        match c with
        | CBegin => s1
        | CLock _ _ _ =>
            if b then s1
            else if g_done s then g_halt s1 EUndefined
            else g_emit s1 (EResult (AErr ShardUnreachable))
        | CCommit _ _ =>
            if b then s1
            else if g_done s then g_halt s1 EUndefined
            else g_emit s1 (EResult (AErr CommitError))
        | _ => if b then s1 else g_emit s1 (EResult (AErr FinishError))
        end
    | _ => s
    end.

  (** [return res_future.get()] (343). *)
  Definition get_wake (s : gst) : gst :=
    match g_prom s with
    | Some r =>
        if g_begin s && negb (g_done s)
        then Gst (g_calls s) (g_hist s ++ [EDone r]) (g_rest s) (g_prom s) true true (g_stop s)
        else s
    | None => s
    end.

  Definition get_step (s : gst) (i : rinput) : gst :=
    if g_stop s then s
    else match i with
    | IAnswer n a => get_answer s n a
    | IReturn n b => get_return s n b
    | IGo n => get_go s n
    | IWake => get_wake s
    end.

  (** [broker->begin(begin_cb)] (342). *)
  Definition get0 : gst := g_call (Gst [] [] [] None false false false) CBegin.

  (** What is seen of get_row(broker, k, result_callback) when this happens. *)
  Definition get_row (ins : list rinput) : list revent := g_hist (fold_left get_step ins get0).
End get.

(** ** mint_initial_accounts, src/parsec/agent/runners/evm/util.cpp:101-143 *)

(** The first value the callback of one put_row sets the promise to (evm/util.cpp:126-128), and
    whether put_row returned false. *)
Definition first_result (h : list revent) : option bool :=
  head (omap (fun e => match e with EResult AOk => Some true | EResult _ => Some false
                       | _ => None end) h).
Definition refused_put (h : list revent) : bool :=
  existsb (fun e => match e with EDone (AErr _) => true | _ => false end) h.

Inductive minted := Minted (b : bool) | MintHangs.

(** The loop that waits for the futures (evm/util.cpp:135-141); each element is what is ever
    seen of one put_row. *)
Fixpoint mint_wait (rs : list (list revent)) : minted :=
  match rs with
  | [] => Minted true
  | h :: rs =>
      match first_result h with
      | None => MintHangs
      | Some false => Minted false
      | Some true => mint_wait rs
      end
  end.

(** The loop that writes the accounts (evm/util.cpp:115-133): it stops when put_row returns
    false; [init_addresses_for_testing] has one address for each element of [rs]. *)
Definition mint (rs : list (list revent)) : minted :=
  if existsb refused_put rs then Minted false else mint_wait rs.
