(** C93: writing and reading one key through a broker. *)
From stdpp Require Import base option list.
From Coq Require Import NArith.
From Verif Require Import Base ParsecShardModel RowModel RowSpec RowProofs RowGet RowMint
  RowExamples.
Open Scope N_scope.

(** C93: whatever the broker does, put_row reports success only after the value was stored. *)
Theorem C93_put_true k v ins j :
  put_row k v ins !! j = Some (EResult AOk) -> stored k v (take j (put_row k v ins)).
Proof. exact (put_true k v ins j). Qed.
Print Assumptions C93_put_true.

Example C93_put_true_example : put_row 12 [7] ex_put !! 13%nat = Some (EResult AOk).
Proof. exact ex_put_true. Qed.

(** C93: whatever the broker does, it is asked for nothing but to lock this key for writing, to
    commit this update, and to finish, for a ticket it gave. *)
Theorem C93_put_calls k v ins n c : ECall n c ∈ put_row k v ins ->
  c = CBegin \/ exists n0 t, EAnswer n0 (ATicket t) ∈ put_row k v ins /\
    (c = CLock t k Write \/ c = CCommit t [(k, v)] \/ c = CFinish t).
Proof. exact (put_calls k v ins n c). Qed.
Print Assumptions C93_put_calls.

(** C93: with a broker that keeps to its interface, the caller hears at most one outcome, and
    exactly one when the broker has dealt with every call. *)
Theorem C93_put_once k v ins :
  polite (put_row k v ins) ->
  (length (outcomes (put_row k v ins)) <= 1)%nat /\
  (answered (put_row k v ins) -> length (outcomes (put_row k v ins)) = 1%nat).
Proof. exact (fun P => conj (put_once k v ins P) (put_answers k v ins P)). Qed.
Print Assumptions C93_put_once.

Example C93_put_once_example :
  polite (put_row 12 [7] ex_put) /\ answered (put_row 12 [7] ex_put).
Proof. exact ex_put_polite. Qed.

(** After the outcome the broker is not called any more. *)
Theorem C93_put_quiet k v ins more n c :
  polite (put_row k v (ins ++ more)) -> outcomes (put_row k v ins) <> [] ->
  ECall n c ∈ put_row k v (ins ++ more) -> ECall n c ∈ put_row k v ins.
Proof. exact (put_quiet k v ins more n c). Qed.
Print Assumptions C93_put_quiet.

(** Failure does not mean that nothing was written. *)
Theorem C93_put_false_refuted : exists k v ins,
  polite (put_row k v ins) /\ answered (put_row k v ins) /\
  results (put_row k v ins) = [failure] /\
  exists n t, ECall n (CCommit t [(k, v)]) ∈ put_row k v ins /\ EAnswer n AOk ∈ put_row k v ins.
Proof. exact put_false_refuted. Qed.
Print Assumptions C93_put_false_refuted.

(** After a failure the ticket, with its lock on the key, is left behind for good. *)
Theorem C93_put_open_refuted : exists k v ins,
  polite (put_row k v ins) /\ answered (put_row k v ins) /\
  results (put_row k v ins) = [failure] /\
  (exists n t w, ECall n (CLock t k Write) ∈ put_row k v ins /\
                 EAnswer n (AValue w) ∈ put_row k v ins) /\
  exists t, forall more, polite (put_row k v (ins ++ more)) ->
                         abandoned t (put_row k v (ins ++ more)).
Proof. exact put_open_refuted. Qed.
Print Assumptions C93_put_open_refuted.

(** C93: mint_initial_accounts succeeds only if every account was stored. *)
Theorem C93_mint rows :
  mint (map (fun p => put_row p.1.1 p.1.2 p.2) rows) = Minted true ->
  forall k v ins, (k, v, ins) ∈ rows -> stored k v (put_row k v ins).
Proof. exact (mint_true rows). Qed.
Print Assumptions C93_mint.

Example C93_mint_example :
  mint (map (fun p => put_row p.1.1 p.1.2 p.2) ex_mint) = Minted true.
Proof. exact ex_minted. Qed.

(** C93: whatever the broker does, what get_row returns was read from the key, or the read
    failed. *)
Theorem C93_get_returned k ins j r :
  get_row k ins !! j = Some (EDone r) -> justified k r (take j (get_row k ins)).
Proof. exact (get_returned k ins j r). Qed.
Print Assumptions C93_get_returned.

Example C93_get_returned_example : get_row 12 ex_get !! 13%nat = Some (EDone (AValue [7])).
Proof. exact ex_get_done. Qed.

(** C93: and so was every value given to the callback. *)
Theorem C93_get_value k ins j w :
  get_row k ins !! j = Some (EResult (AValue w)) -> was_read k w (take j (get_row k ins)).
Proof. exact (get_value k ins j w). Qed.
Print Assumptions C93_get_value.

(** C93: get_row writes nothing and locks nothing else. *)
Theorem C93_get_calls k ins n c : ECall n c ∈ get_row k ins ->
  match c with
  | CBegin | CFinish _ => True
  | CLock _ k' m => k' = k /\ m = Read
  | CCommit _ upd => upd = []
  | CRollback _ => False
  end.
Proof. exact (get_calls k ins n c). Qed.
Print Assumptions C93_get_calls.

(** C93: get_row's behaviour is defined if the broker answers during its calls (missing: a
    broker that answers later, refuted below). *)
Theorem C93_get_safe_partial k ins : synchronous ins -> EUndefined ∉ get_row k ins.
Proof. exact (get_safe k ins). Qed.
Print Assumptions C93_get_safe_partial.

Example C93_get_safe_partial_example : synchronous ex_get /\ polite (get_row 12 ex_get).
Proof. exact (conj ex_get_sync ex_get_polite). Qed.

(** C93: with a broker that keeps to its interface no exception is thrown. *)
Theorem C93_get_no_throw k ins : polite (get_row k ins) -> EThrow ∉ get_row k ins.
Proof. exact (get_no_throw k ins). Qed.
Print Assumptions C93_get_no_throw.

(** C93: get_row returns when begin has returned and its read was answered (missing: a read
    that was refused, refuted below). *)
Theorem C93_get_returns_partial k ins b n c a :
  polite (get_row k ins) -> EUndefined ∉ get_row k ins -> EReturn 0 b ∈ get_row k ins ->
  ECall n c ∈ get_row k ins -> EAnswer n a ∈ get_row k ins ->
  (c = CBegin /\ (exists e, a = AErr e) \/ exists t, c = CLock t k Read) ->
  exists r, EDone r ∈ get_row k (ins ++ [IWake]).
Proof. exact (get_returns k ins b n c a). Qed.
Print Assumptions C93_get_returns_partial.

(** Whenever try_lock is refused get_row never returns. *)
Theorem C93_get_hangs k ins n t r :
  polite (get_row k ins) -> ECall n (CLock t k Read) ∈ get_row k ins ->
  EReturn n false ∈ get_row k ins -> EDone r ∉ get_row k ins.
Proof. exact (get_hangs k ins n t r). Qed.
Print Assumptions C93_get_hangs.

Theorem C93_get_hangs_refuted : exists k ins,
  polite (get_row k ins) /\ answered (get_row k ins) /\ synchronous ins /\
  forall more r, polite (get_row k (ins ++ more)) -> EDone r ∉ get_row k (ins ++ more).
Proof. exact get_hangs_refuted. Qed.
Print Assumptions C93_get_hangs_refuted.

(** A broker that answers after its call has returned makes get_row use objects that are
    gone: the ticket number, or the arguments of get_row. *)
Theorem C93_get_undefined_refuted :
  (exists k ins, polite (get_row k ins) /\ EUndefined ∈ get_row k ins) /\
  (exists k ins, polite (get_row k ins) /\
     (forall n t m, ECall n (CLock t k m) ∉ get_row k ins) /\ EUndefined ∈ get_row k ins).
Proof. exact (conj get_undefined_refuted get_race_refuted). Qed.
Print Assumptions C93_get_undefined_refuted.

(** The callback may hear a value and an error. *)
Theorem C93_get_twice_refuted : exists k ins,
  polite (get_row k ins) /\ answered (get_row k ins) /\
  results (get_row k ins) = [AValue [7]; AErr CommitError].
Proof. exact get_twice_refuted. Qed.
Print Assumptions C93_get_twice_refuted.

(** The reason of a failure is replaced by another one, and the ticket left behind. *)
Theorem C93_get_reason_refuted : exists k ins n t,
  polite (get_row k ins) /\ answered (get_row k ins) /\
  ECall n (CLock t k Read) ∈ get_row k ins /\
  EAnswer n (AErr (OtherCode 9)) ∈ get_row k ins /\
  EDone (AErr ShardUnreachable) ∈ get_row k ins /\ abandoned t (get_row k ins).
Proof. exact get_reason_refuted. Qed.
Print Assumptions C93_get_reason_refuted.
