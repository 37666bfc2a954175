(** C95: the payment contract of PArSEC and its wallet. *)
From Coq Require Import NArith ZArith List Bool.
From stdpp Require Import base option list.
From Verif Require Import Base LuaModel LuaPayModel LuaPaySpec LuaPayProofs LuaPayRuns LuaPayExamples.
Import ListNotations.
Open Scope N_scope.

(** C95: the Lua runner (LuaModel, C88), given this contract and, for every lock it asks for,
    the value that is stored, reports [pay]. *)
Theorem C95_runs parse verify sha256 db p :
  run (pay_resume parse verify sha256) 3 (Some PStart) p true
    (map (fun k => (Value (db k), true)) (fst (pay_run parse verify sha256 db p))) =
  (Finished, map ALock (fst (pay_run parse verify sha256 db p)) ++
             [AReport (pay parse verify sha256 db p)]).
Proof. exact (pay_runs parse verify sha256 db p). Qed.
Print Assumptions C95_runs.

Example C95_runs_example : pay_run yes always same (ex_db 10 20) (req ann bob 3 4) =
  ([account ann; account bob],
   Updates [(account ann, le_bytes 8 7 ++ le_bytes 8 5);
            (account bob, le_bytes 8 23 ++ le_bytes 8 0)]).
Proof. exact ex_paid. Qed.

(** C95: between accounts in good order, exactly the requests succeed that the payer signed,
    whose sequence number was not used up, and whose value the payer has, or which have a value
    of 2^63 or more (see C95_large_refuted). *)
Theorem C95_accepted parse verify sha256 db p :
  request p -> sound db (payer p) -> sound db (payee p) ->
  (exists u, pay parse verify sha256 db p = Updates u) <->
  authorised parse verify sha256 p /\ sequence db (payer p) <= seq_no p /\ seq_no p < 2 ^ 63 /\
  (value p <= balance db (payer p) \/ 2 ^ 63 <= value p).
Proof. exact (pay_iff parse verify sha256 db p). Qed.
Print Assumptions C95_accepted.

Example C95_accepted_example : request (req ann bob 3 4) /\
  (sound (ex_db 10 20) ann /\ sound (ex_db 10 20) bob) /\
  payer (req ann bob 3 4) = ann /\ payee (req ann bob 3 4) = bob /\
  value (req ann bob 3 4) = 3 /\ seq_no (req ann bob 3 4) = 4.
Proof. exact (conj ex_req (conj ex_sound ex_parts)). Qed.

(** C95: a payment to somebody else takes its value from the payer, gives it to the payee, uses
    up the sequence number, and touches nothing else. *)
Theorem C95_effect_partial parse verify sha256 db p u :
  request p -> sound db (payer p) -> sound db (payee p) ->
  pay parse verify sha256 db p = Updates u -> payer p <> payee p -> 0 < value p < 2 ^ 63 ->
  balance (store db u) (payer p) + value p = balance db (payer p) /\
  balance (store db u) (payee p) = balance db (payee p) + value p /\
  sequence (store db u) (payer p) = seq_no p + 1 /\
  sequence (store db u) (payee p) = sequence db (payee p) /\
  (forall k, k <> account (payer p) -> k <> account (payee p) -> store db u k = db k).
Proof. exact (pay_effect parse verify sha256 db p u). Qed.
Print Assumptions C95_effect_partial.

(** C95: payments make no money and lose none, and leave accounts in good order, if nobody
    pays themselves, the last sequence number is not used, and all the money is less than 2^63. *)
Theorem C95_money_partial parse verify sha256 l ps : NoDup l -> forall db,
  Forall (sound db) l -> money db l < 2 ^ 63 -> Forall (among l) ps ->
  money (pay_steps parse verify sha256 db ps) l = money db l /\
  Forall (sound (pay_steps parse verify sha256 db ps)) l.
Proof. exact (steps_money parse verify sha256 l ps). Qed.
Print Assumptions C95_money_partial.

Example C95_money_example : NoDup [ann; bob] /\
  Forall (among [ann; bob]) [req ann bob 3 4; req bob ann 9 0; req ann bob 100 5] /\
  money (ex_db 10 20) [ann; bob] = 30 /\
  balance (ex_steps (ex_db 10 20) [req ann bob 3 4; req bob ann 9 0; req ann bob 100 5]) ann = 16.
Proof. exact (conj ex_nodup (conj ex_among ex_money)). Qed.

(** C95 is false of payments to oneself: the money is added but not taken, and the sequence
    number is not used up. *)
Theorem C95_self_refuted parse verify sha256 db p u :
  request p -> sound db (payer p) -> pay parse verify sha256 db p = Updates u ->
  payer p = payee p -> 0 < value p < 2 ^ 63 ->
  balance (store db u) (payer p) = balance db (payer p) + value p /\
  sequence (store db u) (payer p) = sequence db (payer p).
Proof. exact (pay_self parse verify sha256 db p u). Qed.
Print Assumptions C95_self_refuted.

(** Ten coins become twenty-five, with one request. *)
Example C95_self_example :
  balance (ex_steps (ex_db 10 20) [req ann ann 5 4; req ann ann 5 4; req ann ann 5 4]) ann = 25.
Proof. exact ex_self. Qed.

(** C95: an account's balance falls, and its sequence number changes, only by a payment of its
    own that it signed. *)
Theorem C95_owner parse verify sha256 db p a :
  request p -> sound db (payer p) -> sound db (payee p) ->
  balance (pay_step parse verify sha256 db p) a < balance db a \/
  sequence (pay_step parse verify sha256 db p) a <> sequence db a ->
  a = payer p /\ authorised parse verify sha256 p.
Proof. exact (step_owner parse verify sha256 db p a). Qed.
Print Assumptions C95_owner.

(** C95: a request that succeeded does not succeed again, whatever requests come between, if it
    did not pay the payer itself and the last sequence number is not used. *)
Theorem C95_replay_partial parse verify sha256 db p u ps u' :
  fresh p -> pay parse verify sha256 db p = Updates u ->
  payer p <> payee p \/ value p = 0 \/ 2 ^ 63 <= value p -> Forall fresh ps ->
  pay parse verify sha256 (pay_steps parse verify sha256 (store db u) ps) p <> Updates u'.
Proof. exact (no_replay parse verify sha256 db p u ps u'). Qed.
Print Assumptions C95_replay_partial.

(** C95 is false in full: after the sequence number 2^63 - 1, requests from before succeed
    again. *)
Theorem C95_replay_refuted : exists db p p',
  fresh p /\ payer p <> payee p /\ request p' /\
  (exists u, ex_pay db p = Updates u) /\
  (exists u, ex_pay (ex_steps db [p; p']) p = Updates u).
Proof. exact (ex_intro _ _ (ex_intro _ _ (ex_intro _ _ ex_replay))). Qed.
Print Assumptions C95_replay_refuted.

(** C95 is false of values of 2^63 and more: the request succeeds, uses up its sequence number
    and pays nothing. Values of 0 do the same, as intended. *)
Theorem C95_large_refuted parse verify sha256 db p u :
  request p -> sound db (payer p) -> sound db (payee p) ->
  pay parse verify sha256 db p = Updates u -> value p = 0 \/ 2 ^ 63 <= value p ->
  sequence (store db u) (payer p) = seq_no p + 1 /\
  (forall a, balance (store db u) a = balance db a) /\
  (forall k, k <> account (payer p) -> store db u k = db k).
Proof. exact (pay_nothing parse verify sha256 db p u). Qed.
Print Assumptions C95_large_refuted.

Example C95_large_example :
  (exists u, ex_pay (ex_db 10 20) (req ann bob (2 ^ 63) 4) = Updates u) /\
  request (req ann bob (2 ^ 63) 4) /\ value (req ann bob (2 ^ 63) 4) = 2 ^ 63.
Proof. exact ex_large. Qed.

(** C95 is false of accounts with 2^63 or more: a payment can bring an account there, and
    nothing of it can be spent any more. *)
Theorem C95_frozen_refuted : exists db p q,
  sound db ann /\ sound db bob /\ (exists u, ex_pay db p = Updates u) /\
  request q /\ authorised yes always same q /\
  sequence (ex_steps db [p]) bob = seq_no q /\ value q <= balance (ex_steps db [p]) bob /\
  ex_pay (ex_steps db [p]) q = Failed ExecError.
Proof. exact (ex_intro _ _ (ex_intro _ _ (ex_intro _ _ ex_frozen))). Qed.
Print Assumptions C95_frozen_refuted.

(** C95: the wallet's request is the payment it was asked for; it succeeds if the wallet knows
    its account and has the money; and afterwards the wallet knows its account. *)
Theorem C95_wallet parse verify sha256 sign db w to amount :
  length (aw_key w) = 32%nat -> length to = 32%nat -> Forall is_byte (aw_key w) ->
  Forall is_byte to -> parse (aw_key w) = true ->
  (forall h, length (sign h) = 64%nat /\ Forall is_byte (sign h) /\
             verify (aw_key w) (sign h) h = true) ->
  sound db (aw_key w) -> sound db to -> in_sync db w -> amount <= aw_balance w ->
  exists p u w', wallet_pay sha256 sign w to amount = Some p /\
    pay parse verify sha256 db p = Updates u /\
    wallet_result w (Updates u) = Some w' /\ in_sync (store db u) w' /\
    payer p = aw_key w /\ payee p = to /\ value p = amount /\ seq_no p = aw_seq w.
Proof. exact (wallet_pays parse verify sha256 sign db w to amount). Qed.
Print Assumptions C95_wallet.

Example C95_wallet_example : in_sync (ex_db 10 20) (AccountWallet ann 10 4) /\
  wallet_pay same (fun _ => repeat 0 64) (AccountWallet ann 10 4) bob 3 = Some (req ann bob 3 4).
Proof. exact ex_wallet. Qed.

(** C95: the wallet asks for no more than it believes it has. *)
Theorem C95_wallet_refuses sha256 sign w to amount p :
  wallet_pay sha256 sign w to amount = Some p -> amount <= aw_balance w.
Proof. exact (wallet_refuses sha256 sign w to amount p). Qed.
Print Assumptions C95_wallet_refuses.

Example C95_wallet_refuses_example :
  wallet_pay same (fun _ => repeat 0 64) (AccountWallet ann 10 4) bob 11 = None.
Proof. reflexivity. Qed.

(** C95: a wallet that knows its account still does after its payment failed. *)
Theorem C95_wallet_failure parse verify sha256 db w p e :
  in_sync db w -> pay parse verify sha256 db p = Failed e ->
  exists w', wallet_result w (Failed e) = Some w' /\ aw_key w' = aw_key w /\
    in_sync (pay_step parse verify sha256 db p) w'.
Proof. exact (wallet_failure parse verify sha256 db w p e). Qed.
Print Assumptions C95_wallet_failure.

Example C95_wallet_failure_example : in_sync (ex_db 10 20) (AccountWallet ann 10 4) /\
  ex_pay (ex_db 10 20) (req ann bob 11 4) = Failed ExecError.
Proof. split; [exact (proj1 ex_wallet)|vm_compute; reflexivity]. Qed.

(** C95: after any success the wallet knows its account; its assertion never fails. *)
Theorem C95_wallet_follows parse verify sha256 db p u w :
  request p -> payer p = aw_key w -> pay parse verify sha256 db p = Updates u ->
  exists w', wallet_result w (Updates u) = Some w' /\ aw_key w' = aw_key w /\
    in_sync (store db u) w'.
Proof. exact (wallet_follows parse verify sha256 db p u w). Qed.
Print Assumptions C95_wallet_follows.
