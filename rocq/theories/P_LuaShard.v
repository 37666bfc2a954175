(** C96: contracts that run at the same time. *)
From Coq Require Import NArith List.
From stdpp Require Import base option list gmap.
From Verif Require Import Base LuaModel LuaPayModel LuaPaySpec LuaPayExamples ParsecShardModel ParsecShardSpec
  LuaShardSpec LuaShardProofs LuaShardPay LuaShardExamples.
Import ListNotations.
Open Scope N_scope.

(** C96: whatever Lua contracts run on a shard, in whatever order their requests arrive, are
    granted, wounded, rolled back and begun again: what the shard holds is what the contracts of
    the committed tickets leave, run one after the other in the order of the commits. *)
Theorem C96_serial {L} (resume : L -> bytes -> resumed L) fuel start param name state os s tr :
  (forall a b, name a = name b -> a = b) ->
  NoDup (issued os) -> executes state ∅ os s tr ->
  agents_follow resume fuel start param name state tr ->
  serial resume fuel start param (at_start name state) (committed tr) (in_shard name s).
Proof. exact (fun H => contracts_serial resume fuel start param name H state os s tr). Qed.
Print Assumptions C96_serial.

(** C96: in particular, payments. *)
Theorem C96_payments parse verify sha256 req name state os s tr :
  (forall a b, name a = name b -> a = b) ->
  NoDup (issued os) -> executes state ∅ os s tr ->
  agents_follow (pay_resume parse verify sha256) 3 (fun _ => PStart) req name state tr ->
  forall k, in_shard name s k =
    pay_steps parse verify sha256 (at_start name state) (map req (committed tr)) k.
Proof. exact (fun H => concurrent_pay parse verify sha256 req name H state os s tr). Qed.
Print Assumptions C96_payments.

(** C96: payments at the same time make no money and lose none (with the exceptions of C95). *)
Theorem C96_money_partial parse verify sha256 req name state os s tr l :
  (forall a b, name a = name b -> a = b) ->
  NoDup (issued os) -> executes state ∅ os s tr ->
  agents_follow (pay_resume parse verify sha256) 3 (fun _ => PStart) req name state tr ->
  NoDup l -> Forall (sound (at_start name state)) l -> money (at_start name state) l < 2 ^ 63 ->
  Forall (among l) (map req (committed tr)) ->
  money (in_shard name s) l = money (at_start name state) l /\ Forall (sound (in_shard name s)) l.
Proof. exact (fun H => concurrent_money parse verify sha256 req name H state os s tr l). Qed.
Print Assumptions C96_money_partial.

(** C96: of tickets with the same request at most one is committed (with the exceptions of
    C95). *)
Theorem C96_once_partial parse verify sha256 req name state os s tr :
  (forall a b, name a = name b -> a = b) ->
  NoDup (issued os) -> executes state ∅ os s tr ->
  agents_follow (pay_resume parse verify sha256) 3 (fun _ => PStart) req name state tr ->
  Forall (fun p => fresh p /\ payer p <> payee p) (map req (committed tr)) ->
  NoDup (map req (committed tr)).
Proof. exact (fun H => concurrent_once parse verify sha256 req name H state os s tr). Qed.
Print Assumptions C96_once_partial.

(** Ann pays Bob 3 while Bob pays Ann 9; one is wounded and begins again. *)
Example C96_example : NoDup (issued ex_ops) /\ (exists s tr, executes ex_state ∅ ex_ops s tr /\
  agents_follow (pay_resume yes always same) 3 (fun _ => PStart) ex_param number ex_state tr /\
  committed tr = [1; 2] /\
  balance (in_shard number s) ann = 16 /\ balance (in_shard number s) bob = 14).
Proof. exact (conj ex_issued LuaShardExamples.ex_run). Qed.

Example C96_example_accounts : (forall a b, number a = number b -> a = b) /\
  Forall (among [ann; bob]) (map ex_param [1; 2]) /\
  Forall (fun p => fresh p /\ payer p <> payee p) (map ex_param [1; 2]) /\
  Forall (sound (at_start number ex_state)) [ann; bob] /\
  money (at_start number ex_state) [ann; bob] = 30.
Proof. exact (conj number_inj ex_accounts). Qed.
