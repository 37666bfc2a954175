(** The properties C48 to C50 and C59 to C63: EVM transactions. *)
From Coq Require Import NArith List.
From stdpp Require Import gmap.
From Verif Require Import Base EvmHostModel EvmHostSpec EvmHostFinal EvmHostMore EvmHostHistory
  EvmHostReceipt EvmHostLogs EvmHostExamples.
Import ListNotations.
Open Scope N_scope.

(** C48: executing a transaction never increases the sum of all balances, and what is paid
    for gas is taken out of it. The restriction: the cost and the value of the transaction
    are not reduced modulo 2^256. *)
Theorem C48_no_mint_partial w locks from t es u :
  w_ro w = false -> db_ok (w_db w) -> is_precompile from = false -> x_limit t < two256 -> no_wrap t ->
  machine_honest w locks from t es -> execute w locks from t es = Some (Done u) ->
  total (apply_updates (w_db w) u) + (min_gas t + rc_gas (u_receipt u)) * x_price t <= total (w_db w).
Proof. exact (no_mint w locks from t es u). Qed.
Print Assumptions C48_no_mint_partial.

(** C48: nothing else is lost unless value is sent to a precompile or something destroyed. *)
Theorem C48_exact_total w locks from t es u :
  w_ro w = false -> db_ok (w_db w) -> is_precompile from = false -> x_limit t < 2 ^ 64 -> no_wrap t ->
  total (w_db w) < two256 -> addresses_ok w ->
  (x_value t = 0 \/ forall a, x_to t = Some a -> is_precompile a = false) ->
  Forall (keeps_value w) es ->
  machine_honest w locks from t es -> execute w locks from t es = Some (Done u) ->
  total (apply_updates (w_db w) u) + (min_gas t + rc_gas (u_receipt u)) * x_price t = total (w_db w).
Proof. exact (exact_total w locks from t es u). Qed.
Print Assumptions C48_exact_total.

Example C48_example :
  w_ro ex_world = false /\ db_ok (w_db ex_world) /\ plain_account ex_world alice /\
  x_limit ex_buy < 2 ^ 64 /\ no_wrap ex_buy /\ total (w_db ex_world) < two256 /\ addresses_ok ex_world /\
  (forall a, x_to ex_buy = Some a -> is_precompile a = false) /\ Forall (keeps_value ex_world) ex_buy_run /\
  machine_honest ex_world free alice ex_buy ex_buy_run /\
  execute ex_world free alice ex_buy ex_buy_run = Some (Done ex_updates).
Proof. exact ex_meets. Qed.
Example C48_example_effect :
  balance (apply_updates ex_db ex_updates) alice = 1000000 - 7 - 26000 * 2 /\
  balance (apply_updates ex_db ex_updates) bob = 55 /\
  balance (apply_updates ex_db ex_updates) shop = 12 /\
  rc_gas (u_receipt ex_updates) = 5000 /\ rc_success (u_receipt ex_updates) = true.
Proof. exact ex_buy_effect. Qed.

(** C48: the precompiles are the addresses below 2^16 whose last byte is not zero. *)
Theorem C48_precompiles a :
  is_precompile a = true <-> exists hi lo, hi < 256 /\ 1 <= lo < 256 /\ a = hi * 256 + lo.
Proof. exact (precompiles a). Qed.
Print Assumptions C48_precompiles.

(** The cost of the gas is computed modulo 2^256: an account without money is left with
    2^255. *)
Theorem C48_gas_wraps_refuted : exists w locks from t es u,
  w_ro w = false /\ db_ok (w_db w) /\ plain_account w from /\ x_limit t < 2 ^ 64 /\
  x_price t < two256 /\ x_value t < two256 /\
  machine_honest w locks from t es /\ execute w locks from t es = Some (Done u) /\
  total (w_db w) < total (apply_updates (w_db w) u) /\
  balance (w_db w) from = 0 /\ balance (apply_updates (w_db w) u) from = 2 ^ 255.
Proof. exact gas_wraps_case. Qed.
Print Assumptions C48_gas_wraps_refuted.

(** So is the sum of the value and the cost. *)
Theorem C48_value_wraps_refuted : exists w locks from to t es u,
  w_ro w = false /\ db_ok (w_db w) /\ plain_account w from /\ x_limit t < 2 ^ 64 /\
  x_limit t * x_price t < two256 /\ x_value t < two256 /\
  machine_honest w locks from t es /\ execute w locks from t es = Some (Done u) /\
  total (w_db w) < total (apply_updates (w_db w) u) /\
  balance (w_db w) from = 0 /\ balance (apply_updates (w_db w) u) to = 2 ^ 256 - 21000.
Proof. exact value_wraps_case. Qed.
Print Assumptions C48_value_wraps_refuted.

(** C49: the only account a reverted transaction changes is the sender's, which pays for
    the gas used and has its nonce increased. *)
Theorem C49_accounts_partial w locks from t es u :
  w_ro w = false -> db_ok (w_db w) -> is_precompile from = false -> x_limit t < 2 ^ 64 -> no_wrap t ->
  machine_honest w locks from t es -> execute w locks from t es = Some (Done u) ->
  call_status w locks from t es = Some Revert ->
  exists b, u_acc u = {[from := Some (b, x_nonce t)]} /\
    b + (min_gas t + rc_gas (u_receipt u)) * x_price t = balance (w_db w) from.
Proof. exact (revert_accounts w locks from t es u). Qed.
Print Assumptions C49_accounts_partial.

(** C49: a transaction that does not succeed and neither wrote storage nor created
    contracts changes no storage and no code. *)
Theorem C49_no_writes_partial w locks from t es u s :
  w_ro w = false -> execute w locks from t es = Some (Done u) ->
  call_status w locks from t es = Some s -> s <> Success -> Forall writes_nothing es ->
  u_code u = ∅ /\ u_sto u = ∅.
Proof. exact (failed_no_writes w locks from t es u s). Qed.
Print Assumptions C49_no_writes_partial.

Example C49_example : exists u,
  execute ex_world free alice ex_buy ex_back_run = Some (Done u) /\
  call_status ex_world free alice ex_buy ex_back_run = Some Revert /\
  machine_honest ex_world free alice ex_buy ex_back_run /\
  Forall writes_nothing ex_back_run.
Proof. exact ex_back_case. Qed.

(** A reverted transaction keeps what it wrote to storage, and its logs. *)
Theorem C49_storage_refuted : exists w locks from t es u k v,
  w_ro w = false /\ db_ok (w_db w) /\ plain_account w from /\ no_wrap t /\
  machine_honest w locks from t es /\ execute w locks from t es = Some (Done u) /\
  call_status w locks from t es = Some Revert /\
  d_sto (w_db w) !! k = None /\ d_sto (apply_updates (w_db w) u) !! k = Some v /\
  rc_logs (u_receipt u) <> [].
Proof. exact revert_storage_case. Qed.
Print Assumptions C49_storage_refuted.

(** A transaction that fails without reverting (out of gas, say) keeps its transfers. *)
Theorem C49_failure_refuted : exists w locks from to t es u,
  w_ro w = false /\ db_ok (w_db w) /\ plain_account w from /\ no_wrap t /\ to <> from /\
  machine_honest w locks from t es /\ execute w locks from t es = Some (Done u) /\
  call_status w locks from t es = Some Failure /\
  balance (w_db w) to < balance (apply_updates (w_db w) u) to.
Proof. exact failure_keeps_case. Qed.
Print Assumptions C49_failure_refuted.

(** A call that is reverted inside a transaction that succeeds keeps its effects. *)
Theorem C49_inner_revert_refuted : exists w locks from t es u inner k,
  w_ro w = false /\ db_ok (w_db w) /\ plain_account w from /\ no_wrap t /\
  es = [EEnter inner; ESetStorage (m_recipient inner) k 9; ELeave Revert 100 []; ELeave Success 1000 []] /\
  machine_honest w locks from t es /\ execute w locks from t es = Some (Done u) /\
  balance (w_db w) (m_recipient inner) < balance (apply_updates (w_db w) u) (m_recipient inner) /\
  d_sto (w_db w) !! (m_recipient inner, k) <> d_sto (apply_updates (w_db w) u) !! (m_recipient inner, k).
Proof. exact inner_revert_case. Qed.
Print Assumptions C49_inner_revert_refuted.

(** C50: executing a transaction requires its nonce to be the successor of the sender's,
    which it becomes; nobody else's nonce changes. *)
Theorem C50_nonces w locks from t es u :
  w_ro w = false -> db_ok (w_db w) -> plain_account w from ->
  machine_honest w locks from t es -> execute w locks from t es = Some (Done u) ->
  (nonce (w_db w) from + 1) mod 2 ^ 256 = x_nonce t /\
  nonce (apply_updates (w_db w) u) from = x_nonce t /\
  (forall a, plain_account w a -> a <> from -> nonce (apply_updates (w_db w) u) a = nonce (w_db w) a).
Proof. exact (nonces w locks from t es u). Qed.
Print Assumptions C50_nonces.

(** C50: two transactions of the same sender in a history have different nonces; in
    particular no transaction is executed twice. *)
Theorem C50_no_replay caddr caddr2 d l d' i j a t1 t2 :
  history caddr caddr2 d l d' -> db_ok d ->
  (forall a, plain_address caddr caddr2 a -> code_len d a = 0%nat) ->
  N.of_nat (length l) < 2 ^ 256 ->
  (i < j)%nat -> l !! i = Some (a, t1) -> l !! j = Some (a, t2) -> x_nonce t1 <> x_nonce t2.
Proof. exact (no_replay caddr caddr2 d l d' i j a t1 t2). Qed.
Print Assumptions C50_no_replay.

Example C50_example : exists caddr caddr2 d d2 l1 l2,
  db_ok d /\ (forall x, plain_address caddr caddr2 x -> code_len d x = 0%nat) /\
  history caddr caddr2 d (l1 ++ l2) d2.
Proof.
  destruct code_replaced_case as (ca & ca2 & d & d1 & d2 & l1 & l2 & _ & _ & _ & _ & H1 & H2 & _ & H3 & _).
  exact (ex_intro _ ca (ex_intro _ ca2 (ex_intro _ d (ex_intro _ d2 (ex_intro _ l1 (ex_intro _ l2
    (conj H1 (conj H2 H3)))))))).
Qed.

(** C59: of the accounts no code runs as, only the sender's can lose money, and it loses
    no more than the value and the gas it offered. *)
Theorem C59_others_money w locks from t es u :
  w_ro w = false -> db_ok (w_db w) -> plain_account w from -> no_wrap t -> total (w_db w) < two256 ->
  machine_honest w locks from t es -> execute w locks from t es = Some (Done u) ->
  balance (w_db w) from <= balance (apply_updates (w_db w) u) from + x_value t + x_limit t * x_price t /\
  (forall a, plain_account w a -> a <> from -> balance (w_db w) a <= balance (apply_updates (w_db w) u) a).
Proof. exact (others_money w locks from t es u). Qed.
Print Assumptions C59_others_money.

Example C59_example : plain_account ex_world alice /\ no_wrap ex_buy /\ total (w_db ex_world) < two256.
Proof. destruct ex_meets as (_ & _ & H1 & _ & H2 & H3 & _). exact (conj H1 (conj H2 H3)). Qed.

(** C60: the receipt of a creation names the address that the sender and the nonce
    determine, and the code left there is the output of the creation. *)
Theorem C60_created w locks from t es u s :
  w_ro w = false -> is_precompile from = false ->
  execute w locks from t es = Some (Done u) -> call_status w locks from t es = Some s ->
  rc_create (u_receipt u) = match x_to t with None => Some (w_caddr w from (x_nonce t)) | Some _ => None end /\
  (x_to t = None -> s = Success ->
     d_code (apply_updates (w_db w) u) !! w_caddr w from (x_nonce t) = Some (rc_out (u_receipt u))).
Proof. exact (receipt_creation w locks from t es u s). Qed.
Print Assumptions C60_created.

(** C60: these addresses differ, if the address function does not collide. Missing:
    contracts created by contracts. *)
Theorem C60_apart_partial caddr caddr2 d l d' i j a1 a2 t1 t2 :
  history caddr caddr2 d l d' -> db_ok d ->
  (forall a, plain_address caddr caddr2 a -> code_len d a = 0%nat) ->
  N.of_nat (length l) < two256 ->
  (forall s n s' n', n < two256 -> n' < two256 -> caddr s n = caddr s' n' -> s = s' /\ n = n') ->
  i <> j -> l !! i = Some (a1, t1) -> l !! j = Some (a2, t2) ->
  caddr a1 (x_nonce t1) <> caddr a2 (x_nonce t2).
Proof. exact (creations_apart caddr caddr2 d l d' i j a1 a2 t1 t2). Qed.
Print Assumptions C60_apart_partial.

Example C60_example : exists u,
  execute ex_world free alice ex_create [ELeave Success 10 [4; 2]] = Some (Done u) /\
  call_status ex_world free alice ex_create [ELeave Success 10 [4; 2]] = Some Success.
Proof. exact ex_create_case. Qed.

(** A contract's second creation replaces the code of its first: the nonce of a contract is
    never increased. *)
Theorem C60_code_replaced_refuted : exists caddr caddr2 d d1 d2 l1 l2 a c1 c2,
  (forall s n s' n', n < 2 ^ 256 -> n' < 2 ^ 256 -> caddr s n = caddr s' n' -> s = s' /\ n = n') /\
  db_ok d /\ (forall x, plain_address caddr caddr2 x -> code_len d x = 0%nat) /\
  history caddr caddr2 d l1 d1 /\ history caddr caddr2 d (l1 ++ l2) d2 /\
  d_code d1 !! a = Some c1 /\ c1 <> [] /\ d_code d2 !! a = Some c2 /\ c1 <> c2.
Proof. exact code_replaced_case. Qed.
Print Assumptions C60_code_replaced_refuted.

(** C61: the receipt says whether the transaction succeeded, when code was run. *)
Theorem C61_receipt_partial w locks from t es u s :
  execute w locks from t es = Some (Done u) -> call_status w locks from t es = Some s -> es <> [] ->
  rc_success (u_receipt u) = is_success s.
Proof. exact (receipt_success w locks from t es u s). Qed.
Print Assumptions C61_receipt_partial.

(** C61: when none was, it says so if the transaction transferred something. *)
Theorem C61_transfer w locks from t u s :
  execute w locks from t [] = Some (Done u) -> call_status w locks from t [] = Some s ->
  s = Success -> rc_success (u_receipt u) = negb (x_value t =? 0).
Proof. exact (receipt_transfer w locks from t u s). Qed.
Print Assumptions C61_transfer.

Example C61_example : exists u,
  execute ex_world free alice ex_create [ELeave Success 10 [4; 2]] = Some (Done u) /\
  call_status ex_world free alice ex_create [ELeave Success 10 [4; 2]] = Some Success.
Proof. exact ex_create_case. Qed.

(** C61: the receipt has the logs that were emitted, all of them, in their order. *)
Theorem C61_logs w locks from t es u :
  execute w locks from t es = Some (Done u) -> rc_logs (u_receipt u) = logged es.
Proof. exact (receipt_logs w locks from t es u). Qed.
Print Assumptions C61_logs.

(** A call without value of an account without code succeeds and is recorded as failed. *)
Theorem C61_receipt_refuted : exists w locks from t es u,
  w_ro w = false /\ db_ok (w_db w) /\ plain_account w from /\ no_wrap t /\
  machine_honest w locks from t es /\ execute w locks from t es = Some (Done u) /\
  call_status w locks from t es = Some Success /\ rc_success (u_receipt u) = false.
Proof. exact receipt_case. Qed.
Print Assumptions C61_receipt_refuted.

(** C62: a transaction does not end the agent, if all its lock requests are granted, no
    code destroys an account that does not exist, and asserts are compiled out. *)
Theorem C62_agent_lives_partial w locks from t es :
  w_ro w = false -> w_dbg w = false -> (forall i, w_env w i = true) -> db_ok (w_db w) ->
  is_precompile from = false -> machine_honest w locks from t es ->
  (forall r, start w locks from t = Begun (Stepped r) -> destroys_existing w r es) ->
  execute w locks from t es <> Some ProcessEnds.
Proof. exact (agent_lives w locks from t es). Qed.
Print Assumptions C62_agent_lives_partial.

Example C62_example : (forall i, w_env ex_world i = true) /\ w_dbg ex_world = false /\
  (forall r, start ex_world free alice ex_buy = Begun (Stepped r) -> destroys_existing ex_world r ex_buy_run).
Proof. exact ex_lives. Qed.

(** C62: a transaction is given back to be retried only if a lock request was refused. *)
Theorem C62_retried_only_if_refused w l1 l2 l3 from t es :
  execute w (l1, l2, l3) from t es = Some Wounded ->
  l1 && l2 && l3 = false \/ exists i, w_env w i = false.
Proof. exact (wounded_refused w l1 l2 l3 from t es). Qed.
Print Assumptions C62_retried_only_if_refused.

Example C62_retried_example :
  execute ex_world (true, false, true) alice ex_buy [] = Some Wounded.
Proof. exact ex_refused. Qed.

(** A constructor without endowment that destroys itself ends the agent. *)
Theorem C62_destroy_refuted : exists w locks from t es,
  w_ro w = false /\ w_dbg w = false /\ (forall i, w_env w i = true) /\ db_ok (w_db w) /\
  plain_account w from /\ no_wrap t /\ machine_honest w locks from t es /\
  execute w locks from t es = Some ProcessEnds.
Proof. exact destroy_case. Qed.
Print Assumptions C62_destroy_refuted.

(** So does a lock request that is refused (an older ticket came first) while a contract
    pays. *)
Theorem C62_wounded_refuted : exists w locks from t es,
  w_ro w = false /\ w_dbg w = false /\ db_ok (w_db w) /\
  plain_account w from /\ no_wrap t /\ machine_honest w locks from t es /\
  (forall r, start w locks from t = Begun (Stepped r) -> destroys_existing w r es) /\
  execute w locks from t es = Some ProcessEnds.
Proof. exact wounded_case. Qed.
Print Assumptions C62_wounded_refuted.

(** So does a dry run that sends value from an account that does not exist. *)
Theorem C62_dry_run_refuted : exists w locks from t es,
  w_ro w = true /\ w_dbg w = false /\ (forall i, w_env w i = true) /\ db_ok (w_db w) /\ plain_account w from /\
  no_wrap t /\ machine_honest w locks from t es /\ execute w locks from t es = Some ProcessEnds.
Proof. exact dry_run_case. Qed.
Print Assumptions C62_dry_run_refuted.

(** So does a call of a precompile, when asserts are compiled in. *)
Theorem C62_precompile_refuted : exists w locks from t es,
  w_ro w = false /\ w_dbg w = true /\ (forall i, w_env w i = true) /\ db_ok (w_db w) /\ plain_account w from /\
  no_wrap t /\ x_to t = Some 1 /\ machine_honest w locks from t es /\
  (forall r, start w locks from t = Begun (Stepped r) -> destroys_existing w r es) /\
  execute w locks from t es = Some ProcessEnds.
Proof. exact precompile_case. Qed.
Print Assumptions C62_precompile_refuted.

(** C63: a dry run produces no updates of accounts, code or storage. *)
Theorem C63_dry_run w locks from t es u :
  w_ro w = true -> execute w locks from t es = Some (Done u) ->
  u_acc u = ∅ /\ u_code u = ∅ /\ u_sto u = ∅.
Proof. exact (dry_run w locks from t es u). Qed.
Print Assumptions C63_dry_run.

Example C63_example : exists u, execute ex_dry free alice ex_buy ex_buy_run = Some (Done u) /\
  rc_success (u_receipt u) = true /\ rc_out (u_receipt u) = [9].
Proof. exact ex_dry_case. Qed.
