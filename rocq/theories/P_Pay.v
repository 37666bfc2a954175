(** C74: what is paid arrives. *)
From Coq Require Import NArith List Bool Permutation.
From stdpp Require Import base decidable list gmap.
From Verif Require Import Base CodecModel TxModel TxExamples ValidationModel ValidationSpec WalletModel WalletSpec
  WalletExamples WatchtowerModel ClientModel ClientSpec PaySpec PayProofs ClientExamples PayExamples.
Import ListNotations.
Open Scope N_scope.

(** The coins exported for a payee are exactly the spendable forms of the outputs of the
    transaction that its key can spend. *)
Theorem C74_export sha tx payee i :
  In i (export_send_inputs sha tx payee) <->
  exists k, input_from_output sha tx k = Some i /\
    out_commit (in_data i) = get_p2pk_witness_commitment sha payee.
Proof. exact (exported sha tx payee i). Qed.
Print Assumptions C74_export.

(** Each is in the UHS once the transaction is executed, and together they are worth what
    was paid to the payee. *)
Theorem C74_exported_unspent sha tx payee i :
  In i (export_send_inputs sha tx payee) -> In (input_hash sha i) (ctx_outputs (to_compact sha tx)).
Proof. exact (exported_uhs sha tx payee i). Qed.
Print Assumptions C74_exported_unspent.

Theorem C74_exported_worth sha tx payee :
  worth (export_send_inputs sha tx payee) = total (map out_value (paid_to sha tx payee)).
Proof. exact (exported_worth sha (fun x => x) (fun _ _ => 0) tx payee). Qed.
Print Assumptions C74_exported_worth.

(** A payment of [v] that a client makes to the key of another: the coins exported for the
    key, announced to the other client and confirmed, raise its balance by [v]. *)
Theorem C74_payment sha pub_of ssign ks c b v payee rnd c1 tx ks' d bd :
  client_after sha pub_of ssign ks c b -> v < 2 ^ 32 ->
  c_step sha pub_of ssign c (CCreate v payee rnd) = (c1, CoTx (Built tx)) ->
  client_after sha pub_of ssign ks' d bd ->
  is_ours (cl_wallet d) (get_p2pk_witness_commitment sha payee) = true ->
  b_sent bd !! (tx_id sha tx : N) = None -> b_expected bd !! (tx_id sha tx : N) = None ->
  (forall p, op_txid p = tx_id sha tx -> p ∉ outpoints (b_own bd) /\ p ∉ b_gone bd) ->
  worth (b_own bd) + v < 2 ^ 64 ->
  (forall i, In i (b_own bd) -> input_hash sha i ∉ ctx_outputs (to_compact sha tx)) ->
  base.NoDup (map (input_hash sha) (b_own bd)) ->
  cl_balance (fst (c_run sha pub_of ssign d (together (export_send_inputs sha tx payee) (tx_id sha tx))))
  = cl_balance d + v.
Proof. exact (payment_received sha pub_of ssign ks c b v payee rnd c1 tx ks' d bd). Qed.
Print Assumptions C74_payment.

Example C74_payment_example : exists c b c1 d bd,
  client_after quick_sha toy_pub toy_ssign day2 c b /\
  c_step quick_sha toy_pub toy_ssign c pay_call = (c1, CoTx (Built pay_tx)) /\
  client_after quick_sha toy_pub toy_ssign payee_day d bd /\
  is_ours (cl_wallet d) (get_p2pk_witness_commitment quick_sha payee_key) = true /\
  b_sent bd !! (tx_id quick_sha pay_tx : N) = None /\ b_expected bd !! (tx_id quick_sha pay_tx : N) = None /\
  (forall p, op_txid p = tx_id quick_sha pay_tx -> p ∉ outpoints (b_own bd) /\ p ∉ b_gone bd) /\
  worth (b_own bd) + 15 < 2 ^ 64 /\ cl_balance d = 7 /\
  (forall i, In i (b_own bd) -> input_hash quick_sha i ∉ ctx_outputs (to_compact quick_sha pay_tx)) /\
  base.NoDup (map (input_hash quick_sha) (b_own bd)).
Proof. exact pay_case. Qed.

(** Any number of coins, announced and confirmed one after the other, are all credited, and
    the books show them. *)
Theorem C74_one_by_one_partial sha pub_of ssign l ks c b :
  client_after sha pub_of ssign ks c b ->
  Forall (awaited c b) l -> Forall (fun i => b_expected b !! (op_txid (in_prevout i) : N) = None) l ->
  base.NoDup (outpoints l) ->
  worth (l ++ b_own b) < 2 ^ 64 -> base.NoDup (map (input_hash sha) (l ++ b_own b)) ->
  let c' := fst (c_run sha pub_of ssign c (one_by_one l)) in
  exists b', client_after sha pub_of ssign (ks ++ one_by_one l) c' b' /\
    cl_balance c' = cl_balance c + worth l /\
    Permutation (b_own b') (l ++ b_own b) /\ b_tied b' = b_tied b.
Proof. exact (receive_each sha pub_of ssign l ks c b). Qed.
Print Assumptions C74_one_by_one_partial.

(** Missing: announced together, of the coins of one transaction only the first is
    credited. *)
Theorem C74_fan_refuted : exists ks c b n v payee rnd c1 tx ks' d bd,
  client_after quick_sha toy_pub toy_ssign ks c b /\
  c_step quick_sha toy_pub toy_ssign c (CFan n v payee rnd) = (c1, CoTx (Built tx)) /\
  client_after quick_sha toy_pub toy_ssign ks' d bd /\
  Forall (awaited d bd) (export_send_inputs quick_sha tx payee) /\
  Forall (fun i => b_expected bd !! (op_txid (in_prevout i) : N) = None) (export_send_inputs quick_sha tx payee) /\
  base.NoDup (outpoints (export_send_inputs quick_sha tx payee)) /\
  worth (export_send_inputs quick_sha tx payee ++ b_own bd) < 2 ^ 64 /\
  base.NoDup (map (input_hash quick_sha) (export_send_inputs quick_sha tx payee ++ b_own bd)) /\
  worth (export_send_inputs quick_sha tx payee) = n * v /\
  cl_balance (fst (c_run quick_sha toy_pub toy_ssign d
    (together (export_send_inputs quick_sha tx payee) (tx_id quick_sha tx)))) = cl_balance d + v /\
  cl_balance (fst (c_run quick_sha toy_pub toy_ssign d
    (one_by_one (export_send_inputs quick_sha tx payee)))) = cl_balance d + n * v /\
  cl_balance d + v < cl_balance d + n * v.
Proof. exact fan_case_full. Qed.
Print Assumptions C74_fan_refuted.
