(** C56: the coins of a client's user. C64: synchronising a client. C65: a crash while the
    client saves its files. *)
From Coq Require Import NArith List Bool.
From stdpp Require Import base decidable list gmap.
From Verif Require Import Base CodecModel TxModel TxExamples ValidationModel ValidationSpec WalletModel WalletSpec
  WalletExamples WatchtowerModel ClientModel ClientSpec ClientProofs PayProofs ClientExamples.
Import ListNotations.
Open Scope N_scope.

(** After every history the balance is the worth of the coins owned, less those tied to a
    payment under way; the pending transactions and coins are those of the books. *)
Theorem C56_accounting sha pub_of ssign ks c b :
  client_after sha pub_of ssign ks c b -> agrees c b.
Proof. exact (client_accounting sha pub_of ssign ks c b). Qed.
Print Assumptions C56_accounting.

(** No call ends the process, throws or divides by zero. *)
Theorem C56_no_failure sha pub_of ssign ks c b k c' o b' :
  client_after sha pub_of ssign ks c b -> client_meant sha c b k ->
  c_step sha pub_of ssign c k = (c', o) -> entered sha c b k o b' -> bounded sha b' -> client_fine o.
Proof. exact (client_well sha pub_of ssign ks c b k c' o b'). Qed.
Print Assumptions C56_no_failure.

(** A payment spends coins that are owned and not tied, all different; it is refused only if
    the balance is too small, and then nothing changes. *)
Theorem C56_create sha pub_of ssign ks c b v payee rnd c' o :
  client_after sha pub_of ssign ks c b -> v < 2 ^ 32 ->
  c_step sha pub_of ssign c (CCreate v payee rnd) = (c', o) ->
  (o = CoTx NoTx /\ c' = c /\ cl_balance c < v) \/
  exists tx change, o = CoTx (Built tx) /\ fresh_spend b tx /\
    tx_outputs tx = Output (get_p2pk_witness_commitment sha payee) v :: change /\
    change_ok (cl_wallet c') change /\
    cl_balance c' + total (in_values tx) = cl_balance c.
Proof. exact (client_create sha pub_of ssign ks c b v payee rnd c' o). Qed.
Print Assumptions C56_create.

Theorem C56_fan sha pub_of ssign ks c b n v payee rnd c' o :
  client_after sha pub_of ssign ks c b -> n < 2 ^ 32 -> v < 2 ^ 32 ->
  c_step sha pub_of ssign c (CFan n v payee rnd) = (c', o) ->
  (o = CoTx NoTx /\ c' = c /\ cl_balance c < n * v) \/
  exists tx change, o = CoTx (Built tx) /\ fresh_spend b tx /\
    tx_outputs tx = change ++ repeat (Output (get_p2pk_witness_commitment sha payee) v) (N.to_nat n) /\
    change_ok (cl_wallet c') change /\
    cl_balance c' + total (in_values tx) = cl_balance c.
Proof. exact (client_fan sha pub_of ssign ks c b n v payee rnd c' o). Qed.
Print Assumptions C56_fan.

(** Sending a payment: the coins leave the balance and the transaction is pending, unless
    the sentinel says it is confirmed, when it is settled at once. *)
Theorem C56_send sha pub_of ssign ks c b v payee rnd ans c' r :
  client_after sha pub_of ssign ks c b -> v < 2 ^ 32 ->
  client_send sha pub_of ssign c v payee rnd ans = (c', r) ->
  (r = NoTx /\ c' = c /\ cl_balance c < v) \/
  exists tx change, r = Built tx /\ fresh_spend b tx /\
    tx_outputs tx = Output (get_p2pk_witness_commitment sha payee) v :: change /\
    (ans <> Some true ->
       cl_balance c' + total (in_values tx) = cl_balance c /\
       cl_txs c' = first_kept (cl_txs c) (tx_id sha tx) tx /\ cl_inputs c' = cl_inputs c) /\
    (ans = Some true ->
       c' = fst (c_run sha pub_of ssign c [CCreate v payee rnd; CImportTx tx; CConfirm (tx_id sha tx)]) /\
       cl_txs c' !! (tx_id sha tx : N) = None).
Proof. exact (client_sends sha pub_of ssign ks c b v payee rnd ans c' r). Qed.
Print Assumptions C56_send.

(** Confirming a transaction credits what it pays the user and forgets what it spends. *)
Theorem C56_confirm sha pub_of ssign ks c b id tx c' o b' :
  client_after sha pub_of ssign ks c b ->
  client_meant sha c b (CConfirm id) -> c_step sha pub_of ssign c (CConfirm id) = (c', o) ->
  entered sha c b (CConfirm id) o b' -> bounded sha b' ->
  b_sent b !! id = Some tx -> b_expected b !! id = None ->
  base.NoDup (outpoints (received sha (cl_wallet c) tx ++ b_own b)) ->
  o = CoBool true /\
  cl_balance c' = cl_balance c + worth (received sha (cl_wallet c) tx) /\
  cl_txs c' !! id = None /\
  (forall i, In i (tx_inputs tx) -> in_prevout i ∉ outpoints (b_own b')).
Proof. exact (client_confirm sha pub_of ssign ks c b id tx c' o b'). Qed.
Print Assumptions C56_confirm.

(** Abandoning a transaction gives back all its coins. *)
Theorem C56_abandon sha pub_of ssign ks c b id tx c' o b' :
  client_after sha pub_of ssign ks c b ->
  client_meant sha c b (CAbandon id) -> c_step sha pub_of ssign c (CAbandon id) = (c', o) ->
  entered sha c b (CAbandon id) o b' ->
  b_sent b !! id = Some tx -> base.NoDup (tx_inputs tx) ->
  (forall i, In i (tx_inputs tx) -> In i (b_tied b) /\ ~ spent_by_some (delete id (b_sent b)) i) ->
  o = CoBool true /\
  cl_balance c' = cl_balance c + worth (tx_inputs tx) /\
  cl_txs c' = delete id (cl_txs c) /\
  (forall i, In i (tx_inputs tx) -> In i (b_own b') /\ ~ In i (b_tied b')).
Proof. exact (client_abandon sha pub_of ssign ks c b id tx c' o b'). Qed.
Print Assumptions C56_abandon.

(** A client that was saved and is opened again is the same client. *)
Theorem C56_restart sha pub_of ssign ks c b :
  client_after sha pub_of ssign ks c b -> client_typed c ->
  exists c', open_client sha (save_all c) = Some c' /\
    cl_balance c' = cl_balance c /\
    w_keys (cl_wallet c') = w_keys (cl_wallet c) /\
    (forall x, is_ours (cl_wallet c') x = is_ours (cl_wallet c) x) /\
    cl_txs c' = cl_txs c /\ cl_inputs c' = cl_inputs c /\ cl_spend c' = cl_spend c /\
    client_after sha pub_of ssign (ks ++ [CRestart]) c' b.
Proof. exact (client_restart sha pub_of ssign ks c b). Qed.
Print Assumptions C56_restart.

(** The coins of a payment that was made but not sent are never available again, whatever
    the user does, unless the client is handed the transaction. *)
Theorem C56_stuck sha pub_of ssign ks c b ks' c' b' i :
  client_after sha pub_of ssign ks c b ->
  client_history sha pub_of ssign c b ks' c' b' ->
  In i (b_tied b) -> (forall id tx, b_sent b !! id = Some tx -> in_prevout i ∉ outpoints (tx_inputs tx)) ->
  Forall (not_sending (in_prevout i)) ks' ->
  In i (b_own b') /\ In i (b_tied b') /\ cl_balance c' + coin_value i <= worth (b_own b').
Proof. exact (client_stuck sha pub_of ssign ks c b ks' c' b' i). Qed.
Print Assumptions C56_stuck.

(** Two coins of one transaction are announced: only one is credited. *)
Theorem C64_two_coins_refuted : exists ks c b i j,
  client_after quick_sha toy_pub toy_ssign ks c b /\
  is_ours (cl_wallet c) (out_commit (in_data i)) = true /\
  is_ours (cl_wallet c) (out_commit (in_data j)) = true /\
  i <> j /\ op_txid (in_prevout i) = op_txid (in_prevout j) /\
  not_again b i /\ not_again b j /\
  cl_balance (fst (c_run quick_sha toy_pub toy_ssign c [CImportInput i; CImportInput j; CConfirm (op_txid (in_prevout i))]))
  < cl_balance c + worth [i; j].
Proof. exact two_coins_case. Qed.
Print Assumptions C64_two_coins_refuted.

(** A process that dies between the two files leaves a client that opens, with the coins
    and keys of before and the pending transactions of after. *)
Theorem C65_crash_between_partial sha pub_of ssign ks c b ks' c' b' :
  client_after sha pub_of ssign ks c b -> client_typed c ->
  client_after sha pub_of ssign ks' c' b' -> client_typed c' ->
  exists c'', open_client sha (crash_files (save_all c) c' CrBetween) = Some c'' /\
    cl_balance c'' = cl_balance c /\ w_keys (cl_wallet c'') = w_keys (cl_wallet c) /\
    cl_txs c'' = cl_txs c' /\ cl_inputs c'' = cl_inputs c' /\ cl_spend c'' = cl_spend c'.
Proof. exact (crash_between sha pub_of ssign ks c b ks' c' b'). Qed.
Print Assumptions C65_crash_between_partial.

(** A process that dies while it writes the client file leaves a client that cannot be
    opened: whatever was saved before, and however much was written. *)
Theorem C65_torn_file_refuted sha c f n : client_typed c -> (n < length (save_client_state c))%nat ->
  open_client sha (crash_files f c (CrClient n)) = None.
Proof. exact (torn_exit sha (fun x => x) (fun _ _ => 0) c f n). Qed.
Print Assumptions C65_torn_file_refuted.

(** Dying between the two files while confirming: the transaction is forgotten, the change
    is not credited, and confirming again does nothing. *)
Theorem C65_crash_confirm_refuted : exists ks c b id c' c'',
  client_after quick_sha toy_pub toy_ssign ks c b /\
  c_step quick_sha toy_pub toy_ssign c (CConfirm id) = (c', CoBool true) /\
  open_client quick_sha (crash_files (save_all c) c' CrBetween) = Some c'' /\
  cl_balance c'' < cl_balance c' /\
  c_step quick_sha toy_pub toy_ssign c'' (CConfirm id) = (c'', CoBool false).
Proof. exact crash_confirm_case. Qed.
Print Assumptions C65_crash_confirm_refuted.

(** While abandoning: the coins are in neither file. *)
Theorem C65_crash_abandon_refuted : exists ks c b id tx c' c'',
  client_after quick_sha toy_pub toy_ssign ks c b /\ b_sent b !! id = Some tx /\ 0 < worth (tx_inputs tx) /\
  c_step quick_sha toy_pub toy_ssign c (CAbandon id) = (c', CoBool true) /\
  open_client quick_sha (crash_files (save_all c) c' CrBetween) = Some c'' /\
  cl_balance c'' + worth (tx_inputs tx) = cl_balance c' /\
  c_step quick_sha toy_pub toy_ssign c'' (CAbandon id) = (c'', CoBool false).
Proof. exact crash_abandon_case. Qed.
Print Assumptions C65_crash_abandon_refuted.

(** While writing the wallet file: the client opens without its coins and without a key. *)
Theorem C65_crash_wallet_refuted : exists ks c b n c'' pk sk,
  client_after quick_sha toy_pub toy_ssign ks c b /\
  (n < length (save (cl_wallet c)))%nat /\ 0 < cl_balance c /\ w_keys (cl_wallet c) !! pk = Some sk /\
  open_client quick_sha (crash_files (save_all c) c (CrWallet n)) = Some c'' /\
  cl_balance c'' = 0 /\ w_keys (cl_wallet c'') !! pk = None.
Proof. exact crash_wallet_case. Qed.
Print Assumptions C65_crash_wallet_refuted.

(** Synchronising with the shards confirms exactly the transactions for which a shard says
    yes; it succeeds if every question was answered. *)
Theorem C64_twophase sha pub_of ssign answer c c' ok :
  twophase_sync sha pub_of ssign answer c = (c', ok) ->
  (ok = true <-> forall id, cl_txs c !! id <> None \/ cl_inputs c !! id <> None -> answer id <> None) /\
  (forall id, cl_txs c' !! id = (if decide (answer id = Some true) then None else cl_txs c !! id)) /\
  (forall id, cl_inputs c' !! id = (if decide (answer id = Some true) then None else cl_inputs c !! id)) /\
  exists ids, answered_yes answer c ids /\ c' = fst (c_run sha pub_of ssign c (map CConfirm ids)).
Proof. exact (twophase_sync_spec sha pub_of ssign answer c c' ok). Qed.
Print Assumptions C64_twophase.

(** Synchronising with a watchtower confirms only transactions it says are in a block (or of
    which it lists no output at all). *)
Theorem C64_atomizer_partial sha pub_of ssign es c c' ok :
  atomizer_sync sha (Some es) c = Some (c', ok) ->
  exists done rest, es = done ++ rest /\
    c' = fst (c_run sha pub_of ssign c (map CConfirm (map fst done))) /\
    Forall (fun e => snd e = [] \/ in_a_block (snd e)) done /\
    (ok = true -> rest = []).
Proof. exact (atomizer_sync_prefix sha pub_of ssign es c c' ok). Qed.
Print Assumptions C64_atomizer_partial.
(** It confirms them all if all of them are in a block. *)
Theorem C64_atomizer_all_partial sha pub_of ssign es c : base.NoDup (map fst es) ->
  (forall e, In e es -> cl_txs c !! fst e <> None \/ cl_inputs c !! fst e <> None) ->
  Forall (fun e => in_a_block (snd e)) es ->
  atomizer_sync sha (Some es) c = Some (fst (c_run sha pub_of ssign c (map CConfirm (map fst es))), true).
Proof. exact (atomizer_sync_all sha pub_of ssign es c). Qed.
Print Assumptions C64_atomizer_all_partial.

(** Missing: a transaction that is in a block stays unconfirmed if another one, earlier in
    the reply, is in none. *)
Theorem C64_atomizer_refuted : exists ks c b es id ss c' ok,
  client_after quick_sha toy_pub toy_ssign ks c b /\
  In (id, ss) es /\ Forall (fun s => su_status s = SSpent \/ su_status s = SUnspent) ss /\ ss <> [] /\
  cl_txs c !! id <> None /\
  atomizer_sync quick_sha (Some es) c = Some (c', ok) /\ cl_txs c' !! id <> None /\
  (exists c'' ok', atomizer_sync quick_sha (Some (rev es)) c = Some (c'', ok') /\ cl_txs c'' !! id = None).
Proof. exact skipped_case. Qed.
Print Assumptions C64_atomizer_refuted.

(** An announced coin with a forged value: the transaction exists, so the forged value is
    credited. *)
Theorem C64_forged_coin_refuted : exists ks c b tx i,
  client_after quick_sha toy_pub toy_ssign ks c b /\
  op_txid (in_prevout i) = tx_id quick_sha tx /\
  ~ In (in_data i) (tx_outputs tx) /\
  total (out_values tx) < coin_value i /\
  cl_balance (fst (twophase_sync quick_sha toy_pub toy_ssign (says_yes (tx_id quick_sha tx))
                     (fst (c_step quick_sha toy_pub toy_ssign c (CImportInput i)))))
  = cl_balance c + coin_value i.
Proof. exact forged_case. Qed.
Print Assumptions C64_forged_coin_refuted.

(** A coin that the user spent before, announced again, is credited again. *)
Theorem C64_replayed_coin_refuted : exists ks c b i,
  client_after quick_sha toy_pub toy_ssign ks c b /\
  in_prevout i ∈ b_gone b /\ cl_txs c = ∅ /\ cl_spend c = ∅ /\
  cl_balance c = worth (b_own b) /\
  cl_balance (fst (twophase_sync quick_sha toy_pub toy_ssign (says_yes (op_txid (in_prevout i)))
                     (fst (c_step quick_sha toy_pub toy_ssign c (CImportInput i)))))
  = cl_balance c + coin_value i /\ 0 < coin_value i.
Proof. exact replayed_case. Qed.
Print Assumptions C64_replayed_coin_refuted.

(** Histories that meet the hypotheses: coins minted, a payment sent and confirmed with
    change, a restart, a payment abandoned, a coin received. *)
Example C56_examples :
  day_ok day2 30 30 0 = true /\ day_ok day3 10 30 2 = true /\ day_ok day5 15 15 0 = true /\
  day_ok day7 0 15 2 = true /\ day_ok day8 15 15 0 = true /\ day_ok day10 19 19 0 = true.
Proof. exact days_ok. Qed.
Example C56_example : exists c b, client_after quick_sha toy_pub toy_ssign day7 c b /\
  cl_balance c = 0 /\ worth (b_own b) = 15 /\ len (b_tied b) = 2.
Proof. exact (day_ok_after day7 0 15 2 (proj1 (proj2 (proj2 (proj2 days_ok))))). Qed.
(** The payment of day 3 meets the hypotheses of [C56_confirm], that of day 6 those of
    [C56_abandon], the one of day 3 before it is sent those of [C56_stuck]. *)
Example C56_confirm_example : let id := toy_id tx_day3 in
  exists c b tx c' o b', client_after quick_sha toy_pub toy_ssign day4 c b /\
    client_meant quick_sha c b (CConfirm id) /\ c_step quick_sha toy_pub toy_ssign c (CConfirm id) = (c', o) /\
    entered quick_sha c b (CConfirm id) o b' /\ bounded quick_sha b' /\
    b_sent b !! id = Some tx /\ b_expected b !! id = None /\
    base.NoDup (outpoints (received quick_sha (cl_wallet c) tx ++ b_own b)) /\
    received quick_sha (cl_wallet c) tx <> [].
Proof. exact (confirm_hyps_ok day4 (toy_id tx_day3) confirm_hyps_day4). Qed.
Example C56_abandon_example : let id := toy_id tx_day6 in
  exists c b tx c' o b', client_after quick_sha toy_pub toy_ssign day7 c b /\
    client_meant quick_sha c b (CAbandon id) /\ c_step quick_sha toy_pub toy_ssign c (CAbandon id) = (c', o) /\
    entered quick_sha c b (CAbandon id) o b' /\
    b_sent b !! id = Some tx /\ base.NoDup (tx_inputs tx) /\ tx_inputs tx <> [] /\
    (forall i, In i (tx_inputs tx) -> In i (b_tied b) /\ ~ spent_by_some (delete id (b_sent b)) i).
Proof. exact (abandon_hyps_ok day7 (toy_id tx_day6) abandon_hyps_day7). Qed.
Example C56_stuck_example : exists ks c b i,
  client_after quick_sha toy_pub toy_ssign ks c b /\ In i (b_tied b) /\
  (forall id tx, b_sent b !! id = Some tx -> in_prevout i ∉ outpoints (tx_inputs tx)).
Proof. exact stuck_case. Qed.
