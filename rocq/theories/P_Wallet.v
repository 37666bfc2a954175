(** Property theorems: the wallet (C30, C31). *)
From Coq Require Import NArith List Bool Permutation.
From stdpp Require Import base decidable list gmap.
From Verif Require Import Base CodecModel TxModel TxExamples ValidationModel ValidationSpec WalletModel WalletSpec
  WalletProofs WalletExamples.
Import ListNotations.
Open Scope N_scope.

(** C30: after any history of calls, used as meant, the balance is what the coins credited
    and not yet spent are worth, each counted once, and the count is their number. *)
Theorem C30_balance sha pub_of ssign cs w held : wallet_after sha pub_of ssign cs w held ->
  balance w = total (map coin_value held) /\ base.NoDup (map in_prevout held) /\
  (len held < 2 ^ 64 -> count w = len held).
Proof. exact (wallet_balance sha pub_of ssign cs w held). Qed.
Print Assumptions C30_balance.

(** ... and no such call fails an assertion, throws, divides by zero or leaves a file that
    cannot be read. *)
Theorem C30_no_failure sha pub_of ssign cs w held c w' o : wallet_after sha pub_of ssign cs w held ->
  meant sha pub_of w held c -> w_step sha pub_of ssign w c = (w', o) ->
  worth (held_after sha pub_of w held c o) < 2 ^ 64 -> fine o.
Proof. exact (wallet_fine sha pub_of ssign cs w held c w' o). Qed.
Print Assumptions C30_no_failure.

(** A wallet read back from its file has the same coins and the same keys. *)
Theorem C30_restart sha pub_of ssign cs w held : wallet_after sha pub_of ssign cs w held ->
  w_from w = w_to w -> file_typed w ->
  exists w', load sha w_empty (save w) = Some w' /\
    balance w' = balance w /\ count w' = count w /\
    w_keys w' = w_keys w /\ (forall c, is_ours w' c = is_ours w c) /\
    wallet_after sha pub_of ssign (cs ++ [WRestart]) w' held.
Proof. exact (wallet_restart sha pub_of ssign cs w held). Qed.
Print Assumptions C30_restart.

(** What goes wrong outside of that. A confirmed transaction that spends a coin the wallet
    still holds fails the assertion of update_balance; a build without assertions goes on,
    offers the spent coin again and its balance wraps below zero. *)
Theorem C30_foreign_debit_refuted : exists cs w held w1 w2 tx2,
  wallet_after quick_sha toy_pub toy_ssign cs w held /\ In first_coin held /\
  step_toy w (WConfirmTx foreign) = (w1, OAssert false) /\ balance w1 = 20 /\ count w1 = 2 /\
  step_toy w1 (WSend 30 98 true 41) = (w2, OTx (Built tx2)) /\ In first_coin (tx_inputs tx2) /\
  balance w2 = 2 ^ 64 - 10.
Proof. exact foreign_debit_case. Qed.
Print Assumptions C30_foreign_debit_refuted.

(** The amount taken off the balance is the one the transaction claims for the coin. *)
Theorem C30_debit_value_refuted : exists cs w held w1 o,
  wallet_after quick_sha toy_pub toy_ssign cs w held /\ worth held = 30 /\ len held = 3 /\
  step_toy w (WConfirmTx foreign25) = (w1, o) /\ count w1 = 2 /\ balance w1 = 5.
Proof. exact debit_value_case. Qed.
Print Assumptions C30_debit_value_refuted.

(** Seeded coins do not survive a restart, and the wallet cannot be seeded again. *)
Theorem C30_seed_restart_refuted : exists cs w held w1,
  wallet_after quick_sha toy_pub toy_ssign cs w held /\ balance w = 28 /\
  step_toy w WRestart = (w1, ONone) /\ balance w1 = 0 /\
  forall sk v f t, snd (step_toy w1 (WSeed sk v f t)) = OBool false.
Proof. exact seed_restart_case. Qed.
Print Assumptions C30_seed_restart_refuted.

(** Two coins worth 2^64 together show as a balance of zero. *)
Theorem C30_overflow_refuted : exists w1,
  step_toy w_empty (WConfirmInputs [coin 1 (2 ^ 63); coin 2 (2 ^ 63)]) = (w1, OAssert true) /\
  count w1 = 2 /\ balance w1 = 0.
Proof. exact overflow_case. Qed.
Print Assumptions C30_overflow_refuted.

(** A truncated wallet file is loaded without a word, with coins missing. *)
Theorem C30_truncated_file_refuted : exists cs w held w1,
  wallet_after quick_sha toy_pub toy_ssign cs w held /\ balance w = 30 /\
  load quick_sha w_empty (firstn (length (save w) - 1) (save w)) = Some w1 /\ balance w1 = 20.
Proof. exact truncated_case. Qed.
Print Assumptions C30_truncated_file_refuted.

(** C31: sending builds a transaction exactly if the coins suffice; it pays the payee the
    amount, gives the rest back to the wallet, is made of different coins of the wallet,
    conserves value, and takes the coins it uses off the balance. Otherwise nothing changes. *)
Theorem C31_send sha pub_of ssign cs w held amount payee s rnd w' r :
  wallet_after sha pub_of ssign cs w held ->
  amount < 2 ^ 32 -> send_to sha pub_of ssign w amount payee s rnd = (w', r) ->
  (r = NoTx /\ w' = w /\ worth held < amount) \/
  (exists tx change, r = Built tx /\ amount <= worth held /\
     tx_outputs tx = Output (get_p2pk_witness_commitment sha payee) amount :: change /\
     change_ok w' change /\ built_from w held w' tx).
Proof. exact (wallet_send sha pub_of ssign cs w held amount payee s rnd w' r). Qed.
Print Assumptions C31_send.

Theorem C31_fan sha pub_of ssign cs w held n v payee s rnd w' r :
  wallet_after sha pub_of ssign cs w held ->
  n * v < 2 ^ 64 -> fan sha pub_of ssign w n v payee s rnd = (w', r) ->
  (r = NoTx /\ w' = w /\ worth held < n * v) \/
  (exists tx change, r = Built tx /\ n * v <= worth held /\
     tx_outputs tx = change ++ repeat (Output (get_p2pk_witness_commitment sha payee) v) (N.to_nat n) /\
     change_ok w' change /\ built_from w held w' tx).
Proof. exact (wallet_fan sha pub_of ssign cs w held n v payee s rnd w' r). Qed.
Print Assumptions C31_fan.

(** Sending a number of coins as a number of outputs: everything goes to the payee, in equal
    parts but for the last, which takes the remainder. *)
Theorem C31_send_coins sha pub_of ssign cs w held ic oc payee s w' r :
  wallet_after sha pub_of ssign cs w held ->
  0 < ic < 2 ^ 64 -> 0 < oc < 2 ^ 64 -> len held < 2 ^ 64 ->
  send_n sha ssign w ic oc payee s = (w', r) ->
  (r = NoTx /\ w' = w /\
    (len held < ic \/
     exists ins rest, Permutation held (ins ++ rest) /\ len ins = ic /\ worth ins < oc /\ 1 < oc)) \/
  (exists tx last, r = Built tx /\ len (tx_inputs tx) = ic /\
     let val := total (in_values tx) / oc in
     let pay := Output (get_p2pk_witness_commitment sha payee) in
     tx_outputs tx = repeat (pay val) (N.to_nat (oc - 1)) ++ [pay last] /\
     val <= last /\ (1 <= val \/ oc = 1) /\ built_from w held w' tx).
Proof. exact (wallet_send_n sha pub_of ssign cs w held ic oc payee s w' r). Qed.
Print Assumptions C31_send_coins.

(** A signed transaction of the wallet passes validation, if its coins are the wallet's and
    not of value zero. *)
Theorem C31_send_accepted sha pub_of ssign pk_parse schnorr cs w held amount payee rnd w' tx :
  keys_sound pub_of ssign pk_parse schnorr -> wallet_after sha pub_of ssign cs w held ->
  0 < amount < 2 ^ 32 -> (forall i, In i held -> is_spendable w i = true /\ 1 <= coin_value i) ->
  send_to sha pub_of ssign w amount payee true rnd = (w', Built tx) ->
  check_tx sha pk_parse schnorr tx = Accepted.
Proof. exact (wallet_send_accepted sha pub_of ssign pk_parse schnorr cs w held amount payee rnd w' tx). Qed.
Print Assumptions C31_send_accepted.
Theorem C31_fan_accepted sha pub_of ssign pk_parse schnorr cs w held n v payee rnd w' tx :
  keys_sound pub_of ssign pk_parse schnorr -> wallet_after sha pub_of ssign cs w held ->
  0 < n -> 0 < v -> n * v < 2 ^ 64 ->
  (forall i, In i held -> is_spendable w i = true /\ 1 <= coin_value i) ->
  fan sha pub_of ssign w n v payee true rnd = (w', Built tx) ->
  check_tx sha pk_parse schnorr tx = Accepted.
Proof. exact (wallet_fan_accepted sha pub_of ssign pk_parse schnorr cs w held n v payee rnd w' tx). Qed.
Print Assumptions C31_fan_accepted.
Theorem C31_send_coins_accepted sha pub_of ssign pk_parse schnorr cs w held ic oc payee w' tx :
  keys_sound pub_of ssign pk_parse schnorr -> wallet_after sha pub_of ssign cs w held ->
  0 < ic < 2 ^ 64 -> 0 < oc < 2 ^ 64 -> len held < 2 ^ 64 ->
  (forall i, In i held -> is_spendable w i = true /\ 1 <= coin_value i) ->
  send_n sha ssign w ic oc payee true = (w', Built tx) ->
  check_tx sha pk_parse schnorr tx = Accepted.
Proof. exact (wallet_send_n_accepted sha pub_of ssign pk_parse schnorr cs w held ic oc payee w' tx). Qed.
Print Assumptions C31_send_coins_accepted.

(** Confirming what was sent: the wallet is poorer by the amount, unless it paid itself. *)
Theorem C31_send_confirm sha pub_of ssign cs w held amount payee s rnd w' tx :
  wallet_after sha pub_of ssign cs w held ->
  amount < 2 ^ 32 -> send_to sha pub_of ssign w amount payee s rnd = (w', Built tx) ->
  (forall c, In c held -> op_txid (in_prevout c) <> tx_id sha tx) ->
  exists w'', confirm_transaction sha w' tx = (w'', true) /\
    balance w'' + (if is_ours w' (get_p2pk_witness_commitment sha payee) then 0 else amount) = balance w.
Proof. exact (wallet_send_confirm sha pub_of ssign cs w held amount payee s rnd w' tx). Qed.
Print Assumptions C31_send_confirm.

(** Sending nothing builds a transaction that validation rejects. *)
Theorem C31_send_zero_refuted : exists cs w held w1 tx,
  wallet_after quick_sha toy_pub toy_ssign cs w held /\ worth held = 30 /\
  step_toy w (WSend 0 99 true 1) = (w1, OTx (Built tx)) /\
  check_tx quick_sha (fun _ => true) toy_schnorr tx = Rejected (TxError no_inputs).
Proof. exact send_zero_case. Qed.
Print Assumptions C31_send_zero_refuted.

(** fan computes the amount modulo 2^64: an empty wallet pays out 2^33 outputs. *)
Theorem C31_fan_wrap_refuted sha pub_of ssign : exists n v w1 tx,
  n < 2 ^ 64 /\ v < 2 ^ 32 /\
  fan sha pub_of ssign w_empty n v 99 false 0 = (w1, Built tx) /\
  tx_inputs tx = [] /\ len (tx_outputs tx) = n /\ 1 <= v.
Proof. exact (fan_wrap_case sha pub_of ssign). Qed.
Print Assumptions C31_fan_wrap_refuted.

(** Histories that meet the hypotheses: with minted, sent, fanned out and seeded coins. *)
Example C30_examples :
  life_ok life2 30 3 = true /\ life_ok life3 10 1 = true /\ life_ok life4 15 2 = true /\
  life_ok life6 15 4 = true /\ life_ok life7 2 1 = true /\
  life_ok seeded1 28 4 = true /\ life_ok seeded2 14 2 = true /\ life_ok seeded3 0 0 = true.
Proof. exact lives_ok. Qed.
Example C30_example : exists w held, wallet_after quick_sha toy_pub toy_ssign life6 w held /\
  balance w = 15 /\ count w = 4 /\ worth held = 15 /\ len held = 4.
Proof. exact (life_ok_after life6 15 4 (proj1 (proj2 (proj2 (proj2 lives_ok))))). Qed.
Example C31_example : keys_sound toy_pub toy_ssign (fun _ => true) toy_schnorr /\
  (exists w held, wallet_after quick_sha toy_pub toy_ssign life2 w held /\
     forall i, In i held -> is_spendable w i = true /\ 1 <= coin_value i).
Proof. exact (conj toy_keys_sound (ready_hyps life2 (proj1 builds_ok))). Qed.
Example C31_examples :
  ready life2 = true /\ length (tx_inputs tx_life3) = 2%nat /\ accepted tx_life3 = true /\
  ready life4 = true /\ length (tx_outputs tx_life5) = 4%nat /\ accepted tx_life5 = true /\
  ready life6 = true /\ length (tx_inputs tx_life7) = 3%nat /\ accepted tx_life7 = true /\
  ready seeded1 = true /\ accepted tx_seeded2 = true /\ accepted tx_seeded3 = true.
Proof. exact builds_ok. Qed.
