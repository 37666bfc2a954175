(** The client: src/uhs/client/{client,twophase_client,atomizer_client}.cpp. It couples a
    wallet with the transactions it has made, sent or been told of, and keeps both in files.

    Simplifications, valid for the whole file:
    - calls are made one at a time. The client has no locks of its own; the one place where
      the code itself runs two at a time is the callback of the two-phase mint, which may
      confirm after the wait for it has timed out;
    - a file is what was last written to it; [crash_files] says what is left by a process
      that dies in the middle of writing;
    - the answers of sentinels, coordinators, shards and watchtowers are arguments. *)
From Coq Require Import NArith List Bool.
From stdpp Require Import base decidable list gmap sorting.
From Verif Require Import Base CodecModel TxModel ValidationModel WalletModel WatchtowerModel.
Import ListNotations.
Open Scope N_scope.

(** m_wallet, m_pending_txs, m_pending_inputs and m_pending_spend, client.hpp:278-295. *)
Record client := Client {
  cl_wallet : wallet;
  cl_txs : gmap N full_tx;
  cl_inputs : gmap N input;
  cl_spend : gmap N input }.
Definition cl_new : client := Client w_empty ∅ ∅ ∅.

(** The client file, client.cpp:333-345; the order of an unordered_map is that of
    map_to_list. *)
Definition c_client_file : codec ((list (N * full_tx) * list (N * input)) * list (N * input)) :=
  c_pair (c_pair (c_map c_hash c_full_tx) (c_map c_hash c_input)) (c_map c_hash c_input).
Definition save_client_state (c : client) : bytes :=
  fold_left ostream_write
    (wr c_client_file (map_to_list (cl_txs c), map_to_list (cl_inputs c), map_to_list (cl_spend c))) [].

(** The two files of a client, each of which may be missing. *)
Record files := Files { f_client : option bytes; f_wallet : option bytes }.
(** client::save, client.cpp:347-350. *)
Definition save_all (c : client) : files := Files (Some (save_client_state c)) (Some (save (cl_wallet c))).

(** What is on disk after a process died while [c] was being saved over [f]: nothing written
    yet; the client file emptied and [n] bytes of it written; all of it; the same for the
    wallet file. Both are opened with std::ios::trunc: client.cpp:334-336, wallet.cpp:310-312. *)
Inductive crash_point := CrNothing | CrClient (n : nat) | CrBetween | CrWallet (n : nat).
Definition crash_files (f : files) (c : client) (p : crash_point) : files :=
  match p with
  | CrNothing => f
  | CrClient n => Files (Some (firstn n (save_client_state c))) (f_wallet f)
  | CrBetween => Files (Some (save_client_state c)) (f_wallet f)
  | CrWallet n => Files (Some (save_client_state c)) (Some (firstn n (save (cl_wallet c))))
  end.

Section Client.
  Variable sha : bytes -> hash.
  Variable pub_of : N -> N.
  Variable ssign : N -> hash -> N.

  (** client::init up to the network, client.cpp:70-77, and load_client_state, 319-331.
      [None]: the process ends, with "Error deserializing client file" or an exception. *)
  Definition open_client (f : files) : option client :=
    match (match f_wallet f with None => Some w_empty | Some b => load sha w_empty b end) with
    | None => None
    | Some w =>
        match f_client f with
        | None => Some (Client w ∅ ∅ ∅)
        | Some b =>
            match dec c_client_file (Dst b true) with
            | Ok (txs, ins, sp) s =>
                if valid s then Some (Client w (list_to_map txs) (list_to_map ins) (list_to_map sp))
                else None
            | _ => None
            end
        end
    end.

  (** register_pending_tx, client.cpp:108-115, without the save: std::unordered_map::insert
      keeps an existing entry. *)
  Definition register_inputs (c : client) (ins : list input) : client :=
    Client (cl_wallet c) (cl_txs c) (cl_inputs c)
      (fold_left (fun m i => m_insert m (input_hash sha i) i) ins (cl_spend c)).

  (** import_transaction, client.cpp:234-237, without the save. *)
  Definition import_transaction (c : client) (tx : full_tx) : client :=
    Client (cl_wallet c) (m_insert (cl_txs c) (tx_id sha tx) tx) (cl_inputs c) (cl_spend c).

  (** check_pending, client.cpp:239-251. *)
  Definition check_pending (txs : gmap N full_tx) (i : input) : bool :=
    existsb (fun p => existsb (fun j => bool_decide (j = i)) (tx_inputs (snd p))) (map_to_list txs).

  (** One input of the loop of abandon_transaction, client.cpp:263-272. *)
  Definition release_input (txs : gmap N full_tx) (s : wallet * gmap N input) (i : input)
    : wallet * gmap N input :=
    match snd s !! (input_hash sha i : N) with
    | None => s
    | Some _ =>
        if check_pending txs i then s
        else (fst (confirm_inputs (fst s) [i]), delete (input_hash sha i : N) (snd s))
    end.
  (** abandon_transaction, client.cpp:253-279. *)
  Definition abandon_transaction (c : client) (id : N) : client * bool :=
    match cl_txs c !! id with
    | None => (c, false)
    | Some tx =>
        let txs := delete id (cl_txs c) in
        let '(w, sp) := fold_left (release_input txs) (tx_inputs tx) (cl_wallet c, cl_spend c) in
        (Client w txs (cl_inputs c) sp, true)
    end.

  (** The first half of confirm_transaction, client.cpp:285-296. *)
  Definition confirm_sent (c : client) (id : N) : client * bool :=
    match cl_txs c !! id with
    | None => (c, false)
    | Some tx =>
        (Client (fst (confirm_transaction sha (cl_wallet c) tx))
           (delete id (cl_txs c)) (cl_inputs c)
           (m_erase_all (map (input_hash sha) (tx_inputs tx)) (cl_spend c)), true)
    end.
  (** The second half, client.cpp:298-303. *)
  Definition confirm_expected (c : client) (id : N) : client * bool :=
    match cl_inputs c !! id with
    | None => (c, false)
    | Some i =>
        (Client (fst (confirm_inputs (cl_wallet c) [i])) (cl_txs c)
           (delete id (cl_inputs c)) (cl_spend c), true)
    end.
  (** confirm_transaction, client.cpp:281-308. *)
  Definition confirm_tx (c : client) (id : N) : client * bool :=
    let '(c1, b1) := confirm_sent c id in
    let '(c2, b2) := confirm_expected c1 id in
    (c2, b1 || b2).

  (** The steps that a client saves: each ends with one call of save(), except where it
      changes nothing. [CRestart]: the process ends and a new one is started.
      new_address, client.cpp:211-215; mint up to the network, 90-93; create_transaction,
      117-127; fan up to send_transaction, 152-166; import_transaction, 234-237;
      import_send_input, 202-209; confirm_transaction and abandon_transaction. *)
  Inductive ccall :=
  | CKey (rnd : N)
  | CMint (rnds : list N) (val : N)
  | CCreate (value payee rnd : N)
  | CFan (count value payee rnd : N)
  | CImportTx (tx : full_tx)
  | CImportInput (i : input)
  | CConfirm (id : N)
  | CAbandon (id : N)
  | CRestart.

  (** What a step returns: a transaction or its absence, a key, success, nothing; or the
      process ends. *)
  Inductive cout :=
  | CoTx (r : wres) | CoKey (pk : N) | CoBool (b : bool) | CoNone | CoExit.

  Definition with_wallet (c : client) (w : wallet) : client :=
    Client w (cl_txs c) (cl_inputs c) (cl_spend c).
  (** The end of create_transaction and of the first half of fan. *)
  Definition made (c : client) (w : wallet) (r : wres) : client * cout :=
    match r with
    | Built tx => (register_inputs (with_wallet c w) (tx_inputs tx), CoTx r)
    | _ => (with_wallet c w, CoTx r)
    end.
  Definition c_step (c : client) (k : ccall) : client * cout :=
    match k with
    | CKey r => let '(w, pk) := generate_key sha pub_of (cl_wallet c) r in (with_wallet c w, CoKey pk)
    | CMint rs v => let '(w, tx) := mint_new_coins sha pub_of (cl_wallet c) rs v in
                    (import_transaction (with_wallet c w) tx, CoTx (Built tx))
    | CCreate v p r => let '(w, o) := send_to sha pub_of ssign (cl_wallet c) v p true r in made c w o
    | CFan n v p r => let '(w, o) := fan sha pub_of ssign (cl_wallet c) n v p true r in made c w o
    | CImportTx tx => (import_transaction c tx, CoNone)
    | CImportInput i => (if is_spendable (cl_wallet c) i
                         then Client (cl_wallet c) (cl_txs c)
                                (m_insert (cl_inputs c) (op_txid (in_prevout i)) i) (cl_spend c)
                         else c, CoNone)
    | CConfirm id => let '(c', b) := confirm_tx c id in (c', CoBool b)
    | CAbandon id => let '(c', b) := abandon_transaction c id in (c', CoBool b)
    | CRestart => match open_client (save_all c) with
                  | Some c' => (c', CoNone)
                  | None => (c, CoExit)
                  end
    end.
  Fixpoint c_run (c : client) (ks : list ccall) : client * list cout :=
    match ks with
    | [] => (c, [])
    | k :: r => let '(c1, o) := c_step c k in
                let '(c2, os) := c_run c1 r in (c2, o :: os)
    end.

  (** send_transaction, client.cpp:177-198. [ans]: no answer from the sentinel, or whether its
      answer is [tx_status::confirmed]. *)
  Definition send_transaction (c : client) (tx : full_tx) (ans : option bool) : client :=
    let c1 := fst (c_step c (CImportTx tx)) in
    match ans with
    | Some true => fst (c_step c1 (CConfirm (tx_id sha tx)))
    | _ => c1
    end.
  (** send, client.cpp:129-150. *)
  Definition client_send (c : client) (value payee rnd : N) (ans : option bool) : client * wres :=
    match c_step c (CCreate value payee rnd) with
    | (c1, CoTx (Built tx)) => (send_transaction c1 tx ans, Built tx)
    | (c1, CoTx r) => (c1, r)
    | (c1, _) => (c1, NoTx)
    end.

  (** client::balance, utxo_count, pending_tx_count, pending_input_count,
      client.cpp:217-232. *)
  Definition cl_balance (c : client) : N := balance (cl_wallet c).
  Definition cl_count (c : client) : N := count (cl_wallet c).
  Definition pending_tx_count (c : client) : N := N.of_nat (size (cl_txs c)).
  Definition pending_input_count (c : client) : N := N.of_nat (size (cl_inputs c)).

  (** twophase_client::sync, twophase_client.cpp:36-63. The keys go through a std::set: they
      come in ascending order. [answer id]: what the shard says, or nothing in time. *)
  Definition pending_ids (c : client) : list N :=
    merge_sort N.le (elements (base.dom (cl_txs c) ∪ base.dom (cl_inputs c) : gset N)).
  Definition sync_one (answer : N -> option bool) (s : client * bool) (id : N) : client * bool :=
    match answer id with
    | None => (fst s, false)
    | Some true => (fst (c_step (fst s) (CConfirm id)), snd s)
    | Some false => s
    end.
  Definition twophase_sync (answer : N -> option bool) (c : client) : client * bool :=
    fold_left (sync_one answer) (pending_ids c) (c, true).

  (** atomizer_client::sync, atomizer_client.cpp:39-88. What is asked: for a sent transaction
      the IDs of its compact form; for an expected coin its hash, unless the transaction is
      already asked about. *)
  Definition sync_request (c : client) : gmap N (list N) :=
    ((fun tx => ctx_inputs (to_compact sha tx) ++ ctx_outputs (to_compact sha tx)) <$> cl_txs c)
    ∪ ((fun i => [input_hash sha i]) <$> cl_inputs c).
  (** The loop over the states of one transaction, atomizer_client.cpp:70-82: it stops at the
      first one that is spent or unspent; [success] is cleared by every other. *)
  Fixpoint sync_states (success : bool) (ss : list status_state) : bool :=
    match ss with
    | [] => success
    | s :: r => match su_status s with
                | SUnspent | SSpent => success
                | _ => sync_states false r
                end
    end.
  Definition sync_reply (s : client * bool) (e : N * list status_state) : client * bool :=
    if sync_states (snd s) (snd e)
    then let '(c, b) := confirm_tx (fst s) (fst e) in (c, b)
    else (fst s, false).
  (** [reply]: the states, in the order the map is iterated in; [None]: there is no reply, and
      the code follows a null pointer (line 68). *)
  Definition atomizer_sync (reply : option (list (N * list status_state))) (c : client)
    : option (client * bool) :=
    match reply with
    | None => None
    | Some es => Some (fold_left sync_reply es (c, true))
    end.
End Client.
