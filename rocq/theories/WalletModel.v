(** The wallet: src/uhs/transaction/wallet.{hpp,cpp}.

    Every public method takes the locks it needs for the whole of its effect on the
    coins (m_utxos_mut) and on the keys (m_keys_mut), which no method nests, so the methods
    are modelled as atomic steps. The random draws of generate_key are parameters. *)
From Coq Require Import NArith List Bool.
From stdpp Require Import base decidable list gmap.
From Verif Require Import Base CodecModel TxModel ValidationModel.
Import ListNotations.
Open Scope N_scope.

(** Members of wallet, wallet.hpp:203-246. m_utxos_set is the list of its elements in
    iteration order (the order of cmp_input); m_keys and m_witness_programs are maps. *)
Record wallet := Wallet {
  w_balance : N;
  w_utxos : list input;
  w_from : N; w_to : N; w_seed_value : N; w_seed_commit : hash;
  w_queue : list input;
  w_keys : gmap N N;
  w_pubkeys : list N;
  w_progs : gmap N N }.

Definition w_empty : wallet := Wallet 0 [] 0 0 0 0 [] ∅ [] ∅.

(** cmp_input, wallet.hpp:207-213. The bytes of a hash compare as its number. *)
Definition cmp_input (a b : input) : bool :=
  (op_txid (in_prevout a) <? op_txid (in_prevout b)) ||
  ((op_txid (in_prevout a) =? op_txid (in_prevout b)) &&
   (op_index (in_prevout a) <? op_index (in_prevout b))).

(** Two inputs are the same element of the set if neither is less than the other: the
    outpoints agree. *)
Definition us_mem (x : input) (s : list input) : bool :=
  existsb (fun y => bool_decide (in_prevout y = in_prevout x)) s.
(** std::set::insert of a new element keeps the order. *)
Fixpoint us_place (x : input) (s : list input) : list input :=
  match s with
  | [] => [x]
  | y :: r => if cmp_input x y then x :: s else y :: us_place x r
  end.
Definition us_insert (x : input) (s : list input) : list input * bool :=
  if us_mem x s then (s, false) else (us_place x s, true).
(** std::set::erase. *)
Definition us_erase (x : input) (s : list input) : list input :=
  List.filter (fun y => negb (bool_decide (in_prevout y = in_prevout x))) s.

Definition coin_value (i : input) : N := out_value (in_data i).

(** The coins half of a wallet, replaced. *)
Definition with_coins (w : wallet) (bal : N) (us : list input) (from : N) (q : list input) : wallet :=
  Wallet bal us from (w_to w) (w_seed_value w) (w_seed_commit w) q (w_keys w) (w_pubkeys w) (w_progs w).

(** What a call returns: a transaction, std::nullopt, an exception of m_keys.at, or the
    division by zero of line 407 (undefined behaviour). *)
Inductive wres := Built (tx : full_tx) | NoTx | OutOfRange | DivByZero.

(** sig_len, src/util/common/keys.hpp. *)
Definition sig_len : nat := 64.

Section Wallet.
  Variable sha : bytes -> hash.
  (** pubkey_from_privkey, src/util/common/keys.cpp:12-29. *)
  Variable pub_of : N -> N.
  (** secp256k1_schnorrsig_sign of (private key, message). *)
  Variable ssign : N -> hash -> N.

  Definition commit_of (pk : N) : N := get_p2pk_witness_commitment sha pk.

  (** The new-key half of generate_key, wallet.cpp:140-153, and of seed,
      wallet.cpp:244-254: std::unordered_map::insert keeps an existing entry. *)
  Definition add_key (w : wallet) (sk : N) : wallet :=
    let pk := pub_of sk in
    Wallet (w_balance w) (w_utxos w) (w_from w) (w_to w) (w_seed_value w) (w_seed_commit w)
      (w_queue w)
      (match w_keys w !! pk with Some _ => w_keys w | None => <[pk := sk]> (w_keys w) end)
      (w_pubkeys w ++ [pk])
      (match w_progs w !! commit_of pk with
       | Some _ => w_progs w | None => <[commit_of pk := pk]> (w_progs w) end).

  Definition max_keys : N := 10000.

  (** wallet::generate_key, wallet.cpp:124-156. [rnd]: the index drawn among the existing
      keys, or the new private key. The index is below m_keys.size(), which is at most
      m_pubkeys.size(). *)
  Definition generate_key (w : wallet) (rnd : N) : wallet * N :=
    if max_keys <? N.of_nat (size (w_keys w))
    then (w, nth (N.to_nat (rnd mod N.of_nat (size (w_keys w)))) (w_pubkeys w) 0)
    else (add_key w rnd, pub_of rnd).

  (** wallet::mint_new_coins, wallet.cpp:25-44: one draw per output. *)
  Fixpoint mint_outputs (w : wallet) (rnds : list N) (val : N) : wallet * list output :=
    match rnds with
    | [] => (w, [])
    | r :: rs => let '(w1, pk) := generate_key w r in
                 let '(w2, os) := mint_outputs w1 rs val in
                 (w2, Output (commit_of pk) val :: os)
    end.
  Definition mint_new_coins (w : wallet) (rnds : list N) (val : N) : wallet * full_tx :=
    let '(w', os) := mint_outputs w rnds val in (w', FullTx [] os []).

  (** wallet::create_seeded_transaction, wallet.cpp:82-98, and create_seeded_input,
      wallet.cpp:100-107, for a wallet whose seed range is not empty. *)
  Definition seeded_tx (w : wallet) (idx : N) : full_tx :=
    FullTx [Input (OutPoint 0 idx) (Output 0 (w_seed_value w))]
           [Output (w_seed_commit w) (w_seed_value w)] [].
  Definition create_seeded_transaction (w : wallet) (idx : N) : option full_tx :=
    if w_from w =? w_to w then None else Some (seeded_tx w idx).
  Definition seeded_input (w : wallet) (idx : N) : input :=
    Input (OutPoint (tx_id sha (seeded_tx w idx)) 0) (Output (w_seed_commit w) (w_seed_value w)).

  (** wallet::export_send_inputs, wallet.cpp:109-122. *)
  Fixpoint outputs_from (tx : full_tx) (keep : output -> bool) (i : N) (os : list output) : list input :=
    match os with
    | [] => []
    | o :: r => (if keep o then [Input (OutPoint (tx_id sha tx) i) o] else [])
                ++ outputs_from tx keep (i + 1) r
    end.
  Definition export_send_inputs (tx : full_tx) (payee : N) : list input :=
    outputs_from tx (fun o => out_commit o =? commit_of payee) 0 (tx_outputs tx).

  (** wallet::is_spendable, wallet.cpp:536-546. *)
  Definition is_ours (w : wallet) (c : N) : bool :=
    match w_progs w !! (c : N) with Some _ => true | None => false end.
  Definition is_spendable (w : wallet) (i : input) : bool := is_ours w (out_commit (in_data i)).

  (** std::vector::resize of the witness, wallet.cpp:161. *)
  Definition resize_wit (ws : list bytes) (n : nat) : list bytes :=
    firstn n ws ++ repeat [] (n - length ws).
  (** One round of the loop of sign, wallet.cpp:163-212; [None]: m_keys.at throws. *)
  Definition sign_one (w : wallet) (msg : hash) (i : input) (wit : bytes) : option bytes :=
    match w_progs w !! (out_commit (in_data i) : N) with
    | None => Some wit
    | Some pk => match w_keys w !! (pk : N) with
                 | None => None
                 | Some sk => Some (0 :: be_bytes 32 pk ++ be_bytes 64 (ssign sk msg))
                 end
    end.
  Fixpoint sign_all (w : wallet) (msg : hash) (is : list input) (ws : list bytes) : option (list bytes) :=
    match is, ws with
    | i :: ir, wit :: wr =>
        match sign_one w msg i wit, sign_all w msg ir wr with
        | Some b, Some r => Some (b :: r)
        | _, _ => None
        end
    | _, _ => Some []
    end.
  (** wallet::sign, wallet.cpp:158-213. *)
  Definition sign (w : wallet) (tx : full_tx) : option full_tx :=
    match sign_all w (tx_id sha tx) (tx_inputs tx)
            (resize_wit (tx_witness tx) (length (tx_inputs tx))) with
    | Some ws => Some (FullTx (tx_inputs tx) (tx_outputs tx) ws)
    | None => None
    end.
  (** The end of send_to and fan: "if(sign_tx) sign(ret)". *)
  Definition finish_tx (w : wallet) (do_sign : bool) (tx : full_tx) : wres :=
    if do_sign then match sign w tx with Some t => Built t | None => OutOfRange end
    else Built tx.

  (** wallet::update_balance, wallet.cpp:215-234. The boolean is the condition of the
      assertion of line 233, which a release build does not check. *)
  Definition credit_one (w : wallet) (i : input) : wallet :=
    let '(us, added) := us_insert i (w_utxos w) in
    if added then with_coins w (add64 (w_balance w) (coin_value i)) us (w_from w) (w_queue w ++ [i])
    else w.
  Definition debit_one (w : wallet) (i : input) : wallet :=
    if us_mem i (w_utxos w)
    then with_coins w (sub64 (w_balance w) (coin_value i)) (us_erase i (w_utxos w)) (w_from w) (w_queue w)
    else w.
  Definition update_balance (w : wallet) (credits debits : list input) : wallet * bool :=
    let w' := fold_left debit_one debits (fold_left credit_one credits w) in
    (w', Nat.eqb (length (w_queue w')) (length (w_utxos w'))).

  (** wallet::seed_readonly, wallet.cpp:260-268. *)
  Definition seed_readonly (w : wallet) (commit : hash) (val from to : N) : wallet :=
    Wallet (w_balance w) (w_utxos w) from to val commit (w_queue w)
      (w_keys w) (w_pubkeys w) (w_progs w).
  (** wallet::seed, wallet.cpp:236-258. *)
  Definition seed (w : wallet) (sk val from to : N) : wallet * bool :=
    if to <=? from then (w, false)
    else if negb (Nat.eqb (size (w_keys w)) 0) then (w, false)
    else (seed_readonly (add_key w sk) (commit_of (pub_of sk)) val from to, true).

  (** wallet::confirm_transaction, wallet.cpp:270-286; confirm_inputs, 449-452. *)
  Definition own_outputs (w : wallet) (tx : full_tx) : list input :=
    outputs_from tx (fun o => is_ours w (out_commit o)) 0 (tx_outputs tx).
  Definition confirm_transaction (w : wallet) (tx : full_tx) : wallet * bool :=
    update_balance w (own_outputs w tx) (tx_inputs tx).
  Definition confirm_inputs (w : wallet) (credits : list input) : wallet * bool :=
    update_balance w credits [].

  (** wallet::balance and count, wallet.cpp:288-305; size_t has 64 bits. *)
  Definition balance (w : wallet) : N :=
    if w_from w =? w_to w then w_balance w
    else add64 (w_balance w) (mul64 (sub64 (w_to w) (w_from w)) (w_seed_value w)).
  Definition count (w : wallet) : N :=
    if w_from w =? w_to w then len (w_utxos w)
    else add64 (len (w_utxos w)) (sub64 (w_to w) (w_from w)).

  (** wallet::save, wallet.cpp:307-327, to a file that can be written: the keys, then the
      coins. The order of an unordered_map is that of map_to_list. *)
  Definition c_wallet_file : codec (list (N * N) * list input) :=
    c_pair (c_map c_pubkey c_hash) (c_oset c_input).
  Definition save (w : wallet) : bytes :=
    fold_left ostream_write (wr c_wallet_file (map_to_list (w_keys w), w_utxos w)) [].
  (** wallet::load, wallet.cpp:329-364, of an existing file; the seed range stays what it
      was. What was read before the end of a truncated file is used (nothing looks at the
      state of the serializer). [None]: reading throws. *)
  Definition load_key (acc : gmap N N * list N * gmap N N) (k : N * N) : gmap N N * list N * gmap N N :=
    let '(m, pks, ps) := acc in
    let '(pk, sk) := k in
    (<[pk := sk]> m, pks ++ [pk],
     match ps !! commit_of pk with Some _ => ps | None => <[commit_of pk := pk]> ps end).
  Definition load_keys (ks : list (N * N)) : gmap N N * list N * gmap N N :=
    fold_left load_key ks (∅, [], ∅).
  Definition load (w : wallet) (file : bytes) : option wallet :=
    match dec c_wallet_file (Dst file true) with
    | Ok (ks, us) _ =>
        let '(m, pks, ps) := load_keys ks in
        let us' := fold_left (fun s x => fst (us_insert x s)) us [] in
        Some (Wallet (fold_left (fun b x => add64 b (coin_value x)) us' 0) us'
                (w_from w) (w_to w) (w_seed_value w) (w_seed_commit w) us' m pks ps)
    | _ => None
    end.

  (** The loop over the seed range, wallet.cpp:501-511: [n] indices are left, starting
      with [idx]. *)
  Fixpoint take_seeds (w : wallet) (n : nat) (idx total amount : N) : list input * N * N :=
    match n with
    | O => ([], idx, total)
    | S n' =>
        if total <? amount then
          let '(is, idx', total') :=
            take_seeds w n' (add64 idx 1) (add64 total (w_seed_value w)) amount in
          (seeded_input w idx :: is, idx', total')
        else ([], idx, total)
    end.
  (** The loop over the spend queue, wallet.cpp:513-519. *)
  Fixpoint take_queue (q : list input) (total amount : N) : list input * N :=
    match q with
    | [] => ([], total)
    | u :: r =>
        if total <? amount then
          let '(is, total') := take_queue r (add64 total (coin_value u)) amount in
          (u :: is, total')
        else ([], total)
    end.
  (** The loop that removes the used coins, wallet.cpp:526-531 and 415-420: the [n] coins
      at the front of the queue, which are the inputs just collected. *)
  Fixpoint drop_used (n : nat) (w : wallet) : wallet :=
    match n with
    | O => w
    | S n' =>
        match w_queue w with
        | [] => w
        | u :: q => drop_used n' (with_coins w (sub64 (w_balance w) (coin_value u))
                                    (us_erase u (w_utxos w)) (w_from w) q)
        end
    end.
  Definition seeds_left (w : wallet) : nat := N.to_nat (sub64 (w_to w) (w_from w)).
  (** wallet::accumulate_inputs, wallet.cpp:494-534. Each input comes with a witness of
      sig_len zero bytes. *)
  Definition accumulate_inputs (w : wallet) (amount : N)
    : wallet * option (list input * list bytes * N) :=
    let '(ss, from', t1) := take_seeds w (seeds_left w) (w_from w) 0 amount in
    let '(us, t2) := take_queue (w_queue w) t1 amount in
    if t2 <? amount then (w, None)
    else (drop_used (length us)
            (with_coins w (w_balance w) (w_utxos w) from' (w_queue w)),
          Some (ss ++ us, map (fun _ => repeat 0 sig_len) (ss ++ us), t2)).

  (** wallet::send_to(amount, payee), wallet.cpp:46-80. *)
  Definition send_to (w : wallet) (amount payee : N) (do_sign : bool) (rnd : N) : wallet * wres :=
    match accumulate_inputs w amount with
    | (w1, None) => (w1, NoTx)
    | (w1, Some (ins, wits, total)) =>
        let dest := Output (commit_of payee) amount in
        let '(w2, outs) :=
          if amount <? total then
            let '(w2, pk) := generate_key w1 rnd in
            (w2, [dest; Output (commit_of pk) (sub64 total amount)])
          else (w1, [dest]) in
        (w2, finish_tx w2 do_sign (FullTx ins outs wits))
    end.

  (** wallet::fan, wallet.cpp:454-492. *)
  Definition fan (w : wallet) (output_count val payee : N) (do_sign : bool) (rnd : N)
    : wallet * wres :=
    let amount := mul64 output_count val in
    match accumulate_inputs w amount with
    | (w1, None) => (w1, NoTx)
    | (w1, Some (ins, wits, total)) =>
        let '(w2, change) :=
          if amount <? total then
            let '(w2, pk) := generate_key w1 rnd in
            (w2, [Output (commit_of pk) (sub64 total amount)])
          else (w1, []) in
        let outs := change ++ repeat (Output (commit_of payee) val) (N.to_nat output_count) in
        (w2, finish_tx w2 do_sign (FullTx ins outs wits))
    end.

  (** wallet::send_to(input_count, output_count, payee), wallet.cpp:366-447. The loops of
      lines 385-405 stop when there are input_count inputs. *)
  Fixpoint first_seeds (w : wallet) (n : nat) (idx total : N) : list input * N * N :=
    match n with
    | O => ([], idx, total)
    | S n' => let '(is, idx', total') :=
                first_seeds w n' (add64 idx 1) (add64 total (w_seed_value w)) in
              (seeded_input w idx :: is, idx', total')
    end.
  (** The loop of lines 426-437: [n] outputs of [val], the last one takes the rest. *)
  Fixpoint split_outputs (n : nat) (commit : hash) (val total : N) : list output :=
    match n with
    | O => []
    | S O => [Output commit total]
    | S n' => Output commit val :: split_outputs n' commit val (sub64 total val)
    end.
  Definition send_n (w : wallet) (input_count output_count payee : N) (do_sign : bool) : wallet * wres :=
    if sub64 (add64 (len (w_utxos w)) (w_to w)) (w_from w) <? input_count then (w, NoTx)
    else
      let ns := Nat.min (seeds_left w) (N.to_nat input_count) in
      let '(ss, from', t1) := first_seeds w ns (w_from w) 0 in
      let us := firstn (N.to_nat input_count - ns) (w_queue w) in
      let total := fold_left (fun t u => add64 t (coin_value u)) us t1 in
      if output_count =? 0 then (w, DivByZero)
      else if (total / output_count =? 0) && (1 <? output_count) then (w, NoTx)
      else
        let w1 := drop_used (length us) (with_coins w (w_balance w) (w_utxos w) from' (w_queue w)) in
        let tx := FullTx (ss ++ us)
                    (split_outputs (N.to_nat output_count) (commit_of payee) (total / output_count) total)
                    (map (fun _ => repeat 0 sig_len) ss) in
        (w1, finish_tx w1 do_sign tx).

  (** The public calls that change a wallet. [WRestart]: save, and load into a new wallet
      object (client::save, client::init: src/uhs/client/client.cpp:70-75 and 290-293). *)
  Inductive wcall :=
  | WKey (rnd : N)
  | WMint (rnds : list N) (val : N)
  | WSend (amount payee : N) (do_sign : bool) (rnd : N)
  | WSendN (input_count output_count payee : N) (do_sign : bool)
  | WFan (output_count val payee : N) (do_sign : bool) (rnd : N)
  | WConfirmTx (tx : full_tx)
  | WConfirmInputs (credits : list input)
  | WSeed (sk val from to : N)
  | WSeedReadonly (commit : hash) (val from to : N)
  | WRestart.

  (** What is returned: a transaction or its absence; nothing; whether the assertion of
      update_balance holds; whether the seeding happened; a file that does not load. *)
  Inductive wout :=
  | OTx (r : wres) | OKey (pk : N) | OAssert (holds : bool) | OBool (b : bool) | ONone | OLoadFailed.

  Definition w_step (w : wallet) (c : wcall) : wallet * wout :=
    match c with
    | WKey r => let '(w', pk) := generate_key w r in (w', OKey pk)
    | WMint rs v => let '(w', tx) := mint_new_coins w rs v in (w', OTx (Built tx))
    | WSend a p s r => let '(w', o) := send_to w a p s r in (w', OTx o)
    | WSendN i o p s => let '(w', o) := send_n w i o p s in (w', OTx o)
    | WFan n v p s r => let '(w', o) := fan w n v p s r in (w', OTx o)
    | WConfirmTx tx => let '(w', b) := confirm_transaction w tx in (w', OAssert b)
    | WConfirmInputs l => let '(w', b) := confirm_inputs w l in (w', OAssert b)
    | WSeed sk v f t => let '(w', b) := seed w sk v f t in (w', OBool b)
    | WSeedReadonly c v f t => (seed_readonly w c v f t, ONone)
    | WRestart => match load w_empty (save w) with
                  | Some w' => (w', ONone)
                  | None => (w, OLoadFailed)
                  end
    end.
  Fixpoint w_run (w : wallet) (cs : list wcall) : wallet * list wout :=
    match cs with
    | [] => (w, [])
    | c :: r => let '(w1, o) := w_step w c in
                let '(w2, os) := w_run w1 r in (w2, o :: os)
    end.
End Wallet.
