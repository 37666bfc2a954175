(** Model of the events ("logs") of EVM transactions: the keys under which an agent stores
    things (src/parsec/agent/runners/evm/host.cpp:425-479 and format.cpp:119-138), the
    index of the events (host.cpp:526-533), the query eth_getLogs (http_server.cpp:558-815,
    impl.cpp:220-337) and the Bloom filters of receipts and blocks (util.cpp:56-79,
    serialization.cpp:405-416, http_server.cpp:1039-1067).

    An event is the tuple (address, data, topics) of MsgModel's [c_evm_log]; addresses and
    topics are big-endian numbers. *)
From Coq Require Import NArith ZArith List Bool.
From stdpp Require Import gmap.
From Verif Require Import Base CodecModel MsgModel.
Import ListNotations.
Open Scope N_scope.

(** evm_log, messages.hpp:95-102. *)
Definition elog : Type := N * bytes * list N.
Definition e_addr (l : elog) : N := fst (fst l).
Definition e_topics (l : elog) : list N := snd l.

(** evm_log_index, messages.hpp:168-175: ticket number, transaction, events. *)
Definition eindex : Type := N * N * list elog.

Section Hashing.
(** CSHA256 as a number of 256 bits. *)
Variable sha : bytes -> N.
(** keccak_data, hash.cpp, as its 32 bytes. *)
Variable keccak : bytes -> bytes.

(** ** Keys *)

(** ticket_number_key, host.cpp:427-441. *)
Definition ticket_key (tn : N) : bytes := be_bytes 32 (sha (le_bytes 8 tn)).
(** log_index_key, host.cpp:443-458. *)
Definition log_key (a tn : N) : bytes := be_bytes 32 (sha (be_bytes 20 a ++ le_bytes 8 tn)).

(** Where get_state_updates stores things, host.cpp:481-535: an account under its address, its
    code under code_key, an element of its storage under storage_key, a receipt under the
    transaction's ID, the transaction's ID under the key of the ticket number, the events
    of an address under the key of the address and the ticket number. *)
Inductive place :=
| PAccount (a : N)
| PCode (a : N)
| PStorage (a k : N)
| PReceipt (txid : N)
| PTicket (tn : N)
| PEvents (a tn : N).

Definition key (p : place) : bytes :=
  match p with
  | PAccount a => be_bytes 20 a
  | PCode a => be_bytes 20 a ++ [0]
  | PStorage a k => be_bytes 20 a ++ be_bytes 32 k
  | PReceipt i => be_bytes 32 i
  | PTicket tn => ticket_key tn
  | PEvents a tn => log_key a tn
  end.

(** ** Storing *)

(** get_sorted_logs, host.cpp:469-479: the events by address, in the order in which the
    addresses come first (the code's container has no order). *)
Fixpoint add_event (m : list (N * list elog)) (l : elog) : list (N * list elog) :=
  match m with
  | [] => [(e_addr l, [l])]
  | (a, ls) :: r => if a =? e_addr l then (a, ls ++ [l]) :: r else (a, ls) :: add_event r l
  end.
Definition sorted_events (ls : list elog) : list (N * list elog) := fold_left add_event ls [].

(** The last part of get_state_updates, host.cpp:526-533. *)
Definition event_updates (tn txid : N) (ls : list elog) : list (place * bytes) :=
  map (fun p => (PEvents (fst p) tn, make_buffer (wr c_log_index (tn, txid, snd p))))
      (sorted_events ls).

(** A committed transaction: its ticket number, its ID, its receipt's events, and the other
    updates. What the shards hold after the commit is what they held with the updates put in
    (C39). *)
Record committed := Committed {
  c_ticket : N;
  c_txid : N;
  c_events : list elog;
  c_other : list (place * bytes)
}.

Definition put (d : gmap bytes bytes) (u : place * bytes) : gmap bytes bytes :=
  <[key (fst u) := snd u]> d.
Definition commit (d : gmap bytes bytes) (c : committed) : gmap bytes bytes :=
  fold_left put (c_other c ++ event_updates (c_ticket c) (c_txid c) (c_events c)) d.
Definition commits (d : gmap bytes bytes) (h : list committed) : gmap bytes bytes :=
  fold_left commit h d.

(** ** The query *)

(** evm_log_query, messages.hpp:146-160. *)
Record query := Query { q_addrs : list N; q_topics : list N; q_from : N; q_to : N }.

(** static_cast<int64_t> of a uint64_t. *)
Definition int64 (n : N) : Z :=
  if n <? 2 ^ 63 then Z.of_N n else (Z.of_N n - 2 ^ 64)%Z.
Definition fits_int64 (z : Z) : bool := ((- 2 ^ 63 <=? z) && (z <? 2 ^ 63))%Z.

(** The checks of extract_evm_log_query_block, http_server.cpp:697-722. A difference that is
    not an int64_t is undefined behaviour; the product is computed modulo 2^64. *)
Inductive checked := RangeUndefined | FromAfterTo | TooLarge | Accepted.
Definition check_range (q : query) : checked :=
  let count := (int64 (q_to q) - int64 (q_from q))%Z in
  if negb (fits_int64 count) then RangeUndefined
  else if (count <? 0)%Z then FromAfterTo
  else if 100 <? mul64 (Z.to_N count) (len (q_addrs q)) then TooLarge
  else Accepted.

(** parse_evm_log_query, http_server.cpp:713-736, once the addresses, topics and block
    numbers are read: there must be addresses (http_server.cpp:584) and topics (:613). *)
Definition query_ok (q : query) : bool :=
  match q_addrs q, q_topics q with
  | [], _ | _, [] => false
  | _, _ => match check_range q with Accepted => true | _ => false end
  end.

(** The loop over the blocks of run_get_logs, impl.cpp:231-235, which counts in a uint64_t.
    [None]: not finished after [fuel] rounds. *)
Fixpoint block_loop (fuel : nat) (blk last : N) : option (list N) :=
  if blk <=? last then
    match fuel with
    | O => None
    | S f => match block_loop f (add64 blk 1) last with
             | Some r => Some (blk :: r)
             | None => None
             end
    end
  else Some [].

Definition query_keys (q : query) (blocks : list N) : list bytes :=
  flat_map (fun b => map (fun a => log_key a b) (q_addrs q)) blocks.

(** The answer to the lock request of one key: its value, or an error. *)
Inductive lock_answer := LValue (v : bytes) | LError.

(** What the runner reports through m_result_callback. *)
Inductive reported := RLogs (l : list eindex) | RFailed.

(** The tests of the topics, impl.cpp:315-328 and http_server.cpp:769-781. *)
Definition topic_match (q : query) (l : elog) : bool :=
  existsb (fun h => existsb (fun w => h =? w) (q_topics q)) (e_topics l).

(** from_buffer<evm_log_index>; an exception leaves the callback. *)
Definition read_index (v : bytes) : option (option eindex) :=
  match from_buffer c_log_index v with
  | Ok o _ => Some o
  | _ => None
  end.

(** The state of a run of get_logs: log_indexes and acquired, impl.cpp:242-244; the reports. *)
Record lrun := LRun { lr_found : list eindex; lr_acquired : N; lr_reports : list reported }.

(** handle_complete_get_logs, impl.cpp:299-337: an index is kept when any of its events
    matches. *)
Definition complete (q : query) (found : list eindex) : reported :=
  RLogs (filter (fun i : eindex => Is_true (existsb (topic_match q) (snd i))) found).

(** handle_get_logs_try_lock_response, impl.cpp:272-297. [None]: an exception. *)
Definition on_answer (q : query) (key_count : N) (s : lrun) (a : lock_answer) : option lrun :=
  match a with
  | LError => Some (LRun (lr_found s) (lr_acquired s) (lr_reports s ++ [RFailed]))
  | LValue v =>
      match read_index v with
      | None => None
      | Some o =>
          let found := match o with Some i => lr_found s ++ [i] | None => lr_found s end in
          let acquired := lr_acquired s + 1 in
          Some (LRun found acquired
                  (if acquired =? key_count then lr_reports s ++ [complete q found]
                   else lr_reports s))
      end
  end.

Fixpoint on_answers (q : query) (key_count : N) (s : lrun) (l : list lock_answer) : option lrun :=
  match l with
  | [] => Some s
  | a :: r => match on_answer q key_count s a with
              | Some s' => on_answers q key_count s' r
              | None => None
              end
  end.

(** handle_get_logs_result, http_server.cpp:738-788: the events that match, each with the
    ticket number and transaction of its index. *)
Definition shown (q : query) (l : list eindex) : list (elog * N * N) :=
  flat_map (fun i : eindex => map (fun e => (e, fst (fst i), snd (fst i)))
                                  (List.filter (topic_match q) (snd i))) l.

(** ** Bloom filters *)

(** Overwrite of one byte. *)
Definition set_byte (b : bytes) (i : nat) (v : N) : bytes := <[i := v]> b.

(** One round of the loop of add_to_bloom, util.cpp:61-78. from_buffer<uint16_t> reads two
    bytes in the machine's order (little-endian, Base.v). *)
Definition bloom_bits : N := 2047.
Definition bloom_round (h : bytes) (bloom : bytes) (i : nat) : bytes :=
  let byte_pair := le_value (firstn 2 (skipn i h)) in
  let bit_to_set := N.land byte_pair bloom_bits in
  let bit_index := bloom_bits - bit_to_set in
  let byte_index := N.to_nat (bit_index / 8) in
  let bit_value := (N.shiftl 1 (7 - bit_index mod 8)) mod 256 in
  set_byte bloom byte_index (N.lor (nth byte_index bloom 0) bit_value).

(** add_to_bloom, util.cpp:58-79. *)
Definition add_to_bloom (bloom : bytes) (entry : bytes) : bytes :=
  fold_left (bloom_round (keccak entry)) [0; 2; 4]%nat bloom.

(** The entries of an event: its address and its topics, serialization.cpp:410-413. *)
Definition event_entries (l : elog) : list bytes :=
  be_bytes 20 (e_addr l) :: map (be_bytes 32) (e_topics l).

(** logsBloom of a receipt, serialization.cpp:405-416. *)
Definition receipt_bloom (ls : list elog) : bytes :=
  fold_left add_to_bloom (flat_map event_entries ls) (repeat 0 256).

(** logsBloom of a block, http_server.cpp:1039-1067: over its transactions' events. *)
Definition block_bloom (txs : list (list elog)) : bytes :=
  fold_left add_to_bloom (flat_map event_entries (concat txs)) (repeat 0 256).
End Hashing.
