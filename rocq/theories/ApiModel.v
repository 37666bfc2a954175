(** Model of the JSON-RPC interface of an EVM agent: util/rpc/http/json_rpc_http_server.cpp
    (callback, handle_request, handle_response) and
    parsec/agent/runners/evm/http_server.cpp (all handlers).

    Simplifications, valid for the whole file:
    - the HTTP library and the text of JSON are outside: a body is [None] (no JSON) or a value.
      jsoncpp throws when a member is looked up in something that is neither an object nor
      null, an element in something that is neither an array nor null, and when a value is
      converted to a type it is not convertible to. An exception that leaves a handler
      reaches the HTTP library's C code and ends the process;
    - an agent's exec returns true (impl.cpp:38-108) and its result comes later (C75, C76);
      a handler that starts one gives the function, the parameter and what is to be done with
      the result;
    - what is shown of transactions, receipts and blocks (tx_to_json and so on) is named, not
      built (C51, C58, C84 and C85 have parts of it). *)
From Coq Require Import NArith ZArith List Bool String Ascii.
From stdpp Require Import base option list.
From Verif Require Import Base CodecModel MsgModel EvmMathModel HexModel EvmTxModel EvmLogModel.
Import ListNotations.
Open Scope N_scope.

Definition text := list N.
(** The characters of a literal. *)
Fixpoint lit (s : String.string) : text :=
  match s with
  | String.EmptyString => []
  | String.String c r => N_of_ascii c :: lit r
  end.

(** ** JSON values *)

(** Json::Value. A real number is its integral part and whether that is all of it; the keys
    of an object are distinct. *)
Inductive json :=
| JNull
| JBool (b : bool)
| JInt (z : Z)
| JReal (z : Z) (exact : bool)
| JStr (s : text)
| JArr (l : list json)
| JObj (l : list (text * json)).

Definition text_eqb (a b : text) : bool := bool_decide (a = b).

Fixpoint assoc (l : list (text * json)) (k : text) : option json :=
  match l with
  | [] => None
  | (k', v) :: r => if text_eqb k k' then Some v else assoc r k
  end.

(** Json::Value::isMember; [None]: it throws. *)
Definition is_member (j : json) (k : text) : option bool :=
  match j with
  | JNull => Some false
  | JObj l => Some (match assoc l k with Some _ => true | None => false end)
  | _ => None
  end.
(** operator[] with a name. *)
Definition field (j : json) (k : text) : option json :=
  match j with
  | JNull => Some JNull
  | JObj l => Some (default JNull (assoc l k))
  | _ => None
  end.
(** operator[] with an index. *)
Definition elem (j : json) (i : nat) : option json :=
  match j with
  | JNull => Some JNull
  | JArr l => Some (nth i l JNull)
  | _ => None
  end.
(** What operator[] with an index makes of a value that is not constant: the element is
    there afterwards. *)
Definition grow (j : json) (i : nat) : json :=
  let extend l := l ++ repeat JNull (S i - length l) in
  match j with
  | JNull => JArr (extend [])
  | JArr l => JArr (extend l)
  | _ => j
  end.
Definition arr_size (j : json) : nat := match j with JArr l => length l | _ => 0 end.
Definition is_arr (j : json) : bool := match j with JArr _ => true | _ => false end.
Definition is_obj (j : json) : bool := match j with JObj _ => true | _ => false end.
Definition is_bool (j : json) : bool := match j with JBool _ => true | _ => false end.
Definition str (j : json) : option text := match j with JStr s => Some s | _ => None end.
Definition is_str (j : json) : bool := match j with JStr _ => true | _ => false end.
(** The element 0 of an array, [JNull] if there is none. *)
Definition first (j : json) : json := match j with JArr l => nth 0 l JNull | _ => JNull end.
Definition second (j : json) : json := match j with JArr l => nth 1 l JNull | _ => JNull end.

(** asBool. *)
Definition as_bool (j : json) : option bool :=
  match j with
  | JNull => Some false
  | JBool b => Some b
  | JInt z => Some (negb (z =? 0)%Z)
  | JReal z exact => Some (negb ((z =? 0)%Z && exact))
  | _ => None
  end.
(** asInt of a number: it throws when the number is out of range. *)
Definition as_int (j : json) : option Z :=
  match j with
  | JInt z => if ((- 2 ^ 31 <=? z) && (z <? 2 ^ 31))%Z then Some z else None
  | JReal z exact =>
      if exact then (if ((- 2 ^ 31 <=? z) && (z <? 2 ^ 31))%Z then Some z else None)
      else if ((- 2 ^ 31 <? z) && (z <? 2 ^ 31 - 1))%Z then Some z else None
  | _ => Some 0%Z
  end.
Definition is_numeric (j : json) : bool :=
  match j with JBool _ | JInt _ | JReal _ _ => true | _ => false end.
(** isUInt64 and asUInt64, for the request's ID. *)
Definition uint64_or_zero (j : json) : N :=
  match j with
  | JInt z => if ((0 <=? z) && (z <? 2 ^ 64))%Z then Z.to_N z else 0
  | JReal z exact => if exact && ((0 <=? z) && (z <? 2 ^ 64))%Z then Z.to_N z else 0
  | _ => 0
  end.

(** ** Answers and runs *)

(** What is shown of a result. *)
Inductive payload :=
| PText (s : text)
| PFlag (b : bool)
| PNone                                    (* an empty array *)
| PFee (oldest : text) (entries : N)       (* feeHistory: its arrays have that many entries *)
| PTx (t : evm_tx)                         (* tx_to_json *)
| PNamed (n : N).                          (* made from element [n] of a result *)
Inductive reply := Result (p : payload) | Error (code : Z).

(** evm_runner_function, messages.hpp, as far as the handlers use it. *)
Inductive func := FExecute | FAccount | FDryrun | FCode | FReceipt | FBlock | FLogs | FStorage.
Inductive param :=
| RBytes (b : bytes)
| RTx (t : evm_tx)
| RJson (j : json)                         (* the transaction of tx_from_json *)
| RQuery (q : query).
(** What is done with a successful result. *)
Inductive kont :=
| KTxid | KCount | KBalance | KStorage | KTx | KReceipt | KCode | KLogs | KCall
| KBlock (details : bool) | KBlockCount | KBlockTx (idx : text).
Record run := Run { r_func : func; r_param : param; r_readonly : bool; r_kont : kont }.

(** What a handler does: an exception, undefined behaviour, or replies through the callback, a
    run, and the handler's result. *)
Inductive outcome :=
| Threw
| Undef
| Done (replies : list reply) (started : option run) (ret : bool).

Definition reply1 (p : payload) : outcome := Done [Result p] None true.
Definition error1 (c : Z) : outcome := Done [Error c] None true.
Definition refuse : outcome := Done [] None false.
(** An error through the callback, and false. *)
Definition error_refuse (c : Z) : outcome := Done [Error c] None false.
Definition start (f : func) (p : param) (ro : bool) (k : kont) : outcome :=
  Done [] (Some (Run f p ro k)) true.

(** error_code, http_server.hpp:53-71. *)
Definition invalid_block_parameter := (-32017)%Z.
Definition invalid_transaction_index := (-32018)%Z.
Definition invalid_block_identifier := (-32019)%Z.
Definition invalid_address := (-32015)%Z.
Definition invalid_topic := (-32016)%Z.
Definition from_block_after_to := (-32022)%Z.
Definition block_range_too_large := (-32024)%Z.
Definition not_found := (-32014)%Z.
Definition internal_error := (-32603)%Z.
Definition unknown_method := (-32099)%Z.
Definition wallet_not_supported := (-32001)%Z.
Definition mining_not_supported := (-32002)%Z.
Definition time_travel_not_supported := (-32003)%Z.
Definition compiler_not_supported := (-32004)%Z.
Definition coinbase_not_supported := (-32005)%Z.
Definition uncles_not_supported := (-32006)%Z.
Definition execution_error := (-32088)%Z.

(** ** Reading parameters *)

(** std::stoull in base 10; [None]: it throws (no digit, or too large). *)
Fixpoint digits10 (s : text) (acc : N) (seen : bool) : option N :=
  match s with
  | c :: r => if (48 <=? c) && (c <=? 57) then digits10 r (10 * acc + (c - 48)) true
              else if seen then Some acc else None
  | [] => if seen then Some acc else None
  end.
Definition stoull (s : text) : option N :=
  let bounded (o : option N) := match o with Some v => if v <? 2 ^ 64 then Some v else None | None => None end in
  match skip_space s with
  | 45 :: r => option_map (fun v => (2 ^ 64 - v) mod 2 ^ 64) (bounded (digits10 r 0 false))
  | 43 :: r => bounded (digits10 r 0 false)
  | r => bounded (digits10 r 0 false)
  end.

(** params_str.substr(2): it throws when there are fewer than two characters. *)
Definition substr2 (s : text) : option text :=
  if (length s <? 2)%nat then None else Some (skipn 2 s).

(** address_from_json, serialization.cpp:226-243, as the number of its 20 bytes: from_buffer
    reads the first 20 bytes. *)
Definition address_of (j : json) : option N :=
  match buffer_from_json (str j) with
  | Some b => if (20 <=? length b)%nat then Some (be_value (firstn 20 b)) else None
  | None => None
  end.

(** from_hex<evmc::bytes32>, util.hpp:54-70. *)
Definition word_from_hex (s : text) : option bytes :=
  match from_hex_prefixed ox s with
  | Some b => if (length b =? 32)%nat then Some b else None
  | None => None
  end.

Section Env.
(** opencbdc_chain_id; keccak_data; the text of a number or Boolean. *)
Variable chain_id : N.
Variable keccak : bytes -> bytes.
Variable num_text : json -> text.
(** m_broker->highest_ticket(). *)
Variable highest : N.

(** asString. *)
Definition as_string (j : json) : option text :=
  match j with
  | JNull => Some []
  | JStr s => Some s
  | JBool _ | JInt _ | JReal _ _ => Some (num_text j)
  | JArr _ | JObj _ => None
  end.

(** raw_tx_from_json, serialization.cpp:278-291. *)
Definition raw_tx (j : json) : dec_result evm_tx :=
  match str j with
  | None => DNone
  | Some s =>
      match substr2 s with
      | None => DThrow
      | Some h => match from_hex h with
                  | None => DNone
                  | Some b => tx_decode chain_id b
                  end
      end
  end.

(** handle_decode_raw_transaction, http_server.cpp:268-281. *)
Definition handle_decode_raw (p : json) : outcome :=
  match elem p 0 with
  | None => Threw
  | Some j => match raw_tx j with
              | DOk t => reply1 (PTx t)
              | DNone => refuse
              | DThrow => Threw
              | _ => Undef
              end
  end.

(** handle_send_raw_transaction, http_server.cpp:283-306. *)
Definition handle_send_raw (p : json) : outcome :=
  match elem p 0 with
  | None => Threw
  | Some j => match raw_tx j with
              | DOk t => start FExecute (RTx t) false KTxid
              | DNone => refuse
              | DThrow => Threw
              | _ => Undef
              end
  end.

(** handle_fee_history, http_server.cpp:308-358. *)
Definition handle_fee_history (p : json) : outcome :=
  match p with
  | JArr (JStr blocks_str :: JStr end_str :: JArr _ :: _) =>
      let end_block :=
        if text_eqb end_str (lit "latest") || text_eqb end_str (lit "pending") then Some highest
        else option_map to_uint64 (uint256_from_json (Some end_str)) in
      match end_block with
      | None => error1 invalid_block_identifier
      | Some e =>
          match stoull blocks_str with
          | None => Threw
          | Some b => let n := if e <? b then e else b in
                      reply1 (PFee (to_hex_trimmed ox (u256 (e - n))) n)
          end
      end
  | _ => refuse
  end.

(** The common part of the handlers that read one key: http_server.cpp:360-379, 412-431,
    504-523, 827-850, 882-915. [bad] is what is done with parameters of the wrong type,
    [undecoded] with a text that is not hexadecimal. *)
Definition read_key (bad undecoded : outcome) (f : func) (k : kont) (p : json) : outcome :=
  match p with
  | JArr (JStr s :: _) =>
      match substr2 s with
      | None => Threw
      | Some h => match from_hex h with
                  | None => undecoded
                  | Some b => start f (RBytes b) true k
                  end
      end
  | _ => bad
  end.
Definition handle_count := read_key refuse refuse FAccount KCount.
Definition handle_balance := read_key refuse refuse FAccount KBalance.
Definition handle_tx_by_hash := read_key refuse refuse FReceipt KTx.
Definition handle_receipt := read_key (error_refuse invalid_block_parameter) refuse FReceipt KReceipt.
Definition handle_code :=
  read_key (error_refuse invalid_block_parameter) (error_refuse execution_error) FCode KCode.

(** handle_get_storage_at, http_server.cpp:460-493. *)
Definition handle_storage (p : json) : outcome :=
  match p with
  | JArr (JStr a :: JStr k :: _) =>
      match address_of (JStr a) with
      | None => refuse
      | Some addr => match word_from_hex k with
                     | None => refuse
                     | Some key => start FStorage (RBytes (be_bytes 20 addr ++ key)) true KStorage
                     end
      end
  | _ => refuse
  end.

(** extract_evm_log_query_addresses, http_server.cpp:560-594. *)
Definition query_addrs (o : json) : option (list N) :=
  match field o (lit "address") with
  | Some (JStr s) => match address_of (JStr s) with Some a => Some [a] | None => None end
  | Some (JArr l) => match mapM address_of l with
                     | Some [] | None => None
                     | Some as_ => Some as_
                     end
  | _ => None
  end.

(** extract_evm_log_query_topics, http_server.cpp:596-623. [None]: an exception;
    [Some None]: absent or invalid. *)
Definition query_topics (o : json) : option (option (list N)) :=
  match field o (lit "topics") with
  | Some (JArr l) =>
      match mapM as_string l with
      | None => None
      | Some ss => match mapM word_from_hex ss with
                   | Some [] | None => Some None
                   | Some ts => Some (Some (map be_value ts))
                   end
      end
  | _ => Some None
  end.

(** A block number, http_server.cpp:646-680. *)
Definition block_of (s : text) : option N :=
  if text_eqb s (lit "latest") then Some highest
  else option_map to_uint64 (uint256_from_hex s).

(** extract_evm_log_query_block, http_server.cpp:625-691, before the checks. *)
Definition query_blocks (o : json) : option (N * N) :=
  match field o (lit "blockhash") with
  | Some (JStr s) => match uint256_from_hex s with
                     | Some b => Some (to_uint64 b, to_uint64 b)
                     | None => None
                     end
  | _ =>
      match field o (lit "fromBlock"), field o (lit "toBlock") with
      | Some (JStr f), Some (JStr t) =>
          match block_of f, block_of t with
          | Some a, Some b => Some (a, b)
          | _, _ => None
          end
      | _, _ => None
      end
  end.

(** handle_get_logs, http_server.cpp:792-825, and parse_evm_log_query, :715-737. *)
Definition handle_logs (p : json) : outcome :=
  match p with
  | JArr (JObj l :: _) =>
      let o := JObj l in
      match query_addrs o with
      | None => error1 invalid_address
      | Some addrs =>
          match query_topics o with
          | None => Threw
          | Some None => error1 invalid_topic
          | Some (Some topics) =>
              match query_blocks o with
              | None => error1 invalid_block_parameter
              | Some (from, to) =>
                  let q := Query addrs topics from to in
                  match check_range q with
                  | RangeUndefined => Undef
                  | FromAfterTo => error1 from_block_after_to
                  | TooLarge => error1 block_range_too_large
                  | Accepted => start FLogs (RQuery q) true KLogs
                  end
              end
          end
      end
  | _ => error_refuse invalid_block_parameter
  end.

(** fetch_block, http_server.cpp:948-992. *)
Definition fetch_block (k : kont) (p : json) : outcome :=
  let fetch (s : text) :=
    if text_eqb s (lit "latest") then start FBlock (RBytes (u256 highest)) true k
    else match uint256_from_hex s with
         | None => error_refuse invalid_block_parameter
         | Some b => start FBlock (RBytes b) true k
         end in
  match p with
  | JArr [JStr s] => fetch s
  | JArr (JStr s :: JBool _ :: _) => fetch s
  | _ => error_refuse invalid_block_parameter
  end.

(** handle_get_block, http_server.cpp:994-1072: params[1] is looked at first, and is there
    when fetch_block counts the parameters. *)
Definition handle_block (p : json) : outcome :=
  match elem p 1 with
  | None => Threw
  | Some j => match as_bool j with
              | None => Threw
              | Some details => fetch_block (KBlock details) (grow p 1)
              end
  end.

(** handle_get_block_txcount, http_server.cpp:1074-1107. *)
Definition handle_block_count (p : json) : outcome := fetch_block KBlockCount p.

(** handle_get_block_tx, http_server.cpp:1166-1241. *)
Definition handle_block_tx (p : json) : outcome :=
  match p with
  | JArr (JStr s :: JStr idx :: _) => fetch_block (KBlockTx idx) (JArr [JStr s])
  | _ => error_refuse invalid_block_parameter
  end.

(** handle_sha3, http_server.cpp:1109-1131. *)
Definition handle_sha3 (p : json) : outcome :=
  match p with
  | JArr (JStr s :: _) => match buffer_from_json (Some s) with
                          | Some b => reply1 (PText (to_hex_prefixed ox (keccak b)))
                          | None => refuse
                          end
  | _ => refuse
  end.

(** Whether tx_from_json throws, serialization.cpp:293-300: json["type"].asInt(). (The rest
    of it does not fail, serialization.cpp:302-332.) *)
Definition tx_json_ok (o : json) : bool :=
  match field o (lit "type") with
  | Some j => if is_numeric j then match as_int j with Some _ => true | None => false end else true
  | None => false
  end.

(** handle_call, http_server.cpp:1281-1347, and handle_send_transaction, :1349-1386. *)
Definition handle_tx (f : func) (ro : bool) (k : kont) (p : json) : outcome :=
  match p with
  | JArr (JObj l :: _) => if tx_json_ok (JObj l) then start f (RJson (JObj l)) ro k else Threw
  | _ => error_refuse invalid_block_parameter
  end.
Definition handle_call := handle_tx FDryrun true KCall.
Definition handle_send := handle_tx FExecute false KTxid.

(** ** Dispatch *)

(** request_handler, handle_supported, handle_static and handle_unsupported,
    http_server.cpp:47-266. *)
Inductive method :=
| MSendRaw | MSend | MCount | MCall | MGasPrice | MCode | MBalance | MAccounts | MTxByHash
| MReceipt | MBlock | MBlockCount | MBlockTx | MBlockNumber | MFeeHistory | MLogs | MStorage
| MChainId | MClientVersion | MDecodeRaw | MSha3 | MEstimateGas
| MNumber (n : N) | MFalse | MRefused (code : Z).

Definition methods : list (String.string * method) :=
  [("eth_sendRawTransaction", MSendRaw); ("eth_sendTransaction", MSend);
   ("eth_getTransactionCount", MCount); ("eth_call", MCall); ("eth_gasPrice", MGasPrice);
   ("eth_getCode", MCode); ("eth_getBalance", MBalance); ("eth_accounts", MAccounts);
   ("eth_getTransactionByHash", MTxByHash); ("eth_getTransactionReceipt", MReceipt);
   ("eth_getBlockByNumber", MBlock); ("eth_getBlockByHash", MBlock);
   ("eth_getBlockTransactionCountByHash", MBlockCount);
   ("eth_getBlockTransactionCountByNumber", MBlockCount);
   ("eth_getTransactionByBlockHashAndIndex", MBlockTx);
   ("eth_getTransactionByBlockNumberAndIndex", MBlockTx);
   ("eth_blockNumber", MBlockNumber); ("eth_feeHistory", MFeeHistory);
   ("eth_getLogs", MLogs); ("eth_getStorageAt", MStorage);
   ("eth_chainId", MChainId); ("net_version", MChainId);
   ("web3_clientVersion", MClientVersion); ("eth_decodeRawTransaction", MDecodeRaw);
   ("web3_sha3", MSha3); ("eth_estimateGas", MEstimateGas);
   ("eth_signTransaction", MRefused wallet_not_supported); ("eth_sign", MRefused wallet_not_supported);
   ("eth_uninstallFilter", MRefused wallet_not_supported);
   ("eth_newPendingTransactionFilter", MRefused wallet_not_supported);
   ("eth_newFilter", MRefused wallet_not_supported);
   ("eth_newBlockFilter", MRefused wallet_not_supported);
   ("eth_getFilterLogs", MRefused wallet_not_supported);
   ("eth_getFilterChanges", MRefused wallet_not_supported);
   ("eth_getWork", MRefused mining_not_supported); ("eth_submitWork", MRefused mining_not_supported);
   ("eth_submitHashrate", MRefused mining_not_supported);
   ("evm_increaseTime", MRefused time_travel_not_supported);
   ("eth_getCompilers", MRefused compiler_not_supported);
   ("eth_compileSolidity", MRefused compiler_not_supported);
   ("eth_compileLLL", MRefused compiler_not_supported);
   ("eth_compileSerpent", MRefused compiler_not_supported);
   ("eth_coinbase", MRefused coinbase_not_supported);
   ("eth_getUncleByBlockHashAndIndex", MRefused uncles_not_supported);
   ("eth_getUncleByBlockNumberAndIndex", MRefused uncles_not_supported);
   ("eth_getUncleCountByBlockHash", MNumber 0); ("eth_getUncleCountByBlockNumber", MNumber 0);
   ("eth_hashrate", MNumber 0); ("eth_mining", MFalse); ("eth_syncing", MFalse);
   ("net_listening", MFalse); ("net_peerCount", MNumber 1)]%string.

Fixpoint find_method (l : list (String.string * method)) (name : text) : method :=
  match l with
  | [] => MRefused unknown_method
  | (n, m) :: r => if text_eqb (lit n) name then m else find_method r name
  end.

Definition handle (m : method) (p : json) : outcome :=
  match m with
  | MSendRaw => handle_send_raw p
  | MSend => handle_send p
  | MCount => handle_count p
  | MCall => handle_call p
  | MGasPrice => reply1 (PText (lit "0x0"))                         (* :1272-1279 *)
  | MCode => handle_code p
  | MBalance => handle_balance p
  | MAccounts => reply1 PNone                                       (* :1243-1250 *)
  | MTxByHash => handle_tx_by_hash p
  | MReceipt => handle_receipt p
  | MBlock => handle_block p
  | MBlockCount => handle_block_count p
  | MBlockTx => handle_block_tx p
  | MBlockNumber => reply1 (PText (to_hex_trimmed ox (u256 highest)))   (* :938-946 *)
  | MFeeHistory => handle_fee_history p
  | MLogs => handle_logs p
  | MStorage => handle_storage p
  | MChainId => reply1 (PText (to_hex_trimmed ox (u256 chain_id)))  (* :929-936 *)
  | MClientVersion => reply1 (PText (lit "opencbdc/v0.0"))          (* :1263-1270 *)
  | MDecodeRaw => handle_decode_raw p
  | MSha3 => handle_sha3 p
  | MEstimateGas => reply1 (PText (lit "0xffffffffff"))             (* :1252-1261 *)
  | MNumber n => reply1 (PText (to_hex_trimmed ox (u256 n)))        (* :1146-1154 *)
  | MFalse => reply1 (PFlag false)                                  (* :1156-1164 *)
  | MRefused c => error1 c                                          (* :1133-1144 *)
  end.

(** ** The HTTP server *)

(** What is sent for one POST: a body with an answer (the request's ID with it), or the text
    of a bad request. [started]: the answer comes from a run. *)
Inductive sent := SReply (id : N) (r : reply) | SBad.
Inductive served :=
| Ended                                                  (* the process ends *)
| Wild                                                   (* undefined behaviour *)
| Served (now : list sent) (later : option (N * run)).

(** callback and handle_request, json_rpc_http_server.cpp:136-143, 218-254. *)
Definition serve (body : option json) : served :=
  match body with
  | None => Served [SBad] None
  | Some req =>
      match is_member req (lit "method") with
      | None => Ended
      | Some false => Served [SBad] None
      | Some true =>
          match field req (lit "method") with
          | Some (JStr name) =>
              let params := default JNull (field req (lit "params")) in
              let id := uint64_or_zero (default JNull (field req (lit "id"))) in
              match handle (find_method methods name) params with
              | Threw => Ended
              | Undef => Wild
              | Done rs r ret =>
                  Served (map (SReply id) rs ++ (if ret then [] else [SBad]))
                         (option_map (pair id) r)
              end
          | _ => Served [SBad] None
          end
      end
  end.
End Env.

(** ** Results *)

(** The key a run reads, and its result: run_get_account, impl.cpp:110-125, which reads its
    parameter; run_get_account_code, impl.cpp:393-413, which copies its parameter over the
    20 bytes of an address. [None]: it writes past them. *)
Definition read_key_of (f : func) (p : bytes) : option bytes :=
  match f with
  | FCode => if (20 <? length p)%nat then None
             else Some (p ++ repeat 0 (20 - length p) ++ [0])
  | _ => Some p
  end.

(** What is answered when the run found [v] under its key, http_server.cpp:380-410
    (KCount), :432-458 (KBalance), :485-501 (KStorage), :905-926 (KCode). *)
Definition answer_value (k : kont) (v : bytes) : option reply :=
  match k with
  | KCount =>
      Some match v with
           | [] => Result (PText (to_hex_trimmed ox (u256 1)))
           | _ => match from_buffer c_evm_account v with
                  | Ok (Some a) _ => Result (PText (to_hex_trimmed ox (add256 (u256 (snd a)) (u256 1))))
                  | _ => Error internal_error
                  end
           end
  | KBalance =>
      Some match v with
           | [] => Result (PText (lit "0x0"))
           | _ => match from_buffer c_evm_account v with
                  | Ok (Some a) _ => Result (PText (to_hex_trimmed ox (u256 (fst a))))
                  | _ => Error internal_error
                  end
           end
  | KStorage | KCode =>
      Some match v with
           | [] => Result (PText ox)
           | _ => Result (PText (to_hex_prefixed ox v))
           end
  | _ => None
  end.

(** The end of handle_get_block_tx, http_server.cpp:1209-1240, for a block with [count]
    transactions. *)
Definition answer_block_tx (idx : text) (count : N) : outcome :=
  match uint256_from_hex idx with
  | None => error1 invalid_transaction_index
  | Some b => let i := to_uint64 b in
              if count <? i then error1 not_found
              else if i =? count then Undef
              else reply1 (PNamed i)
  end.
