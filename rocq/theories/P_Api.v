(** C86: an agent answers every documented request over JSON-RPC once, with the request's ID.
    C87: what it answers is what is stored. *)
From Coq Require Import NArith ZArith List Bool String.
From stdpp Require Import base option list.
From Verif Require Import Base CodecModel CodecSpec MsgModel EvmMathModel EvmMathSpec HexModel EvmTxModel EvmLogModel EvmLogSpec
  ApiModel ApiSpec ApiProofs ApiExamples.
Import ListNotations.
Open Scope N_scope.

Local Notation "'lit' s" := (ApiModel.lit s%string) (at level 9).

(** A documented request gets exactly the documented answer, or starts exactly the documented
    run, with its own ID. *)
Theorem C86_documented_partial : forall chain highest keccak num_text body name m p a id,
  request_is body (ApiModel.lit name) p id -> In (name, m) interface ->
  documented chain highest keccak m p a ->
  serve chain keccak num_text highest (Some body) = responds id a.
Proof. exact serve_documented. Qed.
Print Assumptions C86_documented_partial.
Example C86_documented_ex : exists a,
  documented 52188 900 (fun b => b) MBalance
    (params ["0x0102030405060708090a0b0c0d0e0f1011121314"; "latest"]%string) a /\
  request_is (post "eth_getBalance" (params ["0x0102030405060708090a0b0c0d0e0f1011121314"; "latest"]%string))
    (lit "eth_getBalance") (params ["0x0102030405060708090a0b0c0d0e0f1011121314"; "latest"]%string) 7 /\
  serve 52188 (fun b => b) (fun _ => []) 900
    (Some (post "eth_getBalance" (params ["0x0102030405060708090a0b0c0d0e0f1011121314"; "latest"]%string))) =
  Served [] (Some (7, Run FAccount (RBytes [1;2;3;4;5;6;7;8;9;10;11;12;13;14;15;16;17;18;19;20]) true KBalance)).
Proof. exact balance_case. Qed.
Example C86_documented_logs_ex : exists a, documented 52188 900 (fun b => b) MLogs
  (JArr [JObj [(lit "address", JArr [JStr (hex_text (be_bytes 20 5))]); (lit "topics", JArr [JStr (hex_text (be_bytes 32 6))]);
               (lit "fromBlock", JStr (lit "0x10")); (lit "toBlock", JStr (lit "0x20"))]]) a.
Proof. exact logs_case. Qed.
Example C86_documented_raw_ex : exists a, documented 1 900 (fun b => b) MSendRaw
  (JArr [JStr (hex_text (tx_encode 1 false EvmTxExamples.ex_dynamic))]) a.
Proof. exact raw_case. Qed.

(** A request for another method is told so. *)
Theorem C86_unknown : forall chain highest keccak num_text body name p id,
  request_is body name p id -> Forall (fun nm => ApiModel.lit (fst nm) <> name) interface ->
  serve chain keccak num_text highest (Some body) = Served [SReply id (Error unknown_method)] None.
Proof. exact serve_unknown. Qed.
Print Assumptions C86_unknown.
Example C86_unknown_ex : forall chain highest keccak num_text,
  serve chain keccak num_text highest (Some (post "eth_protocolVersion" (JArr []))) =
  Served [SReply 7 (Error unknown_method)] None.
Proof. exact unknown_case. Qed.

(** What is no JSON, and what names no method, is refused once. *)
Theorem C86_malformed : forall chain keccak num_text highest body,
  body = None \/ body = Some JNull \/
  (exists l, body = Some (JObj l) /\ forall s, assoc l (lit "method") <> Some (JStr s)) ->
  serve chain keccak num_text highest body = Served [SBad] None.
Proof. exact serve_malformed. Qed.
Print Assumptions C86_malformed.

(** Whatever is asked: if the agent survives, there is one answer, or an error and then a
    second one that says that the request is bad; never both an answer and a run. *)
Theorem C86_once_partial : forall chain keccak num_text highest body now later,
  serve chain keccak num_text highest body = Served now later ->
  (List.length now + match later with Some _ => 1 | None => 0 end = 1)%nat \/
  (exists id c, now = [SReply id (Error c); SBad] /\ later = None).
Proof. exact serve_once. Qed.
Print Assumptions C86_once_partial.

(** An ID that is a number from 0 to 2^64 - 1 comes back. *)
Theorem C86_id_partial : forall chain keccak num_text highest l n now later,
  assoc l (lit "id") = Some (JInt (Z.of_N n)) -> n < 2 ^ 64 ->
  serve chain keccak num_text highest (Some (JObj l)) = Served now later ->
  Forall (fun s => match s with SReply i _ => i = n | SBad => True end) now /\
  (forall i r, later = Some (i, r) -> i = n).
Proof. exact serve_id. Qed.
Print Assumptions C86_id_partial.

(** Refuted: no request ends the agent. *)
Theorem C86_survives_refuted : forall chain highest keccak num_text,
  Forall (fun b => serve chain keccak num_text highest (Some b) = Ended)
  [JArr [post "eth_chainId" (JArr [])];
   JInt 5;
   post "eth_getBalance" (params [""]%string);
   post "eth_getBlockByNumber" (params ["latest"; "full"]%string);
   post "eth_getBlockByNumber" (JObj []);
   post "eth_feeHistory" (JArr [JStr (lit "five"); JStr (lit "latest"); JArr []]);
   post "eth_sendTransaction" (JArr [JObj [(lit "type", JInt (2 ^ 31))]]);
   post "eth_sendRawTransaction" (JObj []);
   post "eth_getLogs" (JArr [JObj [(lit "address", JArr [JStr (hex_text (be_bytes 20 5))]);
      (lit "topics", JArr [JArr [JStr (hex_text (be_bytes 32 6))]]);
      (lit "fromBlock", JStr (lit "0x10")); (lit "toBlock", JStr (lit "0x20"))]])].
Proof. exact ended_cases. Qed.
Print Assumptions C86_survives_refuted.

(** Refuted: every request is handled within what the language defines. *)
Theorem C86_defined_refuted : forall chain highest keccak num_text,
  serve chain keccak num_text highest (Some
   (post "eth_getLogs" (JArr [JObj [(lit "address", JArr [JStr (hex_text (be_bytes 20 5))]);
      (lit "topics", JArr [JStr (hex_text (be_bytes 32 6))]);
      (lit "fromBlock", JStr (lit "0x8000000000000000")); (lit "toBlock", JStr (lit "0x1"))]]))) = Wild.
Proof. exact wild_logs_case. Qed.
Print Assumptions C86_defined_refuted.
Theorem C86_defined_raw_refuted : forall keccak num_text highest, exists b, Forall is_byte b /\ b <> [] /\
  serve 1 keccak num_text highest (Some (post "eth_sendRawTransaction" (JArr [JStr (hex_text b)]))) = Wild.
Proof. exact wild_raw_case. Qed.
Print Assumptions C86_defined_raw_refuted.

(** Refuted: every request is answered once. *)
Theorem C86_twice_refuted : forall chain highest keccak num_text,
  serve chain keccak num_text highest (Some (post "eth_getBlockByNumber" (params ["latest"]%string))) =
  Served [SReply 7 (Error invalid_block_parameter); SBad] None.
Proof. exact twice_case. Qed.
Print Assumptions C86_twice_refuted.

(** Refuted: the answer has the request's ID. *)
Theorem C86_id_refuted : forall chain highest keccak num_text,
  serve chain keccak num_text highest
  (Some (JObj [(lit "method", JStr (lit "eth_gasPrice")); (lit "id", JStr (lit "first"))])) =
  Served [SReply 0 (Result (PText (lit "0x0")))] None.
Proof. exact id_case. Qed.
Print Assumptions C86_id_refuted.

(** Refuted: events can be asked for by a block's hash, and without topics. *)
Theorem C86_blockhash_refuted : forall chain highest keccak num_text,
  serve chain keccak num_text highest (Some
   (post "eth_getLogs" (JArr [JObj [(lit "address", JArr [JStr (hex_text (be_bytes 20 5))]);
      (lit "topics", JArr [JStr (hex_text (be_bytes 32 6))]);
      (lit "blockHash", JStr (hex_text (be_bytes 32 16)))]]))) =
  Served [SReply 7 (Error invalid_block_parameter)] None.
Proof. exact blockhash_case. Qed.
Print Assumptions C86_blockhash_refuted.
Theorem C86_no_topics_refuted : forall chain highest keccak num_text,
  serve chain keccak num_text highest (Some
   (post "eth_getLogs" (JArr [JObj [(lit "address", JStr (hex_text (be_bytes 20 5)));
      (lit "fromBlock", JStr (lit "0x10")); (lit "toBlock", JStr (lit "0x20"))]]))) =
  Served [SReply 7 (Error invalid_topic)] None.
Proof. exact one_topic_case. Qed.
Print Assumptions C86_no_topics_refuted.

(** Refuted: eth_feeHistory takes numbers as the other methods do, and its answers are
    bounded. *)
Theorem C86_fee_refuted : forall chain keccak num_text,
  handle chain keccak num_text 900 MFeeHistory (JArr [JStr (lit "0x5"); JStr (lit "latest"); JArr []]) =
    Done [Result (PFee (lit "0x384") 0)] None true /\
  handle chain keccak num_text 900 MFeeHistory (JArr [JStr (lit "5"); JStr (lit "0x10"); JArr []]) =
    Done [Error invalid_block_identifier] None true /\
  handle chain keccak num_text 900 MFeeHistory
    (JArr [JStr (lit "18446744073709551615"); JStr (hex_text (repeat 255 32)); JArr []]) =
    Done [Result (PFee (lit "0x0") (2 ^ 64 - 1))] None true.
Proof. exact fee_cases. Qed.
Print Assumptions C86_fee_refuted.

(** C87: the run that a request starts reads the place that was asked for. *)
Theorem C87_place : forall sha chain highest keccak num_text m p pl k, asks m p pl k ->
  exists f b, handle chain keccak num_text highest m p = Done [] (Some (Run f (RBytes b) true k)) true /\
    read_key_of f b = Some (key sha pl).
Proof. exact asks_reads. Qed.
Print Assumptions C87_place.
Example C87_place_ex :
  asks MStorage (JArr [JStr (hex_text (be_bytes 20 5)); JStr (hex_text (be_bytes 32 9)); JStr (lit "latest")])
  (PStorage 5 9) KStorage.
Proof. exact asks_case. Qed.

(** The balance of an account is shown. *)
Theorem C87_balance : forall bal nonce, bal < 2 ^ 256 -> nonce < 2 ^ 256 ->
  exists s, answer_value KBalance (encoding c_evm_account (bal, nonce)) = Some (Result (PText s)) /\ shows s bal.
Proof. exact balance_shown. Qed.
Print Assumptions C87_balance.
(** As the number of its transactions, the nonce that its next one has to have. *)
Theorem C87_count : forall bal nonce, bal < 2 ^ 256 -> nonce < 2 ^ 256 ->
  exists s, answer_value KCount (encoding c_evm_account (bal, nonce)) = Some (Result (PText s)) /\
    shows s ((nonce + 1) mod 2 ^ 256).
Proof. exact count_shown. Qed.
Print Assumptions C87_count.
Example C87_balance_ex :
  answer_value KBalance (encoding c_evm_account (1000, 41)) = Some (Result (PText (lit "0x3e8"))) /\
  answer_value KCount (encoding c_evm_account (1000, 41)) = Some (Result (PText (lit "0x2a"))).
Proof. exact balance_shown_case. Qed.

(** Where nothing is stored: no money, a first transaction, no code, no data. *)
Theorem C87_absent :
  (exists s, answer_value KBalance [] = Some (Result (PText s)) /\ shows s 0) /\
  (exists s, answer_value KCount [] = Some (Result (PText s)) /\ shows s 1) /\
  answer_value KCode [] = Some (Result (PText ox)) /\ answer_value KStorage [] = Some (Result (PText ox)).
Proof. exact absent_shown. Qed.
Print Assumptions C87_absent.

(** Code and data are shown as they are, up to 51200 bytes so that they read back. *)
Theorem C87_data : forall k v, k = KCode \/ k = KStorage -> data_ok v ->
  exists s, answer_value k v = Some (Result (PText s)) /\ s = hex_text v /\ from_hex_prefixed ox s = Some v.
Proof. exact data_shown. Qed.
Print Assumptions C87_data.

(** A stored value too short to be an account is reported. *)
Theorem C87_damaged : forall k v, k = KBalance \/ k = KCount -> v <> [] -> len v < 64 ->
  answer_value k v = Some (Error internal_error).
Proof. exact damaged_told. Qed.
Print Assumptions C87_damaged.

(** The number of the latest block is shown. *)
Theorem C87_height : forall chain highest keccak num_text p, highest < 2 ^ 64 ->
  exists s, handle chain keccak num_text highest MBlockNumber p = Done [Result (PText s)] None true /\ shows s highest.
Proof. exact height_shown. Qed.
Print Assumptions C87_height.

(** A transaction of a block by its index: the one with that index; none beyond the number of
    transactions; at that number the code reads outside of the list. *)
Theorem C87_index_partial : forall i count, i < 2 ^ 64 ->
  answer_block_tx (to_hex_trimmed ox (u256 i)) count =
  if i <? count then Done [Result (PNamed i)] None true
  else if i =? count then Undef else Done [Error not_found] None true.
Proof. exact index_shown. Qed.
Print Assumptions C87_index_partial.
Theorem C87_index_refuted : answer_block_tx (lit "0x0") 0 = Undef /\ answer_block_tx (lit "0x2") 2 = Undef.
Proof. exact index_case. Qed.
Print Assumptions C87_index_refuted.

(** Refuted: asking for an account's code is safe: more than 20 bytes are written over what
    follows an address on the stack. *)
Theorem C87_code_safe_refuted : forall chain keccak num_text highest, exists b f k, Forall is_byte b /\
  handle chain keccak num_text highest MCode (JArr [JStr (hex_text b)]) = Done [] (Some (Run f (RBytes b) true k)) true /\
  read_key_of f b = None.
Proof. exact code_overrun_case. Qed.
Print Assumptions C87_code_safe_refuted.

(** Refuted: balances are read from accounts: a receipt can be read as one. *)
Theorem C87_only_accounts_refuted : forall sha chain keccak num_text highest i, exists f b,
  handle chain keccak num_text highest MBalance (JArr [JStr (hex_text (be_bytes 32 i))]) =
    Done [] (Some (Run f (RBytes b) true KBalance)) true /\
  read_key_of f b = Some (key sha (PReceipt i)).
Proof. exact wrong_place_case. Qed.
Print Assumptions C87_only_accounts_refuted.

(** Refuted: a query is about the blocks it names: numbers are taken modulo 2^64. *)
Theorem C87_blocks_refuted : forall chain keccak num_text highest, exists q,
  handle chain keccak num_text highest MLogs
   (JArr [JObj [(lit "address", JArr [JStr (hex_text (be_bytes 20 5))]); (lit "topics", JArr [JStr (hex_text (be_bytes 32 6))]);
      (lit "fromBlock", JStr (lit "0x10000000000000003")); (lit "toBlock", JStr (lit "0x10000000000000004"))]]) =
   Done [] (Some (Run FLogs (RQuery q) true KLogs)) true /\ q_from q = 3 /\ q_to q = 4.
Proof. exact other_block_case. Qed.
Print Assumptions C87_blocks_refuted.
