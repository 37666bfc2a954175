(** What C86 and C87 say. *)
From Coq Require Import NArith ZArith List Bool String.
From stdpp Require Import base option list.
From Verif Require Import Base CodecModel MsgModel EvmMathModel EvmMathSpec HexModel EvmTxModel EvmLogModel EvmLogSpec ApiModel.
Import ListNotations.
Open Scope N_scope.

Local Notation "'lit' s" := (lit s%string) (at level 9).

(** "0x" and the bytes in hexadecimal. *)
Definition hex_text (b : bytes) : text := ox ++ to_hex b.
(** Bytes that can be given so. *)
Definition data_ok (b : bytes) : Prop := Forall is_byte b /\ b <> [] /\ len b <= 51200.
Definition sized (n : nat) (b : bytes) : Prop := Forall is_byte b /\ length b = n.

(** A block: "latest", or its number in hexadecimal. *)
Definition names_block (highest : N) (s : text) (n : N) : Prop :=
  (s = lit "latest" /\ n = highest) \/ (n < 2 ^ 64 /\ s = to_hex_trimmed ox (u256 n)).

(** What a request asks for: an answer at once, or a run. *)
Inductive asked := Now (r : reply) | Later (r : run).

(** The methods with no parameters that matter, and what they answer. *)
Definition constant (chain highest : N) (m : method) : option reply :=
  match m with
  | MGasPrice => Some (Result (PText (lit "0x0")))
  | MAccounts => Some (Result PNone)
  | MBlockNumber => Some (Result (PText (to_hex_trimmed ox (u256 highest))))
  | MChainId => Some (Result (PText (to_hex_trimmed ox (u256 chain))))
  | MClientVersion => Some (Result (PText (lit "opencbdc/v0.0")))
  | MEstimateGas => Some (Result (PText (lit "0xffffffffff")))
  | MNumber n => Some (Result (PText (to_hex_trimmed ox (u256 n))))
  | MFalse => Some (Result (PFlag false))
  | MRefused c => Some (Error c)
  | _ => None
  end.

(** The requests that the interface is documented to take, and what each asks for. Further
    parameters ([r]) are ignored. *)
Inductive documented (chain highest : N) (keccak : bytes -> bytes) : method -> json -> asked -> Prop :=
| d_send_raw b t r : data_ok b -> tx_decode chain b = DOk t ->
    documented chain highest keccak MSendRaw (JArr (JStr (hex_text b) :: r))
               (Later (Run FExecute (RTx t) false KTxid))
| d_decode_raw b t r : data_ok b -> tx_decode chain b = DOk t ->
    documented chain highest keccak MDecodeRaw (JArr (JStr (hex_text b) :: r)) (Now (Result (PTx t)))
| d_balance a r : sized 20 a ->
    documented chain highest keccak MBalance (JArr (JStr (hex_text a) :: r))
               (Later (Run FAccount (RBytes a) true KBalance))
| d_count a r : sized 20 a ->
    documented chain highest keccak MCount (JArr (JStr (hex_text a) :: r))
               (Later (Run FAccount (RBytes a) true KCount))
| d_code a r : sized 20 a ->
    documented chain highest keccak MCode (JArr (JStr (hex_text a) :: r))
               (Later (Run FCode (RBytes a) true KCode))
| d_storage a k r : sized 20 a -> sized 32 k ->
    documented chain highest keccak MStorage (JArr (JStr (hex_text a) :: JStr (hex_text k) :: r))
               (Later (Run FStorage (RBytes (a ++ k)) true KStorage))
| d_receipt i r : sized 32 i ->
    documented chain highest keccak MReceipt (JArr (JStr (hex_text i) :: r))
               (Later (Run FReceipt (RBytes i) true KReceipt))
| d_tx i r : sized 32 i ->
    documented chain highest keccak MTxByHash (JArr (JStr (hex_text i) :: r))
               (Later (Run FReceipt (RBytes i) true KTx))
| d_block s n d r : names_block highest s n ->
    documented chain highest keccak MBlock (JArr (JStr s :: JBool d :: r))
               (Later (Run FBlock (RBytes (u256 n)) true (KBlock d)))
| d_block_count s n : names_block highest s n ->
    documented chain highest keccak MBlockCount (JArr [JStr s])
               (Later (Run FBlock (RBytes (u256 n)) true KBlockCount))
| d_block_tx s n i r : names_block highest s n ->
    documented chain highest keccak MBlockTx (JArr (JStr s :: JStr i :: r))
               (Later (Run FBlock (RBytes (u256 n)) true (KBlockTx i)))
| d_logs l addrs topics from to f t r :
    assoc l (lit "address") = Some (JArr (map (fun a => JStr (hex_text a)) addrs)) ->
    assoc l (lit "topics") = Some (JArr (map (fun a => JStr (hex_text a)) topics)) ->
    assoc l (lit "blockhash") = None ->
    assoc l (lit "fromBlock") = Some (JStr from) -> assoc l (lit "toBlock") = Some (JStr to) ->
    Forall (sized 20) addrs -> Forall (sized 32) topics ->
    names_block highest from f -> names_block highest to t ->
    addrs <> [] -> topics <> [] -> f < 2 ^ 63 -> t < 2 ^ 63 -> (t - f) * len addrs < 2 ^ 64 ->
    documented chain highest keccak MLogs (JArr (JObj l :: r))
      (if t <? f then Now (Error from_block_after_to)
       else if 100 <? (t - f) * len addrs then Now (Error block_range_too_large)
       else Later (Run FLogs (RQuery (Query (map be_value addrs) (map be_value topics) f t)) true KLogs))
| d_call l r : (assoc l (lit "type") = None \/ exists z, assoc l (lit "type") = Some (JInt z) /\ (0 <= z <= 2)%Z) ->
    documented chain highest keccak MCall (JArr (JObj l :: r))
               (Later (Run FDryrun (RJson (JObj l)) true KCall))
| d_send l r : (assoc l (lit "type") = None \/ exists z, assoc l (lit "type") = Some (JInt z) /\ (0 <= z <= 2)%Z) ->
    documented chain highest keccak MSend (JArr (JObj l :: r))
               (Later (Run FExecute (RJson (JObj l)) false KTxid))
| d_sha3 b r : data_ok b ->
    documented chain highest keccak MSha3 (JArr (JStr (hex_text b) :: r))
               (Now (Result (PText (hex_text (keccak b)))))
| d_constant m p a : constant chain highest m = Some a ->
    documented chain highest keccak m p (Now a).

(** The names under which the interface is documented to answer. *)
Definition interface : list (String.string * method) :=
  [("eth_chainId", MChainId); ("net_version", MChainId); ("eth_blockNumber", MBlockNumber);
   ("eth_gasPrice", MGasPrice); ("eth_estimateGas", MEstimateGas); ("eth_accounts", MAccounts);
   ("web3_clientVersion", MClientVersion); ("web3_sha3", MSha3);
   ("eth_sendRawTransaction", MSendRaw); ("eth_decodeRawTransaction", MDecodeRaw);
   ("eth_sendTransaction", MSend); ("eth_call", MCall);
   ("eth_getBalance", MBalance); ("eth_getTransactionCount", MCount); ("eth_getCode", MCode);
   ("eth_getStorageAt", MStorage); ("eth_getLogs", MLogs); ("eth_feeHistory", MFeeHistory);
   ("eth_getTransactionByHash", MTxByHash); ("eth_getTransactionReceipt", MReceipt);
   ("eth_getBlockByNumber", MBlock); ("eth_getBlockByHash", MBlock);
   ("eth_getBlockTransactionCountByNumber", MBlockCount); ("eth_getBlockTransactionCountByHash", MBlockCount);
   ("eth_getTransactionByBlockNumberAndIndex", MBlockTx); ("eth_getTransactionByBlockHashAndIndex", MBlockTx);
   ("eth_mining", MFalse); ("eth_syncing", MFalse); ("net_listening", MFalse);
   ("eth_hashrate", MNumber 0); ("net_peerCount", MNumber 1);
   ("eth_getUncleCountByBlockHash", MNumber 0); ("eth_getUncleCountByBlockNumber", MNumber 0)]%string ++
  map (fun s => (s, MRefused wallet_not_supported))
    ["eth_sign"; "eth_signTransaction"; "eth_newFilter"; "eth_newBlockFilter"; "eth_newPendingTransactionFilter";
     "eth_uninstallFilter"; "eth_getFilterChanges"; "eth_getFilterLogs"]%string ++
  map (fun s => (s, MRefused mining_not_supported)) ["eth_getWork"; "eth_submitWork"; "eth_submitHashrate"]%string ++
  map (fun s => (s, MRefused compiler_not_supported))
    ["eth_getCompilers"; "eth_compileSolidity"; "eth_compileLLL"; "eth_compileSerpent"]%string ++
  map (fun s => (s, MRefused uncles_not_supported))
    ["eth_getUncleByBlockHashAndIndex"; "eth_getUncleByBlockNumberAndIndex"]%string ++
  [("eth_coinbase", MRefused coinbase_not_supported); ("evm_increaseTime", MRefused time_travel_not_supported)]%string.

(** What is sent for it. *)
Definition responds (id : N) (a : asked) : served :=
  match a with
  | Now r => Served [SReply id r] None
  | Later r => Served [] (Some (id, r))
  end.

(** The members of a request. *)
Definition request_is (body : json) (name : text) (p : json) (id : N) : Prop :=
  exists l, body = JObj l /\ assoc l (lit "method") = Some (JStr name) /\
    assoc l (lit "params") = Some p /\ assoc l (lit "id") = Some (JInt (Z.of_N id)) /\ id < 2 ^ 64.

(** How many responses there are in the end, a run giving one (C76). *)
Definition response_count (s : served) : option nat :=
  match s with
  | Served now later => Some (length now + match later with Some _ => 1 | None => 0 end)%nat
  | _ => None
  end.

(** Requests that ask for what is stored in a place. *)
Inductive asks : method -> json -> place -> kont -> Prop :=
| a_balance a r : asks MBalance (JArr (JStr (hex_text (be_bytes 20 a)) :: r)) (PAccount a) KBalance
| a_count a r : asks MCount (JArr (JStr (hex_text (be_bytes 20 a)) :: r)) (PAccount a) KCount
| a_code a r : asks MCode (JArr (JStr (hex_text (be_bytes 20 a)) :: r)) (PCode a) KCode
| a_storage a w r :
    asks MStorage (JArr (JStr (hex_text (be_bytes 20 a)) :: JStr (hex_text (be_bytes 32 w)) :: r))
         (PStorage a w) KStorage
| a_receipt i r : asks MReceipt (JArr (JStr (hex_text (be_bytes 32 i)) :: r)) (PReceipt i) KReceipt
| a_tx i r : asks MTxByHash (JArr (JStr (hex_text (be_bytes 32 i)) :: r)) (PReceipt i) KTx.

(** A text is the number [n]. *)
Definition shows (s : text) (n : N) : Prop := exists b, uint256_from_hex s = Some b /\ number b = n.

(** A request. *)
Definition post (name : String.string) (params : json) : json :=
  JObj [(lit "jsonrpc", JStr (lit "2.0")); (ApiModel.lit "method", JStr (ApiModel.lit name));
        (lit "params", params); (lit "id", JInt 7)].
