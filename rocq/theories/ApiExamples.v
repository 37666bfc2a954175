(** Cases and counterexamples for C86 and C87. *)
From Coq Require Import NArith ZArith List Bool String Lia.
From stdpp Require Import base option list.
From Verif Require Import Base CodecModel CodecSpec MsgModel EvmMathModel EvmMathSpec HexModel RlpModel EvmTxModel EvmLogModel EvmLogSpec
  ApiModel ApiSpec ApiProofs EvmTxExamples.
Import ListNotations.
Open Scope N_scope.

Local Notation "'lit' s" := (ApiModel.lit s%string) (at level 9).
Notation params l := (JArr (map (fun s => JStr (ApiModel.lit s%string)) l)).

Lemma post_is name p : request_is (post name p) (ApiModel.lit name) p 7.
Proof. eexists. repeat split; reflexivity. Qed.

Lemma balance_case : exists a,
  documented 52188 900 (fun b => b) MBalance
    (params ["0x0102030405060708090a0b0c0d0e0f1011121314"; "latest"]%string) a /\
  request_is (post "eth_getBalance" (params ["0x0102030405060708090a0b0c0d0e0f1011121314"; "latest"]%string))
    (lit "eth_getBalance") (params ["0x0102030405060708090a0b0c0d0e0f1011121314"; "latest"]%string) 7 /\
  serve 52188 (fun b => b) (fun _ => []) 900
    (Some (post "eth_getBalance" (params ["0x0102030405060708090a0b0c0d0e0f1011121314"; "latest"]%string))) =
  Served [] (Some (7, Run FAccount (RBytes [1;2;3;4;5;6;7;8;9;10;11;12;13;14;15;16;17;18;19;20]) true KBalance)).
Proof.
  eexists. split; [|split].
  - refine (d_balance _ _ _ [1;2;3;4;5;6;7;8;9;10;11;12;13;14;15;16;17;18;19;20] [JStr (lit "latest")] _).
    split; [|reflexivity]. repeat constructor.
  - apply post_is.
  - vm_compute. reflexivity.
Qed.

Lemma logs_case : exists a, documented 52188 900 (fun b => b) MLogs
  (JArr [JObj [(lit "address", JArr [JStr (hex_text (be_bytes 20 5))]); (lit "topics", JArr [JStr (hex_text (be_bytes 32 6))]);
               (lit "fromBlock", JStr (lit "0x10")); (lit "toBlock", JStr (lit "0x20"))]]) a.
Proof.
  eexists. refine (d_logs _ _ _ _ [be_bytes 20 5] [be_bytes 32 6] (lit "0x10") (lit "0x20") 16 32 [] _ _ _ _ _ _ _ _ _ _ _ _ _ _);
    try reflexivity; try discriminate.
  - repeat constructor.
  - repeat constructor.
  - right. split; reflexivity.
  - right. split; reflexivity.
Qed.

Lemma raw_case : exists a, documented 1 900 (fun b => b) MSendRaw
  (JArr [JStr (hex_text (tx_encode 1 false ex_dynamic))]) a.
Proof.
  assert (D : exists t, tx_decode 1 (tx_encode 1 false ex_dynamic) = DOk t) by (eexists; vm_compute; reflexivity).
  destruct D as [t D].
  eexists. refine (d_send_raw _ _ _ _ t [] _ D).
  split; [|split].
  - apply List.Forall_forall. intros x H.
    assert (forallb (fun b => b <? 256) (tx_encode 1 false ex_dynamic) = true) as F by (vm_compute; reflexivity).
    apply N.ltb_lt. exact (proj1 (forallb_forall _ _) F x H).
  - vm_compute. discriminate.
  - vm_compute. discriminate.
Qed.

Section Any.
Variable chain highest : N.
Variable keccak : bytes -> bytes.
Variable num_text : json -> text.

Lemma unknown_case : serve chain keccak num_text highest (Some (post "eth_protocolVersion" (JArr []))) =
  Served [SReply 7 (Error unknown_method)] None.
Proof. reflexivity. Qed.

(** Requests that end the process. *)
Lemma ended_cases : Forall (fun b => serve chain keccak num_text highest (Some b) = Ended)
  [JArr [post "eth_chainId" (JArr [])];
   JInt 5;
   post "eth_getBalance" (params [""]%string);
   post "eth_getBlockByNumber" (params ["latest"; "full"]%string);
   post "eth_getBlockByNumber" (JObj []);
   post "eth_feeHistory" (JArr [JStr (lit "five"); JStr (lit "latest"); JArr []]);
   post "eth_sendTransaction" (JArr [JObj [(lit "type", JInt (2 ^ 31))]]);
   post "eth_sendRawTransaction" (JObj []);
   post "eth_getLogs" (JArr [JObj [(lit "address", JArr [JStr (hex_text (be_bytes 20 5))]);
      (lit "topics", JArr [JArr [JStr (hex_text (be_bytes 32 6))]]);
      (lit "fromBlock", JStr (lit "0x10")); (lit "toBlock", JStr (lit "0x20"))]])].
Proof. repeat (apply Forall_cons; split; [reflexivity|]). apply Forall_nil. exact I. Qed.

Lemma wild_logs_case : serve chain keccak num_text highest (Some
   (post "eth_getLogs" (JArr [JObj [(lit "address", JArr [JStr (hex_text (be_bytes 20 5))]);
      (lit "topics", JArr [JStr (hex_text (be_bytes 32 6))]);
      (lit "fromBlock", JStr (lit "0x8000000000000000")); (lit "toBlock", JStr (lit "0x1"))]]))) = Wild.
Proof. vm_compute. reflexivity. Qed.

Lemma twice_case :
  serve chain keccak num_text highest (Some (post "eth_getBlockByNumber" (params ["latest"]%string))) =
  Served [SReply 7 (Error invalid_block_parameter); SBad] None.
Proof. reflexivity. Qed.

Lemma id_case : serve chain keccak num_text highest
  (Some (JObj [(lit "method", JStr (lit "eth_gasPrice")); (lit "id", JStr (lit "first"))])) =
  Served [SReply 0 (Result (PText (lit "0x0")))] None.
Proof. reflexivity. Qed.

Lemma blockhash_case : serve chain keccak num_text highest (Some
   (post "eth_getLogs" (JArr [JObj [(lit "address", JArr [JStr (hex_text (be_bytes 20 5))]);
      (lit "topics", JArr [JStr (hex_text (be_bytes 32 6))]);
      (lit "blockHash", JStr (hex_text (be_bytes 32 16)))]]))) =
  Served [SReply 7 (Error invalid_block_parameter)] None.
Proof. vm_compute. reflexivity. Qed.

Lemma one_topic_case : serve chain keccak num_text highest (Some
   (post "eth_getLogs" (JArr [JObj [(lit "address", JStr (hex_text (be_bytes 20 5)));
      (lit "fromBlock", JStr (lit "0x10")); (lit "toBlock", JStr (lit "0x20"))]]))) =
  Served [SReply 7 (Error invalid_topic)] None.
Proof. vm_compute. reflexivity. Qed.
End Any.

Lemma wild_raw_case keccak num_text highest : exists b, Forall is_byte b /\ b <> [] /\
  serve 1 keccak num_text highest (Some (post "eth_sendRawTransaction" (JArr [JStr (hex_text b)]))) = Wild.
Proof.
  exists (rlp_bytes (RArr (RBuf (repeat 1 33) :: repeat (RBuf []) 8))). split; [|split].
  - apply List.Forall_forall. intros x H.
    assert (forallb (fun b => b <? 256) (rlp_bytes (RArr (RBuf (repeat 1 33) :: repeat (RBuf []) 8))) = true) as F by (vm_compute; reflexivity).
    apply N.ltb_lt. exact (proj1 (forallb_forall _ _) F x H).
  - vm_compute. discriminate.
  - vm_compute. reflexivity.
Qed.

Lemma fee_cases chain keccak num_text :
  (* the count in hexadecimal, as the interface of Ethereum has it *)
  handle chain keccak num_text 900 MFeeHistory (JArr [JStr (lit "0x5"); JStr (lit "latest"); JArr []]) =
    Done [Result (PFee (lit "0x384") 0)] None true /\
  (* a block's number *)
  handle chain keccak num_text 900 MFeeHistory (JArr [JStr (lit "5"); JStr (lit "0x10"); JArr []]) =
    Done [Error invalid_block_identifier] None true /\
  (* an answer with 2^64 - 1 entries *)
  handle chain keccak num_text 900 MFeeHistory
    (JArr [JStr (lit "18446744073709551615"); JStr (hex_text (repeat 255 32)); JArr []]) =
    Done [Result (PFee (lit "0x0") (2 ^ 64 - 1))] None true.
Proof. split; [|split]; vm_compute; reflexivity. Qed.

(** ** C87 *)

Lemma asks_case : asks MStorage (JArr [JStr (hex_text (be_bytes 20 5)); JStr (hex_text (be_bytes 32 9)); JStr (lit "latest")])
  (PStorage 5 9) KStorage.
Proof. apply a_storage. Qed.

Lemma balance_shown_case :
  answer_value KBalance (encoding c_evm_account (1000, 41)) = Some (Result (PText (lit "0x3e8"))) /\
  answer_value KCount (encoding c_evm_account (1000, 41)) = Some (Result (PText (lit "0x2a"))).
Proof. split; vm_compute; reflexivity. Qed.

Lemma code_overrun_case chain keccak num_text highest : exists b f k, Forall is_byte b /\
  handle chain keccak num_text highest MCode (JArr [JStr (hex_text b)]) = Done [] (Some (Run f (RBytes b) true k)) true /\
  read_key_of f b = None.
Proof. exists (be_bytes 32 7), FCode, KCode. split; [apply CodecProofs.be_bytes_is_byte|]. split; vm_compute; reflexivity. Qed.

Lemma wrong_place_case sha chain keccak num_text highest i : exists f b,
  handle chain keccak num_text highest MBalance (JArr [JStr (hex_text (be_bytes 32 i))]) =
    Done [] (Some (Run f (RBytes b) true KBalance)) true /\
  read_key_of f b = Some (key sha (PReceipt i)).
Proof.
  exists FAccount, (be_bytes 32 i). split; [|reflexivity].
  cbn [handle]. unfold handle_balance. rewrite read_key_hex; [reflexivity|].
  apply (sized_data 31); [apply bytes_sized|lia].
Qed.

Lemma index_case : answer_block_tx (lit "0x0") 0 = Undef /\ answer_block_tx (lit "0x2") 2 = Undef.
Proof. split; vm_compute; reflexivity. Qed.

Lemma other_block_case chain keccak num_text highest : exists q,
  handle chain keccak num_text highest MLogs
   (JArr [JObj [(lit "address", JArr [JStr (hex_text (be_bytes 20 5))]); (lit "topics", JArr [JStr (hex_text (be_bytes 32 6))]);
      (lit "fromBlock", JStr (lit "0x10000000000000003")); (lit "toBlock", JStr (lit "0x10000000000000004"))]]) =
   Done [] (Some (Run FLogs (RQuery q) true KLogs)) true /\ q_from q = 3 /\ q_to q = 4.
Proof. eexists. split; [vm_compute; reflexivity|]. split; reflexivity. Qed.
