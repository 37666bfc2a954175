(** Model of the wire form, identity and signatures of EVM transactions,
    src/parsec/agent/runners/evm/serialization.cpp, signature.cpp, rlp.hpp and the
    access lists of rlp_writer.cpp and rlp_reader.cpp. 256-bit words and addresses are
    their 32 and 20 bytes. *)
From Coq Require Import Arith NArith List Bool.
From stdpp Require Import base list.
From Verif Require Import Base CodecModel RlpModel EvmMathModel HexModel.
Import ListNotations.
Open Scope N_scope.

(** evm_tx_type, messages.hpp:59-63. *)
Inductive tx_type := Legacy | AccessList | DynamicFee.

(** evm_access_tuple, messages.hpp:46-53. *)
Record access := Access { a_address : bytes; a_keys : list bytes }.

(** evm_sig, messages.hpp:39-43. *)
Record evm_sig := EvmSig { s_r : bytes; s_s : bytes; s_v : bytes }.

(** evm_tx, messages.hpp:66-89. *)
Record evm_tx := EvmTx {
  t_type : tx_type;
  t_to : option bytes;
  t_value : bytes;
  t_nonce : bytes;
  t_gas_price : bytes;
  t_gas_limit : bytes;
  t_gas_tip_cap : bytes;
  t_gas_fee_cap : bytes;
  t_input : bytes;
  t_access : list access;
  t_sig : evm_sig
}.

Definition typed (t : tx_type) : bool := match t with Legacy => false | _ => true end.
Definition is_dynamic (t : tx_type) : bool := match t with DynamicFee => true | _ => false end.
Definition type_byte (t : tx_type) : N := match t with Legacy => 0 | AccessList => 1 | DynamicFee => 2 end.

(** ** Encoding *)

(** rlp_encode_access_list, rlp_writer.cpp:85-102. *)
Definition encode_access (l : list access) : rlp :=
  RArr (map (fun a => RArr [make_rlp_value (a_address a) false;
                            RArr (map (fun k => make_rlp_value k false) (a_keys a))]) l).

(** The RLP array built by tx_encode, serialization.cpp:161-202. *)
Definition tx_rlp (chain_id : N) (for_sighash : bool) (t : evm_tx) : rlp :=
  RArr ((if typed (t_type t) then [make_rlp_value (u256 chain_id) true] else [])
    ++ [make_rlp_value (t_nonce t) true]
    ++ (if is_dynamic (t_type t)
        then [make_rlp_value (t_gas_tip_cap t) true; make_rlp_value (t_gas_fee_cap t) true]
        else [make_rlp_value (t_gas_price t) true])
    ++ [make_rlp_value (t_gas_limit t) true]
    ++ [match t_to t with
        | Some a => make_rlp_value a false
        | None => make_rlp_value (u256 0) true
        end]
    ++ [make_rlp_value (t_value t) true]
    ++ [RBuf (t_input t)]
    ++ (if typed (t_type t) then [encode_access (t_access t)] else [])
    ++ (if for_sighash
        then if typed (t_type t) then []
             else [make_rlp_value (u256 chain_id) true;
                   make_rlp_value (le_bytes 4 0) true; make_rlp_value (le_bytes 4 0) true]
        else [make_rlp_value (s_v (t_sig t)) true; make_rlp_value (s_r (t_sig t)) true;
              make_rlp_value (s_s (t_sig t)) true])).

(** tx_encode, serialization.cpp:155-206. *)
Definition tx_encode (chain_id : N) (for_sighash : bool) (t : evm_tx) : bytes :=
  (if typed (t_type t) then [type_byte (t_type t)] else []) ++ rlp_bytes (tx_rlp chain_id for_sighash t).

(** ** Decoding *)

(** The outcomes of a decoder: a value, std::nullopt, an exception, undefined behaviour
    (memory outside a buffer is read or written), and a model whose fuel ran out. *)
Inductive dec_result (A : Type) := DOk (a : A) | DNone | DThrow | DUndefined | DNoFuel.
Arguments DOk {A}. Arguments DNone {A}. Arguments DThrow {A}.
Arguments DUndefined {A}. Arguments DNoFuel {A}.

Definition dbind {A B} (r : dec_result A) (k : A -> dec_result B) : dec_result B :=
  match r with
  | DOk a => k a
  | DNone => DNone
  | DThrow => DThrow
  | DUndefined => DUndefined
  | DNoFuel => DNoFuel
  end.

(** rlp_value::value<T>, rlp.hpp:92-105: right-aligned in [n] zero bytes; a longer buffer
    is copied to before the start. An array's buffer is empty. *)
Definition rlp_word (n : nat) (v : rlp) : dec_result bytes :=
  let b := rlp_data v in
  if (n <? length b)%nat then DUndefined else DOk (repeat 0 (n - length b) ++ b).

(** value_at, rlp.cpp:27-29: std::vector::at. A buffer has no values. *)
Definition value_at (v : rlp) (i : nat) : dec_result rlp :=
  match v with
  | RArr l => match nth_error l i with Some x => DOk x | None => DThrow end
  | RBuf _ => DThrow
  end.

(** The loops over indices of rlp_decode_access_list. *)
Fixpoint dmap {A B} (f : A -> dec_result B) (l : list A) : dec_result (list B) :=
  match l with
  | [] => DOk []
  | x :: r => dbind (f x) (fun y => dbind (dmap f r) (fun ys => DOk (y :: ys)))
  end.

(** The inner loop, rlp_reader.cpp:108-112. For a buffer the first value_at throws. *)
Definition decode_keys (v : rlp) : dec_result (list bytes) :=
  match v with
  | RArr l => dmap (rlp_word 32) l
  | RBuf [] => DOk []
  | RBuf (_ :: _) => DThrow
  end.

(** The body of the outer loop, rlp_reader.cpp:100-113: the address is only read from
    an array of two; the keys are read from the second element in any case. *)
Definition decode_tuple (v : rlp) : dec_result access :=
  dbind (match v with
         | RArr [a; _] => rlp_word 20 a
         | _ => DOk (repeat 0 20)
         end) (fun addr =>
  dbind (value_at v 1) (fun ks =>
  dbind (decode_keys ks) (fun keys => DOk (Access addr keys)))).

(** rlp_decode_access_list, rlp_reader.cpp:92-117; tx_decode leaves the list empty when
    the element is not an array (serialization.cpp:126-130). *)
Definition decode_access (v : rlp) : dec_result (list access) :=
  match v with
  | RBuf _ => DOk []
  | RArr l => dmap decode_tuple l
  end.

(** is_valid_rlp_tx, serialization.cpp:27-45: of a buffer the number of bytes. *)
Definition is_valid_rlp_tx (t : tx_type) (v : rlp) : bool :=
  rlp_size v =? match t with DynamicFee => 12 | AccessList => 11 | Legacy => 9 end.

(** check_tx_decode, serialization.cpp:47-76. Reading the first byte of an empty buffer
    is undefined. *)
Definition check_tx_decode (b : bytes) : dec_result (tx_type * rlp) :=
  match b with
  | [] => DUndefined
  | x :: r =>
      let '(ty, body) := if x =? 1 then (AccessList, r) else if x =? 2 then (DynamicFee, r) else (Legacy, b) in
      match from_buffer c_rlp body with
      | Ok (Some v) _ => if is_valid_rlp_tx ty v then DOk (ty, v) else DNone
      | Ok None _ => DNone
      | Throw => DThrow
      | NoFuel => DNoFuel
      end
  end.

(** eip155_v_offset and pre_eip155_v_offset, serialization.hpp:25-26. *)
Definition eip155_v_offset : N := 35.
Definition pre_eip155_v_offset : N := 27.

(** The input data, serialization.cpp:120-122: of an array as many bytes as it has
    elements are copied from its empty buffer. *)
Definition decode_input (v : rlp) : dec_result bytes :=
  match v with
  | RBuf b => DOk b
  | RArr [] => DOk []
  | RArr (_ :: _) => DUndefined
  end.

(** The recipient, serialization.cpp:115-118. *)
Definition decode_to (v : rlp) : dec_result (option bytes) :=
  if rlp_size v =? 0 then DOk None else dbind (rlp_word 20 v) (fun a => DOk (Some a)).

(** tx_decode, serialization.cpp:78-153. [i] counts the elements already read. *)
Definition tx_decode (chain_id : N) (b : bytes) : dec_result evm_tx :=
  dbind (check_tx_decode b) (fun tv =>
  let ty := fst tv in
  let v := snd tv in
  let word_at i := dbind (value_at v i) (rlp_word 32) in
  dbind (if typed ty
         then dbind (word_at 0%nat) (fun c =>
                if to_uint64 c =? chain_id then DOk 1%nat else DNone)
         else DOk 0%nat) (fun i =>
  dbind (word_at i) (fun nonce =>
  dbind (if is_dynamic ty
         then dbind (word_at (i + 1)%nat) (fun tip =>
              dbind (word_at (i + 2)%nat) (fun fee => DOk (repeat 0 32, tip, fee, (i + 3)%nat)))
         else dbind (word_at (i + 1)%nat) (fun price =>
              DOk (price, repeat 0 32, repeat 0 32, (i + 2)%nat))) (fun g =>
  let '(price, tip, fee, j) := g in
  dbind (word_at j) (fun limit =>
  dbind (dbind (value_at v (j + 1)%nat) decode_to) (fun to =>
  dbind (word_at (j + 2)%nat) (fun value =>
  dbind (dbind (value_at v (j + 3)%nat) decode_input) (fun input =>
  dbind (if typed ty
         then dbind (dbind (value_at v (j + 4)%nat) decode_access) (fun a => DOk (a, (j + 5)%nat))
         else DOk ([], (j + 4)%nat)) (fun al =>
  let k := snd al in
  dbind (word_at k) (fun sv =>
  dbind (if typed ty then DOk tt
         else let small_v := to_uint64 sv in
              if (eip155_v_offset <=? small_v)
                 && negb ((small_v - eip155_v_offset) / 2 =? chain_id)
              then DNone else DOk tt) (fun _ =>
  dbind (word_at (k + 1)%nat) (fun sr =>
  dbind (word_at (k + 2)%nat) (fun ss =>
  DOk (EvmTx ty to value nonce price limit tip fee input (fst al) (EvmSig sr ss sv))))))))))))))).

(** ** Signatures *)

(** The 65 bytes of a secp256k1_ecdsa_recoverable_signature to an evm_sig,
    signature.cpp:22-52, in 64-bit arithmetic. *)
Definition sig_to_evm (ty : tx_type) (chain_id : N) (data : bytes) : evm_sig :=
  let v := nth 64 data 0 in
  let v_large := if typed ty then v else (v + eip155_v_offset + (chain_id * 2) mod two64) mod two64 in
  EvmSig (rev (firstn 32 data)) (rev (firstn 32 (skipn 32 data))) (u256 v_large).

(** signature.cpp:54-83. *)
Definition evm_to_sig (ty : tx_type) (chain_id : N) (e : evm_sig) : option bytes :=
  let v_large := to_uint64 (s_v e) in
  let out v := Some (rev (s_r e) ++ rev (s_s e) ++ [v mod 256]) in
  if typed ty then out v_large
  else if eip155_v_offset <? v_large then
    let v := (v_large - eip155_v_offset + (two64 - (chain_id * 2) mod two64)) mod two64 in
    if 255 <? v then None else out v
  else if pre_eip155_v_offset <=? v_large then out (v_large - pre_eip155_v_offset)
  else out v_large.

Section Hashing.
  (** keccak256, and the recovery of the signer's address from a signature and a hash
      (secp256k1_ecdsa_recover and eth_addr). *)
  Variable keccak : bytes -> bytes.
  Variable recover : bytes -> bytes -> option bytes.

  (** tx_id, serialization.cpp:21-25. *)
  Definition tx_id (chain_id : N) (t : evm_tx) : bytes := keccak (tx_encode chain_id false t).

  (** sig_hash, signature.cpp:134-138. *)
  Definition sig_hash (chain_id : N) (t : evm_tx) : bytes := keccak (tx_encode chain_id true t).

  (** check_signature, signature.cpp:104-132. *)
  Definition check_signature (chain_id : N) (t : evm_tx) : option bytes :=
    match evm_to_sig (t_type t) chain_id (t_sig t) with
    | None => None
    | Some s => recover s (sig_hash chain_id t)
    end.
End Hashing.

(** ** JSON *)

(** buffer_from_json, serialization.cpp:258-267, of a JSON string ([Some]) or anything
    else; the first two characters are dropped, whatever they are. *)
Definition buffer_from_json (j : option string) : option bytes :=
  match j with
  | Some s => if (2 <? length s)%nat then from_hex (skipn 2 s) else None
  | None => None
  end.

(** uint256be_from_json, serialization.cpp:245-256: from_buffer reads 32 bytes. *)
Definition uint256_from_json (j : option string) : option bytes :=
  match buffer_from_json j with
  | Some b => if (32 <=? length b)%nat then Some (firstn 32 b) else None
  | None => None
  end.

(** uint256be_or_default with default 0, serialization.cpp:269-276. *)
Definition uint256_or_zero (j : option string) : bytes :=
  default (repeat 0 32) (uint256_from_json j).

(** to_hex_trimmed, util.cpp:35-54; evmc::hex is two lower-case digits per byte. *)
Definition to_hex_trimmed (prefix : string) (b : bytes) : string :=
  let d := drop_zeros b in
  match d with
  | [] => prefix ++ [48]
  | _ => prefix ++ (match to_hex d with
                    | c :: r => if c =? 48 then r else c :: r
                    | [] => []
                    end)
  end.

(** uint256be_from_hex, util.cpp:81-99. *)
Definition uint256_from_hex (s : string) : option bytes :=
  match from_hex_prefixed ox s with
  | Some b => if (32 <? length b)%nat then None else Some (repeat 0 (32 - length b) ++ b)
  | None => None
  end.
