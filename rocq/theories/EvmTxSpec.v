(** What C51, C57 and C58 say: the transactions and their encodings according to
    EIP-155, EIP-2718, EIP-2930 and EIP-1559. *)
From Coq Require Import NArith List.
From Verif Require Import Base CodecModel RlpModel RlpSpec EvmMathSpec EvmTxModel.
Import ListNotations.
Open Scope N_scope.

Definition address (b : bytes) : Prop := length b = 20%nat /\ Forall is_byte b.
Definition zero_word : bytes := repeat 0 32.

Definition access_ok (a : access) : Prop := address (a_address a) /\ Forall word (a_keys a).

(** The fields have the sizes of their C++ types. *)
Definition well_formed (t : evm_tx) : Prop :=
  match t_to t with Some a => address a | None => True end /\
  word (t_value t) /\ word (t_nonce t) /\ word (t_gas_price t) /\ word (t_gas_limit t) /\
  word (t_gas_tip_cap t) /\ word (t_gas_fee_cap t) /\ Forall is_byte (t_input t) /\
  Forall access_ok (t_access t) /\
  word (s_r (t_sig t)) /\ word (s_s (t_sig t)) /\ word (s_v (t_sig t)).

(** The fields that transactions of the type do not have are at their defaults. *)
Definition only_own_fields (t : evm_tx) : Prop :=
  match t_type t with
  | Legacy => t_access t = [] /\ t_gas_tip_cap t = zero_word /\ t_gas_fee_cap t = zero_word
  | AccessList => t_gas_tip_cap t = zero_word /\ t_gas_fee_cap t = zero_word
  | DynamicFee => t_gas_price t = zero_word
  end.

(** A legacy signature with a chain ID in it is for this chain. *)
Definition legacy_chain (chain_id : N) (t : evm_tx) : Prop :=
  t_type t = Legacy ->
  number (s_v (t_sig t)) mod 2 ^ 64 < 35 \/ (number (s_v (t_sig t)) mod 2 ^ 64 - 35) / 2 = chain_id.

(** The encoding fits into memory. *)
Definition fits (chain_id : N) (t : evm_tx) : Prop :=
  len (tx_encode chain_id false t) <= max_alloc /\ len (tx_encode chain_id true t) <= max_alloc.

(** ** The standards *)

(** An element of a transaction's list: a number, a string, an access list. *)
Inductive field := Number (n : N) | Str (b : bytes) | Accesses (l : list access).

Definition element (f : field) (v : rlp) : Prop :=
  match f with
  | Number n => exists l, v = RBuf l /\ shortest_be n l
  | Str b => v = RBuf b
  | Accesses l =>
      v = RArr (map (fun a => RArr [RBuf (a_address a); RArr (map RBuf (a_keys a))]) l)
  end.

Definition to_field (o : option bytes) : field :=
  match o with Some a => Str a | None => Str [] end.

(** The lists of fields; for signing, and with the signature. *)
Definition unsigned_fields (chain_id : N) (t : evm_tx) : list field :=
  match t_type t with
  | Legacy => [Number (number (t_nonce t)); Number (number (t_gas_price t)); Number (number (t_gas_limit t));
               to_field (t_to t); Number (number (t_value t)); Str (t_input t)]
  | AccessList => [Number chain_id; Number (number (t_nonce t)); Number (number (t_gas_price t));
               Number (number (t_gas_limit t)); to_field (t_to t); Number (number (t_value t));
               Str (t_input t); Accesses (t_access t)]
  | DynamicFee => [Number chain_id; Number (number (t_nonce t)); Number (number (t_gas_tip_cap t));
               Number (number (t_gas_fee_cap t)); Number (number (t_gas_limit t)); to_field (t_to t);
               Number (number (t_value t)); Str (t_input t); Accesses (t_access t)]
  end.

Definition signature_fields (t : evm_tx) : list field :=
  [Number (number (s_v (t_sig t))); Number (number (s_r (t_sig t))); Number (number (s_s (t_sig t)))].

(** EIP-155: a legacy transaction is signed with (chain ID, 0, 0) in the signature's place. *)
Definition signing_fields (chain_id : N) (t : evm_tx) : list field :=
  match t_type t with Legacy => [Number chain_id; Number 0; Number 0] | _ => [] end.

Definition type_prefix (t : evm_tx) : bytes :=
  match t_type t with Legacy => [] | AccessList => [1] | DynamicFee => [2] end.

(** [b] is the type's prefix and the RLP list of these fields. *)
Definition encodes (t : evm_tx) (fields : list field) (b : bytes) : Prop :=
  exists vs e, b = type_prefix t ++ e /\ Forall2 element fields vs /\ RLP (RArr vs) e.

(** The same transaction with another signature. *)
Definition with_sig (t : evm_tx) (s : evm_sig) : evm_tx :=
  EvmTx (t_type t) (t_to t) (t_value t) (t_nonce t) (t_gas_price t) (t_gas_limit t)
    (t_gas_tip_cap t) (t_gas_fee_cap t) (t_input t) (t_access t) s.

(** A recoverable signature: 64 bytes and the recovery ID. *)
Definition recoverable (data : bytes) : Prop := length data = 65%nat /\ Forall is_byte data.
Definition recovery_id (data : bytes) : N := nth 64 data 0.

(** For a legacy transaction the signature's [v] = recovery ID + 35 + 2 * chain ID is
    more than 35 and does not overflow. *)
Definition v_unambiguous (ty : tx_type) (chain_id : N) (data : bytes) : Prop :=
  ty = Legacy -> 0 < recovery_id data + 2 * chain_id /\ recovery_id data + 35 + 2 * chain_id < 2 ^ 64.

(** What signing and recovering promise: the signer's address comes back. *)
Definition recovers (sign : bytes -> bytes -> bytes) (recover : bytes -> bytes -> option bytes)
    (addr : bytes -> bytes) : Prop :=
  forall key h, recoverable (sign key h) /\ recover (sign key h) h = Some (addr key).
