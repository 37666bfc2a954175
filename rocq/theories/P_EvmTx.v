(** The properties C51 (EVM transactions on the wire), C57 (signatures of EVM
    transactions) and C58 (numbers as text). *)
From Coq Require Import NArith List.
From stdpp Require Import base list.
From Verif Require Import Base CodecModel RlpModel RlpSpec HexModel EvmMathModel EvmMathSpec
  EvmTxModel EvmTxSpec EvmTxProofs EvmTxExamples CollideSpec CollideProofs.
Import ListNotations.
Open Scope N_scope.

(** C51: decoding the encoding of a transaction with the chain ID it was encoded with
    yields the transaction. *)
Theorem C51_round_trip c t : c < 2 ^ 64 ->
  well_formed t -> only_own_fields t -> legacy_chain c t -> fits c t ->
  tx_decode c (tx_encode c false t) = DOk t.
Proof. exact (round_trip c t). Qed.
Print Assumptions C51_round_trip.

Example C51_example :
  (well_formed ex_dynamic /\ only_own_fields ex_dynamic /\ legacy_chain 1 ex_dynamic /\ fits 1 ex_dynamic) /\
  (well_formed ex_create /\ only_own_fields ex_create /\ legacy_chain 1 ex_create /\ fits 1 ex_create) /\
  (well_formed ex_legacy /\ only_own_fields ex_legacy /\ legacy_chain 1 ex_legacy /\ fits 1 ex_legacy).
Proof. exact (conj (ex_ok _ (or_intror (or_intror eq_refl)))
                (conj (ex_ok _ (or_intror (or_introl eq_refl))) (ex_ok _ (or_introl eq_refl)))). Qed.

(** C51: the encodings are those of EIP-2718, EIP-2930, EIP-1559 and, for signing legacy
    transactions, EIP-155. *)
Theorem C51_standard c (for_sighash : bool) t : well_formed t -> fits c t -> c < 2 ^ 64 ->
  encodes t (unsigned_fields c t ++ if for_sighash then signing_fields c t else signature_fields t)
    (tx_encode c for_sighash t).
Proof. exact (encodes_ok c for_sighash t). Qed.
Print Assumptions C51_standard.

(** C51: what is accepted from any bytes is a well-formed transaction, with a legacy
    signature only for this chain. *)
Theorem C51_accepts c b t : Forall is_byte b -> tx_decode c b = DOk t ->
  well_formed t /\ only_own_fields t /\ legacy_chain c t.
Proof. exact (decoded c b t). Qed.
Print Assumptions C51_accepts.

(** C51: decoding terminates on any bytes. *)
Theorem C51_terminates c b : tx_decode c b <> DNoFuel.
Proof. exact (decode_terminates c b). Qed.
Print Assumptions C51_terminates.

(** C51: two transactions with the same ID are the same, or their encodings are a collision of
    the hash function. *)
Theorem C51_id keccak c t t' : c < 2 ^ 64 ->
  well_formed t -> only_own_fields t -> legacy_chain c t -> fits c t ->
  well_formed t' -> only_own_fields t' -> legacy_chain c t' -> fits c t' ->
  tx_id keccak c t = tx_id keccak c t' -> t = t' \/
  collides keccak [tx_encode c false t; tx_encode c false t'].
Proof. exact (evm_id_unique keccak c t t'). Qed.
Print Assumptions C51_id.

(** Fields that the type does not have are lost. *)
Theorem C51_unused_fields_refuted : exists t t',
  well_formed t /\ legacy_chain 1 t /\ fits 1 t /\ tx_decode 1 (tx_encode 1 false t) = DOk t' /\ t' <> t.
Proof. exact unused_field_case. Qed.
Print Assumptions C51_unused_fields_refuted.

(** A typed transaction for the chain 2^64 + 1 is accepted on the chain 1. *)
Theorem C51_chain_refuted : exists b,
  tx_decode 1 b = DOk ex_dynamic /\
  encodes ex_dynamic (Number (2 ^ 64 + 1) :: tail (unsigned_fields 1 ex_dynamic) ++ signature_fields ex_dynamic) b.
Proof. exact (ex_intro _ _ wrong_chain_case). Qed.
Print Assumptions C51_chain_refuted.

(** There are bytes on which decoding throws std::out_of_range, and ones (the empty
    message among them) on which it accesses memory outside its buffers. *)
Theorem C51_throws_refuted : exists b, tx_decode 1 b = DThrow.
Proof. exact (ex_intro _ _ string_case). Qed.
Print Assumptions C51_throws_refuted.
Theorem C51_memory_safe_refuted : (exists b, b <> [] /\ tx_decode 1 b = DUndefined) /\ tx_decode 1 [] = DUndefined.
Proof. exact undefined_cases. Qed.
Print Assumptions C51_memory_safe_refuted.

(** C57: converting a recoverable signature to the transaction's form and back gives the
    signature again. *)
Theorem C57_round_trip ty c d : recoverable d -> v_unambiguous ty c d ->
  evm_to_sig ty c (sig_to_evm ty c d) = Some d.
Proof. exact (sig_round_trip' ty c d). Qed.
Print Assumptions C57_round_trip.

Example C57_example : recoverable (repeat 1 64 ++ [1]) /\
  v_unambiguous Legacy 52188 (repeat 1 64 ++ [1]) /\
  number (s_v (sig_to_evm Legacy 52188 (repeat 1 64 ++ [1]))) = 104412.
Proof. exact sig_example. Qed.

(** C57: the address recovered from a transaction is the signer's. *)
Theorem C57_signer keccak sign recover addr c t key : recovers sign recover addr ->
  v_unambiguous (t_type t) c (sign key (sig_hash keccak c t)) ->
  check_signature keccak recover c
    (with_sig t (sig_to_evm (t_type t) c (sign key (sig_hash keccak c t)))) = Some (addr key).
Proof. exact (signer_recovered' keccak sign recover addr c t key). Qed.
Print Assumptions C57_signer.

Example C57_signer_example : exists sign recover addr, recovers sign recover addr /\
  v_unambiguous Legacy 52188 (sign [] []).
Proof. exact signer_example. Qed.

(** C57: the signed hash fixes the chain and every field but the signature, up to a
    collision of the two encodings. *)
Theorem C57_signed_hash keccak c c' t t' : c < 2 ^ 64 -> c' < 2 ^ 64 ->
  well_formed t -> only_own_fields t -> fits c t ->
  well_formed t' -> only_own_fields t' -> fits c' t' ->
  sig_hash keccak c t = sig_hash keccak c' t' ->
  (c = c' /\ t' = with_sig t (t_sig t')) \/ collides keccak [tx_encode c true t; tx_encode c' true t'].
Proof. exact (evm_sig_hash_unique keccak c c' t t'). Qed.
Print Assumptions C57_signed_hash.

(** On chain 0 the recovery ID 0 of a legacy transaction comes back as another one. *)
Theorem C57_chain0_refuted : exists d, recoverable d /\
  evm_to_sig Legacy 0 (sig_to_evm Legacy 0 d) <> Some d /\
  evm_to_sig Legacy 0 (sig_to_evm Legacy 0 d) <> None.
Proof. exact v35_case. Qed.
Print Assumptions C57_chain0_refuted.

(** The ID of a signed transaction is not fixed by what was signed: anyone can change
    [v] so that the transaction is accepted, has the same signer and another encoding. *)
Theorem C57_malleable_refuted v : v = 2 ^ 64 + 37 \/ v = 27 ->
  let t := ex_legacy in let t' := with_v t v in
  t <> t' /\
  tx_decode 1 (tx_encode 1 false t) = DOk t /\ tx_decode 1 (tx_encode 1 false t') = DOk t' /\
  tx_encode 1 false t <> tx_encode 1 false t' /\
  forall keccak recover, check_signature keccak recover 1 t = check_signature keccak recover 1 t'.
Proof. exact (malleable_case v). Qed.
Print Assumptions C57_malleable_refuted.

(** C58: a number printed in the shortest hexadecimal form is read back by
    uint256be_from_hex. *)
Theorem C58_hex_back b : word b -> uint256_from_hex (to_hex_trimmed ox b) = Some b.
Proof. exact (hex_back b). Qed.
Print Assumptions C58_hex_back.

Example C58_example : word (u256 1000) /\ to_hex_trimmed ox (u256 1000) = [48; 120; 51; 101; 56].
Proof. exact (conj (EvmMathProofs.u256_word 1000) eq_refl). Qed.

(** The reader used for the fields of a transaction in JSON reads every number below
    2^248 in that form as 0. *)
Theorem C58_json_refuted b : word b -> number b < 2 ^ 248 ->
  uint256_or_zero (Some (to_hex_trimmed ox b)) = zero_word.
Proof. exact (json_small b). Qed.
Print Assumptions C58_json_refuted.
