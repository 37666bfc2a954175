(** Transactions: src/uhs/transaction/transaction.{hpp,cpp} and messages.cpp. *)
From Coq Require Import NArith List Bool.
From stdpp Require Import base decidable list.
From Verif Require Import Base CodecModel.
Import ListNotations.
Open Scope N_scope.

(** transaction::out_point, transaction.hpp. *)
Record out_point := OutPoint { op_txid : hash; op_index : N }.
(** transaction::output. *)
Record output := Output { out_commit : hash; out_value : N }.
(** transaction::input. *)
Record input := Input { in_prevout : out_point; in_data : output }.
(** transaction::full_tx; a witness is a std::vector<std::byte>
    (witness_t), one per input. *)
Record full_tx := FullTx {
  tx_inputs : list input; tx_outputs : list output; tx_witness : list bytes }.
(** transaction::compact_tx. The attestations are an unordered_map from public
    key to signature: association list with distinct keys. *)
Record compact_tx := CompactTx {
  ctx_id : hash; ctx_inputs : list hash; ctx_outputs : list hash;
  ctx_atts : list (N * N) }.

#[global] Instance out_point_eq_dec : EqDecision out_point.
Proof. solve_decision. Defined.
#[global] Instance output_eq_dec : EqDecision output.
Proof. solve_decision. Defined.
#[global] Instance input_eq_dec : EqDecision input.
Proof. solve_decision. Defined.
#[global] Instance full_tx_eq_dec : EqDecision full_tx.
Proof. solve_decision. Defined.
#[global] Instance compact_tx_eq_dec : EqDecision compact_tx.
Proof. solve_decision. Defined.

(** operator<< / operator>> for transactions,
    src/uhs/transaction/messages.cpp:13-63. *)
Definition c_out_point : codec out_point :=
  c_iso (fun p => OutPoint (fst p) (snd p)) (fun o => (op_txid o, op_index o))
    (c_pair c_hash c_u64).
Definition c_output : codec output :=
  c_iso (fun p => Output (fst p) (snd p)) (fun o => (out_commit o, out_value o))
    (c_pair c_hash c_u64).
Definition c_input : codec input :=
  c_iso (fun p => Input (fst p) (snd p)) (fun i => (in_prevout i, in_data i))
    (c_pair c_out_point c_output).

(** witness_t = std::vector<std::byte>, serialised as a vector of 1-byte
    elements (format.hpp:185-233, format.cpp:9-22). *)
Definition c_witness : codec bytes := c_vec c_u8.

Definition c_full_tx : codec full_tx :=
  c_iso (fun p => FullTx (fst (fst p)) (snd (fst p)) (snd p))
    (fun t => (tx_inputs t, tx_outputs t, tx_witness t))
    (c_pair (c_pair (c_vec c_input) (c_vec c_output)) (c_vec c_witness)).

Definition c_compact_tx : codec compact_tx :=
  c_iso (fun p => CompactTx (fst (fst (fst p))) (snd (fst (fst p)))
                    (snd (fst p)) (snd p))
    (fun t => (ctx_id t, ctx_inputs t, ctx_outputs t, ctx_atts t))
    (c_pair (c_pair (c_pair c_hash (c_vec c_hash)) (c_vec c_hash))
       (c_map c_pubkey c_sig)).

Section Crypto.
  (** CSHA256 over the concatenation of the written blocks. *)
  Variable sha : bytes -> hash.
  (** secp256k1_xonly_pubkey_parse: the 32 bytes denote a curve point. *)
  Variable pk_parse : N -> bool.
  (** secp256k1_schnorrsig_verify of (public key, message, signature). *)
  Variable schnorr : N -> hash -> N -> bool.

  (** tx_id, transaction.cpp:72-85. *)
  Definition tx_id (tx : full_tx) : hash :=
    sha (make_buffer (wr (c_vec c_input) (tx_inputs tx))
         ++ make_buffer (wr (c_vec c_output) (tx_outputs tx))).

  (** input::hash, transaction.cpp:48-58. *)
  Definition input_hash (i : input) : hash := sha (make_buffer (wr c_input i)).

  (** input_from_output(tx, i, txid), transaction.cpp:87-97. *)
  Definition input_from_output_id (tx : full_tx) (i : nat) (txid : hash)
    : option input :=
    match nth_error (tx_outputs tx) i with
    | None => None
    | Some o => Some (Input (OutPoint txid (N.of_nat i)) o)
    end.

  (** input_from_output(tx, i), transaction.cpp:99-103. *)
  Definition input_from_output (tx : full_tx) (i : nat) : option input :=
    input_from_output_id tx i (tx_id tx).

  (** uhs_id_from_output, transaction.cpp:105-120. *)
  Definition uhs_id_from_output (entropy : hash) (i : N) (o : output) : hash :=
    sha (be_bytes 32 entropy ++ le_bytes 8 i ++ make_buffer (wr c_output o)).

  (** Loop over the outputs of the compact_tx constructor,
      transaction.cpp:131-134. *)
  Fixpoint uhs_outputs_from (id : hash) (i : N) (outs : list output) : list hash :=
    match outs with
    | [] => []
    | o :: r => uhs_id_from_output id i o :: uhs_outputs_from id (i + 1) r
    end.

  (** compact_tx::compact_tx(full_tx), transaction.cpp:126-135. *)
  Definition to_compact (tx : full_tx) : compact_tx :=
    let id := tx_id tx in
    CompactTx id (map input_hash (tx_inputs tx))
      (uhs_outputs_from id 0 (tx_outputs tx)) [].

  (** compact_tx::hash, transaction.cpp:158-168: hash of the serialised
      transaction with the attestations cleared. *)
  Definition ctx_hash (t : compact_tx) : hash :=
    sha (make_buffer (wr c_compact_tx
      (CompactTx (ctx_id t) (ctx_inputs t) (ctx_outputs t) []))).

  (** compact_tx::verify, transaction.cpp:170-187. *)
  Definition ctx_verify (t : compact_tx) (att : N * N) : bool :=
    pk_parse (fst att) && schnorr (fst att) (ctx_hash t) (snd att).

  (** validation::check_attestations, validation.cpp:407-421. *)
  Definition check_attestations (t : compact_tx) (pubkeys : list N)
      (threshold : N) : bool :=
    if len (ctx_atts t) <? threshold then false
    else forallb (fun att => bool_decide (fst att ∈ pubkeys) && ctx_verify t att)
           (ctx_atts t).
End Crypto.
