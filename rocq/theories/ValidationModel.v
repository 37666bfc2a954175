(** Static transaction validation: src/uhs/transaction/validation.cpp. *)
From Coq Require Import NArith List Bool.
From stdpp Require Import base decidable list.
From Verif Require Import Base CodecModel TxModel.
Import ListNotations.
Open Scope N_scope.

(** Error types, src/uhs/transaction/validation.hpp:29-114. *)
Inductive input_error_code := duplicate | data_error.
Inductive output_error_code := zero_value.
Inductive witness_error_code :=
| missing_witness_program_type | unknown_witness_program_type | malformed
| program_mismatch | invalid_public_key | invalid_signature.
Inductive tx_error_code :=
| no_inputs | no_outputs | missing_witness | asymmetric_values | value_overflow.
Inductive tx_error :=
| InputError (c : input_error_code) (d : option output_error_code) (idx : N)
| OutputError (c : output_error_code) (idx : N)
| WitnessError (c : witness_error_code) (idx : N)
| TxError (c : tx_error_code).

(** validation.hpp:25-27: 1 + 32 and 33 + 64. *)
Definition p2pk_witness_prog_len : nat := 33.
Definition p2pk_witness_len : nat := 97.

(** check_output_value, validation.cpp:288-295. *)
Definition check_output_value (o : output) : option output_error_code :=
  if out_value o <? 1 then Some zero_value else None.

(** check_input_structure, validation.cpp:100-109. *)
Definition check_input_structure (i : input)
  : option (input_error_code * option output_error_code) :=
  match check_output_value (in_data i) with
  | Some e => Some (data_error, Some e)
  | None => None
  end.

(** check_input_count, check_output_count, check_witness_count,
    validation.cpp:243-268. *)
Definition check_input_count (tx : full_tx) : option tx_error :=
  match tx_inputs tx with [] => Some (TxError no_inputs) | _ => None end.
Definition check_output_count (tx : full_tx) : option tx_error :=
  match tx_outputs tx with [] => Some (TxError no_outputs) | _ => None end.
Definition check_witness_count (tx : full_tx) : option tx_error :=
  if Nat.eqb (length (tx_inputs tx)) (length (tx_witness tx)) then None
  else Some (TxError missing_witness).

(** Loop of check_input_set, validation.cpp:270-286: [seen] is the std::set of
    outpoints met so far. *)
Fixpoint check_input_set_from (idx : N) (seen : list out_point) (l : list input)
  : option tx_error :=
  match l with
  | [] => None
  | i :: r =>
      if bool_decide (in_prevout i ∈ seen)
      then Some (InputError duplicate None idx)
      else check_input_set_from (idx + 1) (in_prevout i :: seen) r
  end.
Definition check_input_set (tx : full_tx) : option tx_error :=
  check_input_set_from 0 [] (tx_inputs tx).

(** check_tx_structure, validation.cpp:75-98. *)
Definition check_tx_structure (tx : full_tx) : option tx_error :=
  match check_input_count tx with Some e => Some e | None =>
  match check_output_count tx with Some e => Some e | None =>
  match check_witness_count tx with Some e => Some e | None =>
  check_input_set tx end end end.

(** Loop of check_tx over the inputs, validation.cpp:43-50. *)
Fixpoint check_inputs_from (idx : N) (l : list input) : option tx_error :=
  match l with
  | [] => None
  | i :: r => match check_input_structure i with
              | Some (c, d) => Some (InputError c d idx)
              | None => check_inputs_from (idx + 1) r
              end
  end.

(** Loop of check_tx over the outputs, validation.cpp:52-58. *)
Fixpoint check_outputs_from (idx : N) (l : list output) : option tx_error :=
  match l with
  | [] => None
  | o :: r => match check_output_value o with
              | Some c => Some (OutputError c idx)
              | None => check_outputs_from (idx + 1) r
              end
  end.

(** Overflow-checked running total, validation.cpp:113-119 and 121-127; [None]
    is the value_overflow return. *)
Fixpoint checked_total (total : N) (vs : list N) : option N :=
  match vs with
  | [] => Some total
  | v :: r => if add64 total v <=? total then None
              else checked_total (add64 total v) r
  end.

(** check_in_out_set, validation.cpp:111-134. *)
Definition check_in_out_set (tx : full_tx) : option tx_error :=
  match checked_total 0 (map (fun i => out_value (in_data i)) (tx_inputs tx)) with
  | None => Some (TxError value_overflow)
  | Some a =>
      match checked_total 0 (map out_value (tx_outputs tx)) with
      | None => Some (TxError value_overflow)
      | Some b => if a =? b then None else Some (TxError asymmetric_values)
      end
  end.

Section Validation.
  Variable sha : bytes -> hash.
  Variable pk_parse : N -> bool.
  Variable schnorr : N -> hash -> N -> bool.

  (** check_p2pk_witness_commitment, validation.cpp:190-205. *)
  Definition check_p2pk_witness_commitment (wit : bytes) (commit : hash)
    : option witness_error_code :=
    if sha (firstn p2pk_witness_prog_len wit) =? commit then None
    else Some program_mismatch.

  (** check_p2pk_witness_signature, validation.cpp:207-241: public key = bytes
      1..32, signature = bytes 33..96, message = tx_id. *)
  Definition check_p2pk_witness_signature (tx : full_tx) (wit : bytes)
    : option witness_error_code :=
    let pk := be_value (firstn 32 (skipn 1 wit)) in
    let sg := be_value (firstn 64 (skipn p2pk_witness_prog_len wit)) in
    if negb (pk_parse pk) then Some invalid_public_key
    else if negb (schnorr pk (tx_id sha tx) sg) then Some invalid_signature
    else None.

  (** check_p2pk_witness with check_p2pk_witness_len inlined,
      validation.cpp:158-188. *)
  Definition check_p2pk_witness (tx : full_tx) (wit : bytes) (commit : hash)
    : option witness_error_code :=
    if negb (Nat.eqb (length wit) p2pk_witness_len) then Some malformed else
    match check_p2pk_witness_commitment wit commit with
    | Some e => Some e
    | None => check_p2pk_witness_signature tx wit
    end.

  (** check_witness, validation.cpp:138-156; witness_program_type::p2pk = 0. *)
  Definition check_witness (tx : full_tx) (wit : bytes) (commit : hash)
    : option witness_error_code :=
    match wit with
    | [] => Some missing_witness_program_type
    | t :: _ => if t =? 0 then check_p2pk_witness tx wit commit
                else Some unknown_witness_program_type
    end.

  (** Loop over the witnesses, validation.cpp:65-70. [WitnessOob]: check_witness
      indexes tx.m_inputs[idx] past its end (undefined behaviour); check_tx only
      reaches the loop when the counts agree. *)
  Inductive wit_result := WitOk | WitErr (e : tx_error) | WitnessOob.
  Fixpoint check_witnesses_from (tx : full_tx) (idx : N)
      (ws : list bytes) (ins : list input) : wit_result :=
    match ws with
    | [] => WitOk
    | w :: wr =>
        match ins with
        | [] => WitnessOob
        | i :: ir =>
            match check_witness tx w (out_commit (in_data i)) with
            | Some c => WitErr (WitnessError c idx)
            | None => check_witnesses_from tx (idx + 1) wr ir
            end
        end
    end.

  (** check_tx, validation.cpp:36-73. *)
  Inductive check_result := Accepted | Rejected (e : tx_error) | OutOfBounds.
  Definition check_tx (tx : full_tx) : check_result :=
    match check_tx_structure tx with Some e => Rejected e | None =>
    match check_inputs_from 0 (tx_inputs tx) with Some e => Rejected e | None =>
    match check_outputs_from 0 (tx_outputs tx) with Some e => Rejected e | None =>
    match check_in_out_set tx with Some e => Rejected e | None =>
    match check_witnesses_from tx 0 (tx_witness tx) (tx_inputs tx) with
    | WitErr e => Rejected e
    | WitnessOob => OutOfBounds
    | WitOk => Accepted
    end end end end end.

  (** get_p2pk_witness_commitment, validation.cpp:297-306. *)
  Definition get_p2pk_witness_commitment (payee : N) : hash :=
    sha (0 :: be_bytes 32 payee).
End Validation.
