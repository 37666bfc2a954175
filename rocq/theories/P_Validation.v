(** C01-C04: transaction validation. [valid_tx], [violates], [first_fault] are in
    ValidationSpec.v. [typed_tx] says that values are 64-bit. *)
From Coq Require Import NArith List.
From Verif Require Import Base CodecModel TxModel ValidationModel ValidationSpec
  ValidationProofs ValidationCorollaries TxExamples.
Import ListNotations.
Open Scope N_scope.

(** C01. *)
Theorem C01_value_conserved sha pk_parse schnorr tx : typed_tx tx ->
  check_tx sha pk_parse schnorr tx = Accepted ->
  total (map (fun i => out_value (in_data i)) (tx_inputs tx))
  = total (map out_value (tx_outputs tx)) /\
  total (map out_value (tx_outputs tx)) <= 2 ^ 64 - 1 /\
  (forall i, In i (tx_inputs tx) -> 1 <= out_value (in_data i)) /\
  (forall o, In o (tx_outputs tx) -> 1 <= out_value o).
Proof. exact (value_conserved sha pk_parse schnorr tx). Qed.
Print Assumptions C01_value_conserved.

(** C02. *)
Theorem C02_well_formed sha pk_parse schnorr tx : typed_tx tx ->
  check_tx sha pk_parse schnorr tx = Accepted ->
  tx_inputs tx <> [] /\ tx_outputs tx <> [] /\
  length (tx_witness tx) = length (tx_inputs tx) /\
  NoDup (map in_prevout (tx_inputs tx)).
Proof. exact (well_formed sha pk_parse schnorr tx). Qed.
Print Assumptions C02_well_formed.

(** C03. *)
Theorem C03_inputs_authorised sha pk_parse schnorr tx i inp : typed_tx tx ->
  check_tx sha pk_parse schnorr tx = Accepted ->
  nth_error (tx_inputs tx) i = Some inp ->
  exists pk sg,
    nth_error (tx_witness tx) i = Some (0 :: pk ++ sg) /\
    length pk = 32%nat /\ length sg = 64%nat /\
    sha (0 :: pk) = out_commit (in_data inp) /\
    pk_parse (be_value pk) = true /\
    schnorr (be_value pk) (tx_id sha tx) (be_value sg) = true.
Proof. exact (inputs_authorised sha pk_parse schnorr tx i inp). Qed.
Print Assumptions C03_inputs_authorised.

(** C04: acceptance is validity; the error is the first fault in rule order and
    then index order, it is unique, and no access is out of bounds. *)
Theorem C04_accepts_exactly_valid sha pk_parse schnorr tx : typed_tx tx ->
  (check_tx sha pk_parse schnorr tx = Accepted <-> valid_tx sha pk_parse schnorr tx).
Proof. exact (check_tx_accepts sha pk_parse schnorr tx). Qed.
Print Assumptions C04_accepts_exactly_valid.
Theorem C04_rejects_with_first_fault sha pk_parse schnorr tx e : typed_tx tx ->
  (check_tx sha pk_parse schnorr tx = Rejected e
   <-> first_fault sha pk_parse schnorr tx e).
Proof. exact (check_tx_rejects sha pk_parse schnorr tx e). Qed.
Print Assumptions C04_rejects_with_first_fault.
Theorem C04_total sha pk_parse schnorr tx : typed_tx tx ->
  check_tx sha pk_parse schnorr tx <> OutOfBounds.
Proof. exact (check_tx_no_oob sha pk_parse schnorr tx). Qed.
Print Assumptions C04_total.

(** A witness built for the commitment of a key authorises spending with it:
    whoever can sign can spend. *)
Theorem C04_p2pk_spendable sha pk_parse schnorr tx pk sg :
  pk < 2 ^ 256 -> sg < 2 ^ 512 -> pk_parse pk = true ->
  schnorr pk (tx_id sha tx) sg = true ->
  authorises sha pk_parse schnorr tx (get_p2pk_witness_commitment sha pk)
    (0 :: be_bytes 32 pk ++ be_bytes 64 sg).
Proof. exact (p2pk_spendable sha pk_parse schnorr tx pk sg). Qed.
Print Assumptions C04_p2pk_spendable.

Example C01_C04_example : typed_tx ex_valid /\
  check_tx toy_sha (fun _ => true) toy_schnorr ex_valid = Accepted.
Proof. exact ex_valid_ok. Qed.
Example C04_example_faults :
  typed_tx (ex_sign (ex_unsigned 41) [11; 12]) /\
  check_tx toy_sha (fun _ => true) toy_schnorr (ex_sign (ex_unsigned 41) [11; 12])
  = Rejected (TxError asymmetric_values) /\
  check_tx toy_sha (fun _ => true) toy_schnorr (ex_sign (ex_unsigned 40) [11; 13])
  = Rejected (WitnessError program_mismatch 1) /\
  check_tx toy_sha (fun _ => true) toy_schnorr (ex_sign (ex_unsigned 0) [11; 13])
  = Rejected (OutputError zero_value 0) /\
  check_tx toy_sha (fun _ => true) toy_schnorr (ex_sign (ex_unsigned (2 ^ 64 - 2)) [11; 13])
  = Rejected (TxError value_overflow).
Proof. exact ex_invalid_ok. Qed.
