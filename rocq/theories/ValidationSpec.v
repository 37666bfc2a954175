(** Declarative rules for transactions, independent of the checking code. *)
From Coq Require Import NArith List.
From Verif Require Import Base CodecModel TxModel ValidationModel.
Import ListNotations.
Open Scope N_scope.

(** Mathematical sum, no wrap-around. *)
Fixpoint total (vs : list N) : N :=
  match vs with [] => 0 | v :: r => v + total r end.

Definition in_values (tx : full_tx) : list N :=
  map (fun i => out_value (in_data i)) (tx_inputs tx).
Definition out_values (tx : full_tx) : list N := map out_value (tx_outputs tx).

(** The values have type uint64_t. *)
Definition typed_tx (tx : full_tx) : Prop :=
  Forall (fun v => v < 2 ^ 64) (in_values tx) /\
  Forall (fun v => v < 2 ^ 64) (out_values tx).

Section Spec.
  Variable sha : bytes -> hash.
  Variable pk_parse : N -> bool.
  Variable schnorr : N -> hash -> N -> bool.

  (** A witness that authorises spending an output with this commitment: type
      byte 0, 32 bytes of public key hashing (with the type byte) to the
      commitment, and 64 bytes of signature of the transaction id. *)
  Definition authorises (tx : full_tx) (commit : hash) (wit : bytes) : Prop :=
    exists pk sg,
      wit = 0 :: pk ++ sg /\ length pk = 32%nat /\ length sg = 64%nat /\
      sha (0 :: pk) = commit /\
      pk_parse (be_value pk) = true /\
      schnorr (be_value pk) (tx_id sha tx) (be_value sg) = true.

  Record valid_tx (tx : full_tx) : Prop := {
    v_inputs : tx_inputs tx <> [];
    v_outputs : tx_outputs tx <> [];
    v_witness : length (tx_witness tx) = length (tx_inputs tx);
    v_distinct : forall i j a b,
      nth_error (tx_inputs tx) i = Some a -> nth_error (tx_inputs tx) j = Some b ->
      in_prevout a = in_prevout b -> i = j;
    v_in_pos : forall v, In v (in_values tx) -> 1 <= v;
    v_out_pos : forall v, In v (out_values tx) -> 1 <= v;
    v_balance : total (in_values tx) = total (out_values tx);
    v_no_overflow : total (in_values tx) < 2 ^ 64;
    v_auth : forall i inp wit,
      nth_error (tx_inputs tx) i = Some inp ->
      nth_error (tx_witness tx) i = Some wit ->
      authorises tx (out_commit (in_data inp)) wit;
  }.

  (** What a witness error code says about the witness. The codes are checked in
      this order, so each one includes that the previous ones do not apply. *)
  Definition witness_fault (tx : full_tx) (commit : hash) (wit : bytes)
      (c : witness_error_code) : Prop :=
    match c with
    | missing_witness_program_type => wit = []
    | unknown_witness_program_type => exists t r, wit = t :: r /\ t <> 0
    | malformed => exists r, wit = 0 :: r /\ length wit <> 97%nat
    | program_mismatch =>
        exists pk sg, wit = 0 :: pk ++ sg /\ length pk = 32%nat /\
          length sg = 64%nat /\ sha (0 :: pk) <> commit
    | invalid_public_key =>
        exists pk sg, wit = 0 :: pk ++ sg /\ length pk = 32%nat /\
          length sg = 64%nat /\ sha (0 :: pk) = commit /\
          pk_parse (be_value pk) = false
    | invalid_signature =>
        exists pk sg, wit = 0 :: pk ++ sg /\ length pk = 32%nat /\
          length sg = 64%nat /\ sha (0 :: pk) = commit /\
          pk_parse (be_value pk) = true /\
          schnorr (be_value pk) (tx_id sha tx) (be_value sg) = false
    end.

  (** [violates tx e]: the transaction really has the fault that the error [e]
      names, at the index it names. *)
  Definition violates (tx : full_tx) (e : tx_error) : Prop :=
    match e with
    | TxError no_inputs => tx_inputs tx = []
    | TxError no_outputs => tx_outputs tx = []
    | TxError missing_witness => length (tx_witness tx) <> length (tx_inputs tx)
    | InputError duplicate d k =>
        d = None /\ exists j a b, (j < N.to_nat k)%nat /\
          nth_error (tx_inputs tx) j = Some a /\
          nth_error (tx_inputs tx) (N.to_nat k) = Some b /\
          in_prevout a = in_prevout b
    | InputError data_error d k =>
        d = Some zero_value /\ nth_error (in_values tx) (N.to_nat k) = Some 0
    | OutputError zero_value k => nth_error (out_values tx) (N.to_nat k) = Some 0
    | TxError value_overflow =>
        2 ^ 64 <= total (in_values tx) \/ 2 ^ 64 <= total (out_values tx)
    | TxError asymmetric_values => total (in_values tx) <> total (out_values tx)
    | WitnessError c k =>
        exists inp wit, nth_error (tx_inputs tx) (N.to_nat k) = Some inp /\
          nth_error (tx_witness tx) (N.to_nat k) = Some wit /\
          witness_fault tx (out_commit (in_data inp)) wit c
    end.

  (** Order in which faults are reported: by rule, then by index. *)
  Definition rule_no (e : tx_error) : N :=
    match e with
    | TxError no_inputs => 0 | TxError no_outputs => 1
    | TxError missing_witness => 2
    | InputError duplicate _ _ => 3 | InputError data_error _ _ => 4
    | OutputError zero_value _ => 5
    | TxError value_overflow => 6 | TxError asymmetric_values => 7
    | WitnessError _ _ => 8
    end.
  Definition fault_index (e : tx_error) : N :=
    match e with
    | InputError _ _ k | OutputError _ k | WitnessError _ k => k
    | TxError _ => 0
    end.
  Definition reported_before (e e' : tx_error) : Prop :=
    rule_no e < rule_no e' \/ (rule_no e = rule_no e' /\ fault_index e < fault_index e').

  (** [e] is the first fault of [tx]. *)
  Definition first_fault (tx : full_tx) (e : tx_error) : Prop :=
    violates tx e /\ forall e', violates tx e' -> e' = e \/ reported_before e e'.
End Spec.
