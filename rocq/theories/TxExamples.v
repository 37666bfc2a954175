(** Concrete instances used by the examples. *)
From Coq Require Import NArith List Bool Lia.
From stdpp Require Import base decidable list.
From Verif Require Import Base CodecModel CodecProofs TxModel TxSpec TxProofs
  ValidationModel ValidationSpec ValidationProofs WireProofs.
Import ListNotations.
Open Scope N_scope.

(** A stand-in hash (a polynomial checksum) and signature scheme. *)
Definition toy_sha (b : bytes) : hash :=
  fold_left (fun h x => (h * 257 + x + 1) mod 2 ^ 256) b 0.
Definition toy_schnorr (pk : N) (m : hash) (sg : N) : bool := sg =? (pk + m) mod 2 ^ 512.

Definition ex_ctx0 : compact_tx := CompactTx 1 [2; 3] [4] [].
Definition ex_ctx : compact_tx :=
  CompactTx 1 [2; 3] [4]
    (map (fun pk => (pk, pk + ctx_hash toy_sha ex_ctx0)) [5; 7]).

Lemma ex_ctx_ok : typed_compact_tx ex_ctx /\
  check_attestations toy_sha (fun _ => true) toy_schnorr ex_ctx [5; 7; 9] 2 = true /\
  check_attestations toy_sha (fun _ => true) toy_schnorr ex_ctx [5; 7; 9] 3 = false /\
  check_attestations toy_sha (fun _ => true) toy_schnorr ex_ctx [5; 9] 2 = false.
Proof.
  split; [|repeat match goal with |- _ /\ _ => split end; vm_compute; reflexivity].
  unfold typed_compact_tx, ex_ctx.
  assert (Hh : (ctx_hash toy_sha ex_ctx0 <? 2 ^ 256) = true) by (vm_compute; reflexivity).
  revert Hh. generalize (ctx_hash toy_sha ex_ctx0). intros h Hh. apply N.ltb_lt in Hh.
  change (2 ^ 256) with 115792089237316195423570985008687907853269984665640564039457584007913129639936 in Hh.
  assert (S : forall k, k < 10 -> k + h < 256 ^ 64).
  { intros k Hk. eapply N.lt_trans; [apply N.add_lt_mono; eassumption|]. reflexivity. }
  cbn [dom c_compact_tx c_iso c_pair c_vec c_map fst snd ctx_id ctx_inputs ctx_outputs ctx_atts map].
  repeat split; try reflexivity; repeat constructor; try reflexivity;
    try (apply S; reflexivity); apply (bool_decide_unpack _); vm_compute; exact I.
Qed.

Lemma toy_sha_bound b : toy_sha b < 2 ^ 256.
Proof.
  unfold toy_sha. cut (forall h, h < 2 ^ 256 ->
    fold_left (fun h x => (h * 257 + x + 1) mod 2 ^ 256) b h < 2 ^ 256).
  { intros H. apply H. reflexivity. }
  induction b as [|x b IH]; intros h Hh; simpl; [exact Hh|].
  apply IH. apply N.mod_lt. discriminate.
Qed.

Lemma ex_tx_ids : typed_full_tx ex_tx /\ (forall b, toy_sha b < 2 ^ 256) /\
  length (ctx_outputs (to_compact toy_sha ex_tx)) = 2%nat.
Proof. split; [exact ex_tx_dom|]. split; [exact toy_sha_bound|reflexivity]. Qed.

(** A transaction with two inputs and two outputs that is accepted. *)
Definition p2pk (pk : N) : hash := get_p2pk_witness_commitment toy_sha pk.
Definition ex_unsigned (v : N) : full_tx :=
  FullTx [Input (OutPoint 7 1) (Output (p2pk 11) 30); Input (OutPoint 7 0) (Output (p2pk 12) 12)]
         [Output (p2pk 13) v; Output (p2pk 11) 2] [].
Definition ex_sign (tx : full_tx) (pks : list N) : full_tx :=
  FullTx (tx_inputs tx) (tx_outputs tx)
    (map (fun pk => 0 :: be_bytes 32 pk ++ be_bytes 64 ((pk + tx_id toy_sha tx) mod 2 ^ 512)) pks).
Definition ex_valid : full_tx := ex_sign (ex_unsigned 40) [11; 12].

Lemma ex_valid_ok : typed_tx ex_valid /\
  check_tx toy_sha (fun _ => true) toy_schnorr ex_valid = Accepted.
Proof.
  split; [|vm_compute; reflexivity].
  split; repeat constructor.
Qed.

Lemma ex_invalid_ok :
  typed_tx (ex_sign (ex_unsigned 41) [11; 12]) /\
  check_tx toy_sha (fun _ => true) toy_schnorr (ex_sign (ex_unsigned 41) [11; 12])
  = Rejected (TxError asymmetric_values) /\
  check_tx toy_sha (fun _ => true) toy_schnorr (ex_sign (ex_unsigned 40) [11; 13])
  = Rejected (WitnessError program_mismatch 1) /\
  check_tx toy_sha (fun _ => true) toy_schnorr (ex_sign (ex_unsigned 0) [11; 13])
  = Rejected (OutputError zero_value 0) /\
  check_tx toy_sha (fun _ => true) toy_schnorr (ex_sign (ex_unsigned (2 ^ 64 - 2)) [11; 13])
  = Rejected (TxError value_overflow).
Proof.
  split; [split; repeat constructor|]. repeat match goal with |- _ /\ _ => split end; vm_compute; reflexivity.
Qed.
