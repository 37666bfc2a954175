(** C05-C07: attestations, UHS IDs and transaction IDs. [collides sha texts] says that two different
    ones of these texts have the same hash; [attested_text], [coin_text] and [id_text] (CollideSpec.v)
    are the texts that are hashed. *)
From Coq Require Import NArith List.
From stdpp Require Import base list.
From Verif Require Import Base CodecModel TxModel TxSpec TxProofs WireProofs TxExamples SentinelSpec CollideSpec CollideProofs.
Import ListNotations.
Open Scope N_scope.

(** C05. *)
Theorem C05_attestation_check_exact sha pk_parse schnorr t known threshold :
  typed_compact_tx t ->
  check_attestations sha pk_parse schnorr t known threshold = true <->
  sufficiently_attested pk_parse schnorr (ctx_hash sha t) t known threshold.
Proof. exact (check_attestations_exact sha pk_parse schnorr t known threshold). Qed.
Print Assumptions C05_attestation_check_exact.
Theorem C05_hash_ignores_attestations sha id ins outs a1 a2 :
  ctx_hash sha (CompactTx id ins outs a1) = ctx_hash sha (CompactTx id ins outs a2).
Proof. exact (compact_hash_ignores_attestations sha id ins outs a1 a2). Qed.
Print Assumptions C05_hash_ignores_attestations.
(** What is signed determines the transaction. *)
Theorem C05_hash_commits sha a b :
  typed_compact_tx a -> typed_compact_tx b -> ctx_hash sha a = ctx_hash sha b ->
  (ctx_id a = ctx_id b /\ ctx_inputs a = ctx_inputs b /\ ctx_outputs a = ctx_outputs b)
  \/ collides sha [attested_text a; attested_text b].
Proof. exact (compact_commits sha a b). Qed.
Print Assumptions C05_hash_commits.
Example C05_example : typed_compact_tx ex_ctx /\
  check_attestations toy_sha (fun _ => true) toy_schnorr ex_ctx [5; 7; 9] 2 = true /\
  check_attestations toy_sha (fun _ => true) toy_schnorr ex_ctx [5; 7; 9] 3 = false /\
  check_attestations toy_sha (fun _ => true) toy_schnorr ex_ctx [5; 9] 2 = false.
Proof. exact ex_ctx_ok. Qed.

(** C06: output [i] of [tx] is created under the hash of the input spending it. *)
Theorem C06_output_id_is_spender_id sha tx i :
  nth_error (ctx_outputs (to_compact sha tx)) i
  = option_map (input_hash sha) (input_from_output sha tx i).
Proof. exact (output_id_correspondence sha tx i). Qed.
Print Assumptions C06_output_id_is_spender_id.
Theorem C06_spend_deletes_it sha tx i inp tx2 k :
  input_from_output sha tx i = Some inp ->
  nth_error (tx_inputs tx2) k = Some inp ->
  nth_error (ctx_inputs (to_compact sha tx2)) k
  = nth_error (ctx_outputs (to_compact sha tx)) i.
Proof. exact (spend_id_correspondence sha tx i inp tx2 k). Qed.
Print Assumptions C06_spend_deletes_it.
(** The spending input carries the outpoint and data of that output. *)
Theorem C06_spender_carries_output sha tx i :
  input_from_output sha tx i
  = option_map (fun o => Input (OutPoint (tx_id sha tx) (N.of_nat i)) o)
      (nth_error (tx_outputs tx) i).
Proof. exact (input_from_output_spec sha tx i). Qed.
Print Assumptions C06_spender_carries_output.
Theorem C06_distinct_outputs_distinct_ids sha tx1 tx2 i j h a b :
  typed_full_tx tx1 -> typed_full_tx tx2 ->
  (forall b, sha b < 2 ^ 256) ->
  input_from_output sha tx1 i = Some a -> input_from_output sha tx2 j = Some b ->
  nth_error (ctx_outputs (to_compact sha tx1)) i = Some h ->
  nth_error (ctx_outputs (to_compact sha tx2)) j = Some h ->
  (tx_id sha tx1 = tx_id sha tx2 /\ i = j /\
   nth_error (tx_outputs tx1) i = nth_error (tx_outputs tx2) j) \/ collides sha [coin_text a; coin_text b].
Proof. exact (outputs_distinct sha tx1 tx2 i j h a b). Qed.
Print Assumptions C06_distinct_outputs_distinct_ids.
Example C06_example : typed_full_tx ex_tx /\ (forall b, toy_sha b < 2 ^ 256) /\
  length (ctx_outputs (to_compact toy_sha ex_tx)) = 2%nat.
Proof. exact ex_tx_ids. Qed.

(** C07. *)
Theorem C07_id_ignores_witness sha ins outs w1 w2 :
  tx_id sha (FullTx ins outs w1) = tx_id sha (FullTx ins outs w2).
Proof. exact (tx_id_ignores_witness sha ins outs w1 w2). Qed.
Print Assumptions C07_id_ignores_witness.
Theorem C07_id_commits sha a b : typed_full_tx a -> typed_full_tx b ->
  tx_id sha a = tx_id sha b ->
  (tx_inputs a = tx_inputs b /\ tx_outputs a = tx_outputs b) \/ collides sha [id_text a; id_text b].
Proof. exact (id_commits sha a b). Qed.
Print Assumptions C07_id_commits.
Example C07_example : typed_full_tx ex_tx.
Proof. exact ex_tx_dom. Qed.
(** The alternative is not met by two transactions whose texts differ and whose IDs differ. *)
Example C07_example_no_collision :
  ~ collides toy_sha [id_text ex_tx; id_text (FullTx (tx_inputs ex_tx) [] [])].
Proof. apply apart_all_ok. vm_compute. reflexivity. Qed.
