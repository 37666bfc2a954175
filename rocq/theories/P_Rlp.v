(** The property C46 (RLP). *)
From Coq Require Import NArith List.
From Verif Require Import Base CodecModel CodecSpec RlpModel RlpSpec RlpProofs EvmTxExamples.
Import ListNotations.
Open Scope N_scope.

(** C46: reading the encoding of an RLP value, followed by anything, yields the value and
    consumes exactly the encoding; no encoding is a prefix of another; missing tails are
    noticed; reading terminates on any input. *)
Theorem C46_wire : wire_correct c_rlp.
Proof. exact wire_rlp. Qed.
Print Assumptions C46_wire.

(** C46: what is written is the RLP encoding according to the yellow paper. *)
Theorem C46_standard v : dom c_rlp v -> RLP v (encoding c_rlp v).
Proof. exact (standard_encoding v). Qed.
Print Assumptions C46_standard.

(** C46: and so every RLP encoding of a value that fits into memory is read as it. *)
Theorem C46_reads_standard v e trailing : dom c_rlp v -> RLP v e ->
  dec c_rlp (Dst (e ++ trailing) true) = Ok v (Dst trailing true).
Proof. exact (reads_standard v e trailing). Qed.
Print Assumptions C46_reads_standard.

Example C46_example :
  dom c_rlp (RArr [RBuf (repeat 7 60); RArr [RBuf []; RBuf [5]; RBuf [200]]]) /\
  encoding c_rlp (RArr [RBuf [99; 97; 116]; RArr [RBuf []; RBuf [5]; RBuf [200]]]) =
    [201; 131; 99; 97; 116; 196; 128; 5; 129; 200].
Proof. exact rlp_example. Qed.

(** Not every accepted input is an RLP encoding: a byte below 128 written with a length. *)
Theorem C46_canonical_refuted : exists b v,
  from_buffer c_rlp b = Ok (Some v) (Dst [] true) /\ dom c_rlp v /\ encoding c_rlp v <> b.
Proof. exact not_canonical_case. Qed.
Print Assumptions C46_canonical_refuted.

(** Within a list a string that is cut off is not noticed, and its bytes are read twice:
    the two-byte string of which one byte is there becomes [0;0] followed by that byte. *)
Theorem C46_nested_truncation_refuted :
  from_buffer c_rlp [194; 130; 1] = Ok (Some (RArr [RBuf [0; 0]; RBuf [1]])) (Dst [] true).
Proof. exact nested_short_case. Qed.
Print Assumptions C46_nested_truncation_refuted.

(** Nine bytes make the reader throw std::length_error. *)
Theorem C46_no_exception_refuted : exists b, from_buffer c_rlp b = Throw.
Proof. exact (ex_intro _ _ throws_case). Qed.
Print Assumptions C46_no_exception_refuted.
