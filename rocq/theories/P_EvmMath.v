(** The property C47 (256-bit arithmetic). *)
From Coq Require Import NArith List.
From Verif Require Import Base CodecModel EvmMathModel EvmMathSpec EvmMathProofs.
Import ListNotations.
Open Scope N_scope.

(** C47: operator+ adds modulo 2^256. *)
Theorem C47_add a b : word a -> word b ->
  word (add256 a b) /\ number (add256 a b) = (number a + number b) mod 2 ^ 256.
Proof. exact (fun A B => conj (add256_word a b A B) (add256_ok a b A B)). Qed.
Print Assumptions C47_add.

(** C47: operator- subtracts modulo 2^256. *)
Theorem C47_sub a b : word a -> word b ->
  word (sub256 a b) /\ number (sub256 a b) = (number a + (2 ^ 256 - number b)) mod 2 ^ 256.
Proof. exact (fun A B => conj (sub256_word a b A B) (sub256_ok a b A B)). Qed.
Print Assumptions C47_sub.

(** C47: without borrowing it is the difference. *)
Theorem C47_sub_exact a b : word a -> word b -> number b <= number a ->
  number (sub256 a b) = number a - number b.
Proof. exact (sub256_exact a b). Qed.
Print Assumptions C47_sub_exact.

(** C47: operator* multiplies modulo 2^256. *)
Theorem C47_mul a b : word a -> word b ->
  word (mul256 a b) /\ number (mul256 a b) = (number a * number b) mod 2 ^ 256.
Proof. exact (fun A B => conj (mul256_word a b A B) (mul256_ok a b A B)). Qed.
Print Assumptions C47_mul.

(** C47: operator<< shifts by bytes modulo 2^256. *)
Theorem C47_shift a k : word a ->
  word (shl256 a k) /\ number (shl256 a k) = (number a * 256 ^ N.of_nat k) mod 2 ^ 256.
Proof. exact (fun A => conj (shl256_word a k A) (shl256_ok a k A)). Qed.
Print Assumptions C47_shift.

(** C47: from a 64-bit number and back. *)
Theorem C47_uint64 n : n < 2 ^ 64 -> word (u256 n) /\ number (u256 n) = n /\ to_uint64 (u256 n) = n.
Proof. exact (u64_there_and_back n). Qed.
Print Assumptions C47_uint64.

(** C47: to_uint64 keeps the low 64 bits. *)
Theorem C47_to_uint64 a : word a -> to_uint64 a = number a mod 2 ^ 64.
Proof. exact (to_uint64_ok a). Qed.
Print Assumptions C47_to_uint64.

(** C47: words are equal exactly when their numbers are. *)
Theorem C47_equal a b : word a -> word b -> (a = b <-> number a = number b).
Proof. exact (word_eq a b). Qed.
Print Assumptions C47_equal.

(** The largest word plus 1, 0 minus 1, the largest word squared, and a product with
    carries over many bytes. *)
Example C47_example :
  let top := repeat 255 32 in
  number top = 2 ^ 256 - 1 /\ add256 top (u256 1) = repeat 0 32 /\ sub256 (u256 0) (u256 1) = top /\
  number (mul256 top top) = 1 /\
  number (mul256 (u256 (2 ^ 64 - 1)) (u256 (2 ^ 64 - 3))) = (2 ^ 64 - 1) * (2 ^ 64 - 3).
Proof. vm_compute. auto. Qed.
