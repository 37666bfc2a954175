(** C90: addresses. *)
From Coq Require Import NArith String.
From stdpp Require Import base option list.
From Verif Require Import Base AddressModel AddressSpec AddressProofs AddressExamples CliModel.
Open Scope N_scope.

(** C90: the address that is printed for a key is read as that key, in lower and in upper
    case. *)
Theorem C90_roundtrip k : is_key k -> exists a, newaddress k = Some a /\ length a = 63%nat /\
  address_decode a = Key k /\ address_decode (upper a) = Key k.
Proof. exact (roundtrip k). Qed.
Print Assumptions C90_roundtrip.

Example C90_roundtrip_example : is_key some_key /\ newaddress some_key = Some some_address.
Proof. exact (conj some_key_ok (proj1 printed_case)). Qed.

(** C90: a printed address with one to four wrong characters is refused, whichever
    characters they are. *)
Theorem C90_typos k a s : is_key k -> newaddress k = Some a -> length s = length a ->
  (1 <= differences (lower s) a <= 4)%nat -> address_decode s = Rejected.
Proof. exact (typos k a s). Qed.
Print Assumptions C90_typos.

Example C90_typos_example :
  address_decode (lit "usd1qqqsyqcyq5rqwqzfpg9scrgwpugpzysnzs23v9ccrydpk8qarc0jqqvpueq") = Rejected /\
  differences (lit "usd1qqqsyqcyq5rqwqzfpg9scrgwpugpzysnzs23v9ccrydpk8qarc0jqqvpueq") some_address = 2%nat.
Proof. exact (conj (proj1 (proj2 typo_case)) (proj2 (proj2 (proj2 typo_case)))). Qed.

(** C90: more generally, two texts of the same length that are both accepted are the same or
    differ in five places at least. *)
Theorem C90_distance s1 s2 k1 k2 : address_decode s1 = Key k1 -> address_decode s2 = Key k2 ->
  length s1 = length s2 -> lower s1 <> lower s2 ->
  (5 <= differences (lower s1) (lower s2))%nat.
Proof. exact (distance s1 s2 k1 k2). Qed.
Print Assumptions C90_distance.

(** C90: only the case of letters may change; a text that mixes cases is refused. *)
Theorem C90_case k a s : is_key k -> newaddress k = Some a -> lower s = a ->
  address_decode s = Key k \/
  (address_decode s = Rejected /\
   (exists c, In c s /\ 97 <= c <= 122) /\ (exists c, In c s /\ 65 <= c <= 90)).
Proof. exact (any_case k a s). Qed.
Print Assumptions C90_case.

(** C90: a printed address that lacks a character is refused. *)
Theorem C90_dropped k a s : is_key k -> newaddress k = Some a -> one_inserted s a ->
  address_decode s = Rejected.
Proof. exact (dropped k a s). Qed.
Print Assumptions C90_dropped.

(** C90: whatever is accepted has 63 or 64 characters and begins like the address that is
    printed for the key: the first 56 characters, which hold all but the last four bits of
    the key, are the same. *)
Theorem C90_shape s k : address_decode s = Key k ->
  is_key k /\ (length s = 63 \/ length s = 64)%nat /\
  exists a, newaddress k = Some a /\ take 56 (lower s) = take 56 a.
Proof. exact (shape s k). Qed.
Print Assumptions C90_shape.

Example C90_shape_example :
  address_decode (lit "usd1qqqsyqcyq5rqwzqfpg9scrgwpugpzysnzs23v9ccrydpk8qarc0jpa64fyj") = Key some_key.
Proof. exact second_witness. Qed.

(** C90: no text of twelve or more characters makes the program read outside of a vector
    (missing: shorter ones, refuted below). *)
Theorem C90_bounds_partial s : (12 <= length s)%nat -> address_decode s <> OutOfBounds.
Proof. exact (in_bounds s). Qed.
Print Assumptions C90_bounds_partial.

(** An address without data and a right checksum makes it read [data[0]] of an empty
    vector. *)
Theorem C90_bounds_refuted : exists s, address_decode s = OutOfBounds.
Proof. exact empty_refuted. Qed.
Print Assumptions C90_bounds_refuted.

(** The text of an accepted address is not unique: padding is not checked. *)
Theorem C90_unique_refuted : exists s1 s2 k, lower s1 <> lower s2 /\ length s1 = length s2 /\
  address_decode s1 = Key k /\ address_decode s2 = Key k.
Proof. exact unique_refuted. Qed.
Print Assumptions C90_unique_refuted.

(** And one character too many is not always noticed: there is a printed address that, with
    one more character, is read as another key. *)
Theorem C90_insertion_refuted : exists k a s k', is_key k /\ newaddress k = Some a /\
  one_inserted a s /\ address_decode s = Key k' /\ k' <> k.
Proof. exact insertion_refuted. Qed.
Print Assumptions C90_insertion_refuted.
