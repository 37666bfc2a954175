(** Property C99: the keys of hash tables and the place of a key among the shards are SipHash-2-4.
    [SipHash24] is that of its authors' paper (SipSpec.v); [WriteBytes], [Write64], [SipFinalize],
    [const_sip_hash], [null_hash] and [key_location] are the code's. *)
From Coq Require Import NArith List Bool.
From stdpp Require Import base option list.
From Verif Require Import Base TicketModel SipModel SipSpec SipProofs.
Import ListNotations.
Open Scope N_scope.

(** What a hasher gives is SipHash-2-4 of all that was written into it, however it was cut and
    however long it is. *)
Theorem C99_standard k0 k1 ps : k0 < 2 ^ 64 -> k1 < 2 ^ 64 -> Forall (Forall is_byte) ps ->
  SipFinalize (fold_left WriteBytes ps (CSipHasher k0 k1)) = SipHash24 k0 k1 (concat ps).
Proof. exact (sip_pieces k0 k1 ps). Qed.
Print Assumptions C99_standard.

(** A number of 64 bits is written like its eight bytes; after a number of bytes that is no
    multiple of eight the assertion fails. *)
Theorem C99_numbers k0 k1 m x : k0 < 2 ^ 64 -> k1 < 2 ^ 64 -> Forall is_byte m -> x < 2 ^ 64 ->
  option_map SipFinalize (Write64 (WriteBytes (CSipHasher k0 k1) m) x) =
  if decide (length m mod 8 = 0)%nat then Some (SipHash24 k0 k1 (m ++ le_bytes 8 x)) else None.
Proof. exact (sip_number_hash k0 k1 m x). Qed.
Print Assumptions C99_numbers.

(** The shard that holds a key of PArSEC depends on the bytes of the key and the number of shards
    only: all brokers and agents look for it at the same place. *)
Theorem C99_location n d : n <> 0 -> Forall is_byte d ->
  key_location const_sip_hash n d = Some (SipHash24 0x1337 0x1337 d mod n).
Proof. exact (where_key n d). Qed.
Print Assumptions C99_location.

(** Nobody can choose IDs that all fall into one bucket: false of the sets of unspent IDs, locked
    IDs, attestations and public keys, which use the first eight bytes. There are as many IDs as
    one likes (up to 2^192) with the same hash. *)
Theorem C99_spread_refuted n : N.of_nat n <= 2 ^ 192 -> exists l, length l = n /\ NoDup l /\
  forall x, x ∈ l -> length x = 32%nat /\ Forall is_byte x /\ null_hash x = 0.
Proof. exact (null_clash n). Qed.
Print Assumptions C99_spread_refuted.

(** ** Examples: the test vector of the paper (appendix A), in one piece and in three *)

Example C99_example_vector :
  SipHash24 0x0706050403020100 0x0f0e0d0c0b0a0908 (map N.of_nat (seq 0 15)) = 0xa129ca6149be45e5 /\
  SipFinalize (fold_left WriteBytes [map N.of_nat (seq 0 3); []; map N.of_nat (seq 3 12)]
    (CSipHasher 0x0706050403020100 0x0f0e0d0c0b0a0908)) = 0xa129ca6149be45e5.
Proof. vm_compute. split; reflexivity. Qed.
Example C99_example_number :
  option_map SipFinalize (Write64 (WriteBytes (CSipHasher 1 2) [1; 2; 3; 4; 5; 6; 7; 8]) 77) =
    Some (SipHash24 1 2 [1; 2; 3; 4; 5; 6; 7; 8; 77; 0; 0; 0; 0; 0; 0; 0]) /\
  Write64 (WriteBytes (CSipHasher 1 2) [1]) 77 = None.
Proof. vm_compute. split; reflexivity. Qed.
(** 300 bytes: the count of bytes has wrapped. *)
Example C99_example_long : const_sip_hash (repeat 7 300) = SipHash24 0x1337 0x1337 (repeat 7 300) /\
  key_location const_sip_hash 3 (repeat 7 300) = Some (SipHash24 0x1337 0x1337 (repeat 7 300) mod 3).
Proof. vm_compute. split; reflexivity. Qed.
