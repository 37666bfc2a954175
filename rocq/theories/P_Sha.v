(** Property C98: the hash function is SHA-256. [SHA256], [padded] and [compress] are those of the
    standard (ShaSpec.v), with the constants computed from prime numbers; [hash_data], [Write]
    and [Finalize] are the code's. *)
From Coq Require Import NArith List Bool Lia.
From stdpp Require Import base option list.
From Verif Require Import Base RandModel RandSpec ShaModel ShaSpec ShaProofs ShaCollision.
Import ListNotations.
Open Scope N_scope.

(** hash_data gives the standard's digest, for every message. *)
Theorem C98_standard d p : padded d p -> hash_data d = SHA256 p.
Proof. exact (hash_standard d p). Qed.
Print Assumptions C98_standard.

(** So does a new hasher into which the message is written in pieces, however it is cut. *)
Theorem C98_pieces ps p : padded (concat ps) p ->
  snd (Finalize (fold_left Write ps fresh)) = SHA256 p.
Proof. exact (hash_pieces ps p). Qed.
Print Assumptions C98_pieces.

(** Every message has a padding, and only one. *)
Theorem C98_padding m : exists p, padded m p /\ forall q, padded m q -> q = p.
Proof.
  exact (match padded_exists m with ex_intro _ p H => ex_intro _ p (conj H (fun q Hq => padded_unique m q p Hq H)) end).
Qed.
Print Assumptions C98_padding.

(** One block: the unrolled rounds of the code compute the compression function. *)
Theorem C98_block s b : length s = 8%nat -> transform s b = compress s (block_words b).
Proof. exact (transform_compress s b). Qed.
Print Assumptions C98_block.

(** The constants are the standard's. *)
Theorem C98_constants : consts = K /\ initial = H0.
Proof. exact (conj (eq_sym consts_K) initial_H0). Qed.
Print Assumptions C98_constants.

(** Two different messages have the same hash only if the compression function has a collision
    among the hash values and blocks met while hashing these two (Merkle and Damgard). *)
Theorem C98_collision a b p q : Forall is_byte a -> Forall is_byte b ->
  N.of_nat (length a) < 2 ^ 61 -> N.of_nat (length b) < 2 ^ 61 ->
  padded a p -> padded b q ->
  a <> b -> hash_data a = hash_data b -> collision p q.
Proof. exact (hash_collision a b p q). Qed.
Print Assumptions C98_collision.

(** A hasher that was finalized is not new: what it gives next is not the hash of what was
    written since. (Reset would make it new; nothing in src calls it.) *)
Theorem C98_reuse_refuted : exists a b p, padded b p /\
  snd (Finalize (Write (fst (Finalize (Write fresh a))) b)) <> SHA256 p.
Proof. exact reuse. Qed.
Print Assumptions C98_reuse_refuted.

(** ** Examples: the test vectors of the standard *)

Example C98_example_abc : padded [97; 98; 99] ([97; 98; 99; 128] ++ repeat 0 52 ++ [0; 0; 0; 0; 0; 0; 0; 24]) /\
  be_value (hash_data [97; 98; 99]) =
  84342368487090800366523834928142263660104883695016514377462985829716817089965.
Proof. split; [exists 52%nat; vm_compute; repeat split; lia|vm_compute; reflexivity]. Qed.

(** Sixty bytes in three pieces take two blocks. *)
Example C98_example_pieces :
  snd (Finalize (fold_left Write [repeat 1 50; []; repeat 2 10] fresh)) =
  hash_data (repeat 1 50 ++ repeat 2 10).
Proof. vm_compute. reflexivity. Qed.

(** 150 bytes in pieces that fill the buffer and leave a rest. *)
Example C98_example_long :
  snd (Finalize (fold_left Write [repeat 1 3; repeat 2 130; repeat 3 17] fresh)) =
  hash_data (repeat 1 3 ++ repeat 2 130 ++ repeat 3 17).
Proof. vm_compute. reflexivity. Qed.
