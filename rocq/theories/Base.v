(** Shared vocabulary of the model: machine integers, bytes, hashes. *)
From Coq Require Import NArith List Bool Lia.
From stdpp Require Import base.
Import ListNotations.
Open Scope N_scope.

Arguments N.add : simpl never.
Arguments N.sub : simpl never.
Arguments N.mul : simpl never.
Arguments N.div : simpl never.
Arguments N.modulo : simpl never.
Arguments N.pow : simpl never.
Arguments N.ltb : simpl never.
Arguments N.leb : simpl never.
Arguments N.eqb : simpl never.

(** A byte is a number below 256; sequences of bytes are lists.
    Models cbdc::buffer's std::vector<std::byte>,
    src/util/common/buffer.hpp. *)
Definition bytes := list N.

Definition is_byte (b : N) : Prop := b < 256.

(** A [uint64_t] is an [N]; every place where the code computes with one writes
    the wrap explicitly through [wrap64]. *)
Definition two64 : N := 18446744073709551616.
Definition wrap64 (x : N) : N := x mod two64.
Definition add64 (x y : N) : N := wrap64 (x + y).
Definition sub64 (x y : N) : N := wrap64 (x + (two64 - y)).
Definition mul64 (x y : N) : N := wrap64 (x * y).
Definition is_u64 (x : N) : Prop := x < two64.

(** [hash_t] = std::array<unsigned char, 32>, src/util/common/hash.hpp, read as
    the big-endian number of its bytes. *)
Definition hash := N.
Definition is_hash (h : hash) : Prop := h < 2 ^ 256.

(** [val[0]], the first byte of a hash. *)
Definition first_byte (h : hash) : N := h / 2 ^ 248.

(** config::hash_in_shard_range, src/util/common/config.cpp:736-739. A range is
    an inclusive pair of 8-bit prefixes. *)
Definition in_range (r : N * N) (h : hash) : bool :=
  (fst r <=? first_byte h) && (first_byte h <=? snd r).

(** Little-endian bytes of an integer of [n] bytes: "Copies sizeof(T) bytes from
    t following machine endianness" (src/util/serialization/format.hpp:66-78);
    the model fixes the little-endian machine. *)
Fixpoint le_bytes (n : nat) (v : N) : bytes :=
  match n with
  | O => []
  | S n' => v mod 256 :: le_bytes n' (v / 256)
  end.

Fixpoint le_value (bs : bytes) : N :=
  match bs with
  | [] => 0
  | b :: r => b + 256 * le_value r
  end.

(** Big-endian bytes, used for byte arrays read as numbers (hashes, keys). *)
Definition be_bytes (n : nat) (v : N) : bytes := rev (le_bytes n v).
Definition be_value (bs : bytes) : N := le_value (rev bs).
