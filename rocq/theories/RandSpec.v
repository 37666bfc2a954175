(** Vocabulary for property C97. *)
From Coq Require Import NArith List.
From stdpp Require Import base option list.
From Verif Require Import Base RandModel.
Import ListNotations.
Open Scope N_scope.

Section spec.
  Context (transform : list N -> bytes -> list N) (initial : list N).

  (** Eight words of 32 bits. *)
  Definition words (s : list N) : Prop := length s = 8%nat /\ Forall (fun w => w < 2 ^ 32) s.

  (** The transformation makes words of words. *)
  Definition proper : Prop := words initial /\ forall s b, words s -> words (transform s b).

  (** The first block hashes the seed and the counter 0, the others the counter only; both are
      followed by a byte 128, zeros and the number of bits hashed until then. *)
  Definition first_block (seed : bytes) : bytes :=
    seed ++ le_bytes 8 0 ++ 128 :: repeat 0 15 ++ be_bytes 8 320.
  Definition later_block (n : nat) : bytes :=
    le_bytes 8 (N.of_nat n) ++ 128 :: repeat 0 47 ++ be_bytes 8 (8 * (64 * N.of_nat n + 8)).

  (** What the hasher makes of them, one after the other. *)
  Fixpoint chain (seed : bytes) (n : nat) : list N :=
    match n with
    | O => transform initial (first_block seed)
    | S n' => transform (chain seed n') (later_block n)
    end.

  (** The bytes of a word of 32 bits in the opposite order. *)
  Definition swapped (w : N) : N := le_value (be_bytes 4 w).

  (** The numbers: the words of the chain, eight from each block. *)
  Definition number (seed : bytes) (k : nat) : N :=
    swapped (nth (k mod 8) (chain seed (k / 8)) 0).

  (** A guess at the eight numbers of block n + 1 from the eight of block n, without the seed. *)
  Definition guess (n : nat) (l : list N) : list N :=
    map swapped (transform (map swapped l) (later_block (S n))).
End spec.
