(** Vocabulary for property C99: SipHash-2-4 as Aumasson and Bernstein define it (SipHash: a fast
    short-input PRF, section 2). Nothing here refers to the model of the code. *)
From Coq Require Import NArith List.
From stdpp Require Import base list.
From Verif Require Import Base.
Import ListNotations.
Open Scope N_scope.

Record words4 := W4 { w0 : N; w1 : N; w2 : N; w3 : N }.

(** Addition modulo 2^64, x <<< n. *)
Definition plus (x y : N) : N := (x + y) mod 2 ^ 64.
Definition turn (n x : N) : N := (x * 2 ^ n) mod 2 ^ 64 + x / 2 ^ (64 - n).

(** One layer of the network: a += b, c += d, b and d turned by m and n, b ^= a, d ^= c, a turned
    by 32. *)
Definition layer (m n : N) (v : words4) : words4 :=
  let a := plus (w0 v) (w1 v) in
  let c := plus (w2 v) (w3 v) in
  W4 (turn 32 a) (N.lxor (turn m (w1 v)) a) c (N.lxor (turn n (w3 v)) c).
(** The words 0 and 2 change places. *)
Definition crossed (v : words4) : words4 := W4 (w2 v) (w1 v) (w0 v) (w3 v).
(** SipRound: two layers. *)
Definition SipRound (v : words4) : words4 := crossed (layer 17 21 (crossed (layer 13 16 v))).
Fixpoint SipRounds (n : nat) (v : words4) : words4 :=
  match n with O => v | S n' => SipRounds n' (SipRound v) end.

(** 1. Initialization. *)
Definition start (k0 k1 : N) : words4 :=
  W4 (N.lxor k0 0x736f6d6570736575) (N.lxor k1 0x646f72616e646f6d)
     (N.lxor k0 0x6c7967656e657261) (N.lxor k1 0x7465646279746573).
(** 2. Compression: the message, zeros and the length modulo 256 as words of eight bytes, little-endian. *)
Definition filled (m : bytes) : bytes :=
  m ++ repeat 0 (7 - length m mod 8) ++ [N.of_nat (length m) mod 256].
Definition words_of (n : nat) (p : bytes) : list N :=
  map (fun i => le_value (firstn 8 (skipn (8 * i) p))) (seq 0 n).
Definition absorb (v : words4) (x : N) : words4 :=
  let u := SipRounds 2 (W4 (w0 v) (w1 v) (w2 v) (N.lxor (w3 v) x)) in
  W4 (N.lxor (w0 u) x) (w1 u) (w2 u) (w3 u).
(** 3. Finalization. *)
Definition finish (v : words4) : N :=
  let u := SipRounds 4 (W4 (w0 v) (w1 v) (N.lxor (w2 v) 0xff) (w3 v)) in
  N.lxor (w0 u) (N.lxor (w1 u) (N.lxor (w2 u) (w3 u))).
Definition SipHash24 (k0 k1 : N) (m : bytes) : N :=
  finish (fold_left absorb (words_of (length m / 8 + 1) (filled m)) (start k0 k1)).
