(** Vocabulary for property C98: SHA-256 as FIPS 180-4 defines it, for messages of whole bytes.
    Nothing here refers to the model of the code. *)
From Coq Require Import NArith List.
From stdpp Require Import base list.
From Verif Require Import Base.
Import ListNotations.
Open Scope N_scope.

(** Words are numbers below 2^32; addition is modulo 2^32 (section 2.2.1). *)
Definition sum (l : list N) : N := fold_right N.add 0 l mod 2 ^ 32.

(** ROTR and SHR (3.2). *)
Definition ROTR (n x : N) : N := N.lor (N.shiftr x n) (N.shiftl x (32 - n) mod 2 ^ 32).
Definition SHR (n x : N) : N := N.shiftr x n.
Definition xor3 (a b c : N) : N := N.lxor (N.lxor a b) c.

(** The functions of 4.1.2. [N.ldiff z x] is the bitwise "not x and z". *)
Definition fCh (x y z : N) : N := N.lxor (N.land x y) (N.ldiff z x).
Definition fMaj (x y z : N) : N := xor3 (N.land x y) (N.land x z) (N.land y z).
Definition S0 (x : N) : N := xor3 (ROTR 2 x) (ROTR 13 x) (ROTR 22 x).
Definition S1 (x : N) : N := xor3 (ROTR 6 x) (ROTR 11 x) (ROTR 25 x).
Definition s0 (x : N) : N := xor3 (ROTR 7 x) (ROTR 18 x) (SHR 3 x).
Definition s1 (x : N) : N := xor3 (ROTR 17 x) (ROTR 19 x) (SHR 10 x).

(** The first 32 bits of the fractional part of the [r]-th root of p: the largest number whose
    r-th power is at most p * 2^(32 r), modulo 2^32. [search n] decides its bits from the
    n-th downwards. *)
Fixpoint search (r p : N) (n : nat) (x : N) : N :=
  match n with
  | O => x
  | S n' =>
      let y := x + 2 ^ N.of_nat n' in
      search r p n' (if y ^ r <=? p * 2 ^ (32 * r) then y else x)
  end.
Definition fraction (r p : N) : N := search r p 40 0 mod 2 ^ 32.

(** The first 64 prime numbers. *)
Definition is_prime (n : nat) : bool :=
  (1 <? n)%nat && forallb (fun d => negb (n mod d =? 0)%nat) (seq 2 (n - 2)).
Definition primes : list N := map N.of_nat (filter (fun n => is_prime n = true) (seq 2 310)).

(** The constants K (4.2.2): from the cube roots of the first 64 primes, and the initial hash
    value (5.3.3): from the square roots of the first eight. *)
Definition K : list N := map (fraction 3) primes.
Definition H0 : list N := map (fraction 2) (firstn 8 primes).

(** Padding (5.1.1): a bit 1, the least number of bits 0 that makes the length 448 modulo 512,
    the length of the message in 64 bits. In bytes. *)
Definition padded (m p : bytes) : Prop :=
  exists k, (k < 64)%nat /\ ((length m + 1 + k) mod 64 = 56)%nat /\
            p = m ++ [128] ++ repeat 0 k ++ be_bytes 8 (8 * N.of_nat (length m)).

(** Parsing (5.2.1): blocks of 64 bytes, sixteen words each, big-endian. *)
Definition block_words (b : bytes) : list N :=
  map (fun i => be_value (firstn 4 (skipn (4 * i) b))) (seq 0 16).
Fixpoint blocks (n : nat) (p : bytes) : list (list N) :=
  match n with
  | O => []
  | S n' => block_words (firstn 64 p) :: blocks n' (skipn 64 p)
  end.

(** The message schedule (6.2.2, step 1): the words W_0 .. W_(15+n). *)
Fixpoint schedule (m : list N) (n : nat) : list N :=
  match n with
  | O => m
  | S n' =>
      let W := schedule m n' in
      let t := (16 + n')%nat in
      W ++ [sum [s1 (nth (t - 2) W 0); nth (t - 7) W 0; s0 (nth (t - 15) W 0); nth (t - 16) W 0]]
  end.

(** The working variables and step 3 of 6.2.2. *)
Record vars := Vars { va : N; vb : N; vc : N; vd : N; ve : N; vf : N; vg : N; vh : N }.
Definition round (v : vars) (kw : N * N) : vars :=
  let '(k, w) := kw in
  let T1 := sum [vh v; S1 (ve v); fCh (ve v) (vf v) (vg v); k; w] in
  let T2 := sum [S0 (va v); fMaj (va v) (vb v) (vc v)] in
  Vars (sum [T1; T2]) (va v) (vb v) (vc v) (sum [vd v; T1]) (ve v) (vf v) (vg v).

(** Steps 2 to 4 of 6.2.2. *)
Definition compress (H : list N) (m : list N) : list N :=
  let h i := nth i H 0 in
  let v := fold_left round (combine K (schedule m 48))
             (Vars (h 0) (h 1) (h 2) (h 3) (h 4) (h 5) (h 6) (h 7))%nat in
  [sum [va v; h 0%nat]; sum [vb v; h 1%nat]; sum [vc v; h 2%nat]; sum [vd v; h 3%nat];
   sum [ve v; h 4%nat]; sum [vf v; h 5%nat]; sum [vg v; h 6%nat]; sum [vh v; h 7%nat]].

(** The digest of a padded message. *)
Definition SHA256 (p : bytes) : bytes :=
  concat (map (be_bytes 4) (fold_left compress (blocks (length p / 64) p) H0)).

(** [met p s x]: hashing the padded message p applies the compression function to the hash value s
    and the block x. *)
Definition met (p : bytes) (s x : list N) : Prop :=
  exists n, (64 * n < length p)%nat /\
    s = fold_left compress (blocks n p) H0 /\ x = block_words (firstn 64 (skipn (64 * n) p)).
(** A collision of the compression function while hashing p and q: two different pairs of a hash
    value and a block that it maps to the same hash value. *)
Definition collision (p q : bytes) : Prop :=
  exists s x t y, met p s x /\ met q t y /\ (s, x) <> (t, y) /\ compress s x = compress t y.
