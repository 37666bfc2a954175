(** The keys of hash tables: 3rdparty/crypto/siphash.cpp and src/util/common/hashmap.hpp, .cpp.
    A little-endian machine (as in Base.v). *)
From Coq Require Import NArith List.
From stdpp Require Import base list.
From Verif Require Import Base.
Import ListNotations.
Open Scope N_scope.

(** ROTL, siphash.cpp:9, on an uint64_t. *)
Definition rotl (x b : N) : N := N.lor (wrap64 (N.shiftl x b)) (N.shiftr x (64 - b)).

(** SIPROUND, siphash.cpp:11-18, statement by statement. *)
Definition sipround (v : N * N * N * N) : N * N * N * N :=
  let '(v0, v1, v2, v3) := v in
  let v0 := wrap64 (v0 + v1) in let v1 := rotl v1 13 in let v1 := N.lxor v1 v0 in
  let v0 := rotl v0 32 in
  let v2 := wrap64 (v2 + v3) in let v3 := rotl v3 16 in let v3 := N.lxor v3 v2 in
  let v0 := wrap64 (v0 + v3) in let v3 := rotl v3 21 in let v3 := N.lxor v3 v0 in
  let v2 := wrap64 (v2 + v1) in let v1 := rotl v1 17 in let v1 := N.lxor v1 v2 in
  let v2 := rotl v2 32 in
  (v0, v1, v2, v3).

(** CSipHasher, siphash.h:11-18: v, tmp and count. *)
Record hasher := Hasher { sv : N * N * N * N; stmp : N; scount : N }.

(** CSipHasher::CSipHasher, siphash.cpp:20-28. *)
Definition CSipHasher (k0 k1 : N) : hasher :=
  Hasher (N.lxor 0x736f6d6570736575 k0, N.lxor 0x646f72616e646f6d k1,
          N.lxor 0x6c7967656e657261 k0, N.lxor 0x7465646279746573 k1) 0 0.

(** v3 ^= t; SIPROUND; SIPROUND; v0 ^= t: siphash.cpp:36-39, 62-65, 86-89. *)
Definition mix (v : N * N * N * N) (t : N) : N * N * N * N :=
  let '(v0, v1, v2, v3) := v in
  let '(v0, v1, v2, v3) := sipround (sipround (v0, v1, v2, N.lxor v3 t)) in
  (N.lxor v0 t, v1, v2, v3).

(** CSipHasher::Write(uint64_t), siphash.cpp:30-48; [None]: the assertion fails. *)
Definition Write64 (h : hasher) (data : N) : option hasher :=
  if scount h mod 8 =? 0 then Some (Hasher (mix (sv h) data) (stmp h) ((scount h + 8) mod 256)) else None.

(** The body of the loop of CSipHasher::Write(const unsigned char*, size_t), siphash.cpp:57-67. *)
Definition write_byte (h : hasher) (b : N) : hasher :=
  let t := N.lor (stmp h) (wrap64 (N.shiftl b (8 * (scount h mod 8)))) in
  let c := (scount h + 1) mod 256 in
  if N.land c 7 =? 0 then Hasher (mix (sv h) t) 0 c else Hasher (sv h) t c.

(** CSipHasher::Write(const unsigned char*, size_t), siphash.cpp:50-77. *)
Definition WriteBytes (h : hasher) (d : bytes) : hasher := fold_left write_byte d h.

(** CSipHasher::Finalize, siphash.cpp:79-96. *)
Definition SipFinalize (h : hasher) : N :=
  let t := N.lor (stmp h) (wrap64 (N.shiftl (scount h) 56)) in
  let '(v0, v1, v2, v3) := mix (sv h) t in
  let '(v0, v1, v2, v3) := sipround (sipround (sipround (sipround (v0, v1, N.lxor v2 0xFF, v3)))) in
  N.lxor (N.lxor (N.lxor v0 v1) v2) v3.

(** const_sip_hash<T>::operator() and const_sip_hash<buffer>::operator(), hashmap.hpp:29-37 and
    43-52, on the bytes of the object. *)
Definition const_sip_hash (d : bytes) : N := SipFinalize (WriteBytes (CSipHasher 0x1337 0x1337) d).

(** null::operator(), hashmap.cpp:9-13, on the 32 bytes of a hash_t. *)
Definition null_hash (d : bytes) : N := le_value (firstn 8 d).
