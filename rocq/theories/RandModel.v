(** Model of src/util/common/random_source.cpp and of the hasher it uses,
    3rdparty/crypto/sha256.cpp.

    Simplifications, valid for the whole file:
    - Transform with one block (sha256.cpp:73 and its variants) is a parameter; with several
      blocks it is applied once for each;
    - the machine is little-endian (x86-64);
    - calls to the source are one step each: they run under m_mut. *)
From Coq Require Import NArith List Bool.
From stdpp Require Import base option list.
From Verif Require Import Base.
Import ListNotations.
Open Scope N_scope.

(** CSHA256: the eight words of state, the used part of buf (bytes % 64 bytes), bytes
    (sha256.h:14-26). *)
Record sha := Sha { sh_s : list N; sh_buf : bytes; sh_bytes : N }.

Section hasher.
  Context (transform : list N -> bytes -> list N) (initial : list N).

  (** CSHA256::CSHA256, sha256.cpp:633-636. *)
  Definition sha0 : sha := Sha initial [] 0.

  (** Transform of the first [n] blocks of 64 bytes. *)
  Fixpoint feed (n : nat) (s : list N) (b : bytes) : list N :=
    match n with
    | O => s
    | S n' => feed n' (transform s (firstn 64 b)) (skipn 64 b)
    end.

  (** CSHA256::Write, sha256.cpp:638-662. The three cases (fill the buffer, whole blocks, keep
      the rest) are one here: the blocks of what is buffered and what is new. *)
  Definition write (c : sha) (d : bytes) : sha :=
    let b := sh_buf c ++ d in
    let n := (length b / 64)%nat in
    Sha (feed n (sh_s c) b) (skipn (64 * n) b) (wrap64 (sh_bytes c + N.of_nat (length d))).

  (** WriteBE32 of the words, sha256.cpp:671-678. *)
  Definition digest (s : list N) : bytes := concat (map (be_bytes 4) s).

  (** CSHA256::Finalize, sha256.cpp:664-679. The hasher is not as new afterwards: that is
      Reset, sha256.cpp:681-686. *)
  Definition finalize (c : sha) : sha * bytes :=
    let c1 := write c (128 :: repeat 0 (N.to_nat ((119 - sh_bytes c mod 64) mod 64))) in
    let c2 := write c1 (be_bytes 8 (wrap64 (sh_bytes c * 8))) in
    (c2, digest (sh_s c2)).

  (** random_source: m_sha, m_buf, m_counter. *)
  Record source := Source { rs_sha : sha; rs_buf : bytes; rs_counter : N }.

  (** The constructor, random_source.cpp:14-24. [file]: what can be read from the file, [None]
      if it cannot be opened; [None]: an assertion fails. With assertions compiled out
      ([checked] = false) what was not read is 0. *)
  Definition open_source (checked : bool) (file : option bytes) : option source :=
    let got := firstn 32 (default [] file) in
    if checked && negb (match file with Some _ => (length got =? 32)%nat | None => false end) then None
    else Some (Source (write sha0 (got ++ repeat 0 (32 - length got))) [] 0).

  (** hash_at_index, random_source.cpp:53-60. *)
  Definition hash_at_index (c : sha) (idx : N) : sha * bytes := finalize (write c (le_bytes 8 idx)).

  (** One turn of the loop of operator(), random_source.cpp:30-39. A hash is never empty. *)
  Definition next_byte (r : source) : N * source :=
    match rs_buf r with
    | b :: rest => (b, Source (rs_sha r) rest (rs_counter r))
    | [] =>
        let (c, h) := hash_at_index (rs_sha r) (rs_counter r) in
        (hd 0 h, Source c (tl h) (wrap64 (rs_counter r + 1)))
    end.

  (** operator(), random_source.cpp:26-42. *)
  Definition draw (r : source) : N * source :=
    let (b0, r0) := next_byte r in
    let (b1, r1) := next_byte r0 in
    let (b2, r2) := next_byte r1 in
    let (b3, r3) := next_byte r2 in
    (le_value [b0; b1; b2; b3], r3).

  (** The next [n] numbers. *)
  Fixpoint draws (n : nat) (r : source) : list N * source :=
    match n with
    | O => ([], r)
    | S n' => let (x, r1) := draw r in let (l, r2) := draws n' r1 in (x :: l, r2)
    end.

  (** random_hash, random_source.cpp:44-51. uniform_int_distribution<unsigned char> of libstdc++
      11 and later takes the upper 8 of the 32 bits of one number. *)
  Definition random_hash (r : source) : bytes * source :=
    let (l, r') := draws 32 r in (map (fun x => x / 2 ^ 24) l, r').
  Fixpoint random_hashes (n : nat) (r : source) : list bytes * source :=
    match n with
    | O => ([], r)
    | S n' => let (x, r1) := random_hash r in let (l, r2) := random_hashes n' r1 in (x :: l, r2)
    end.
End hasher.
