(** Model of the hash function, 3rdparty/crypto/sha256.cpp, and of hash_data,
    src/util/common/hash.cpp.

    Simplifications, valid for the whole file:
    - the implementation in C++ only; those with SSE4, AVX2 and SHA-NI, which SHA256AutoDetect
      may choose (sha256.cpp:572-627), are not modelled. TransformD64 and SHA256D64 are not
      modelled (nothing in src uses them). *)
From Coq Require Import NArith List Bool.
From stdpp Require Import base option list.
From Verif Require Import Base RandModel.
Import ListNotations.
Open Scope N_scope.

(** uint32_t: sums, and shifts to the left, are taken modulo 2^32. *)
Definition add32 (a b : N) : N := (a + b) mod 2 ^ 32.
Infix "+!" := add32 (at level 50, left associativity).
Definition shl (x n : N) : N := N.shiftl x n mod 2 ^ 32.

(** sha256.cpp:48-53. *)
Definition Ch (x y z : N) : N := N.lxor z (N.land x (N.lxor y z)).
Definition Maj (x y z : N) : N := N.lor (N.land x y) (N.land z (N.lor x y)).
Definition Sigma0 (x : N) : N :=
  N.lxor (N.lxor (N.lor (N.shiftr x 2) (shl x 30)) (N.lor (N.shiftr x 13) (shl x 19)))
         (N.lor (N.shiftr x 22) (shl x 10)).
Definition Sigma1 (x : N) : N :=
  N.lxor (N.lxor (N.lor (N.shiftr x 6) (shl x 26)) (N.lor (N.shiftr x 11) (shl x 21)))
         (N.lor (N.shiftr x 25) (shl x 7)).
Definition sigma0 (x : N) : N :=
  N.lxor (N.lxor (N.lor (N.shiftr x 7) (shl x 25)) (N.lor (N.shiftr x 18) (shl x 14)))
         (N.shiftr x 3).
Definition sigma1 (x : N) : N :=
  N.lxor (N.lxor (N.lor (N.shiftr x 17) (shl x 15)) (N.lor (N.shiftr x 19) (shl x 13)))
         (N.shiftr x 10).

(** Round, sha256.cpp:56-62: the new values of d and h. *)
Definition Round (a b c d e f g h k : N) : N * N :=
  let t1 := h +! Sigma1 e +! Ch e f g +! k in
  let t2 := Sigma0 a +! Maj a b c in
  (d +! t1, t1 +! t2).

(** Eight consecutive calls of Round with the arguments as written, sha256.cpp:84-91. The
    pattern of the arguments is the same in each of the eight groups of eight. *)
Definition eight (k0 k1 k2 k3 k4 k5 k6 k7 : N) (v : list N) : list N :=
  match v with
  | [a; b; c; d; e; f; g; h] =>
      let '(d, h) := Round a b c d e f g h k0 in
      let '(c, g) := Round h a b c d e f g k1 in
      let '(b, f) := Round g h a b c d e f k2 in
      let '(a, e) := Round f g h a b c d e k3 in
      let '(h, d) := Round e f g h a b c d k4 in
      let '(g, c) := Round d e f g h a b c k5 in
      let '(f, b) := Round c d e f g h a b k6 in
      let '(e, a) := Round b c d e f g h a k7 in
      [a; b; c; d; e; f; g; h]
  | _ => v
  end.

(** The sixteen updates of w0 .. w15 during one group of sixteen calls, sha256.cpp:101-116 (the
    same in 118-133 and, but for the last two, which are not stored, in 135-150). *)
Definition expand (w : list N) : list N :=
  match w with
  | [w0; w1; w2; w3; w4; w5; w6; w7; w8; w9; w10; w11; w12; w13; w14; w15] =>
      let w0 := w0 +! (sigma1 w14 +! w9 +! sigma0 w1) in
      let w1 := w1 +! (sigma1 w15 +! w10 +! sigma0 w2) in
      let w2 := w2 +! (sigma1 w0 +! w11 +! sigma0 w3) in
      let w3 := w3 +! (sigma1 w1 +! w12 +! sigma0 w4) in
      let w4 := w4 +! (sigma1 w2 +! w13 +! sigma0 w5) in
      let w5 := w5 +! (sigma1 w3 +! w14 +! sigma0 w6) in
      let w6 := w6 +! (sigma1 w4 +! w15 +! sigma0 w7) in
      let w7 := w7 +! (sigma1 w5 +! w0 +! sigma0 w8) in
      let w8 := w8 +! (sigma1 w6 +! w1 +! sigma0 w9) in
      let w9 := w9 +! (sigma1 w7 +! w2 +! sigma0 w10) in
      let w10 := w10 +! (sigma1 w8 +! w3 +! sigma0 w11) in
      let w11 := w11 +! (sigma1 w9 +! w4 +! sigma0 w12) in
      let w12 := w12 +! (sigma1 w10 +! w5 +! sigma0 w13) in
      let w13 := w13 +! (sigma1 w11 +! w6 +! sigma0 w14) in
      let w14 := w14 +! (sigma1 w12 +! w7 +! sigma0 w15) in
      let w15 := w15 +! (sigma1 w13 +! w8 +! sigma0 w0) in
      [w0; w1; w2; w3; w4; w5; w6; w7; w8; w9; w10; w11; w12; w13; w14; w15]
  | _ => w
  end.

(** ReadBE32 at chunk + 0, 4, ..., 60, sha256.cpp:84-99. *)
Definition read (chunk : bytes) : list N :=
  map (fun i => be_value (firstn 4 (skipn (4 * i) chunk))) (seq 0 16).

(** The numbers added in the calls of Round, sha256.cpp:84-150. *)
Definition consts : list N :=
  [1116352408; 1899447441; 3049323471; 3921009573; 961987163; 1508970993;
   2453635748; 2870763221; 3624381080; 310598401; 607225278; 1426881987;
   1925078388; 2162078206; 2614888103; 3248222580; 3835390401; 4022224774;
   264347078; 604807628; 770255983; 1249150122; 1555081692; 1996064986;
   2554220882; 2821834349; 2952996808; 3210313671; 3336571891; 3584528711;
   113926993; 338241895; 666307205; 773529912; 1294757372; 1396182291;
   1695183700; 1986661051; 2177026350; 2456956037; 2730485921; 2820302411;
   3259730800; 3345764771; 3516065817; 3600352804; 4094571909; 275423344;
   430227734; 506948616; 659060556; 883997877; 958139571; 1322822218;
   1537002063; 1747873779; 1955562222; 2024104815; 2227730452; 2361852424;
   2428436474; 2756734187; 3204031479; 3329325298].

(** Sixteen calls of Round, with the constants [k] and the words [w]. *)
Definition sixteen (k w v : list N) : list N :=
  let x i := nth i k 0 +! nth i w 0 in
  eight (x 8%nat) (x 9%nat) (x 10%nat) (x 11%nat) (x 12%nat) (x 13%nat) (x 14%nat) (x 15%nat)
    (eight (x 0%nat) (x 1%nat) (x 2%nat) (x 3%nat) (x 4%nat) (x 5%nat) (x 6%nat) (x 7%nat) v).

(** Transform for one block, sha256.cpp:78-161. The updates of the words are made before the
    sixteen calls of Round they are written between: a call of Round does not change them. *)
Definition transform (s : list N) (chunk : bytes) : list N :=
  let w0 := read chunk in
  let w1 := expand w0 in
  let w2 := expand w1 in
  let w3 := expand w2 in
  let v0 := sixteen (firstn 16 consts) w0 s in
  let v1 := sixteen (firstn 16 (skipn 16 consts)) w1 v0 in
  let v2 := sixteen (firstn 16 (skipn 32 consts)) w2 v1 in
  let v3 := sixteen (firstn 16 (skipn 48 consts)) w3 v2 in
  zip_with add32 s v3.

(** Initialize, sha256.cpp:65-75. *)
Definition initial : list N :=
  [1779033703; 3144134277; 1013904242; 2773480762; 1359893119; 2600822924; 528734635; 1541459225].

(** CSHA256::Write, sha256.cpp:638-662, case by case. *)
Definition Write (c : sha) (data : bytes) : sha :=
  let bufsize := N.to_nat (sh_bytes c mod 64) in
  let fill := negb (bufsize =? 0)%nat && (64 <=? bufsize + length data)%nat in
  let data1 := if fill then skipn (64 - bufsize) data else data in
  let c1 := if fill then
              Sha (transform (sh_s c) (sh_buf c ++ firstn (64 - bufsize) data)) []
                  (wrap64 (sh_bytes c + N.of_nat (64 - bufsize)))
            else c in
  let blocks := (length data1 / 64)%nat in
  let data2 := if (64 <=? length data1)%nat then skipn (64 * blocks) data1 else data1 in
  let c2 := if (64 <=? length data1)%nat then
              Sha (feed transform blocks (sh_s c1) data1) (sh_buf c1)
                  (wrap64 (sh_bytes c1 + 64 * N.of_nat blocks))
            else c1 in
  if (0 <? length data2)%nat then
    Sha (sh_s c2) (sh_buf c2 ++ data2) (wrap64 (sh_bytes c2 + N.of_nat (length data2)))
  else c2.

(** CSHA256::Finalize, sha256.cpp:664-679. *)
Definition Finalize (c : sha) : sha * bytes :=
  let sizedesc := be_bytes 8 (wrap64 (sh_bytes c * 8)) in
  let c1 := Write c (128 :: repeat 0 (N.to_nat ((119 - sh_bytes c mod 64) mod 64))) in
  let c2 := Write c1 sizedesc in
  (c2, digest (sh_s c2)).

(** CSHA256::CSHA256 and Reset, sha256.cpp:633-636, 681-686. *)
Definition fresh : sha := Sha initial [] 0.

(** hash_data, hash.cpp:40-50. *)
Definition hash_data (data : bytes) : bytes := snd (Finalize (Write fresh data)).
