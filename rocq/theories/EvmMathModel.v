(** Model of the 256-bit arithmetic of the EVM runner,
    src/parsec/agent/runners/evm/math.cpp. A evmc::uint256be is its 32 bytes, the most
    significant one first. *)
From Coq Require Import Arith NArith List Bool.
From Verif Require Import Base CodecModel.
Import ListNotations.
Open Scope N_scope.

Definition byte_at (b : bytes) (i : nat) : N := nth i b 0.

(** The loop of operator+, math.cpp:20-24, from the last byte to the first: the
    arguments are the bytes still to come, last one first. *)
Fixpoint add_loop (l r : bytes) (carry : N) : bytes :=
  match l, r with
  | a :: l', b :: r' =>
      let tmp := a + b + carry in
      N.land tmp 255 :: add_loop l' r' (if 255 <? tmp then 1 else 0)
  | _, _ => []
  end.

(** operator+, math.cpp:14-26. *)
Definition add256 (l r : bytes) : bytes := rev (add_loop (rev l) (rev r) 0).

(** The loop of operator-, math.cpp:36-42. tmp1 is at least 256 and tmp2 at most 256,
    so that the subtraction of unsigned integers does not wrap. *)
Fixpoint sub_loop (l r : bytes) (borrow : N) : bytes :=
  match l, r with
  | a :: l', b :: r' =>
      let tmp1 := a + 256 in
      let tmp2 := b + borrow in
      let res := tmp1 - tmp2 in
      N.land res 255 :: sub_loop l' r' (if res <=? 255 then 1 else 0)
  | _, _ => []
  end.

(** operator-, math.cpp:28-44. *)
Definition sub256 (l r : bytes) : bytes := rev (sub_loop (rev l) (rev r) 0).

(** The constructor evmc::uint256be(uint64_t). *)
Definition u256 (v : N) : bytes := be_bytes 32 v.

(** operator<<, math.cpp:74-84: by whole bytes. *)
Definition shl256 (l : bytes) (count : nat) : bytes :=
  if (32 <=? count)%nat then repeat 0 32
  else map (fun i => if (i + count <? 32)%nat then byte_at l (i + count) else 0) (seq 0 32).

(** The body of the inner loop of operator*, math.cpp:54-67. *)
Definition mul_step (l r : bytes) (i : nat) (row : bytes) (j : nat) : bytes :=
  if byte_at r j =? 0 then row
  else
    let shift := ((32 - i - 1) + (32 - j - 1))%nat in
    if (32 <=? shift)%nat then row
    else
      let intermediate := byte_at l i * byte_at r j in
      add256 row (shl256 (u256 intermediate) shift).

(** The body of the outer loop, math.cpp:49-69. *)
Definition mul_row (l r : bytes) (ret : bytes) (i : nat) : bytes :=
  if byte_at l i =? 0 then ret
  else add256 ret (fold_left (mul_step l r i) (seq 0 32) (repeat 0 32)).

(** operator*, math.cpp:46-72. *)
Definition mul256 (l r : bytes) : bytes :=
  fold_left (mul_row l r) (seq 0 32) (repeat 0 32).

(** to_uint64, util.cpp:23-25: the last 8 bytes. *)
Definition to_uint64 (b : bytes) : N := be_value (skipn 24 b).
