(** Model of the conversions between bytes and hexadecimal text,
    src/util/common/buffer.cpp:62-120 and src/util/common/hash.cpp:15-38.

    A string is the list of its character codes. Reading a number from a
    std::stringstream ([s >> v] with [std::hex] set) is modelled after
    std::num_get::do_get as libstdc++ implements it in the "C" locale: skip white
    space, an optional sign, leading zeros or "0x", then hexadecimal digits up to the
    first other character; it fails if there was no digit. Overflow cannot happen: the
    code reads from two characters at a time. *)
From stdpp Require Import base option list.
From Coq Require Import NArith.
From Verif Require Import Base.
Open Scope N_scope.

Definition string := list N.

(** The character of a digit below 16, as std::hex prints it. *)
Definition digit (d : N) : N := if d <? 10 then 48 + d else 87 + d.

(** [ret << std::setw(2) << static_cast<int>(byte)] with fill '0'. *)
Definition byte_hex (b : N) : string := [digit (b / 16); digit (b mod 16)].

(** buffer::to_hex, buffer.cpp:62-75, and to_string(hash_t), hash.cpp:15-24. *)
Definition to_hex (b : bytes) : string := concat (map byte_hex b).

(** The value of a hexadecimal digit. *)
Definition digit_value (c : N) : option N :=
  if (48 <=? c) && (c <=? 57) then Some (c - 48)
  else if (97 <=? c) && (c <=? 102) then Some (c - 87)
  else if (65 <=? c) && (c <=? 70) then Some (c - 55)
  else None.

(** isspace in the "C" locale. *)
Definition is_space (c : N) : bool := (c =? 32) || ((9 <=? c) && (c <=? 13)).

Fixpoint skip_space (s : string) : string :=
  match s with
  | c :: r => if is_space c then skip_space r else s
  | [] => []
  end.

(** The digits; [seen]: a digit was read before. *)
Fixpoint read_digits (s : string) (acc : N) (seen : bool) : option N :=
  match s with
  | c :: r =>
      match digit_value c with
      | Some d => read_digits r (16 * acc + d) true
      | None => if seen then Some acc else None
      end
  | [] => if seen then Some acc else None
  end.

(** A leading "0x" or "0X" is skipped (and then a digit is needed). *)
Definition read_prefixed (s : string) : option N :=
  match s with
  | 48 :: x :: r => if (x =? 120) || (x =? 88) then read_digits r 0 false else read_digits s 0 false
  | _ => read_digits s 0 false
  end.

(** [s >> v] for an [unsigned int v]; a minus sign negates modulo 2^32. [None]: the
    stream is in a failed state, [v] is 0. *)
Definition read_hex (s : string) : option N :=
  match skip_space s with
  | 45 :: r => option_map (fun v => (2 ^ 32 - v) mod 2 ^ 32) (read_prefixed r)
  | 43 :: r => read_prefixed r
  | r => read_prefixed r
  end.

(** The loop of buffer::from_hex, buffer.cpp:93-103 ([static_cast<std::byte>] keeps
    the low 8 bits). *)
Fixpoint hex_loop (s : string) : option bytes :=
  match s with
  | a :: b :: r =>
      match read_hex [a; b] with
      | None => None
      | Some v => match hex_loop r with Some bs => Some (v mod 256 :: bs) | None => None end
      end
  | _ => Some []
  end.

(** buffer::from_hex, buffer.cpp:85-106. *)
Definition from_hex (s : string) : option bytes :=
  if (length s =? 0)%nat || negb (N.of_nat (length s) mod 2 =? 0)
     || (102400 <? N.of_nat (length s))
  then None
  else hex_loop s.

(** buffer::to_hex_prefixed, buffer.cpp:77-83. *)
Definition to_hex_prefixed (prefix : string) (b : bytes) : string := prefix ++ to_hex b.

(** [hex.rfind(prefix, 0) == 0]. *)
Fixpoint starts_with (p s : string) : bool :=
  match p, s with
  | [], _ => true
  | x :: p', y :: s' => (x =? y) && starts_with p' s'
  | _ :: _, [] => false
  end.

(** buffer::from_hex_prefixed, buffer.cpp:108-120. *)
Definition from_hex_prefixed (prefix s : string) : option bytes :=
  let t := if starts_with prefix s then drop (length prefix) s else s in
  from_hex (if negb (N.of_nat (length t) mod 2 =? 0) then 48 :: t else t).

(** "0x", the prefixes' default, buffer.hpp. *)
Definition ox : string := [48; 120].

(** The loop of hash_from_hex, hash.cpp:29-35, which does not look whether reading
    failed ([v] is then 0). *)
Fixpoint hash_loop (s : string) : bytes :=
  match s with
  | a :: b :: r => default 0 (read_hex [a; b]) mod 256 :: hash_loop r
  | [a] => [default 0 (read_hex [a]) mod 256]
  | [] => []
  end.

(** hash_from_hex, hash.cpp:26-38. The result is an array of 32 bytes that is not
    initialised: a string that names fewer leaves the rest indeterminate, one that
    names more is written beyond its end (undefined behaviour). *)
Inductive hash_result := HashIs (b : bytes) | Indeterminate (known : bytes) | OutOfBounds.

Definition hash_from_hex (s : string) : hash_result :=
  let b := hash_loop s in
  match Nat.compare (length b) 32 with
  | Eq => HashIs b
  | Lt => Indeterminate b
  | Gt => OutOfBounds
  end.
