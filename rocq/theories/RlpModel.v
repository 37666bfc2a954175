(** Model of the RLP codec of the EVM runner,
    src/parsec/agent/runners/evm/rlp.hpp, rlp.cpp, rlp_writer.cpp, rlp_reader.cpp. *)
From Coq Require Import NArith List Bool.
From stdpp Require Import base list.
From Verif Require Import Base CodecModel.
Import ListNotations.
Open Scope N_scope.

(** rlp_value, rlp.hpp:21-116: [m_type] selects the member in use. *)
Inductive rlp :=
| RBuf (b : bytes)
| RArr (l : list rlp).

Fixpoint drop_zeros (b : bytes) : bytes :=
  match b with
  | x :: r => if x =? 0 then drop_zeros r else b
  | [] => []
  end.

(** serialize_size, rlp_writer.cpp:63-83: the 8 little-endian bytes from the last to the
    first, without the zeros at the start. *)
Definition serialize_size (n : N) : bytes :=
  if n =? 0 then [] else drop_zeros (rev (le_bytes 8 n)).

(** serialize_rlp_length, rlp_writer.cpp:46-61. The casts to unsigned char keep the
    low 8 bits. *)
Definition rlp_length (n : N) (offset : N) : bytes :=
  if n <=? 55 then [(n + offset) mod 256]
  else let l := serialize_size n in (len l + 55 + offset) mod 256 :: l.

(** write_buffer_to, rlp_writer.cpp:29-44. *)
Definition write_buffer (b : bytes) : bytes :=
  match b with
  | [x] => if x <? 128 then [x] else rlp_length 1 128 ++ b
  | _ => rlp_length (len b) 128 ++ b
  end.

(** write_to and write_array_to, rlp_writer.cpp:10-27. *)
Fixpoint rlp_bytes (v : rlp) : bytes :=
  match v with
  | RBuf b => write_buffer b
  | RArr l => let inner := concat (map rlp_bytes l) in rlp_length (len inner) 192 ++ inner
  end.

(** deserialize_size, rlp_reader.cpp:80-90, for at most 8 bytes. *)
Definition deserialize_size (b : bytes) : N :=
  le_value (rev (repeat 0 (8 - length b) ++ b)).

(** ser.read into a buffer extended by [n] zero bytes; [buffer::extend] beyond the
    allocator's limit throws std::length_error. The flag says whether the read failed. *)
Definition read_zeroed (n : N) (s : dst) : res (bytes * bool) :=
  if max_alloc <? n then Throw
  else match rd n s with
       | (Some b, s') => Ok (b, false) s'
       | (None, s') => Ok (repeat 0 (N.to_nat n), true) s'
       end.

(** read_buffer_from, rlp_reader.cpp:59-63. *)
Definition read_buffer (n : N) (s : dst) : res rlp :=
  bind (read_zeroed n s) (fun r s' => Ok (RBuf (fst r)) s').

(** read_from and read_array_from, rlp_reader.cpp:10-57 and 65-78. The loop over the
    array's own serializer ends at the end of its buffer and ignores its failures. If the
    array's bytes could not be read the buffer is all zero, and the loop makes of each
    zero byte a value; this case is written down directly. [fuel] bounds the number of
    values and their nesting; that it suffices is proved. *)
Fixpoint read_value (fuel : nat) (s : dst) : res rlp :=
  match fuel with
  | O => NoFuel
  | S f =>
      let '(ob, s1) := rd 1 s in
      let b := match ob with Some [x] => x | _ => 0 end in
      if b <? 128 then Ok (RBuf [b]) s1
      else if b <=? 128 + 55 then read_buffer (b - 128) s1
      else if b <? 192 then
        bind (read_zeroed (b - 128 - 55) s1)
             (fun r s2 => read_buffer (deserialize_size (fst r)) s2)
      else if b <=? 192 + 55 then read_array f (b - 192) s1
      else
        bind (read_zeroed (b - 192 - 55) s1)
             (fun r s2 => read_array f (deserialize_size (fst r)) s2)
  end
with read_array (fuel : nat) (n : N) (s : dst) : res rlp :=
  match fuel with
  | O => NoFuel
  | S f =>
      if n =? 0 then Ok (RArr []) s
      else
        bind (read_zeroed n s) (fun r s' =>
          if snd r then Ok (RArr (repeat (RBuf [0]) (N.to_nat n))) s'
          else match read_values f (Dst (fst r) true) with
               | Ok l _ => Ok (RArr l) s'
               | Throw => Throw
               | NoFuel => NoFuel
               end)
  end
with read_values (fuel : nat) (s : dst) : res (list rlp) :=
  match fuel with
  | O => NoFuel
  | S f =>
      match CodecModel.rem s with
      | [] => Ok [] s
      | _ => bind (read_value f s) (fun v s1 => bind (read_values f s1) (fun l s2 => Ok (v :: l) s2))
      end
  end.

(** [rlp_value] as a wire format: operator<< and operator>>. The values: bytes, and at
    most as many as fit into memory. *)
Fixpoint all_bytes (v : rlp) : Prop :=
  match v with
  | RBuf b => Forall is_byte b
  | RArr l => fold_right (fun x p => all_bytes x /\ p) True l
  end.

Definition c_rlp : codec rlp := {|
  wr v := [rlp_bytes v];
  dec s := read_value (3 * length (CodecModel.rem s) + 3) s;
  dom v := all_bytes v /\ len (rlp_bytes v) <= max_alloc
|}.

(** make_rlp_value, rlp.hpp:125-147: with [trim] the leading zero bytes are cut. *)
Definition make_rlp_value (b : bytes) (trim : bool) : rlp :=
  RBuf (if trim then drop_zeros b else b).

(** size, rlp.cpp:35-40. *)
Definition rlp_size (v : rlp) : N := match v with RBuf b => len b | RArr l => len l end.

(** The member [m_buffer]. *)
Definition rlp_data (v : rlp) : bytes := match v with RBuf b => b | RArr _ => [] end.
