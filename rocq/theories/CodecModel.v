(** The serializer library: src/util/serialization. *)
From Coq Require Import NArith List Bool.
From stdpp Require Import base decidable list.
From Verif Require Import Base.
Import ListNotations.
Open Scope N_scope.

(** * Writing

    [operator<<] for a value calls [serializer::write] a number of times; the
    model of [operator<<] is the list of byte blocks passed to these calls. The
    four serializers below interpret such a list. *)
Definition writes := list bytes.

(** buffer_serializer: packet and cursor,
    src/util/serialization/buffer_serializer.hpp. *)
Record bufser := BufSer { bs_pkt : bytes; bs_cursor : N }.

(** Number of elements as a [size_t]. *)
Definition len {A} (l : list A) : N := N.of_nat (length l).

(** buffer::extend appends zero bytes, src/util/common/buffer.cpp:48-50. *)
Definition buf_extend (b : bytes) (n : N) : bytes := b ++ repeat 0 (N.to_nat n).

(** std::memcpy of [d] at offset [off] of [b]; all uses have
    off + len d <= len b. *)
Definition buf_overwrite (b : bytes) (off : N) (d : bytes) : bytes :=
  firstn (N.to_nat off) b ++ d ++ skipn (N.to_nat off + length d) b.

(** buffer_serializer::write, src/util/serialization/buffer_serializer.cpp:30-37
    (sizes are assumed below 2^64, so cursor + len does not wrap). *)
Definition bufser_write (s : bufser) (d : bytes) : bufser :=
  let pkt := if len (bs_pkt s) <? bs_cursor s + len d
             then buf_extend (bs_pkt s) (bs_cursor s + len d - len (bs_pkt s))
             else bs_pkt s in
  BufSer (buf_overwrite pkt (bs_cursor s) d) (bs_cursor s + len d).

(** size_serializer::write and size,
    src/util/serialization/size_serializer.cpp:25-36. *)
Definition sizeser_write (cursor : N) (d : bytes) : N := cursor + len d.

(** serialized_size, src/util/serialization/util.hpp:20-25. *)
Definition serialized_size (w : writes) : N := fold_left sizeser_write w 0.

(** make_buffer / make_shared_buffer, src/util/serialization/util.hpp:32-55:
    reserve serialized_size zero bytes, then write from the start. *)
Definition make_buffer (w : writes) : bytes :=
  bs_pkt (fold_left bufser_write w
            (BufSer (buf_extend [] (serialized_size w)) 0)).

(** nuraft_serializer: fixed-size buffer; a write that does not fit sets the
    failed state and writes nothing. src/util/raft/serialization.cpp:34-43. *)
Record nuser := NuSer { nu_buf : bytes; nu_pos : N; nu_valid : bool }.

Definition nuser_write (s : nuser) (d : bytes) : nuser :=
  if len (nu_buf s) <? nu_pos s + len d
  then NuSer (nu_buf s) (nu_pos s) false
  else NuSer (buf_overwrite (nu_buf s) (nu_pos s) d) (nu_pos s + len d)
         (nu_valid s).

(** make_buffer for nuraft buffers, src/util/raft/util.hpp:19-27: allocate
    serialized_size bytes (contents unspecified: [junk]) and write. *)
Definition make_nuraft_buffer (junk : N -> bytes) (w : writes) : nuser :=
  fold_left nuser_write w (NuSer (junk (serialized_size w)) 0 true).

(** ostream_serializer::write on a stream that is only appended to,
    src/util/serialization/ostream_serializer.cpp:35-40. *)
Definition ostream_write (file d : bytes) : bytes := file ++ d.

(** * Reading

    State of a reading serializer: the bytes from the cursor to the end, and the
    validity flag returned by operator bool (buffer_serializer.cpp:13-15). *)
Record dst := Dst { rem : bytes; valid : bool }.

(** Result of an [operator>>]: the value left in the target object and the new
    state; or an exception leaves the call ([Throw]: std::length_error from
    buffer::extend, std::out_of_range or failed assert from an unknown variant
    index); [NoFuel] is an artefact that is proved unreachable. *)
Inductive res (A : Type) :=
| Ok (a : A) (s : dst)
| Throw
| NoFuel.
Arguments Ok {A} a s.
Arguments Throw {A}.
Arguments NoFuel {A}.

Definition bind {A B} (r : res A) (k : A -> dst -> res B) : res B :=
  match r with Ok a s => k a s | Throw => Throw | NoFuel => NoFuel end.

(** serializer::read of [n] bytes: buffer_serializer.cpp:39-47 and
    raft/serialization.cpp:45-52. A short read sets the failed state, does not
    move the cursor and leaves the target at its previous contents (every target
    in the code is value-initialised, so [None] stands for that). *)
Definition rd (n : N) (s : dst) : option bytes * dst :=
  if len (rem s) <? n then (None, Dst (rem s) false)
  else (Some (firstn (N.to_nat n) (rem s)),
        Dst (skipn (N.to_nat n) (rem s)) (valid s)).

(** * Codecs: operator<< and operator>> of one type, and the values the C++ type
    can hold. *)
Record codec (A : Type) := Codec {
  wr : A -> writes;
  dec : dst -> res A;
  dom : A -> Prop;
}.
Arguments wr {A}. Arguments dec {A}. Arguments dom {A}. Arguments Codec {A}.

Definition enc {A} (c : codec A) (a : A) : bytes := concat (wr c a).

(** Unsigned integers of [n] bytes (uint8_t, uint16_t, uint32_t, uint64_t),
    src/util/serialization/format.hpp:72-91. *)
Definition c_uint (n : nat) : codec N := {|
  wr v := [le_bytes n v];
  dec s := match rd (N.of_nat n) s with
           | (Some b, s') => Ok (le_value b) s'
           | (None, s') => Ok 0 s'
           end;
  dom v := v < 256 ^ N.of_nat n
|}.

Definition c_u8 := c_uint 1.
Definition c_u32 := c_uint 4.
Definition c_u64 := c_uint 8.

(** bool: one byte holding 0 or 1; reading treats any non-zero byte as true
    (format.hpp:72-91 with T = bool; bytes other than 0/1 are technically
    undefined behaviour and are read as true by the supported compilers). *)
Definition c_bool : codec bool := {|
  wr b := [[if b : bool then 1 else 0]];
  dec s := match rd 1 s with
           | (Some [b], s') => Ok (negb (b =? 0)) s'
           | (_, s') => Ok false s'
           end;
  dom _ := True
|}.

(** std::array<unsigned char, n>, format.hpp:101-115, as a big-endian number
    (hash_t, pubkey_t, signature_t, privkey_t). *)
Definition c_array (n : nat) : codec N := {|
  wr v := [be_bytes n v];
  dec s := match rd (N.of_nat n) s with
           | (Some b, s') => Ok (be_value b) s'
           | (None, s') => Ok 0 s'
           end;
  dom v := v < 256 ^ N.of_nat n
|}.

Definition c_hash := c_array 32.
Definition c_pubkey := c_array 32.
Definition c_sig := c_array 64.

(** std::vector::max_size() for bytes: buffer::extend beyond it throws
    std::length_error. *)
Definition max_alloc : N := 2 ^ 63 - 1.

(** cbdc::buffer, src/util/serialization/format.cpp:24-36: the size is read
    without checking for failure (it stays 0 then), the buffer is extended by it,
    and the contents are read. A short read leaves [sz] zero bytes.
    Simplification: an allocation that fails for lack of memory is not
    modelled. *)
Definition c_buffer : codec bytes := {|
  wr b := [le_bytes 8 (len b); b];
  dec s := bind (dec c_u64 s) (fun sz s1 =>
             if max_alloc <? sz then Throw else
             match rd sz s1 with
             | (Some b, s2) => Ok b s2
             | (None, s2) => Ok (repeat 0 (N.to_nat sz)) s2
             end);
  dom b := len b <= max_alloc /\ Forall is_byte b
|}.

(** std::optional, format.hpp:117-152. *)
Definition c_option {A} (c : codec A) : codec (option A) := {|
  wr o := match o with
          | None => wr c_bool false
          | Some a => wr c_bool true ++ wr c a
          end;
  dec s := bind (dec c_bool s) (fun has s1 =>
             if negb (valid s1) then Ok None s1 else
             if has : bool then
               bind (dec c s1) (fun a s2 =>
                 if valid s2 then Ok (Some a) s2 else Ok None s2)
             else Ok None s1);
  dom o := match o with None => True | Some a => dom c a end
|}.

(** std::pair, format.hpp:154-179: the second component is read only if the
    first one was read successfully. *)
Definition c_pair {A B} (ca : codec A) (cb : codec B) : codec (A * B) := {|
  wr p := wr ca (fst p) ++ wr cb (snd p);
  dec s := bind (dec ca s) (fun a s1 =>
             bind (dec cb s1) (fun b s2 => Ok (a, b) s2));
  dom p := dom ca (fst p) /\ dom cb (snd p)
|}.
(* [c_pair] is also the chained form [packet >> a >> b] used by all message
   types: after a failed read of [a] the next operator is still called (the
   validity flag stays false, see [rd]). For std::pair the early return skips
   the second read; the difference is visible only in a result whose flag is
   already false. *)

(** Loop of the vector reader, format.hpp:208-229: read [n] elements, stop at the
    first failure, keep the elements read so far. The chunked [reserve] calls
    only affect capacity. *)
Definition vec_step {A} (c : codec A) (r : res (list A)) : res (list A) :=
  bind r (fun acc s =>
    if negb (valid s) then Ok acc s else
    bind (dec c s) (fun a s' =>
      if valid s' then Ok (acc ++ [a]) s' else Ok acc s')).

(** std::vector, format.hpp:181-233 (and std::set, format.hpp:287-318, whose
    values are written in increasing order). *)
Definition c_vec {A} (c : codec A) : codec (list A) := {|
  wr l := wr c_u64 (len l) ++ concat (map (wr c) l);
  dec s := bind (dec c_u64 s) (fun n s1 =>
             if negb (valid s1) then Ok [] s1
             else N.iter n (vec_step c) (Ok [] s1));
  dom l := len l < two64 /\ Forall (dom c) l
|}.

(** emplace into an unordered container: nothing happens if the key is there. An
    unordered container is the list of its elements in iteration order; the
    model takes insertion order for a freshly read container. *)
Definition emplace_map {K V} `{EqDecision K} (m : list (K * V)) (k : K) (v : V)
  : list (K * V) :=
  if decide (k ∈ map fst m) then m else m ++ [(k, v)].

Definition emplace_set {K} `{EqDecision K} (m : list K) (k : K) : list K :=
  if decide (k ∈ m) then m else m ++ [k].

(** Loop of the unordered_map reader, format.hpp:263-283: read entries while the
    map has fewer than [n] elements (a duplicate key makes it read one more).
    [fuel] is the number of unread bytes plus one. *)
Fixpoint map_loop {K V} `{EqDecision K} (ck : codec K) (cv : codec V)
    (fuel : nat) (n : N) (m : list (K * V)) (s : dst) : res (list (K * V)) :=
  if len m <? n then
    match fuel with
    | O => NoFuel
    | S f =>
        bind (dec ck s) (fun k s1 =>
          if negb (valid s1) then Ok m s1 else
          bind (dec cv s1) (fun v s2 =>
            if negb (valid s2) then Ok m s2 else
            map_loop ck cv f n (emplace_map m k v) s2))
    end
  else Ok m s.

(** std::unordered_map, format.hpp:235-285. *)
Definition c_map {K V} `{EqDecision K} (ck : codec K) (cv : codec V)
  : codec (list (K * V)) := {|
  wr m := wr c_u64 (len m)
            ++ concat (map (fun p => wr ck (fst p) ++ wr cv (snd p)) m);
  dec s := bind (dec c_u64 s) (fun n s1 =>
             if negb (valid s1) then Ok [] s1
             else map_loop ck cv (S (length (rem s1))) n [] s1);
  dom m := len m < two64 /\ NoDup (map fst m)
           /\ Forall (fun p => dom ck (fst p) /\ dom cv (snd p)) m
|}.

(** Loop of the unordered_set reader, format.hpp:345-357. *)
Fixpoint set_loop {K} `{EqDecision K} (ck : codec K)
    (fuel : nat) (n : N) (m : list K) (s : dst) : res (list K) :=
  if len m <? n then
    match fuel with
    | O => NoFuel
    | S f =>
        bind (dec ck s) (fun k s1 =>
          if negb (valid s1) then Ok m s1 else
          set_loop ck f n (emplace_set m k) s1)
    end
  else Ok m s.

(** std::unordered_set, format.hpp:320-359. *)
Definition c_uset {K} `{EqDecision K} (ck : codec K) : codec (list K) := {|
  wr m := wr c_u64 (len m) ++ concat (map (wr ck) m);
  dec s := bind (dec c_u64 s) (fun n s1 =>
             if negb (valid s1) then Ok [] s1
             else set_loop ck (S (length (rem s1))) n [] s1);
  dom m := len m < two64 /\ NoDup m /\ Forall (dom ck) m
|}.

(** std::set reader, format.hpp:300-318: reads exactly [n] keys, so duplicates
    make the result smaller. *)
Definition oset_step {K} `{EqDecision K} (c : codec K) (r : res (list K))
  : res (list K) :=
  bind r (fun acc s =>
    if negb (valid s) then Ok acc s else
    bind (dec c s) (fun a s' =>
      if valid s' then Ok (emplace_set acc a) s' else Ok acc s')).

Definition c_oset {K} `{EqDecision K} (c : codec K) : codec (list K) := {|
  wr l := wr c_u64 (len l) ++ concat (map (wr c) l);
  dec s := bind (dec c_u64 s) (fun n s1 =>
             if negb (valid s1) then Ok [] s1
             else N.iter n (oset_step c) (Ok [] s1));
  dom l := len l < two64 /\ NoDup l /\ Forall (dom c) l
|}.

(** std::variant of two alternatives, format.hpp:361-400. The index is read
    without checking for failure (it stays 0); an unknown index makes
    expand_type throw (src/util/common/variant_overloaded.hpp:47-57). Variants
    with more alternatives nest on the right with [idx] shifted. *)
Inductive vcodec : Type -> Type :=
| VNil {A} (c : codec A) : vcodec A
| VCons {A B} (c : codec A) (v : vcodec B) : vcodec (A + B).

Fixpoint v_idx {T} (v : vcodec T) : T -> N :=
  match v in vcodec T return T -> N with
  | VNil _ => fun _ => 0
  | VCons _ v' => fun x => match x with inl _ => 0 | inr y => 1 + v_idx v' y end
  end.

Fixpoint v_wr {T} (v : vcodec T) : T -> writes :=
  match v in vcodec T return T -> writes with
  | VNil c => wr c
  | VCons c v' => fun x => match x with inl a => wr c a | inr y => v_wr v' y end
  end.

Fixpoint v_dec {T} (v : vcodec T) (idx : nat) (s : dst) : res T :=
  match v in vcodec T return res T with
  | VNil c => match idx with O => dec c s | S _ => Throw end
  | VCons c v' =>
      match idx with
      | O => bind (dec c s) (fun a s' => Ok (inl a) s')
      | S i => bind (v_dec v' i s) (fun b s' => Ok (inr b) s')
      end
  end.

Fixpoint v_dom {T} (v : vcodec T) : T -> Prop :=
  match v in vcodec T return T -> Prop with
  | VNil c => dom c
  | VCons c v' => fun x => match x with inl a => dom c a | inr y => v_dom v' y end
  end.

Fixpoint v_size {T} (v : vcodec T) : N :=
  match v with VNil _ => 1 | VCons _ v' => 1 + v_size v' end.

Definition c_variant {T} (v : vcodec T) : codec T := {|
  wr x := wr c_u8 (v_idx v x) ++ v_wr v x;
  dec s := bind (dec c_u8 s) (fun i s1 => v_dec v (N.to_nat i) s1);
  dom x := v_dom v x
|}.

(** Types with no contents, format.hpp:49-64. *)
Definition c_unit : codec unit := {|
  wr _ := []; dec s := Ok tt s; dom _ := True
|}.

(** A message struct is written field by field; [iso] renames the nested pairs
    produced by [c_pair] into a record. *)
Definition c_iso {A B} (f : A -> B) (g : B -> A) (c : codec A) : codec B := {|
  wr b := wr c (g b);
  dec s := bind (dec c s) (fun a s' => Ok (f a) s');
  dom b := dom c (g b)
|}.

(** An enum whose underlying type is an [n]-byte unsigned integer,
    format.hpp:434-453. Values outside the enumerators are possible. *)
Definition c_enum (n : nat) := c_uint n.

(** from_buffer, src/util/serialization/util.hpp:62-70 and
    src/util/raft/util.hpp:34-42. *)
Definition from_buffer {A} (c : codec A) (b : bytes) : res (option A) :=
  match dec c (Dst b true) with
  | Ok a s => if valid s then Ok (Some a) s else Ok None s
  | Throw => Throw
  | NoFuel => NoFuel
  end.

(** * The primitive read with its cursor

    buffer_serializer::read, src/util/serialization/buffer_serializer.cpp:39-47
    (nuraft_serializer::read, raft/serialization.cpp:45-52, is the same on the
    NuRaft buffer position): the bound is checked on the wrapped 64-bit sum.
    [RdOob]: the check passes although the memcpy reads outside the buffer. *)
Inductive rd_outcome := RdOk (data : bytes) (cursor : N) | RdFail | RdOob.
Definition buf_read (pkt : bytes) (cursor n : N) : rd_outcome :=
  if len pkt <? add64 cursor n then RdFail
  else if len pkt <? cursor + n then RdOob
  else RdOk (firstn (N.to_nat n) (skipn (N.to_nat cursor) pkt)) (cursor + n).
