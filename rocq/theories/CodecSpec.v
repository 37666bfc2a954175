(** What "the wire format is correct" means, for one message type. *)
From Coq Require Import NArith List.
From Verif Require Import Base CodecModel.
Import ListNotations.
Open Scope N_scope.

(** The bytes a peer sends: make_buffer. *)
Definition encoding {A} (c : codec A) (a : A) : bytes := make_buffer (wr c a).

(** Reading the encoding of a value, followed by anything, yields that value,
    consumes exactly the encoding and leaves the reader valid. *)
Definition round_trips {A} (c : codec A) : Prop :=
  forall a trailing, dom c a ->
    dec c (Dst (encoding c a ++ trailing) true) = Ok a (Dst trailing true).

(** The size announced beforehand is the number of bytes written. *)
Definition size_exact {A} (c : codec A) : Prop :=
  forall a, serialized_size (wr c a) = len (encoding c a).

(** No encoding is a prefix of another one; in particular encodings of different
    values differ. *)
Definition prefix_free {A} (c : codec A) : Prop :=
  forall a b q, dom c a -> dom c b -> encoding c b = encoding c a ++ q ->
    a = b /\ q = [].
Definition injective {A} (c : codec A) : Prop :=
  forall a b, dom c a -> dom c b -> encoding c a = encoding c b -> a = b.

(** Reading a message with its tail missing is reported: no value, or an
    exception. *)
Definition truncation_detected {A} (c : codec A) : Prop :=
  forall a p q, dom c a -> encoding c a = p ++ q -> q <> [] ->
    from_buffer c p = Throw \/ exists s, from_buffer c p = Ok None s.

(** On arbitrary bytes a read terminates, and consumes a prefix of the input. *)
Definition total_reader {A} (c : codec A) : Prop :=
  forall b, dec c (Dst b true) <> NoFuel /\
    forall a s, dec c (Dst b true) = Ok a s -> valid s = true ->
      exists p, b = p ++ rem s.

Definition wire_correct {A} (c : codec A) : Prop :=
  round_trips c /\ size_exact c /\ prefix_free c /\ injective c /\
  truncation_detected c /\ total_reader c.
