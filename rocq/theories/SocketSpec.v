(** Specification vocabulary of property C71: packets over a connection. *)
From Coq Require Import NArith List Bool.
From stdpp Require Import base list.
From Verif Require Import Base CodecModel SocketModel.
Import ListNotations.
Open Scope N_scope.

(** How a packet looks on the wire: its size in eight bytes, the least significant first,
    and its bytes. *)
Definition frame (p : bytes) : bytes := le_bytes 8 (len p) ++ p.
Definition frames (ps : list bytes) : bytes := concat (map frame ps).

(** A packet that the receiver's memory holds. *)
Definition fits (memory : N) (p : bytes) : Prop := len p <= memory.

(** The kernel reports no error. *)
Definition no_error (ks : list N) : Prop := Forall (fun k => k <> 0) ks.

(** The number of bytes of the frames of [ps]. *)
Definition wire_size (ps : list bytes) : N := len (frames ps).
