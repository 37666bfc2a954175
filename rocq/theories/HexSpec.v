(** What the property C52 says. *)
From stdpp Require Import base option list.
From Coq Require Import NArith.
From Verif Require Import Base HexModel.
Open Scope N_scope.

(** The sixteen digits, in either case. *)
Definition hex_digits : string :=
  [48; 49; 50; 51; 52; 53; 54; 55; 56; 57; 97; 98; 99; 100; 101; 102; 65; 66; 67; 68; 69; 70].
Definition is_hex (c : N) : Prop := c ∈ hex_digits.

Definition lower (c : N) : N := if (65 <=? c) && (c <=? 90) then c + 32 else c.

(** What may start a number read from a stream. *)
Definition starts_number (a : N) : Prop := is_hex a \/ is_space a = true \/ a = 45 \/ a = 43.
