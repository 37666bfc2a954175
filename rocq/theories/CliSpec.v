(** What a user types: amounts in decimal digits, bytes in hexadecimal digits. Nothing here
    mentions the model. *)
From stdpp Require Import base list.
From Coq Require Import NArith.
Open Scope N_scope.

(** '0' to '9'. *)
Definition decimal_digit (c : N) : Prop := 48 <= c <= 57.

(** A text that is a number: at least one digit and nothing else. *)
Definition numeral (t : list N) : Prop := t <> [] /\ Forall decimal_digit t.

(** The number it denotes. *)
Definition numeral_value (t : list N) : N :=
  fold_left (fun n c => 10 * n + (c - 48)) t 0.

(** White space, as isspace: blank and the characters from tab to carriage return. *)
Definition blank (c : N) : Prop := c = 32 \/ 9 <= c <= 13.

(** How a text that need not be a number is read: blanks, perhaps a sign, digits, and any rest
    that does not begin with a digit; [n] is the number of the digits, [neg] that there was a
    minus sign. *)
Definition reads_as (t : list N) (neg : bool) (n : N) : Prop :=
  exists blanks sign digits rest,
    t = blanks ++ sign ++ digits ++ rest /\
    Forall blank blanks /\ numeral digits /\ n = numeral_value digits /\
    (neg = true /\ sign = [45] \/ neg = false /\ (sign = [] \/ sign = [43])) /\
    (forall c r, rest = c :: r -> ~ decimal_digit c).

(** The 32-bit number the program makes of a text: minus signs and numbers of more than 32
    bits wrap around; numbers of more than 64 bits are refused. *)
Definition read_as (t : list N) (v : N) : Prop :=
  exists neg n, reads_as t neg n /\ n < 2 ^ 64 /\
    v = (if neg then (2 ^ 64 - n) mod 2 ^ 64 else n) mod 2 ^ 32.

(** Bytes in hexadecimal: two characters for each. *)
Definition hex_digit (d : N) : N := if d <? 10 then 48 + d else 87 + d.
Definition in_hex (b : list N) : list N :=
  concat (map (fun x => [hex_digit (x / 16); hex_digit (x mod 16)]) b).

(** [client-cli config client wallet command ...]. *)
Definition command_line (prog config client wallet command : list N) (rest : list (list N)) :=
  prog :: config :: client :: wallet :: command :: rest.
