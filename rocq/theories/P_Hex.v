(** The property C52 (hexadecimal conversion). *)
From stdpp Require Import base option list.
From Coq Require Import NArith.
From Verif Require Import Base HexModel HexSpec HexProofs.
Open Scope N_scope.

(** C52: converting a buffer to hexadecimal and back gives the buffer again exactly
    when it is not empty and has at most 51200 bytes; otherwise the way back fails. *)
Theorem C52_roundtrip b : Forall is_byte b ->
  (from_hex (to_hex b) = Some b <-> b <> [] /\ N.of_nat (length b) <= 51200) /\
  (from_hex (to_hex b) = None <-> ~ (b <> [] /\ N.of_nat (length b) <= 51200)).
Proof. exact (roundtrip b). Qed.
Print Assumptions C52_roundtrip.

Example C52_roundtrip_example :
  to_hex [0; 171; 255] = [48; 48; 97; 98; 102; 102] /\
  from_hex [48; 48; 97; 98; 102; 102] = Some [0; 171; 255].
Proof. vm_compute. auto. Qed.

(** So the round trip fails on the empty buffer. *)
Theorem C52_roundtrip_empty_refuted : from_hex (to_hex []) <> Some [].
Proof. discriminate. Qed.
Print Assumptions C52_roundtrip_empty_refuted.

(** C52: the same with a prefix, whatever it is, and "0x" may be left out. *)
Theorem C52_prefixed p b : from_hex_prefixed p (to_hex_prefixed p b) = from_hex (to_hex b).
Proof. exact (prefixed_same p b). Qed.
Print Assumptions C52_prefixed.

Theorem C52_prefix_optional b : from_hex_prefixed ox (to_hex b) = from_hex (to_hex b).
Proof. exact (unprefixed_same b). Qed.
Print Assumptions C52_prefix_optional.

(** C52: every hash survives the way to hexadecimal and back. *)
Theorem C52_hash_roundtrip b : Forall is_byte b -> length b = 32%nat ->
  hash_from_hex (to_hex b) = HashIs b.
Proof. exact (hash_roundtrip b). Qed.
Print Assumptions C52_hash_roundtrip.

Example C52_hash_example : hash_from_hex (to_hex (map N.of_nat (seq 200 32)))
  = HashIs (map N.of_nat (seq 200 32)).
Proof. vm_compute. reflexivity. Qed.

(** C52: a string of hexadecimal digits in either case, of even length up to 102400,
    is accepted, and its bytes print as the same string in lower case. *)
Theorem C52_accepts_hex s : Forall is_hex s -> s <> [] -> N.of_nat (length s) mod 2 = 0 ->
  N.of_nat (length s) <= 102400 ->
  exists b, from_hex s = Some b /\ Forall is_byte b /\ to_hex b = map lower s.
Proof. exact (accepts_hex s). Qed.
Print Assumptions C52_accepts_hex.

Example C52_accepts_hex_example : from_hex [70; 48; 98; 66] = Some [240; 187].
Proof. reflexivity. Qed.

(** C52: a string of the wrong length is rejected. *)
Theorem C52_rejects_length s :
  s = [] \/ N.of_nat (length s) mod 2 <> 0 \/ 102400 < N.of_nat (length s) -> from_hex s = None.
Proof. exact (rejects_length s). Qed.
Print Assumptions C52_rejects_length.

(** C52: so is one in which the first character of some pair is none of a hexadecimal
    digit, white space and a sign. That is not yet "strings that are not hexadecimal
    are rejected", which is false, as the next theorem shows. *)
Theorem C52_rejects_partial s b : from_hex s = Some b ->
  forall i c, s !! (2 * i)%nat = Some c -> is_hex c \/ is_space c = true \/ c = 45 \/ c = 43.
Proof. exact (rejects_start s b). Qed.
Print Assumptions C52_rejects_partial.

(** "1g", " 1" and "-1" are accepted, as the bytes 01, 01 and ff. *)
Theorem C52_rejects_refuted :
  from_hex [49; 103] = Some [1] /\ from_hex [32; 49] = Some [1] /\ from_hex [45; 49] = Some [255] /\
  ~ is_hex 103 /\ ~ is_hex 32 /\ ~ is_hex 45.
Proof. exact hex_cases. Qed.
Print Assumptions C52_rejects_refuted.

(** A hash read from a string that is too short has bytes nobody wrote; one read from
    a string that is too long writes outside of it; one read from no number is 0. *)
Theorem C52_hash_text_refuted :
  hash_from_hex [49; 50] = Indeterminate [18] /\
  hash_from_hex (repeat 48 66) = OutOfBounds /\
  hash_from_hex (repeat 122 64) = HashIs (repeat 0 32).
Proof. exact hash_cases. Qed.
Print Assumptions C52_hash_text_refuted.
