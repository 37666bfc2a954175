(** What C46 says: RLP as the Ethereum yellow paper defines it (appendix B). *)
From Coq Require Import NArith List.
From Verif Require Import Base CodecModel RlpModel.
Import ListNotations.
Open Scope N_scope.

(** [l] is the shortest big-endian representation of [n]. *)
Definition shortest_be (n : N) (l : bytes) : Prop :=
  be_value l = n /\ Forall is_byte l /\ hd 1 l <> 0.

Definition single_small (b : bytes) : Prop := exists x, b = [x] /\ x < 128.

Inductive RLP : rlp -> bytes -> Prop :=
| RLP_byte x : x < 128 -> RLP (RBuf [x]) [x]
| RLP_short b : ~ single_small b -> len b < 56 -> RLP (RBuf b) (128 + len b :: b)
| RLP_long b l : 56 <= len b -> shortest_be (len b) l -> RLP (RBuf b) (183 + len l :: l ++ b)
| RLP_list vs es : Forall2 RLP vs es -> len (concat es) < 56 ->
    RLP (RArr vs) (192 + len (concat es) :: concat es)
| RLP_long_list vs es l : Forall2 RLP vs es -> 56 <= len (concat es) ->
    shortest_be (len (concat es)) l ->
    RLP (RArr vs) (247 + len l :: l ++ concat es).
