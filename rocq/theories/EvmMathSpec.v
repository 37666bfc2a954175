(** What C47 says about: the number a 256-bit word stands for. *)
From Coq Require Import NArith List.
From Verif Require Import Base CodecModel.
Open Scope N_scope.

Definition word (b : bytes) : Prop := length b = 32%nat /\ Forall is_byte b.

(** The sum of byte * 256^position, counted from the end. *)
Fixpoint number (b : bytes) : N :=
  match b with
  | nil => 0
  | x :: r => x * 256 ^ len r + number r
  end.
