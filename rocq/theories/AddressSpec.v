(** What users know of addresses: a key is 32 bytes; an address is a text; two texts of the
    same length differ in some places. Nothing here mentions the model. *)
From stdpp Require Import base list.
From Coq Require Import NArith.
Open Scope N_scope.

Definition is_key (k : list N) : Prop := length k = 32%nat /\ Forall (fun b => b < 256) k.

(** The characters of a text (ASCII), in lower and in upper case. *)
Definition to_lower (c : N) : N := if decide (65 <= c <= 90) then c + 32 else c.
Definition to_upper (c : N) : N := if decide (97 <= c <= 122) then c - 32 else c.
Definition lower (s : list N) : list N := map to_lower s.
Definition upper (s : list N) : list N := map to_upper s.

(** The number of places where two texts of the same length differ. *)
Fixpoint differences (s t : list N) : nat :=
  match s, t with
  | a :: s, b :: t => (if decide (a = b) then 0 else 1) + differences s t
  | _, _ => 0
  end.

(** One character more, somewhere. *)
Definition one_inserted (s t : list N) : Prop :=
  exists p c q, s = p ++ q /\ t = p ++ c :: q.
