(** What the property C53 says, in terms of the calls and what pops return. *)
From stdpp Require Import base option list.
From Coq Require Import NArith.
From Verif Require Import Base QueueModel.
Open Scope N_scope.

Definition trace := list (qop * option (nat * option N)).

(** The part of a run after the last clear. *)
Fixpoint since_clear (acc tr : trace) : trace :=
  match tr with
  | [] => acc
  | (Clear, _) :: r => since_clear [] r
  | e :: r => since_clear (acc ++ [e]) r
  end.

(** The elements pushed and the elements popped in a run, in order. *)
Definition pushed (tr : trace) : list N :=
  omap (fun e => match fst e with Push x _ => Some x | _ => None end) tr.
Definition popped (tr : trace) : list N :=
  omap (fun e => match snd e with Some (_, Some x) => Some x | _ => None end) tr.

(** [reset] is used on an empty queue only (after [clear], as its comment says). *)
Fixpoint resets_empty (o : order) (q : queue) (l : list qop) : Prop :=
  match l with
  | [] => True
  | c :: r => (c = Reset -> q_buffer q = []) /\ resets_empty o (fst (q_step o q c)) r
  end.

(** No element [y] comes out before [x]. *)
Definition first_of (o : order) (x : N) (l : list N) : Prop :=
  match o with
  | Fifo => exists r, l = x :: r
  | Largest => x ∈ l /\ Forall (fun y => y <= x) l
  | Smallest => x ∈ l /\ Forall (fun y => x <= y) l
  end.
