(** Vocabulary for property C94, about what is seen of an HTTP client. *)
From stdpp Require Import base option list gmap.
From Coq Require Import NArith.
From Verif Require Import Base HttpModel.
Open Scope N_scope.

Section spec.
  Context {J : Type}.
  Implicit Types h : list (hevent J).

  (** What the callback of call [c] was called with. *)
  Definition answers (c : nat) h : list (option J) :=
    omap (fun e => match e with HAnswer d r => if Nat.eqb d c then Some r else None
                   | _ => None end) h.

  (** All that arrived for call [c]. *)
  Definition received (c : nat) h : bytes :=
    concat (omap (fun e => match e with HData d b => if Nat.eqb d c then Some b else None
                           | _ => None end) h).

  (** The body of the response to the last request of call [c]: what arrived since it was
      sent. *)
  Fixpoint body_from (c : nat) h (b : bytes) : bytes :=
    match h with
    | [] => b
    | HSent d _ :: h => body_from c h (if Nat.eqb d c then [] else b)
    | HData d x :: h => body_from c h (if Nat.eqb d c then b ++ x else b)
    | _ :: h => body_from c h b
    end.
  Definition body (c : nat) h : bytes := body_from c h [].

  (** The endpoints the requests were sent to, in order. *)
  Definition used h : list N := omap (fun e => match e with HSent _ e => Some e | _ => None end) h.

  (** How often the request of call [c] was sent. *)
  Definition sent (c : nat) h : nat :=
    length (omap (fun e => match e with HSent d _ => if Nat.eqb d c then Some tt else None
                           | _ => None end) h).
End spec.

(** Adding and removing handles always works. *)
Definition adds (i : hinput) : Prop :=
  match i with
  | ICall add => add = true
  | IData _ _ => True
  | IMsg _ _ again rm add => rm = true /\ add = true /\ Forall (eq true) again
  | IDestroy rm => rm = true
  end.
