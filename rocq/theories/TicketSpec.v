(** What the properties C41 and C42 say, in terms of the calls made and the answers
    given. *)
From stdpp Require Import base option list.
From Coq Require Import NArith.
From Verif Require Import Base TicketModel.
Open Scope N_scope.

(** The ticket numbers handed out, in order. *)
Definition given (out : list (N * answer)) : list N :=
  omap (fun p => match snd p with Number n => Some n | Failed => None end) out.

(** The calls of get_ticket_number, and the calls answered. *)
Definition asked (l : list action) : list N :=
  omap (fun a => match a with AGet _ rid _ => Some rid | _ => None end) l.
Definition answered (out : list (N * answer)) : list N := out.*1.

(** How many ranges the service handed out. *)
Definition serves (l : list action) : N :=
  N.of_nat (length (List.filter (fun a => match a with AServe _ => true | _ => false end) l)).

(** The calls of client [i] still waiting for an answer. *)
Definition waiting (s : system) (i : nat) : list N :=
  match sy_clients s !! i with Some c => c_callbacks c | None => [] end.

(** The numbers client [i] has in hand. *)
Definition in_hand (s : system) (i : nat) : list N :=
  match sy_clients s !! i with Some c => c_tickets c | None => [] end.

(** No message is lost, and every request can be sent. *)
Definition reliable (a : action) : bool :=
  match a with
  | AGet _ _ ok | ADeliver _ ok => ok
  | ALoseRequest _ | ALoseResponse _ => false
  | _ => true
  end.

(** A request of client [i], or the response to one, is on its way. *)
Definition on_its_way (s : system) (i : nat) : Prop := i ∈ sy_requests s \/ i ∈ (sy_ranges s).*1.
