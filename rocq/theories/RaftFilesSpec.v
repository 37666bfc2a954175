(** What a raft node should find in its files. *)
From Verif Require Import Base HexModel.
From Coq Require Import String.
From stdpp Require Import base option list gmap.
From Coq Require Import NArith.
From Verif Require Import ConfigModel RaftFilesModel.
Open Scope N_scope.

Section spec.
Context {C T : Type}.

(** What a node may find of a kind of object, [None] for nothing: the object it saved last; and
    those it was saving when its process died, since. *)
Definition possible_step (k : kind) (n : node) (p : list (option (object C T))) (a : act C T)
    : list (option (object C T)) :=
  match a with
  | ASave n' o => if decide (n' = n /\ kind_of o = k) then [Some o] else p
  | ACrash n' o _ _ => if decide (n' = n /\ kind_of o = k) then Some o :: p else p
  end.
Definition possible (l : list (act C T)) (k : kind) (n : node) : list (option (object C T)) :=
  fold_left (possible_step k n) l [None].

(** The acts are not about that node's objects of that kind. *)
Definition elsewhere (k : kind) (n : node) (a : act C T) : Prop :=
  match a with ASave n' o | ACrash n' o _ _ => ~ (n' = n /\ kind_of o = k) end.
End spec.

(** ** Voting

    What NuRaft does with the state (raft_server::handle_vote_req, not in the repository): a
    node votes for a candidate if it has not voted for another one in that term or a later
    one, and it saves its vote before it answers. After a restart it goes on with the state it
    finds. *)
Section vote.
Context (enc : N * option N -> bytes) (dec : bytes -> option (N * option N)).
Record voter := Voter {
  v_disk : disk;
  v_term : N;
  v_for : option N;
  v_votes : list (N * N)       (* term and candidate of the votes that were answered *)
}.
Inductive vote_event :=
| VAsk (term cand : N)
| VAskCrash (term cand : N) (steps part : nat).     (* the process dies while it saves *)
Definition may_vote (v : voter) (term cand : N) : bool :=
  (v_term v <? term) ||
  ((v_term v =? term) &&
   match v_for v with None => true | Some c => c =? cand end).
Definition restart (n : node) (d : disk) (votes : list (N * N)) : option voter :=
  match read_state dec d n with
  | Missing => Some (Voter d 0 None votes)
  | Loaded (t, c) => Some (Voter d t c votes)
  | Threw => None
  end.
Definition vote_step (n : node) (v : voter) (e : vote_event) : option voter :=
  match e with
  | VAsk t c =>
      if may_vote v t c then
        Some (Voter (save (v_disk v) (file_name KState n) (enc (t, Some c))) t (Some c)
                (v_votes v ++ [(t, c)]))
      else Some v
  | VAskCrash t c steps part =>
      if may_vote v t c then
        restart n (save_until (v_disk v) (file_name KState n) (enc (t, Some c)) steps part)
          (v_votes v)
      else restart n (v_disk v) (v_votes v)
  end.
Fixpoint vote_run (n : node) (v : voter) (l : list vote_event) : option voter :=
  match l with
  | [] => Some v
  | e :: r => match vote_step n v e with Some v' => vote_run n v' r | None => None end
  end.
End vote.
