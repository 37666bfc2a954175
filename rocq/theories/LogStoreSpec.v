(** What the property C44 says: the store behaves as a log, that is a list of entries
    with consecutive indices. *)
From stdpp Require Import base option list.
From Coq Require Import NArith.
From Verif Require Import Base LogStoreModel.
Open Scope N_scope.

(** A log: the index of its first entry, and its entries. *)
Record log := Log { a_first : N; a_entries : list entry }.

Definition a_next (a : log) : N := a_first a + N.of_nat (length (a_entries a)).

(** The entry with index [i]. *)
Definition a_at (a : log) (i : N) : option entry :=
  if i <? a_first a then None else a_entries a !! N.to_nat (i - a_first a).

(** The log, and the logs a crash of the machine may bring back, latest first. *)
Record logs := Logs { a_now : log; a_past : list log }.
Definition logs0 : logs := Logs (Log 1 []) [Log 1 []].

Definition a_write (a : logs) (b : log) : logs := Logs b (b :: a_past a).

(** What a caller may ask (NuRaft does): no index beyond 64 bits; [write_at] and
    [apply_pack] leave no gap and do not go behind the first index; [compact] does not
    go back; [apply_pack] brings something; reads stay inside the log. *)
Definition allowed (a : log) (o : lop) : Prop :=
  match o with
  | LAppend _ => a_next a + 1 < two64
  | LWriteAt i _ => a_first a <= i <= a_next a /\ i + 1 < two64
  | LApplyPack i es =>
      es <> [] /\ 1 <= i /\ i + N.of_nat (length es) < two64 /\
      (a_first a <= i <= a_next a \/ a_entries a = [])
  | LCompact last => a_first a <= last + 1 /\ last + 1 < two64
  | LEntries from to => a_first a <= from <= to /\ to <= a_next a
  | LPack i cnt => a_first a <= i /\ i + cnt <= a_next a
  | _ => True
  end.

(** What comes back after a crash: the log as it was, except that a log whose entries
    were all compacted away starts at 1 again (see C44_reopen_refuted). *)
Definition reopened (a : log) : log :=
  match a_entries a with [] => Log 1 [] | _ => a end.

(** The log after an operation, and what the operation returns. *)
Definition a_step (a : logs) (o : lop) : logs * lout :=
  let l := a_now a in
  let f := a_first l in
  let es := a_entries l in
  match o with
  | LAppend e => (a_write a (Log f (es ++ [e])), OIndex (a_next l))
  | LWriteAt i e => (a_write a (Log f (take (N.to_nat (i - f)) es ++ [e])), OUnit)
  | LApplyPack i new =>
      match es with
      | [] => (a_write a (Log i new), OUnit)
      | _ => (a_write a (Log f (take (N.to_nat (i - f)) es ++ new
                                ++ drop (N.to_nat (i - f) + length new) es)), OUnit)
      end
  | LCompact last => (a_write a (Log (last + 1) (drop (N.to_nat (last + 1 - f)) es)), OUnit)
  | LFlush => (Logs l [l], OUnit)
  | LCrash k =>
      let b := reopened (default l (a_past a !! Nat.min k (length (a_past a) - 1))) in
      (Logs b [b], OUnit)
  | LNextSlot => (a, OIndex (a_next l))
  | LStartIndex => (a, OIndex f)
  | LLastEntry => (a, OEntry (default null_entry (last es)))
  | LEntryAt i => (a, OEntry (default null_entry (a_at l i)))
  | LTermAt i => (a, OIndex (e_term (default null_entry (a_at l i))))
  | LEntries from to =>
      (a, OEntries (take (N.to_nat (to - from)) (drop (N.to_nat (from - f)) es)))
  | LPack i cnt => (a, OEntries (take (N.to_nat cnt) (drop (N.to_nat (i - f)) es)))
  end.

Fixpoint a_run (a : logs) (l : list lop) : logs * list lout :=
  match l with
  | [] => (a, [])
  | o :: r => let '(a1, x) := a_step a o in let '(a2, xs) := a_run a1 r in (a2, x :: xs)
  end.

Fixpoint all_allowed (a : logs) (l : list lop) : Prop :=
  match l with
  | [] => True
  | o :: r => allowed (a_now a) o /\ all_allowed (fst (a_step a o)) r
  end.
