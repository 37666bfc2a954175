(** Model of the Raft log store, src/util/raft/log_store.cpp and
    index_comparator.cpp.

    Simplifications, valid for the whole file:
    - a nuraft::log_entry is its term and its data; [serialize] and [deserialize] are
      NuRaft's and taken to be inverse to each other; a pack is the list of its
      entries (the framing with put_u64/put_raw is NuRaft's as well);
    - LevelDB with the index comparator (index_comparator.cpp:13-31) is a map from
      64-bit indices, iterated in increasing order. Its writes succeed. A batch is
      atomic. Without [sync] a write survives the end of the process but may be lost
      when the machine goes down; then all later writes are lost as well. A write with
      [sync] makes itself and all earlier writes durable;
    - every method holds the mutex: a method is one atomic step;
    - allocation of the vectors with as many elements as indices to delete succeeds,
      unless their length underflows. *)
From stdpp Require Import base option list gmap fin_maps.
From Coq Require Import NArith.
From Verif Require Import Base.
Open Scope N_scope.

Record entry := Entry { e_term : N; e_data : option bytes }.

(** [nuraft::log_entry(0, nullptr)]. *)
Definition null_entry : entry := Entry 0 None.

Notation db := (gmap N entry) (only parsing).

(** The members of log_store, and the states of the database that a machine crash may
    bring back: [ls_past] starts with the current one and ends with the last one known
    to be on disk. *)
Record store := Store {
  ls_db : db;
  ls_next : N;
  ls_start : N;
  ls_past : list db
}.

(** How a call can end: [Throws] is std::length_error; [Undefined]: a failed assert,
    undefined behaviour without asserts. *)
Inductive res (A : Type) := Done (a : A) | Throws | Undefined.
Arguments Done {A} a. Arguments Throws {A}. Arguments Undefined {A}.

Definition bind {A B} (r : res A) (f : A -> res B) : res B :=
  match r with Done a => f a | Throws => Throws | Undefined => Undefined end.

(** [it->Seek(i)]: the smallest key not below [i]. *)
Definition seek (d : db) (i : N) : option N :=
  fold_right (fun k m => if k <? i then m
                         else match m with Some j => Some (N.min k j) | None => Some k end)
    None (map_to_list d).*1.

(** [it->SeekToLast()]: the largest key. *)
Definition seek_last (d : db) : option N :=
  fold_right (fun k m => match m with Some j => Some (N.max k j) | None => Some k end)
    None (map_to_list d).*1.

(** get_first_or_last_index, log_store.cpp:13-37. *)
Definition first_index (d : db) : N := default 1 (seek d 0).
Definition last_index (d : db) : N := default 0 (seek_last d).

(** log_store::load, log_store.cpp:39-65, on a database directory that contains [d]. *)
Definition load (d : db) : store := Store d (add64 (last_index d) 1) (first_index d) [d].

(** A new database. *)
Definition store0 : store := load ∅.

(** next_slot and start_index, log_store.cpp:67-75. *)
Definition next_slot (s : store) : N := ls_next s.
Definition start_index (s : store) : N := ls_start s.

(** last_entry, log_store.cpp:86-106. *)
Definition last_entry (s : store) : entry :=
  match seek_last (ls_db s) with
  | Some k => default null_entry (ls_db s !! k)
  | None => null_entry
  end.

(** A write without sync. *)
Definition written (s : store) (d : db) (next start : N) : store :=
  Store d next start (d :: ls_past s).

(** append, log_store.cpp:125-137. *)
Definition append (s : store) (e : entry) : store * N :=
  (written s (<[ls_next s := e]> (ls_db s)) (add64 (ls_next s) 1) (ls_start s), ls_next s).

(** [for(i = from; i < to; i++) batch.Delete(i)]: the keys are deleted in any order. *)
Definition delete_range (d : db) (from to : N) : db :=
  fold_right (fun i d' => delete (from + N.of_nat i) d') d (seq 0 (N.to_nat (to - from))).

(** write_at, log_store.cpp:139-162. The vector of length [m_next_idx - index]
    underflows if the index is beyond the next one. *)
Definition write_at (s : store) (i : N) (e : entry) : res store :=
  if ls_next s <? i then Throws
  else Done (written s (delete_range (<[i := e]> (ls_db s)) (add64 i 1) (ls_next s))
               (add64 i 1) (ls_start s)).

(** The loop of log_entries, log_store.cpp:176-184: [n] entries from the first key not
    below [i]. [assert(it->Valid())]. *)
Fixpoint read_from (d : db) (i : N) (n : nat) : res (list entry) :=
  match n with
  | O => Done []
  | S n' =>
      match seek d i with
      | None => Undefined
      | Some k => bind (read_from d (k + 1) n') (fun r => Done (default null_entry (d !! k) :: r))
      end
  end.

(** log_entries, log_store.cpp:164-188. *)
Definition log_entries (s : store) (from to : N) : res (list entry) :=
  if to <? from then Throws else read_from (ls_db s) from (N.to_nat (to - from)).

(** entry_at, log_store.cpp:190-208, and term_at, 210-213. *)
Definition entry_at (s : store) (i : N) : entry := default null_entry (ls_db s !! i).
Definition term_at (s : store) (i : N) : N := e_term (entry_at s i).

(** pack, log_store.cpp:215-245 ([cnt] is not negative). *)
Definition pack (s : store) (i : N) (cnt : N) : res (list entry) := log_entries s i (add64 i cnt).

Fixpoint put_all (d : db) (i : N) (es : list entry) : db :=
  match es with
  | [] => d
  | e :: r => put_all (<[i := e]> d) (add64 i 1) r
  end.

(** apply_pack, log_store.cpp:247-287. *)
Definition apply_pack (s : store) (i : N) (es : list entry) : store :=
  let d := put_all (ls_db s) i es in
  written s d (add64 (last_index d) 1) (first_index d).

(** compact, log_store.cpp:289-312; returns true. *)
Definition compact (s : store) (last : N) : res store :=
  if add64 last 1 <? ls_start s then Throws
  else Done (written s (delete_range (ls_db s) (ls_start s) (add64 last 1))
               (N.max (ls_next s) (add64 last 1)) (add64 last 1)).

(** flush, log_store.cpp:314-340: writes and deletes index 0, with sync. *)
Definition flush (s : store) : store :=
  let d := delete 0 (ls_db s) in Store d (ls_next s) (ls_start s) [d].

(** The machine goes down and the store is opened again: the [k] last writes that were
    not synced are lost. [Crash 0] is the end of the process alone. *)
Definition crash (s : store) (k : nat) : store :=
  load (default (ls_db s) (ls_past s !! Nat.min k (length (ls_past s) - 1))).

Inductive lop :=
| LAppend (e : entry)
| LWriteAt (i : N) (e : entry)
| LApplyPack (i : N) (es : list entry)
| LCompact (last : N)
| LFlush
| LCrash (k : nat)
| LNextSlot
| LStartIndex
| LLastEntry
| LEntryAt (i : N)
| LTermAt (i : N)
| LEntries (from to : N)
| LPack (i cnt : N).

Inductive lout :=
| OUnit
| OIndex (i : N)
| OEntry (e : entry)
| OEntries (es : list entry).

Definition l_step (s : store) (o : lop) : res (store * lout) :=
  match o with
  | LAppend e => let '(s', i) := append s e in Done (s', OIndex i)
  | LWriteAt i e => bind (write_at s i e) (fun s' => Done (s', OUnit))
  | LApplyPack i es => Done (apply_pack s i es, OUnit)
  | LCompact last => bind (compact s last) (fun s' => Done (s', OUnit))
  | LFlush => Done (flush s, OUnit)
  | LCrash k => Done (crash s k, OUnit)
  | LNextSlot => Done (s, OIndex (next_slot s))
  | LStartIndex => Done (s, OIndex (start_index s))
  | LLastEntry => Done (s, OEntry (last_entry s))
  | LEntryAt i => Done (s, OEntry (entry_at s i))
  | LTermAt i => Done (s, OIndex (term_at s i))
  | LEntries a b => bind (log_entries s a b) (fun es => Done (s, OEntries es))
  | LPack i c => bind (pack s i c) (fun es => Done (s, OEntries es))
  end.

Fixpoint l_run (s : store) (l : list lop) : res (store * list lout) :=
  match l with
  | [] => Done (s, [])
  | o :: r =>
      bind (l_step s o) (fun '(s1, x) => bind (l_run s1 r) (fun '(s2, xs) => Done (s2, x :: xs)))
  end.
