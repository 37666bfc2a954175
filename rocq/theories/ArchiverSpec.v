(** Histories of an archiver. *)
From Coq Require Import NArith List Bool.
From stdpp Require Import base decidable list gmap.
From Verif Require Import Base CodecModel TxModel MsgModel ArchiverModel.
Import ListNotations.
Open Scope N_scope.

(** A block arrives, in any order, as often as it likes; the process is restarted; or it
    dies while a block (and the deferred ones it releases) is being stored. *)
Inductive arch_event :=
| AvBlock (b : block)
| AvRestart
| AvCrashIn (n : nat) (b : block).

(** [None]: digest_block does not return. *)
Definition arch_do (s : archiver) (e : arch_event) : option (archiver * list ar_msg) :=
  match e with
  | AvBlock b => ar_digest_block s b
  | AvRestart => Some (ar_open (ar_db s), [])
  | AvCrashIn n b => Some (ar_open (ar_crash_in n s b), [])
  end.
Fixpoint arch_run (s : archiver) (es : list arch_event) : option (archiver * list ar_msg) :=
  match es with
  | [] => Some (s, [])
  | e :: r => match arch_do s e with
              | None => None
              | Some (s1, m1) =>
                  match arch_run s1 r with
                  | None => None
                  | Some (s2, m2) => Some (s2, m1 ++ m2)
                  end
              end
  end.
Definition arch_new : archiver := ar_open (ArchDb None ∅).

Definition ev_block (e : arch_event) : list block :=
  match e with AvBlock b | AvCrashIn _ b => [b] | AvRestart => [] end.
Definition ev_blocks (es : list arch_event) : list block := concat (map ev_block es).

(** The blocks received since the process last started. *)
Definition since_start (es : list arch_event) : list block :=
  fold_left (fun l e => match e with AvBlock b => l ++ [b] | _ => [] end) es [].

(** get_block answers exactly for the heights 1..n, with a received block of that height. *)
Definition stores (received : list block) (s : archiver) (n : N) : Prop :=
  forall h, (1 <= h <= n -> exists b, ar_get_block s h = GBlock b /\ blk_height b = h /\ b ∈ received) /\
            (~ 1 <= h <= n -> ar_get_block s h = GNone).

(** The blocks can be serialised, and their number fits in a height. *)
Definition blocks_fit (es : list arch_event) : Prop :=
  (forall b, b ∈ ev_blocks es -> dom c_block b) /\ len (ev_blocks es) + 2 < two64.
