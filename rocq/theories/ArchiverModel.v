(** The archiver: src/uhs/atomizer/archiver/controller.cpp. The database maps
    std::to_string(height) to the serialised block, and "bestblock" to a height; a write
    batch is applied as a whole or not at all. Sampling is left out. *)
From Coq Require Import NArith List Bool.
From stdpp Require Import base decidable list gmap.
From Verif Require Import Base CodecModel TxModel MsgModel.
Import ListNotations.
Open Scope N_scope.

(** What survives a crash. *)
Record archdb := ArchDb { ad_best : option N; ad_blocks : gmap N bytes }.

(** m_best_height, m_deferred and the database, controller.hpp:120-148. *)
Record archiver := Archiver {
  ar_best : N;
  ar_deferred : list (N * block);
  ar_db : archdb }.

(** init_best_block, controller.cpp:86-101. *)
Definition ar_open (db : archdb) : archiver :=
  let best := match ad_best db with Some h => h | None => 0 end in
  Archiver best [] (ArchDb (Some best) (ad_blocks db)).

(** Messages to the atomizers: request_block and request_prune, controller.cpp:286-302. *)
Inductive ar_msg :=
| MGetBlock (h : N)
| MPrune (h : N).

Definition df_find (m : list (N * block)) (h : N) : option block :=
  snd <$> List.find (fun p => fst p =? h) m.
Definition df_erase (m : list (N * block)) (h : N) : list (N * block) :=
  List.filter (fun p => negb (fst p =? h)) m.

(** digest_block up to its recursive call, controller.cpp:177-251: the new state, the
    messages sent, and the deferred block to digest next. [written]: the batch was written;
    if it was not, the assertion of line 224 fails, unless assertions are compiled out,
    which is the case modelled. *)
Definition ar_step (written : bool) (s : archiver) (b : block) : archiver * list ar_msg * option block :=
  let best := if ar_best s =? 0
              then match ad_best (ar_db s) with Some h => h | None => 0 end
              else ar_best s in
  let s := Archiver best (ar_deferred s) (ar_db s) in
  let h := blk_height b in
  if h <=? best then (s, [], None)
  else if negb (h =? add64 best 1) then
    (Archiver best (emplace_map (ar_deferred s) h b) (ar_db s),
     match df_find (ar_deferred s) (sub64 h 1) with Some _ => [] | None => [MGetBlock (sub64 h 1)] end,
     None)
  else
    let best' := add64 best 1 in
    let db := if written
              then ArchDb (Some h) (<[h := enc c_block b]> (ad_blocks (ar_db s)))
              else ar_db s in
    (Archiver best' (df_erase (ar_deferred s) h) db,
     [MPrune best'],
     df_find (ar_deferred s) (add64 h 1)).

(** digest_block with its recursion, controller.cpp:253-258. [None]: out of fuel. *)
Fixpoint ar_digest_loop (fuel : nat) (s : archiver) (b : block) : option (archiver * list ar_msg) :=
  match fuel with
  | O => None
  | S f =>
      let '(s1, ms, next) := ar_step true s b in
      match next with
      | None => Some (s1, ms)
      | Some b' => match ar_digest_loop f s1 b' with
                   | Some (s2, ms2) => Some (s2, ms ++ ms2)
                   | None => None
                   end
      end
  end.
Definition ar_digest_block (s : archiver) (b : block) : option (archiver * list ar_msg) :=
  ar_digest_loop (S (length (ar_deferred s))) s b.

(** The process dies when [n] of the calls to digest_block that [b] leads to have
    returned from their write. *)
Fixpoint ar_crash_in (n : nat) (s : archiver) (b : block) : archdb :=
  match n with
  | O => ar_db s
  | S n => let '(s1, _, next) := ar_step true s b in
           match next with
           | None => ar_db s1
           | Some b' => ar_crash_in n s1 b'
           end
  end.

(** get_block, controller.cpp:261-284. [GFail]: the assertion that the block can be read. *)
Inductive ar_got :=
| GNone
| GBlock (b : block)
| GFail.
Definition ar_get_block (s : archiver) (h : N) : ar_got :=
  match ad_blocks (ar_db s) !! h with
  | None => GNone
  | Some bs => match from_buffer c_block bs with Ok (Some b) _ => GBlock b | _ => GFail end
  end.
