(** Property C44: the Raft log store is a log. *)
From stdpp Require Import base option list.
From Coq Require Import NArith.
From Verif Require Import Base LogStoreModel LogStoreSpec LogStoreProofs.
Open Scope N_scope.

(** C44: for every history of appends, overwrites, packs, compactions, flushes, crashes
    and reads that stays inside the log, every call returns what a log returns: a list
    of entries with consecutive indices from a first one, in which an overwrite
    truncates, a compaction drops a prefix, and a crash brings back the log after one
    of the writes since the last flush. *)
Theorem C44_log l : all_allowed logs0 l ->
  exists s, l_run store0 l = Done (s, snd (a_run logs0 l)).
Proof. exact (refines l). Qed.
Print Assumptions C44_log.

Example C44_log_example : all_allowed logs0 sample /\
  snd (a_run logs0 sample) =
  [OIndex 1; OIndex 2; OIndex 3; OUnit; OUnit; OIndex 4; OUnit; OEntries [ent 2; ent 4]; OUnit;
   OEntries [ent 2; ent 4; ent 6; ent 7]; OIndex 2; OEntry (ent 7); OIndex 4; OEntry null_entry;
   OUnit; OIndex 5; OEntries [ent 2; ent 4; ent 5]].
Proof. exact (conj sample_allowed sample_outs). Qed.

(** C44: an entry that was there at a flush is there after a crash, whatever was
    appended in between and however much of that is lost. *)
Theorem C44_flushed_survives l es k i :
  let before := a_now (fst (a_run logs0 l)) in
  let after := a_now (fst (a_run logs0 (l ++ LFlush :: map LAppend es ++ [LCrash k]))) in
  a_first before <= i < a_next before -> a_at after i = a_at before i.
Proof. exact (flushed_survives l es k i). Qed.
Print Assumptions C44_flushed_survives.

Example C44_flushed_survives_example :
  a_at (a_now (fst (a_run logs0 [LAppend (ent 1); LAppend (ent 2)]))) 2 = Some (ent 2) /\
  a_at (a_now (fst (a_run logs0
    ([LAppend (ent 1); LAppend (ent 2)] ++ LFlush :: map LAppend [ent 3; ent 4] ++ [LCrash 1])))) 2
    = Some (ent 2).
Proof. vm_compute. auto. Qed.

(** Without a flush an acknowledged append may be lost: index 1 was returned for it, and
    after a crash of the machine the next index is 1 again. *)
Theorem C44_append_durable_refuted : exists s,
  l_run store0 [LAppend (ent 7); LNextSlot; LCrash 1; LNextSlot; LEntryAt 1] =
    Done (s, [OIndex 1; OIndex 2; OUnit; OIndex 1; OEntry null_entry]).
Proof. exact append_lost_case. Qed.
Print Assumptions C44_append_durable_refuted.

(** A store compacted up to its last entry forgets its position when it is opened
    again, although all was flushed: the next index was 3 and is 1. *)
Theorem C44_reopen_refuted : exists l s outs,
  all_allowed logs0 l /\ l_run store0 (l ++ [LNextSlot; LCrash 0; LNextSlot]) = Done (s, outs) /\
  drop (length l) outs = [OIndex 3; OUnit; OIndex 1].
Proof. exact reopen_case. Qed.
Print Assumptions C44_reopen_refuted.

(** Outside of the log the calls are not safe: an overwrite beyond the next index
    throws, a read beyond it is undefined, and after a pack that leaves a gap a read
    returns an entry of another index. *)
Theorem C44_outside_refuted :
  l_run store0 [LAppend (ent 1); LWriteAt 3 (ent 2)] = Throws /\
  l_run store0 [LAppend (ent 1); LEntries 1 3] = Undefined /\
  exists s, l_run store0 [LAppend (ent 1); LApplyPack 4 [ent 4]; LEntries 1 3] =
    Done (s, [OIndex 1; OUnit; OEntries [ent 1; ent 4]]).
Proof. exact (conj beyond_case (conj read_beyond_case gap_case)). Qed.
Print Assumptions C44_outside_refuted.
