(** The archiver (C26). *)
From Coq Require Import NArith List Bool.
From stdpp Require Import base decidable list gmap.
From Verif Require Import Base CodecModel TxModel MsgModel ArchiverModel ArchiverSpec ArchiverProofs ArchiverExamples.
Import ListNotations.
Open Scope N_scope.

(** Whatever blocks arrive, in whatever order, and wherever the process dies:
    - receiving them always ends;
    - exactly the blocks 1..best can be read, each a received block of that height;
    - no block received since the last start and not stored could be stored;
    - the predecessor of a block that has to wait has been received or asked for;
    - the atomizers are only ever asked to prune up to a stored block. *)
Theorem C26_gapless es : blocks_fit es ->
  exists s ms, arch_run arch_new es = Some (s, ms) /\ stores (ev_blocks es) s (ar_best s) /\
    (forall b, b ∈ since_start es -> blk_height b <> ar_best s + 1) /\
    (forall b, b ∈ since_start es -> ar_best s < blk_height b ->
       (exists b', b' ∈ since_start es /\ blk_height b' + 1 = blk_height b) \/
       MGetBlock (blk_height b - 1) ∈ ms) /\
    (forall h, MPrune h ∈ ms -> h <= ar_best s).
Proof. exact (archive_gapless es). Qed.
Print Assumptions C26_gapless.

(** A stored block is never overwritten or lost. *)
Theorem C26_immutable es1 es2 s1 m1 s2 m2 h b : blocks_fit (es1 ++ es2) ->
  arch_run arch_new es1 = Some (s1, m1) -> arch_run s1 es2 = Some (s2, m2) ->
  ar_get_block s1 h = GBlock b -> ar_get_block s2 h = GBlock b.
Proof. exact (archive_immutable es1 es2 s1 m1 s2 m2 h b). Qed.
Print Assumptions C26_immutable.

Example C26_case : blocks_fit aes1 /\ arch_sum (arch_run arch_new aes1) =
  Some (4, [MGetBlock 2; MPrune 1; MGetBlock 3; MPrune 3; MPrune 4],
        [GNone; GBlock ab1; GBlock ab2; GBlock ab3; GBlock ab4; GNone]).
Proof. exact (conj aes1_fit aes1_run). Qed.

(** Only the assertion protects against a failing write: compiled without it, the archiver
    counts the block as stored, has the atomizers prune it, and stores the next one. *)
Theorem C26_write_failure_refuted : exists s ms, (s, ms) = fst (ar_step false arch_new ab1) /\
  ms = [MPrune 1] /\ ar_best s = 1 /\ ar_get_block s 1 = GNone /\
  exists s' ms', ar_digest_block s ab2 = Some (s', ms') /\
    ar_get_block s' 2 = GBlock ab2 /\ ar_get_block s' 1 = GNone.
Proof. exact (ex_intro _ (fst write_fails) (ex_intro _ (snd write_fails) (conj (eq_sym (surjective_pairing _)) write_fails_case))). Qed.
Print Assumptions C26_write_failure_refuted.
