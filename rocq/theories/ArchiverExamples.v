(** Concrete histories of an archiver. *)
From Coq Require Import NArith List Bool Lia.
From stdpp Require Import base decidable list gmap.
From Verif Require Import Base CodecModel TxModel MsgModel ArchiverModel ArchiverSpec ArchiverProofs
  AtomizerExamples AtomizerSnapshotExamples.
Import ListNotations.
Open Scope N_scope.

Definition ab1 : block := Block 1 [tmint].
Definition ab2 : block := Block 2 [tA].
Definition ab3 : block := Block 3 [].
Definition ab4 : block := Block 4 [tB].

(** Block 3 first, then 1; a crash inside the storing of 2 and 3; 3 again, then 4. *)
Definition aes1 : list arch_event :=
  [AvBlock ab3; AvBlock ab1; AvBlock ab1; AvCrashIn 1 ab2; AvBlock ab4; AvBlock ab3; AvRestart].

Definition blocks_ok (l : list block) : bool :=
  forallb (fun b => (blk_height b <? two64) && (len (blk_txs b) <? two64) && forallb tx_dom_b (blk_txs b)) l.
Lemma blocks_check l : blocks_ok l = true -> forall b, b ∈ l -> dom c_block b.
Proof.
  intros H b Hb. unfold blocks_ok in H. rewrite forallb_forall in H.
  apply elem_of_list_In, H in Hb. rewrite !andb_true_iff in Hb. destruct Hb as [[A B] C].
  apply N.ltb_lt in A, B. apply tx_dom_check in C. split; [exact A|]. split; [exact B|exact C].
Qed.

Lemma aes1_fit : blocks_fit aes1.
Proof. split; [apply blocks_check; vm_compute; reflexivity|vm_compute; reflexivity]. Qed.

Definition arch_sum (r : option (archiver * list ar_msg)) : option (N * list ar_msg * list ar_got) :=
  match r with
  | Some (s, ms) => Some (ar_best s, ms, map (ar_get_block s) [0; 1; 2; 3; 4; 5])
  | None => None
  end.
Lemma aes1_run : arch_sum (arch_run arch_new aes1) =
  Some (4, [MGetBlock 2; MPrune 1; MGetBlock 3; MPrune 3; MPrune 4],
        [GNone; GBlock ab1; GBlock ab2; GBlock ab3; GBlock ab4; GNone]).
Proof. vm_compute. reflexivity. Qed.

(** A write that fails, with assertions compiled out. *)
Definition write_fails : archiver * list ar_msg := fst (ar_step false arch_new ab1).
Lemma write_fails_case :
  snd write_fails = [MPrune 1] /\ ar_best (fst write_fails) = 1 /\
  ar_get_block (fst write_fails) 1 = GNone /\
  exists s ms, ar_digest_block (fst write_fails) ab2 = Some (s, ms) /\
    ar_get_block s 2 = GBlock ab2 /\ ar_get_block s 1 = GNone.
Proof.
  split; [vm_compute; reflexivity|]. split; [vm_compute; reflexivity|]. split; [vm_compute; reflexivity|].
  destruct (ar_digest_block (fst write_fails) ab2) as [[s ms]|] eqn:E; [|vm_compute in E; discriminate].
  exists s, ms. split; [reflexivity|].
  assert (C : match ar_digest_block (fst write_fails) ab2 with
              | Some (s, _) => (ar_get_block s 2, ar_get_block s 1) | None => (GFail, GFail) end
              = (GBlock ab2, GNone)) by (vm_compute; reflexivity).
  rewrite E in C. injection C as C1 C2. tauto.
Qed.
