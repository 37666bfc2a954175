(** A concrete run of three replicas with snapshots and crashes. *)
From Coq Require Import NArith List Bool Lia.
From stdpp Require Import base decidable list gmap.
From Verif Require Import Base CodecModel CodecProofs TxModel MsgModel AtomizerModel AtomizerSpec
  AtomizerExamples AtomizerSnapshotModel AtomizerSnapshotSpec AtomizerSnapshotProofs.
Import ListNotations.
Open Scope N_scope.

(** Any description with 8 bytes will do for the example. *)
Definition ex_meta_enc (i : N) : bytes := le_bytes 8 i.
Definition ex_meta_dec (b : bytes) : N := le_value b.
Lemma ex_meta : (forall i, i < two64 -> ex_meta_dec (ex_meta_enc i) = i) /\
  (forall i, i < two64 -> dom c_buffer (ex_meta_enc i)).
Proof.
  split; intros i Hi.
  - apply le_value_bytes. exact Hi.
  - split; [unfold len, ex_meta_enc; rewrite le_bytes_length; vm_compute; discriminate|].
    apply le_bytes_is_byte.
Qed.

(** Replica 0 dies with half a snapshot written, later takes one and dies after the rename;
    replica 1 gets it installed; replica 2 never stops. *)
Definition wlabels1 : list wlabel :=
  [WAppend None; WAppend (Some (QAgg [(0, tmint)])); WAppend (Some QMakeBlock);
   WAppend (Some (QAgg [(1, tA); (1, tB)]));
   WApply 0; WApply 0; WApply 0; WSnapshot 0 PFinished; WApply 0;
   WSnapshot 0 (PWritten 20); WApply 0; WSnapshot 0 (PRenamed []);
   WInstall 1 0 4 PFinished; WAppend (Some QMakeBlock); WApply 0; WApply 1;
   WApply 2; WApply 2; WApply 2; WApply 2; WApply 2; WCrash 0].
Definition wsum (r : wresult) : option (list N * list (nat * N * option sm_response)) :=
  match r with
  | WOk w => Some (map rp_idx (w_reps w), w_answers w)
  | _ => None
  end.
Definition err1 : option sm_response := Some (SErrors [TxErr 102 (EInputsSpent [1])]).
Definition blk1 : option sm_response := Some (SBlock (Block 1 [tmint]) []).
Definition blk2 : option sm_response := Some (SBlock (Block 2 [tA]) []).
Lemma wlabels1_run :
  wsum (wrun ex_meta_enc ex_meta_dec 3 (world_new 3 3) wlabels1) =
  Some ([4; 5; 5], [(0%nat, 1, None); (0%nat, 2, blk1); (0%nat, 3, err1); (0%nat, 3, err1);
                    (0%nat, 4, blk2); (1%nat, 4, blk2);
                    (2%nat, 1, None); (2%nat, 2, blk1); (2%nat, 3, err1); (2%nat, 4, blk2)]).
Proof. vm_compute. reflexivity. Qed.

Definition wlog1 : list (option sm_request) :=
  [None; Some (QAgg [(0, tmint)]); Some QMakeBlock; Some (QAgg [(1, tA); (1, tB)]); Some QMakeBlock].
Definition tx_dom_b (t : compact_tx) : bool :=
  (ctx_id t <? 256 ^ 32) && forallb (fun x => x <? 256 ^ 32) (ctx_inputs t)
  && forallb (fun x => x <? 256 ^ 32) (ctx_outputs t)
  && (len (ctx_inputs t) <? two64) && (len (ctx_outputs t) <? two64)
  && bool_decide (ctx_atts t = []).
Lemma tx_dom_check l : forallb tx_dom_b l = true -> Forall (dom c_compact_tx) l.
Proof.
  intro H. apply Forall_forall. intros t Ht. rewrite forallb_forall in H. apply elem_of_list_In in Ht.
  specialize (H t Ht). unfold tx_dom_b in H. rewrite !andb_true_iff in H.
  destruct H as [[[[[A B] C] D] E] F]. apply bool_decide_eq_true in F.
  assert (Hf : forall ids, forallb (fun x => x <? 256 ^ 32) ids = true -> Forall (dom c_hash) ids).
  { intros ids Hi. apply Forall_forall. intros x Hx. rewrite forallb_forall in Hi.
    apply elem_of_list_In, Hi, N.ltb_lt in Hx. exact Hx. }
  apply N.ltb_lt in A, D, E.
  cbn [dom c_compact_tx c_iso c_pair c_vec c_map fst snd]. rewrite F.
  split; [split; [split|]|].
  - exact A.
  - split; [exact D|apply Hf; exact B].
  - split; [exact E|apply Hf; exact C].
  - split; [reflexivity|]. split; constructor.
Qed.
Lemma wlog1_fits : log_fits 3 wlog1.
Proof.
  constructor.
  - reflexivity.
  - apply request_ok_check. vm_compute. reflexivity.
  - vm_compute. reflexivity.
  - apply tx_dom_check. vm_compute. reflexivity.
  - vm_compute. reflexivity.
  - vm_compute. reflexivity.
  - vm_compute. reflexivity.
Qed.
#[local] Instance sm_request_eq_dec : EqDecision sm_request.
Proof. solve_decision. Defined.
Definition wlog_is (r : wresult) (l : list (option sm_request)) : bool :=
  match r with WOk w => bool_decide (w_log w = l) | _ => false end.
Lemma wlabels1_log : wlog_is (wrun ex_meta_enc ex_meta_dec 3 (world_new 3 3) wlabels1) wlog1 = true.
Proof. vm_compute. reflexivity. Qed.
Lemma wlabels1_fits : exists w,
  wrun ex_meta_enc ex_meta_dec 3 (world_new 3 3) wlabels1 = WOk w /\ log_fits 3 (w_log w).
Proof.
  pose proof wlabels1_log as H. unfold wlog_is in H.
  destruct (wrun ex_meta_enc ex_meta_dec 3 (world_new 3 3) wlabels1) as [w| |]; try discriminate.
  apply bool_decide_eq_true in H. exists w. split; [reflexivity|]. rewrite H. exact wlog1_fits.
Qed.
