(** Concrete cases for the watchtower. *)
From Coq Require Import NArith List Bool Lia.
From stdpp Require Import base decidable list gmap.
From Verif Require Import Base CodecModel TxModel MsgModel AtomizerModel AtomizerShardModel
  WatchtowerModel WatchtowerSpec WatchtowerProofs.
Import ListNotations.
Open Scope N_scope.

Definition mtx (id : N) (ins outs : list N) : compact_tx := CompactTx id ins outs [].
Definition wb1 : block := Block 1 [mtx 100 [] [1; 2]].
Definition wb2 : block := Block 2 [mtx 101 [1] [3]; mtx 102 [3] [4]].
Definition wb3 : block := Block 3 [mtx 103 [2] [5; 6]].

Definition nodup_b (l : list N) : bool := bool_decide (base.NoDup l).
Definition once_b (bs : list block) : bool :=
  nodup_b (concat (map (fun p => ctx_inputs (snd p)) (btxs bs))) &&
  nodup_b (concat (map (fun p => ctx_outputs (snd p)) (btxs bs))).
Lemma once_check bs : once_b bs = true -> once bs.
Proof. intro H. apply andb_true_iff in H. destruct H as [A B]. apply bool_decide_eq_true in A, B. split; assumption. Qed.

Lemma wb_once : once [wb1; wb2; wb3].
Proof. apply once_check. vm_compute. reflexivity. Qed.
(** A cache of two blocks after three: 1 and 2 were created too long ago. *)
Lemma wb_case : map (fun id => (check_spent (fold_left bc_push [wb1; wb2; wb3] (bc_new 2)) id,
                                check_unspent (fold_left bc_push [wb1; wb2; wb3] (bc_new 2)) id)) [1; 2; 3; 4; 5; 6; 7] =
  [(Some (2, 101), None); (Some (3, 103), None); (Some (2, 102), None); (None, Some (2, 102));
   (None, Some (3, 103)); (None, Some (3, 103)); (None, None)].
Proof. vm_compute. reflexivity. Qed.

(** An ID spent in two blocks is forgotten with the first. *)
Definition dup1 : block := Block 1 [mtx 100 [7] []].
Definition dup2 : block := Block 2 [mtx 101 [7] []].
Definition dup3 : block := Block 3 [].
Lemma dup_case : spent_in (last_k 2 [dup1; dup2; dup3]) 7 2 101 /\
  check_spent (fold_left bc_push [dup1; dup2; dup3] (bc_new 2)) 7 = None.
Proof.
  split; [|vm_compute; reflexivity]. exists (mtx 101 [7] []). split; [|split; [reflexivity|apply elem_of_list_here]].
  apply elem_of_list_In. left. reflexivity.
Qed.

(** Errors. *)
Definition e1 : tx_err := TxErr 201 (EInputsSpent [31; 32]).
Definition e2 : tx_err := TxErr 202 EIncomplete.
Definition e3 : tx_err := TxErr 203 (EInputsDne [33]).
Definition windows_b {A} (f : list A -> bool) (k : N) (l : list A) : bool :=
  forallb (fun n => f (last_k k (take n l))) (seq 0 (S (length l))).
Lemma windows_check {A} (f : list A -> bool) (P : list A -> Prop) k l :
  (forall x, f x = true -> P x) -> windows_b f k l = true -> forall n, P (last_k k (take n l)).
Proof.
  intros HP H n. unfold windows_b in H. rewrite forallb_forall in H. apply HP.
  destruct (decide (n <= length l)%nat) as [Hn|Hn].
  - apply H, in_seq. lia.
  - rewrite take_ge by lia.
    specialize (H (length l)). rewrite firstn_all in H. apply H, in_seq. lia.
Qed.
Lemma err_case :
  (forall n, base.NoDup (map te_id (last_k 2 (take n [e1; e2; e3])))) /\
  (forall n, ids_differ (last_k 2 (take n [e1; e2; e3]))) /\
  map (check_err_tx (fold_left ec_push [e1; e2; e3] (ec_new 2))) [201; 202; 203] = [None; Some e2; Some e3] /\
  map (check_err_uhs (fold_left ec_push [e1; e2; e3] (ec_new 2))) [31; 32; 33] = [None; None; Some e3].
Proof.
  split; [|split; [|split; vm_compute; reflexivity]].
  - apply (windows_check (fun l => nodup_b (map te_id l)) (fun l => base.NoDup (map te_id l))); [|vm_compute; reflexivity].
    intros x H. apply bool_decide_eq_true in H. exact H.
  - intros n i j e f id Hi Hj He Hf.
    assert (K : forall n, base.NoDup (concat (map err_ids (last_k 2 (take n [e1; e2; e3]))))).
    { apply (windows_check (fun l => nodup_b (concat (map err_ids l))) (fun l => base.NoDup (concat (map err_ids l)))); [|vm_compute; reflexivity].
      intros x H. apply bool_decide_eq_true in H. exact H. }
    specialize (K n). revert K i j Hi Hj. generalize (last_k 2 (take n [e1; e2; e3])). clear n.
    induction l as [|x l IH]; intros K i j Hi Hj; [destruct i; discriminate|].
    cbn [map concat] in K. apply NoDup_app in K. destruct K as [_ [K1 K2]].
    assert (Later : forall m g, l !! m = Some g -> id ∈ err_ids g -> id ∈ concat (map err_ids l)).
    { intros m g Hm Hg. apply elem_of_list_In, in_concat. exists (err_ids g).
      split; [apply in_map, elem_of_list_In; eapply elem_of_list_lookup_2; exact Hm|apply elem_of_list_In; exact Hg]. }
    destruct i as [|i], j as [|j]; cbn in Hi, Hj.
    + reflexivity.
    + injection Hi as ->. exfalso. apply (K1 id He). exact (Later _ _ Hj Hf).
    + injection Hj as ->. exfalso. apply (K1 id Hf). exact (Later _ _ Hi He).
    + f_equal. apply IH; assumption.
Qed.

(** Two errors about one transaction: when the older goes, the newer can no longer be found. *)
Definition twice : list tx_err :=
  [TxErr 201 (EInputsSpent [31]); TxErr 201 (EInputsSpent [31]); TxErr 202 EIncomplete; TxErr 203 EIncomplete].
Lemma twice_case : TxErr 201 (EInputsSpent [31]) ∈ last_k 3 twice /\
  check_err_tx (fold_left ec_push twice (ec_new 3)) 201 = None /\
  check_err_uhs (fold_left ec_push twice (ec_new 3)) 31 = None.
Proof. split; [apply elem_of_list_here|]. split; vm_compute; reflexivity. Qed.

(** Statuses. *)
Definition wops1 : list wt_op :=
  [OBlock wb1; OErrors [TxErr 103 ESync; TxErr 104 (EInputsDne [9]); TxErr 101 EIncomplete];
   OBlock wb2; OErrors [TxErr 101 (EInputsSpent [1])]; OBlock wb3].
Lemma wops1_case : once (op_blocks wops1) /\
  wt_status (wt_run (wt_new 2 10) wops1) [(102, [3; 4]); (104, [9; 2]); (100, [1])] =
  [(102, [Status SSpent 2 3; Status SUnspent 2 4]);
   (104, [Status SInvalidInput 3 9; Status STxRejected 3 2]);
   (100, [Status SNoHistory 3 1])].
Proof. split; [exact wb_once|vm_compute; reflexivity]. Qed.
(** An error that came before the block stays: two answers for one ID. *)
Lemma two_states_case :
  tx_statuses (wt_run (wt_new 2 10) wops1) 101 [1] = [Status STxRejected 3 1; Status SSpent 2 1] /\
  tx_statuses (wt_run (wt_new 2 10) wops1) 103 [5] = [Status SInternalError 3 5; Status SUnspent 3 5].
Proof. split; vm_compute; reflexivity. Qed.
(** The sender of a transaction whose output was spent is told it has no history. *)
Lemma spent_on_case :
  (exists c, (2, c) ∈ btxs (last_k 2 (op_blocks [OBlock wb1; OBlock wb2])) /\ ctx_id c = 101 /\ 3 ∈ ctx_outputs c) /\
  tx_statuses (wt_run (wt_new 2 10) [OBlock wb1; OBlock wb2]) 101 [3] = [Status SNoHistory 2 3].
Proof.
  split; [|vm_compute; reflexivity]. exists (mtx 101 [1] [3]).
  split; [apply elem_of_list_In; right; left; reflexivity|]. split; [reflexivity|apply elem_of_list_here].
Qed.

(** An archiver that is asked for block 1 twice before it has it. *)
Definition wchain (h : N) : block := match h with 1 => wb1 | 2 => wb2 | 3 => wb3 | _ => Block h [] end.
Definition wask : archive := fun n h =>
  if (n <? 2)%nat then None else if (1 <=? h) && (h <=? 3) then Some (wchain h) else None.
Lemma wask_ok : honest wchain 3 wask /\ available wchain 3 wask.
Proof.
  assert (Hh : forall h, 1 <= h <= 3 -> blk_height (wchain h) = h).
  { intros h Hh. assert (E : h = 1 \/ h = 2 \/ h = 3) by lia. destruct E as [->|[->| ->]]; reflexivity. }
  split.
  - intros n h b H. unfold wask in H. destruct (n <? 2)%nat; [discriminate|].
    destruct (N.leb_spec 1 h); [|discriminate]. destruct (N.leb_spec h 3); [|discriminate].
    cbn [andb] in H. injection H as <-. split; [reflexivity|]. split; [apply Hh; lia|lia].
  - intros h H. exists 2%nat. intros n Hn. unfold wask. destruct (Nat.ltb_spec n 2); [lia|].
    destruct (N.leb_spec 1 h); [|lia]. destruct (N.leb_spec h 3); [|lia]. reflexivity.
Qed.
Definition fsum (r : option (nat * N * watchtower)) : option (nat * N * list block) :=
  match r with Some (n, l, w) => Some (n, l, bc_blks (wt_bc w)) | None => None end.
Lemma wfollow_case : fsum (wt_follow 10 wask 0 0 (wt_new 5 5) wb3) = Some (4%nat, 3, [wb1; wb2; wb3]).
Proof. vm_compute. reflexivity. Qed.
Definition sfsum (r : option (nat * ashard)) : option (nat * N * list bool) :=
  match r with
  | Some (n, s) => Some (n, as_best s, map (fun x => bool_decide (x ∈ db_uhs (as_db s))) [1; 2; 3; 4; 5; 6])
  | None => None
  end.
Lemma sfollow_case :
  sfsum (sh_follow 5 10 wask 0 (ashard_open (0, 255) (Adb None ∅)) wb3) =
  Some (4%nat, 3, [false; false; false; true; true; true]).
Proof. vm_compute. reflexivity. Qed.
