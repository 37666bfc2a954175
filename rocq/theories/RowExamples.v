(** Concrete runs for property C93, and those that refute parts of it. *)
From stdpp Require Import base option list.
From Coq Require Import NArith Lia.
From Verif Require Import Base ParsecShardModel RowModel RowSpec RowProofs RowGet.
Open Scope N_scope.

Notation ka := 12 (only parsing).
Notation va := [7] (only parsing).

(** A write that succeeds, answered after the calls have returned. *)
Definition ex_put : list rinput :=
  [IReturn 0 true; IAnswer 0 (ATicket 5); IReturn 1 true; IAnswer 1 (AValue []);
   IAnswer 2 AOk; IReturn 2 true; IReturn 3 true; IAnswer 3 AOk].

Ltac polite_by := intros n; do 6 (destruct n as [|n]; [vm_compute; lia|]); vm_compute; lia.
Ltac answered_by := intros n c H; vm_compute in H;
  repeat (apply elem_of_cons in H as [H|H]; [try discriminate H; injection H as -> ->;
    vm_compute; discriminate|]); by apply elem_of_nil in H.

Lemma ex_put_polite : polite (put_row ka va ex_put) /\ answered (put_row ka va ex_put).
Proof. split; [polite_by|answered_by]. Qed.
Lemma ex_put_true : put_row ka va ex_put !! 13%nat = Some (EResult AOk).
Proof. reflexivity. Qed.

(** Finish fails: [false] is reported although the value was committed. *)
Definition ex_false : list rinput :=
  [IReturn 0 true; IAnswer 0 (ATicket 5); IReturn 1 true; IAnswer 1 (AValue []);
   IReturn 2 true; IAnswer 2 AOk; IReturn 3 false].
Lemma put_false_refuted : exists k v ins, polite (put_row k v ins) /\ answered (put_row k v ins) /\
  results (put_row k v ins) = [failure] /\
  exists n t, ECall n (CCommit t [(k, v)]) ∈ put_row k v ins /\ EAnswer n AOk ∈ put_row k v ins.
Proof.
  exists ka, va, ex_false. split_and!; [polite_by|answered_by|reflexivity|].
  exists 2%nat, 5. split; apply elem_of_list_In; vm_compute; tauto.
Qed.

(** The key is not locked or the commit fails: the ticket is neither finished nor rolled back,
    whatever the broker does then. *)
Lemma put_open_refuted : exists k v ins, polite (put_row k v ins) /\ answered (put_row k v ins) /\
  results (put_row k v ins) = [failure] /\
  (exists n t w, ECall n (CLock t k Write) ∈ put_row k v ins /\ EAnswer n (AValue w) ∈ put_row k v ins) /\
  exists t, forall more, polite (put_row k v (ins ++ more)) -> abandoned t (put_row k v (ins ++ more)).
Proof.
  set (ins := [IReturn 0 true; IAnswer 0 (ATicket 5); IReturn 1 true; IAnswer 1 (AValue []);
    IReturn 2 true; IAnswer 2 (AErr ShardUnreachable)]).
  exists ka, va, ins. split_and!; [polite_by|answered_by|reflexivity| |].
  - exists 1%nat, 5, []. split; apply elem_of_list_In; vm_compute; tauto.
  - exists 5. intros more P. split.
    + exists 0%nat. unfold put_row. rewrite fold_left_app.
      destruct (run_grows ka va more (fold_left (put_step ka va) ins put0)) as [g ->].
      apply elem_of_app. left. apply elem_of_list_In. vm_compute. tauto.
    + assert (H : forall n c, ECall n c ∈ put_row ka va (ins ++ more) ->
        ECall n c ∈ put_row ka va ins).
      { intros n c. apply put_quiet; [done|]. vm_compute. discriminate. }
      intros n. split; intros Hc%H; apply elem_of_list_In in Hc; vm_compute in Hc;
        repeat (destruct Hc as [Hc|Hc]; [discriminate Hc|]); exact Hc.
Qed.

(** A read, answered during the calls. *)
Definition ex_get : list rinput :=
  [IAnswer 0 (ATicket 5); IAnswer 1 (AValue [7]); IGo 1; IAnswer 2 AOk; IAnswer 3 AOk; IReturn 3 true;
   IReturn 2 true; IReturn 1 true; IReturn 0 true; IWake].
Lemma ex_get_done : get_row ka ex_get !! 13%nat = Some (EDone (AValue [7])).
Proof. reflexivity. Qed.
Lemma ex_get_polite : polite (get_row ka ex_get).
Proof. polite_by. Qed.
Lemma ex_get_sync : synchronous ex_get.
Proof.
  intros i j n b m x Hij Hi Hj Hm.
  do 10 (destruct j as [|j]; [injection Hj as <-; do 10 (destruct i as [|i];
    [first [discriminate Hi|injection Hi as <- <-; simpl in Hm; first [discriminate Hm|
       injection Hm as <-; lia]|lia]|]); lia|]).
  done.
Qed.

(** try_lock is refused: get_row does not return. *)
Definition ex_hang : list rinput :=
  [IAnswer 0 (ATicket 5); IReturn 1 false; IReturn 0 true].
Lemma get_hangs_refuted : exists k ins, polite (get_row k ins) /\ answered (get_row k ins) /\
  synchronous ins /\
  forall more r, polite (get_row k (ins ++ more)) -> EDone r ∉ get_row k (ins ++ more).
Proof.
  exists ka, ex_hang. split_and!; [polite_by|answered_by| |].
  - intros i j n b m x Hij Hi Hj Hm.
    do 3 (destruct j as [|j]; [injection Hj as <-; do 3 (destruct i as [|i];
      [first [discriminate Hi|injection Hi as <- <-; simpl in Hm; first [discriminate Hm|
         injection Hm as <-; lia]|lia]|]); lia|]).
    done.
  - intros more r P. apply (get_hangs ka _ 1 5); [exact P| |].
    + unfold get_row. rewrite fold_left_app.
      assert (G : forall more s, exists g, g_hist (fold_left (get_step ka) more s) = g_hist s ++ g).
      { clear. induction more as [|i more IH]; intros s; simpl; [exists []; by rewrite app_nil_r|].
        destruct (IH (get_step ka s i)) as [g ->], (ggrows ka s i) as [g' ->].
        rewrite <- (assoc_L (++)). eauto. }
      destruct (G more (fold_left (get_step ka) ex_hang get0)) as [g ->].
      apply elem_of_app. left. apply elem_of_list_In. vm_compute. tauto.
    + unfold get_row. rewrite fold_left_app.
      assert (G : forall more s, exists g, g_hist (fold_left (get_step ka) more s) = g_hist s ++ g).
      { clear. induction more as [|i more IH]; intros s; simpl; [exists []; by rewrite app_nil_r|].
        destruct (IH (get_step ka s i)) as [g ->], (ggrows ka s i) as [g' ->].
        rewrite <- (assoc_L (++)). eauto. }
      destruct (G more (fold_left (get_step ka) ex_hang get0)) as [g ->].
      apply elem_of_app. left. apply elem_of_list_In. vm_compute. tauto.
Qed.

(** Answers after the calls have returned: behaviour is undefined. *)
Definition ex_late : list rinput :=
  [IReturn 0 true; IAnswer 0 (ATicket 5); IReturn 1 true; IAnswer 1 (AValue [7]); IGo 1].
Lemma get_undefined_refuted : exists k ins, polite (get_row k ins) /\ EUndefined ∈ get_row k ins.
Proof.
  exists ka, ex_late. split; [polite_by|]. apply elem_of_list_In. vm_compute. tauto.
Qed.

(** Also when only begin answers late: get_row returns while the callback runs. *)
Definition ex_race : list rinput :=
  [IReturn 0 true; IAnswer 0 (AErr (OtherCode 3)); IWake; IGo 0].
Lemma get_race_refuted : exists k ins, polite (get_row k ins) /\
  (forall n t m, ECall n (CLock t k m) ∉ get_row k ins) /\ EUndefined ∈ get_row k ins.
Proof.
  exists ka, ex_race. split_and!; [polite_by| |apply elem_of_list_In; vm_compute; tauto].
  intros n t m H%elem_of_list_In. vm_compute in H.
  repeat (destruct H as [H|H]; [discriminate H|]). exact H.
Qed.

(** The result is reported twice: a value, then an error. *)
Definition ex_twice : list rinput :=
  [IAnswer 0 (ATicket 5); IAnswer 1 (AValue [7]); IGo 1; IReturn 2 false; IReturn 1 true;
   IReturn 0 true; IWake].
Lemma get_twice_refuted : exists k ins, polite (get_row k ins) /\ answered (get_row k ins) /\
  results (get_row k ins) = [AValue [7]; AErr CommitError].
Proof. exists ka, ex_twice. split_and!; [polite_by|answered_by|reflexivity]. Qed.

(** What the shard said is not passed on, and the ticket stays open. *)
Definition ex_reason : list rinput :=
  [IAnswer 0 (ATicket 5); IAnswer 1 (AErr (OtherCode 9)); IGo 1; IReturn 1 true; IReturn 0 true; IWake].
Lemma get_reason_refuted : exists k ins n t, polite (get_row k ins) /\ answered (get_row k ins) /\
  ECall n (CLock t k Read) ∈ get_row k ins /\ EAnswer n (AErr (OtherCode 9)) ∈ get_row k ins /\
  EDone (AErr ShardUnreachable) ∈ get_row k ins /\ abandoned t (get_row k ins).
Proof.
  exists ka, ex_reason, 1%nat, 5. split_and!; [polite_by|answered_by|..];
    try (apply elem_of_list_In; vm_compute; tauto).
  split; [exists 0%nat; apply elem_of_list_In; vm_compute; tauto|].
  intros n. split; intros H%elem_of_list_In; vm_compute in H;
    repeat (destruct H as [H|H]; [discriminate H|]); exact H.
Qed.

(** Two accounts written; one whose callback is never called. *)
Definition ex_mint : list (key * bytes * list rinput) := [(ka, va, ex_put); (3, [8], ex_put)].
Lemma ex_minted : mint (map (fun p => put_row p.1.1 p.1.2 p.2) ex_mint) = Minted true.
Proof. reflexivity. Qed.
