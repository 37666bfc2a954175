(** Concrete executions of the PArSEC shard. *)
From stdpp Require Import base option list gmap fin_maps fin_sets relations.
From Coq Require Import NArith Lia.
From Verif Require Import Base ParsecShardModel ParsecShardSpec.
Open Scope N_scope.

Global Instance qent_eq_dec : EqDecision qent.
Proof. solve_decision. Defined.
Global Instance error_code_eq_dec : EqDecision error_code.
Proof. solve_decision. Defined.
Global Instance answer_eq_dec : EqDecision answer.
Proof. solve_decision. Defined.
Global Instance event_eq_dec : EqDecision event.
Proof. solve_decision. Defined.
Global Instance op_eq_dec : EqDecision op.
Proof. solve_decision. Defined.

Definition try_run state ts (os : list op) (f : shard -> list (op * list event) -> bool) : bool :=
  match recover shard0 state ts with
  | Some s0 => match run s0 os with Done (s, tr) => f s tr | _ => false end
  | None => false
  end.

Lemma try_run_ok state ts os f : disjoint_tickets ts -> try_run state ts os f = true ->
  exists s tr, executes state ts os s tr /\ f s tr = true.
Proof.
  unfold try_run, executes, started. intros Hd.
  destruct (recover shard0 state ts) as [s0|] eqn:E0; [|discriminate].
  destruct (run s0 os) as [[s tr]| | |] eqn:E; try discriminate. intros H.
  exists s, tr. split; [|exact H]. exists s0. auto.
Qed.

Lemma disjoint_empty : disjoint_tickets ∅.
Proof. intros a b ra rb k H. now rewrite lookup_empty in H. Qed.

Definition holdsb (s : shard) (tn : ticket_no) (k : key) (m : lock_type) : bool :=
  match s_tk s !! tn with Some t => bool_decide (t_held t !! k = Some m) | None => false end.
Lemma holdsb_ok s tn k m : holdsb s tn k m = true -> holds s tn k m.
Proof.
  unfold holdsb, holds. destruct (s_tk s !! tn) as [t|]; [|discriminate].
  intros H%bool_decide_eq_true. eauto.
Qed.

Definition waitsb (s : shard) (tn : ticket_no) (k : key) (m : lock_type) (rid : N) : bool :=
  bool_decide (QEnt tn m rid ∈ e_queue (el s k)).
Lemma waitsb_ok s tn k m rid : waitsb s tn k m rid = true -> waits s tn k m rid.
Proof. unfold waitsb. apply bool_decide_eq_true. Qed.

Definition stateb (s : shard) (tn : ticket_no) (x : ticket_state) : bool :=
  match s_tk s !! tn with Some t => bool_decide (t_state t = x) | None => false end.
Lemma stateb_ok s tn x : stateb s tn x = true -> in_state s tn x.
Proof.
  unfold stateb, in_state. destruct (s_tk s !! tn) as [t|]; [|discriminate].
  intros H%bool_decide_eq_true. eauto.
Qed.

Definition in_trace (p : op * list event) (tr : list (op * list event)) : bool :=
  existsb (fun q => bool_decide (p.1 = q.1) && bool_decide (p.2 = q.2)) tr.
Lemma in_trace_ok p tr : in_trace p tr = true -> p ∈ tr.
Proof.
  unfold in_trace. rewrite existsb_exists. intros (q & Hq & [H1 H2]%andb_prop).
  apply bool_decide_eq_true in H1, H2. destruct p, q. cbn in *. subst. now apply elem_of_list_In.
Qed.

(** Ticket 5 locks key 1 for writing and is wounded by the older ticket 3, which locks
    key 1 and key 2, prepares, and is waited for by tickets 2 (older, but 3 is prepared) and 9. *)
Definition ops1 : list op :=
  [OTryLock 100 5 0 1 Write true;
   OTryLock 101 3 0 1 Write true;
   OTryLock 102 3 0 2 Read false;
   OPrepare 3 0 {[1 := [7]]};
   OTryLock 103 2 0 1 Write true;
   OTryLock 104 9 0 1 Read true].

Lemma ops1_issued : NoDup (issued ops1).
Proof. apply (proj1 (bool_decide_eq_true _)). vm_compute. reflexivity. Qed.

Lemma ops1_run : exists s tr, executes ∅ ∅ ops1 s tr /\
  holds s 3 1 Write /\ holds s 3 2 Read /\ in_state s 5 Wounded /\ in_state s 3 Prepared /\
  waits s 2 1 Write 103 /\ waits s 9 1 Read 104.
Proof.
  destruct (try_run_ok ∅ ∅ ops1 (fun s tr => holdsb s 3 1 Write && holdsb s 3 2 Read &&
     stateb s 5 Wounded && stateb s 3 Prepared && waitsb s 2 1 Write 103 && waitsb s 9 1 Read 104))
    as (s & tr & He & H).
  - exact disjoint_empty.
  - vm_compute. reflexivity.
  - exists s, tr. split; [exact He|]. repeat (apply andb_prop in H as [H ?]).
    repeat split; auto using holdsb_ok, waitsb_ok, stateb_ok.
Qed.

(** The execution goes on: 3 commits, 2 is granted the lock with the new value and
    prepares a write, commits; 9 is granted its read lock and sees that write. *)
Definition ops2 : list op :=
  ops1 ++ [OCommit 3; OFinish 3; OPrepare 2 0 {[1 := [8; 8]]}; OCommit 2;
           OPrepare 9 0 ∅; OCommit 9; ORollback 5].

Lemma ops2_issued : NoDup (issued ops2).
Proof. apply (proj1 (bool_decide_eq_true _)). vm_compute. reflexivity. Qed.

Lemma ops2_run : exists s tr, executes ∅ ∅ ops2 s tr /\
  (OCommit 3, [ELock 103 (Granted [7]); EReply None]) ∈ tr /\
  (OCommit 2, [ELock 104 (Granted [8; 8]); EReply None]) ∈ tr /\
  (OCommit 9, [EReply None]) ∈ tr /\
  (OTryLock 101 3 0 1 Write true, [ELock 101 (Granted [])]) ∈ tr.
Proof.
  destruct (try_run_ok ∅ ∅ ops2 (fun s tr =>
     in_trace (OCommit 3, [ELock 103 (Granted [7]); EReply None]) tr &&
     in_trace (OCommit 2, [ELock 104 (Granted [8; 8]); EReply None]) tr &&
     in_trace (OCommit 9, [EReply None]) tr &&
     in_trace (OTryLock 101 3 0 1 Write true, [ELock 101 (Granted [])]) tr))
    as (s & tr & He & H).
  - exact disjoint_empty.
  - vm_compute. reflexivity.
  - exists s, tr. split; [exact He|]. repeat (apply andb_prop in H as [H ?]).
    repeat split; auto using in_trace_ok.
Qed.

(** A commit, with what its ticket had been given before it. *)
Definition split_at (n : nat) (tr : list (op * list event)) :=
  match drop n tr with
  | p :: r => Some (take n tr, p, r)
  | [] => None
  end.

Lemma ops2_split : exists s tr1 ev tr2, executes ∅ ∅ ops2 s (tr1 ++ (OCommit 2, ev) :: tr2) /\
  succeeded ev = true /\ v_got (view_of (view0 ∅ ∅) tr1) !! (2, 1) = Some [7] /\
  ELock 104 (Granted [8; 8]) ∈ ev.
Proof.
  destruct (try_run_ok ∅ ∅ ops2 (fun s tr =>
     match split_at 9 tr with
     | Some (tr1, p, _) => bool_decide (p = (OCommit 2, [ELock 104 (Granted [8; 8]); EReply None])) &&
        bool_decide (v_got (view_of (view0 ∅ ∅) tr1) !! (2, 1) = Some [7])
     | None => false
     end)) as (s & tr & He & H).
  - exact disjoint_empty.
  - vm_compute. reflexivity.
  - unfold split_at in H. destruct (drop 9 tr) as [|p r] eqn:E; [discriminate|].
    apply andb_prop in H as [Hp H]. apply bool_decide_eq_true in Hp, H. subst p.
    exists s, (take 9 tr), [ELock 104 (Granted [8; 8]); EReply None], r. split.
    + rewrite <- E, take_drop. exact He.
    + split; [reflexivity|]. split; [exact H|]. left.
Qed.

(** Sending a first lock twice, and rolling back a committed ticket. *)
Definition first_fatal : bool :=
  match recover shard0 ∅ ∅ with
  | Some s0 => match run s0 [OTryLock 1 5 0 1 Write true] with
               | Done (s, _) => match step s (OTryLock 2 5 0 2 Write true) with Fatal => true | _ => false end
               | _ => false
               end
  | None => false
  end.

Lemma first_twice : exists s o, reachable s /\ step s o = Fatal.
Proof.
  assert (H : first_fatal = true) by (vm_compute; reflexivity). unfold first_fatal in H.
  destruct (recover shard0 ∅ ∅) as [s0|] eqn:E0; [|discriminate].
  destruct (run s0 [OTryLock 1 5 0 1 Write true]) as [[s tr]| | |] eqn:E; try discriminate.
  destruct (step s (OTryLock 2 5 0 2 Write true)) as [?| | |] eqn:E2; try discriminate.
  exists s, (OTryLock 2 5 0 2 Write true). split; [|exact E2].
  exists ∅, ∅, [OTryLock 1 5 0 1 Write true], tr, s0. split; [|exact E]. split; [exact disjoint_empty|exact E0].
Qed.

Definition ops3 : list op :=
  [OTryLock 1 5 0 1 Write true; OPrepare 5 0 {[1 := [7]]}; OCommit 5; ORollback 5].

Lemma commit_then_rollback : exists s tr, executes ∅ ∅ ops3 s tr /\
  (OCommit 5, [EReply None]) ∈ tr /\ (ORollback 5, [EReply None]) ∈ tr /\ e_val (el s 1) = [7].
Proof.
  destruct (try_run_ok ∅ ∅ ops3 (fun s tr => in_trace (OCommit 5, [EReply None]) tr &&
      in_trace (ORollback 5, [EReply None]) tr && bool_decide (e_val (el s 1) = [7])))
    as (s & tr & He & H).
  - exact disjoint_empty.
  - vm_compute. reflexivity.
  - exists s, tr. split; [exact He|]. repeat (apply andb_prop in H as [H ?]).
    repeat split; auto using in_trace_ok. exact (proj1 (bool_decide_eq_true _) H0).
Qed.

(** Two shards: ticket 3 is prepared on neither, 5 waits on one for 3. *)
Definition ops4 : list op := [OTryLock 1 3 0 1 Write true; OTryLock 2 5 0 1 Write true].

Lemma ops4_run : exists s tr, executes ∅ ∅ ops4 s tr /\
  waits s 5 1 Write 2 /\ holds s 3 1 Write /\
  (forall b, ~ in_state s b Prepared) /\ (forall b : ticket_no, b < 3 -> s_tk s !! b = None).
Proof.
  destruct (try_run_ok ∅ ∅ ops4 (fun s tr => waitsb s 5 1 Write 2 && holdsb s 3 1 Write &&
     forallb (fun p => negb (bool_decide (t_state p.2 = Prepared)) && negb (p.1 <? 3))
       (map_to_list (s_tk s)))) as (s & tr & He & H).
  - exact disjoint_empty.
  - vm_compute. reflexivity.
  - exists s, tr. split; [exact He|]. apply andb_prop in H as [H Hall]. apply andb_prop in H as [H1 H2].
    rewrite forallb_forall in Hall.
    assert (Hp : forall b t, s_tk s !! b = Some t -> t_state t <> Prepared /\ ~ b < 3).
    { intros b t Hb. apply elem_of_map_to_list, elem_of_list_In in Hb.
      destruct (andb_prop _ _ (Hall _ Hb)) as [A B]. cbn in A, B.
      apply negb_true_iff in A, B. apply bool_decide_eq_false in A. apply N.ltb_ge in B. split; [done|lia]. }
    split; [now apply waitsb_ok|]. split; [now apply holdsb_ok|]. split.
    + intros b (t & Ht & E). now destruct (Hp b t Ht).
    + intros b Hb. destruct (s_tk s !! b) eqn:E; [|done]. now destruct (Hp b _ E).
Qed.
