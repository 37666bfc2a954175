(** The property C53 (blocking queue). *)
From stdpp Require Import base option list.
From Coq Require Import NArith.
From Verif Require Import Base QueueModel QueueSpec QueueProofs.
Open Scope N_scope.

(** C53: for every interleaving of pushes, pops, sleeps, wake-ups, clears and resets,
    the elements pushed since the last clear are the elements popped since then, in
    the same order, followed by the elements still in the queue. *)
Theorem C53_fifo l q tr : q_run Fifo queue0 l = (q, tr) ->
  pushed (since_clear [] tr) = popped (since_clear [] tr) ++ q_buffer q.
Proof. exact (fifo l q tr). Qed.
Print Assumptions C53_fifo.

(** Two threads sleep, two elements are pushed, a third thread takes the first. *)
Example C53_fifo_example :
  let '(q, tr) := q_run Fifo queue0
    [Push 3 0; Clear; Reset; Pop 1; Pop 2; Push 5 1; Push 6 0; Push 7 0; Pop 3; Resume 0; Resume 0] in
  popped (since_clear [] tr) = [5; 6; 7] /\ q_buffer q = [] /\ q_runnable q = [] /\
  omap snd tr = [(3%nat, Some 5); (2%nat, Some 6); (1%nat, Some 7)].
Proof. vm_compute. auto. Qed.

(** C53: the same for the priority queues: nothing is lost, duplicated or invented ... *)
Theorem C53_nothing_lost o l q tr : q_run o queue0 l = (q, tr) ->
  pushed (since_clear [] tr) ≡ₚ popped (since_clear [] tr) ++ q_buffer q.
Proof. exact (nothing_lost o l q tr). Qed.
Print Assumptions C53_nothing_lost.

(** ... and a pop returns the element that comes first of those in the queue. *)
Theorem C53_pop_order o l c q tr q' t x : q_run o queue0 l = (q, tr) ->
  q_step o q c = (q', Some (t, Some x)) ->
  exists content, pushed (since_clear [] tr) ≡ₚ popped (since_clear [] tr) ++ content /\
                  first_of o x content.
Proof. exact (pop_order o l c q tr q' t x). Qed.
Print Assumptions C53_pop_order.

Example C53_pop_order_example :
  popped (snd (q_run Smallest queue0 [Push 5 0; Push 3 0; Push 9 0; Pop 1; Push 4 0; Pop 1; Pop 1]))
  = [3; 4; 5].
Proof. vm_compute. reflexivity. Qed.

(** C53: a pop comes back empty-handed only after a clear since which nothing was
    pushed and the queue was not reset. *)
Theorem C53_false_only_cleared o l c q tr q' t : q_run o queue0 l = (q, tr) ->
  q_step o q c = (q', Some (t, None)) ->
  exists a b, tr = a ++ (Clear, None) :: b /\ pushed b = [] /\
    Forall (fun e => fst e <> Reset /\ fst e <> Clear) b.
Proof. exact (false_only_cleared o l c q tr q' t). Qed.
Print Assumptions C53_false_only_cleared.

Example C53_false_only_cleared_example :
  omap snd (snd (q_run Fifo queue0 [Pop 1; Clear; Resume 0; Pop 2])) = [(1%nat, None); (2%nat, None)].
Proof. vm_compute. reflexivity. Qed.

(** C53, no lost wake-up: while some thread sleeps in pop, every element in the queue
    has a woken thread on its way to it (if reset is used on an empty queue only) ... *)
Theorem C53_no_lost_wakeup o l q tr : q_run o queue0 l = (q, tr) -> resets_empty o queue0 l ->
  q_asleep q <> [] -> (length (q_buffer q) <= length (q_runnable q))%nat.
Proof. exact (no_lost_wakeup o l q tr). Qed.
Print Assumptions C53_no_lost_wakeup.

(** ... and a woken thread that finds the queue non-empty does not go back to sleep. *)
Theorem C53_woken_pops o l q tr j : q_run o queue0 l = (q, tr) -> resets_empty o queue0 l ->
  q_buffer q <> [] -> (j < length (q_runnable q))%nat ->
  exists t x, snd (q_step o q (Resume j)) = Some (t, Some x).
Proof. exact (woken_pops o l q tr j). Qed.
Print Assumptions C53_woken_pops.

Example C53_no_lost_wakeup_example :
  let l := [Pop 1; Pop 2; Push 5 1; Clear; Reset; Resume 0; Resume 0; Push 6 0] in
  let '(q, _) := q_run Fifo queue0 l in
  resets_empty Fifo queue0 l /\ q_asleep q = [1%nat] /\ q_buffer q = [6] /\ q_runnable q = [2%nat].
Proof. vm_compute. repeat split; intros; done. Qed.

(** Not true without that condition: a reset between a push and the wake-up of the
    thread it was for leaves the thread asleep beside the element. *)
Theorem C53_reset_loses_wakeup_refuted : exists l q tr, q_run Fifo queue0 l = (q, tr) /\
  q_buffer q = [7] /\ q_asleep q = [1%nat] /\ q_runnable q = [].
Proof. exact reset_case. Qed.
Print Assumptions C53_reset_loses_wakeup_refuted.
