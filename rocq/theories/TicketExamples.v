(** Concrete runs of the ticket machine. *)
From stdpp Require Import base option list.
From Coq Require Import NArith.
From Verif Require Import Base TicketModel TicketSpec.
Open Scope N_scope.

(** Two brokers; the second one's response overtakes the first one's; a call waits; a
    broker restarts and gets a new range. *)
Definition two_brokers : list action :=
  [AGet 0 1 true; AGet 1 2 true; AGet 0 3 true; AServe 1; AServe 0; ADeliver 1 true;
   ADeliver 0 true; AGet 0 4 true; AGet 1 5 true; ARestart 0; AGet 0 6 true; AServe 0;
   ADeliver 0 true].

Lemma two_brokers_run :
  snd (acts 1000 (system0 2) two_brokers)
  = [(1, Number 1000); (3, Number 1001); (2, Number 0); (4, Number 1002); (5, Number 1);
     (6, Number 2000)] /\ serves two_brokers * 1000 <= two64.
Proof. vm_compute. split; [reflexivity|discriminate]. Qed.

(** 1001 calls; the range of 1000 arrives while the connection is down. *)
Definition crowd : list action :=
  ((fun i => AGet 0 (N.of_nat i) true) <$> seq 0 1001) ++ [AServe 0; ADeliver 0 false].

Lemma quiet_act R s a : sy_requests s = [] -> sy_ranges s = [] -> asked [a] = [] ->
  let '(s', o) := act R s a in o = [] /\ sy_requests s' = [] /\ sy_ranges s' = [].
Proof.
  intros Q1 Q2 A. destruct a; try discriminate A; cbn; rewrite ?Q1, ?Q2, ?lookup_nil; cbn;
    rewrite ?Q1, ?Q2; auto.
Qed.

Lemma quiet R l : forall s, sy_requests s = [] -> sy_ranges s = [] -> asked l = [] ->
  snd (acts R s l) = [].
Proof.
  induction l as [|a l IH]; intros s Q1 Q2 A; [done|].
  assert (A1 : asked [a] = []) by (destruct a; done).
  assert (A2 : asked l = []) by (destruct a; done).
  pose proof (quiet_act R s a Q1 Q2 A1) as Q. cbn.
  destruct (act R s a) as [s1 o1]. destruct Q as (-> & P1 & P2).
  specialize (IH s1 P1 P2 A2). destruct (acts R s1 l). cbn in *. done.
Qed.

Lemma crowd_case : exists l s out, acts 1000 (system0 1) l = (s, out) /\
  waiting s 0 = [1000] /\ forall l', asked l' = [] -> snd (acts 1000 s l') = [].
Proof.
  exists crowd, (fst (acts 1000 (system0 1) crowd)), (snd (acts 1000 (system0 1) crowd)).
  split; [destruct (acts _ _ _); done|].
  split; [vm_compute; done|].
  intros l'. apply quiet; vm_compute; done.
Qed.
