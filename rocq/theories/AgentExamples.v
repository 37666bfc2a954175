(** Concrete runs of an agent and its server. *)
From stdpp Require Import base option list gmap fin_maps.
From Coq Require Import NArith Lia.
From Verif Require Import Base ParsecShardModel BrokerModel AgentModel AgentSpec.
Open Scope N_scope.

(** A function stored under a two-byte key, locked for reading. *)
Definition ex_fn : bytes := [1; 2].
Definition ex_upd : updates := {[5 := [42]]}.
Definition ex_wounded : result := RShardErr (ErWounded, None).

(** The first attempt is wounded while it waits for a lock, the second one takes the lock
    back, runs and commits. *)
Definition ex_calls : list aevent :=
  [ EvExec;
    EvAnswer 0 (RTicket 7);           (* the ticket number; 1: the function is asked for *)
    EvAnswer 1 (RValue [9]);          (* 2: the run *)
    EvLock 2 5 Write;                 (* 3: the lock *)
    EvAnswer 3 ex_wounded;
    EvRan 2 RanWounded;               (* 4: the rollback *)
    EvAnswer 4 ROk ].
Definition ex_again : list aevent :=
  [ EvAnswer 5 (RValue [9]);          (* 6: the lock is taken back *)
    EvAnswer 6 (RValue []);           (* 7: the run *)
    EvRan 7 (Ran ex_upd);             (* 8: the commit *)
    EvAnswer 8 ROk;                   (* 9: the end *)
    EvAnswer 9 ROk ].
Definition ex_agent : list (aevent * list reply) :=
  map (fun e => (e, [])) (ex_calls ++ [EvExec] ++ ex_again).
Definition ex_server : list sevent :=
  [SRequest []] ++ map (fun e => SOther e []) (tail ex_calls) ++ [SRetry []] ++
  map (fun e => SOther e []) ex_again ++ [SClean].

Notation s_tr lua l := (a_tr (v_ag (srun ex_fn Read false lua l))).
Notation s_told lua l := (told (v_ag (srun ex_fn Read false lua l))).

Lemma ex_agent_done : reports (a_tr (arun ex_fn Read false ex_agent)) = [Done ex_upd; Fail XRetry].
Proof. vm_compute. reflexivity. Qed.
Lemma ex_server_done : once (s_tr true ex_server) /\ s_told true ex_server = [Done ex_upd] /\
  v_gone (srun ex_fn Read false true ex_server) = true /\
  a_dead (v_ag (srun ex_fn Read false true ex_server)) = false.
Proof.
  split_and!; [|vm_compute; reflexivity..].
  unfold once. apply (bool_decide_unpack _). vm_compute. exact I.
Qed.

Lemma retry_case : once (s_tr true ex_server) /\
  (exists e, past (s_tr true ex_server) (Out (OReport (Fail XRetry))) e) /\
  (exists e, past (s_tr true ex_server) (Out (OLock 2 ex_wounded)) e).
Proof.
  split; [apply ex_server_done|].
  split; [exists (drop 13 (s_tr true ex_server)), (take 12 (s_tr true ex_server))
         |exists (drop 17 (s_tr true ex_server)), (take 16 (s_tr true ex_server))];
    vm_compute; reflexivity.
Qed.

(** A read-only run that computes updates commits none. *)
Definition ex_readonly : list (aevent * list reply) :=
  map (fun e => (e, []))
    [EvExec; EvAnswer 0 (RTicket 7); EvAnswer 1 (RValue [9]); EvLock 2 5 Write; EvLock 2 5 Read;
     EvAnswer 3 (RValue [1]); EvRan 2 (Ran ex_upd); EvAnswer 4 ROk; EvAnswer 5 ROk].
Lemma ex_readonly_run :
  Out (OReq (Some 4) (QaCommit 7 ∅)) ∈ a_tr (arun ex_fn Write true ex_readonly) /\
  Out (OReq (Some 1) (QaFunction 7 Read)) ∈ a_tr (arun ex_fn Write true ex_readonly) /\
  reports (a_tr (arun ex_fn Write true ex_readonly)) = [Done ex_upd].
Proof.
  assert (E : a_tr (arun ex_fn Write true ex_readonly) =
    [Out (OReport (Done ex_upd)); In (EvAnswer 5 ROk); Out (OReq (Some 5) (QaFinish 7)); In (EvAnswer 4 ROk);
     Out (OReq (Some 4) (QaCommit 7 ∅)); In (EvRan 2 (Ran ex_upd)); Out (OLock 2 (RValue [1]));
     In (EvAnswer 3 (RValue [1])); Out (OReq (Some 3) (QaLock (Runner 2) 7 5 Read)); In (EvLock 2 5 Read);
     In (EvLock 2 5 Write); Out (OReq (Some 2) (QaRun [9])); In (EvAnswer 1 (RValue [9]));
     Out (OReq (Some 1) (QaFunction 7 Read)); In (EvAnswer 0 (RTicket 7)); Out (OReq (Some 0) QaBegin);
     In EvExec]) by (vm_compute; reflexivity).
  rewrite E. split_and!; [..|vm_compute; reflexivity]; rewrite !elem_of_cons; tauto.
Qed.

(** The function fails for good: the ticket is rolled back and finished. *)
Definition ex_error : list sevent :=
  [SRequest []] ++ map (fun e => SOther e [])
    [EvAnswer 0 (RTicket 7); EvAnswer 1 (RValue [9]); EvRan 2 RanError; EvAnswer 3 ROk; EvAnswer 4 ROk].
Lemma ex_error_told : once (s_tr true ex_error) /\ s_told true ex_error = [Fail XExecution].
Proof.
  split; [|vm_compute; reflexivity]. unfold once. apply (bool_decide_unpack _). vm_compute. exact I.
Qed.

(** ** What goes wrong *)

(** The broker has no ticket number to give. *)
Lemma no_ticket_case : once (s_tr true [SRequest [Refuse]]) /\
  s_tr true [SRequest [Refuse]] =
    [Out (ODie NoTicket); Out (OReport (Fail XUnreachable)); Out (OReq None QaBegin); In EvExec].
Proof.
  split; [|vm_compute; reflexivity]. unfold once. apply (bool_decide_unpack _). vm_compute. exact I.
Qed.

(** The transaction is committed, and the broker fails to finish it. *)
Definition ex_unfinished : list sevent :=
  [SRequest []] ++ map (fun e => SOther e [])
    [EvAnswer 0 (RTicket 7); EvAnswer 1 (RValue [9]); EvRan 2 (Ran ex_upd); EvAnswer 3 ROk;
     EvAnswer 4 (RErr EFinishError)] ++ [SClean].
Lemma unfinished_case : once (s_tr true ex_unfinished) /\ commit_ok (s_tr true ex_unfinished) 7 ex_upd /\
  s_told true ex_unfinished = [Fail XFinish] /\ Out (ODie Unfinished) ∈ s_tr true ex_unfinished.
Proof.
  assert (E : s_tr true ex_unfinished =
    [Out (ODie Unfinished); Out (OReport (Fail XFinish)); In (EvAnswer 4 (RErr EFinishError));
     Out (OReq (Some 4) (QaFinish 7)); In (EvAnswer 3 ROk); Out (OReq (Some 3) (QaCommit 7 ex_upd));
     In (EvRan 2 (Ran ex_upd)); Out (OReq (Some 2) (QaRun [9])); In (EvAnswer 1 (RValue [9]));
     Out (OReq (Some 1) (QaFunction 7 Read)); In (EvAnswer 0 (RTicket 7)); Out (OReq (Some 0) QaBegin);
     In EvExec]) by (vm_compute; reflexivity).
  split_and!.
  - unfold once. apply (bool_decide_unpack _). vm_compute. exact I.
  - rewrite E. exists 3. unfold asked, got. rewrite !elem_of_cons. tauto.
  - vm_compute. reflexivity.
  - rewrite E. rewrite !elem_of_cons. tauto.
Qed.

(** The request failed, and the EVM server keeps its agent. *)
Lemma leak_case : once (s_tr false (ex_error ++ [SClean])) /\
  s_told false (ex_error ++ [SClean]) = [Fail XExecution].
Proof.
  split; [|vm_compute; reflexivity]. unfold once. apply (bool_decide_unpack _). vm_compute. exact I.
Qed.

(** exec is called while the function's code is awaited. *)
Lemma exec_case : a_tr (arun ex_fn Read false [(EvExec, []); (EvAnswer 0 (RTicket 7), []); (EvExec, [])]) =
  [Out (ODie AssertFails); In EvExec; Out (OReq (Some 1) (QaFunction 7 Read)); In (EvAnswer 0 (RTicket 7));
   Out (OReq (Some 0) QaBegin); In EvExec].
Proof. vm_compute. reflexivity. Qed.

(** Two locks are to be taken back; the second one is refused, so the attempt is rolled
    back; the third attempt succeeds, and the agent is destroyed; then the first lock's
    answer arrives. *)
Definition ex_late_lock : list sevent :=
  [SRequest []] ++ map (fun e => SOther e [])
    [EvAnswer 0 (RTicket 7); EvAnswer 1 (RValue [9]); EvLock 2 5 Write; EvLock 2 6 Write;
     EvAnswer 3 (RValue []); EvAnswer 4 ex_wounded; EvRan 2 RanWounded; EvAnswer 5 ROk] ++
  [SRetry []; SOther (EvAnswer 6 (RValue [9])) [Later; Refuse]; SOther (EvAnswer 8 ROk) []; SRetry []] ++
  map (fun e => SOther e [])
    [EvAnswer 9 (RValue [9]); EvAnswer 10 (RValue []); EvAnswer 11 (RValue []); EvRan 12 (Ran ex_upd);
     EvAnswer 13 ROk; EvAnswer 14 ROk] ++
  [SClean; SOther (EvAnswer 7 (RValue [])) []].
Lemma late_lock_case : once (s_tr true ex_late_lock) /\ s_told true ex_late_lock = [Done ex_upd] /\
  head (s_tr true ex_late_lock) = Some (Out (ODie Freed)).
Proof.
  split_and!; [|vm_compute; reflexivity..]. unfold once. apply (bool_decide_unpack _). vm_compute. exact I.
Qed.

(** The broker answers a commit twice: first with an error, so the transaction is rolled
    back and runs again; the second answer comes while the second commit is awaited. *)
Definition ex_twice : list sevent :=
  [SRequest []] ++ map (fun e => SOther e [])
    [EvAnswer 0 (RTicket 7); EvAnswer 1 (RValue [9]); EvRan 2 (Ran ∅);
     EvAnswer 3 (RErr EShardUnreachable); EvAnswer 4 ROk] ++
  [SRetry []] ++ map (fun e => SOther e [])
    [EvAnswer 5 (RValue [9]); EvRan 6 (Ran ex_upd); EvAnswer 3 ROk; EvAnswer 8 ROk].
Lemma twice_case : s_told true ex_twice = [Done ex_upd] /\
  forall t, ~ commit_ok (s_tr true ex_twice) t ex_upd.
Proof.
  split; [vm_compute; reflexivity|]. intros t (c & H1 & H2). unfold asked, got in *.
  set (f := fun i : item => match i with Out (OReq (Some c) (QaCommit _ u)) => Some (c, u !! 5) | _ => None end).
  set (g := fun i : item => match i with In (EvAnswer c ROk) => Some c | _ => None end).
  assert (F1 : (c, Some [42]) ∈ omap f (s_tr true ex_twice)).
  { apply elem_of_list_omap. eexists. split; [exact H1|]. vm_compute. reflexivity. }
  assert (F2 : c ∈ omap g (s_tr true ex_twice)).
  { apply elem_of_list_omap. eexists. split; [exact H2|done]. }
  assert (G1 : omap f (s_tr true ex_twice) = [(7, Some [42]); (3, None)]) by (vm_compute; reflexivity).
  assert (G2 : omap g (s_tr true ex_twice) = [8; 3; 4]) by (vm_compute; reflexivity).
  rewrite G1 in F1. rewrite G2 in F2. clear H1 H2 G1 G2. clearbody f g.
  apply elem_of_cons in F1 as [F1|F1].
  - injection F1 as ->. rewrite !elem_of_cons, elem_of_nil in F2.
    destruct F2 as [F2|[F2|[F2|F2]]]; [discriminate F2..|done].
  - apply elem_of_list_singleton in F1. discriminate F1.
Qed.
