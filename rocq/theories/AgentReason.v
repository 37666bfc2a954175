(** Proofs about an agent and its server, continued: what is reported has its reason. *)
From stdpp Require Import base option list gmap fin_maps.
From Coq Require Import NArith Lia.
From Verif Require Import Base ParsecShardModel BrokerModel AgentModel AgentSpec AgentProofs AgentServer
  AgentLocks AgentLife AgentServe.
Open Scope N_scope.

Section Reason.
Context (fn : bytes) (ilt : lock_type) (ro : bool).

Definition fine3 (i : item) (e : list item) : Prop :=
  match i with
  | Out (OReport (Fail x)) => reason x e
  | Out (OLock run r) => lock_true e run r
  | _ => True
  end.
Fixpoint good3 (tr : list item) : Prop :=
  match tr with [] => True | i :: e => fine3 i e /\ good3 e end.
Lemma good3_past tr i e : good3 tr -> past tr i e -> fine3 i e.
Proof.
  intros Hg [l ->]. induction l as [|x l IH]; cbn in Hg; [apply Hg|apply IH, Hg].
Qed.

Definition hurt (tr : list item) : Prop :=
  exists w t k m r, said tr (QaLock w t k m) r /\ wounding r.
Definition lasting (x : aerror) : Prop := x = XRetrieval \/ x = XExecution \/ x = XCommit.

(** ** What was said stays said until a report *)

Definition silent (i : item) : Prop := forall r, i <> Out (OReport r).
Lemma lately_cons i tr : silent i -> lately (i :: tr) = i :: lately tr.
Proof. intros H. destruct i as [|[| |r|]]; try done. by destruct (H r). Qed.
Lemma said_cons i tr q r : silent i -> said tr q r -> said (i :: tr) q r.
Proof.
  intros Hi (id & H1 & H2). exists id. split; [by apply asked_cons|].
  unfold got. rewrite lately_cons by done. by apply elem_of_list_further.
Qed.
Lemma deaf_cons i tr q : silent i -> deaf tr q -> deaf (i :: tr) q.
Proof. intros Hi H. unfold deaf. rewrite lately_cons by done. by apply elem_of_list_further. Qed.
Lemma ended_cons i tr id r : silent i -> ended (lately tr) id r -> ended (lately (i :: tr)) id r.
Proof. intros Hi H. unfold ended. rewrite lately_cons by done. by apply elem_of_list_further. Qed.
Lemma temporary_cons i tr : silent i -> temporary tr -> temporary (i :: tr).
Proof.
  intros Hi [(t & m & r & H & H')|[(t & u & r & H & H')|[(id & v & H & H')|(q & H & H')]]].
  - left. exists t, m, r. split; [by apply said_cons|done].
  - right. left. exists t, u, r. split; [by apply said_cons|done].
  - right. right. left. exists id, v. split; [by apply asked_cons|by apply ended_cons].
  - right. right. right. exists q. split; [done|by apply deaf_cons].
Qed.
Lemma reason_cons i x tr : silent i -> reason x tr -> reason x (i :: tr).
Proof.
  intros Hi. destruct x; cbn [reason].
  - intros (q & H & H'). exists q. split; [done|by apply deaf_cons].
  - intros (x & H). exists x. by apply said_cons.
  - intros (t & m & c & d & H & H'). exists t, m, c, d. split; [by apply said_cons|done].
  - intros (id & v & H & H'). exists id, v. split; [by apply asked_cons|by apply ended_cons].
  - intros (t & u & r & H & H'). exists t, u, r. split; [by apply said_cons|done].
  - intros (t & x & H). exists t, x. by apply said_cons.
  - intros (t & x & H). exists t, x. by apply said_cons.
  - by apply temporary_cons.
Qed.
Lemma hurt_cons i tr : silent i -> hurt tr -> hurt (i :: tr).
Proof. intros Hi (w & t & k & m & r & H & H'). exists w, t, k, m, r. split; [by apply said_cons|done]. Qed.

(** ** The invariant *)

Definition base3 (a : agent) : Prop :=
  good3 (a_tr a) /\ (ro = true -> forall k m, a_locks a !! k = Some m -> m = Read).

Definition state3 (a : agent) : Prop :=
  match a_st a with
  | AInit | ABeginSent | AGetSent => a_wound a = false
  | AStarted => a_wound a = true -> hurt (a_tr a)
  | ACommitSent => exists u, a_res a = Some (Done u)
  | ARollbackSent =>
      if a_perm a then exists x, a_res a = Some (Fail x) /\ lasting x /\ reason x (a_tr a)
      else temporary (a_tr a)
  | AFinishSent => forall x, a_res a = Some (Fail x) -> reason x (a_tr a)
  | _ => True
  end.

Definition inv3 (a : agent) : Prop := base3 a /\ (a_dead a = true \/ state3 a).

Lemma base3_same a b : base3 a -> a_tr b = a_tr a -> a_locks b = a_locks a -> base3 b.
Proof. unfold base3. by intros H -> ->. Qed.
Lemma base3_emit a b i : base3 a -> a_tr b = i :: a_tr a -> a_locks b = a_locks a -> fine3 i (a_tr a) -> base3 b.
Proof. unfold base3. intros [H1 H2] -> -> Hf. split; [by split|done]. Qed.

Lemma die3 a d : base3 a -> inv3 (die a d).
Proof. intros H. split; [|by left]. eapply (base3_emit a); [exact H|reflexivity|reflexivity|exact I]. Qed.

Lemma ask3 a q a1 c : base3 a -> ask a q = (a1, c) ->
  base3 a1 /\ a_st a1 = a_st a /\ a_res a1 = a_res a /\ a_perm a1 = a_perm a /\ a_wound a1 = a_wound a /\
  a_locks a1 = a_locks a /\ a_cnt a1 = a_cnt a /\ a_dead a1 = a_dead a /\ a_tk a1 = a_tk a /\
  a_try a1 = a_try a /\
  exists o, a_tr a1 = Out (OReq o q) :: a_tr a /\
    match c with Refuse => o = None | _ => o = Some (a_next a) end.
Proof.
  intros H. unfold ask.
  destruct (match a_ch a with [] => Later | c :: _ => c end); intros [= <- <-];
    (split; [eapply (base3_emit a); [exact H|reflexivity|reflexivity|exact I]|]); split_and!; try done; by eexists.
Qed.

Lemma report3 a x : base3 a -> a_res a = Some (Fail x) -> reason x (a_tr a) ->
  a_st a <> ARollbackSent -> a_st a <> AFinishSent -> a_st a <> ACommitSent -> a_st a <> AStarted ->
  a_st a <> AInit -> a_st a <> ABeginSent -> a_st a <> AGetSent -> inv3 (report a).
Proof.
  intros H Hr Hx N1 N2 N3 N4 N5 N6 N7. unfold report. rewrite Hr.
  assert (Hb : base3 (emit a (Out (OReport (Fail x))))) by (eapply (base3_emit a); [exact H|reflexivity|reflexivity|exact Hx]).
  destruct (a_tk a); [|by apply die3].
  split; [done|]. right. unfold state3. cbn. by destruct (a_st a).
Qed.

Lemma rollback3 a (p : bool) : base3 a ->
  (if p then exists x, a_res a = Some (Fail x) /\ lasting x /\ reason x (a_tr a) else temporary (a_tr a)) ->
  inv3 (do_rollback a p).
Proof.
  intros H Hp. unfold do_rollback.
  assert (H0 : base3 (with_perm (with_st a ARollbackSent) p)) by (by apply (base3_same a)).
  assert (Hmain : forall t, inv3 (let '(a1, c) := ask (with_perm (with_st a ARollbackSent) p) (QaRollback t) in
      match c with
      | Refuse => report (with_res (with_st a1 ARollbackFailed) (Some (Fail XUnreachable)))
      | _ => a1
      end)).
  { intros t. destruct (ask _ _) as [a1 c] eqn:E.
    eapply ask3 in E as (H1 & E1 & E2 & E3 & _ & _ & _ & _ & _ & _ & o & Et & Ho); [|done].
    assert (Hs : o = Some (a_next a) -> inv3 a1).
    { intros ->. split; [done|]. right. unfold state3. rewrite E1. cbn [a_st with_perm with_st].
      rewrite E3, E2, Et. cbn [a_perm with_perm a_res with_st a_tr].
      destruct p.
      - destruct Hp as (x & G1 & G2 & G3). exists x. split; [done|]. split; [done|]. by apply reason_cons.
      - by apply temporary_cons. }
    destruct c; [|by apply Hs..].
    eapply report3; try done. cbn. rewrite Et, Ho.
    exists (QaRollback t). split; [done|]. unfold deaf. rewrite lately_cons by done. apply elem_of_list_here. }
  destruct (a_st a), (a_tk a); first [apply Hmain|by apply die3].
Qed.

Lemma fail3 a s x : base3 a ->
  match s with
  | AGetFailed | AFailed | ACommitFailed => temporary (a_tr a)
  | AGetError | ACommitError | AException => lasting x /\ reason x (a_tr a)
  | ABeginFailed | AFinishFailed | ARollbackFailed => reason x (a_tr a)
  | _ => False
  end -> inv3 (fail a s x).
Proof.
  intros H Hs. unfold fail, do_result. cbn [a_res with_res a_st with_st].
  assert (H0 : base3 (with_res (with_st a s) (Some (Fail x)))) by (by apply (base3_same a)).
  destruct s; try done; try (by apply rollback3); try (by eapply report3).
  all: apply rollback3; [done|]; exists x; by destruct Hs.
Qed.

Lemma finish3 a : base3 a -> (forall x, a_res a = Some (Fail x) -> reason x (a_tr a)) -> inv3 (do_finish a).
Proof.
  intros H Hr. unfold do_finish.
  assert (H0 : base3 (with_st a AFinishSent)) by (by apply (base3_same a)).
  assert (Hmain : forall t, inv3 (let '(a1, c) := ask (with_st a AFinishSent) (QaFinish t) in
      match c with Refuse => fail a1 AFinishFailed XUnreachable | _ => a1 end)).
  { intros t. destruct (ask _ _) as [a1 c] eqn:E.
    eapply ask3 in E as (H1 & E1 & E2 & E3 & _ & _ & _ & _ & _ & _ & o & Et & Ho); [|done].
    assert (Hs : o = Some (a_next a) -> inv3 a1).
    { intros ->. split; [done|]. right. unfold state3. rewrite E1. cbn [a_st with_st].
      rewrite E2, Et. intros x Hx. by apply reason_cons, Hr. }
    destruct c; [|by apply Hs..].
    apply fail3; [done|]. rewrite Et, Ho.
    exists (QaFinish t). split; [done|]. unfold deaf. rewrite lately_cons by done. apply elem_of_list_here. }
  destruct (a_st a), (a_tk a); first [apply Hmain|by apply die3].
Qed.

Lemma deaf_now q tr : upkeep q = false -> temporary (Out (OReq None q) :: tr).
Proof.
  intros Hq. right. right. right. exists q. split; [done|].
  unfold deaf. rewrite lately_cons by done. apply elem_of_list_here.
Qed.

Lemma commit3 a : base3 a -> inv3 (do_commit ro a).
Proof.
  intros H. unfold do_commit.
  assert (H0 : base3 (with_st a ACommitSent)) by (by apply (base3_same a)).
  assert (Hmain : forall t u, a_res a = Some (Done u) ->
      inv3 (let '(a1, c) := ask (with_st a ACommitSent) (QaCommit t (if ro then ∅ else u)) in
      match c with Refuse => fail a1 ACommitFailed XUnreachable | _ => a1 end)).
  { intros t u Hu. destruct (ask _ _) as [a1 c] eqn:E.
    eapply ask3 in E as (H1 & E1 & E2 & E3 & _ & _ & _ & _ & _ & _ & o & Et & Ho); [|done].
    assert (Hs : inv3 a1).
    { split; [done|]. right. unfold state3. rewrite E1, E2. by exists u. }
    destruct c; [|done..].
    apply fail3; [done|]. rewrite Et, Ho. by apply deaf_now. }
  destruct (a_st a), (a_res a) as [[u|]|], (a_tk a); first [by apply Hmain|by apply die3].
Qed.

Lemma runner3 a v : base3 a -> state3 a -> a_st a = AStarted -> inv3 (do_runner a v).
Proof.
  intros H HS Hs. unfold do_runner. destruct (a_tk a); [|by apply die3].
  destruct (ask _ _) as [a1 c] eqn:E.
  eapply ask3 in E as (H1 & E1 & E2 & E3 & E4 & _ & _ & _ & _ & _ & o & Et & Ho); [|done].
  assert (Hk : inv3 a1).
  { split; [done|]. right. unfold state3 in *. rewrite E1, Hs in *. rewrite E4, Et. intros Hw.
    apply hurt_cons; [done|by apply HS]. }
  destruct c; [|done..].
  apply fail3; [done|]. rewrite Et, Ho. by apply deaf_now.
Qed.

(** ** Locks *)

Lemma wounded_is r : is_wounded r = true -> wounding r.
Proof. destruct r as [| | | |[[] d]]; try done. intros _. by exists d. Qed.

Lemma lock_cb3 a w r : base3 a -> state3 a -> a_st a = AStarted -> a_dead a = false ->
  (forall run, w = Runner run -> lock_true (a_tr a) run r) ->
  inv3 (lock_cb a w r) /\
  (forall c n size v, w = Reacq c -> a_cnt a !! c = Some (n, size, v) -> n + 1 < size ->
     a_dead (lock_cb a w r) = false /\ a_st (lock_cb a w r) = AStarted /\
     a_cnt (lock_cb a w r) !! c = Some (n + 1, size, v) /\ a_tk (lock_cb a w r) = a_tk a) /\
  (forall run, w = Runner run -> a_dead (lock_cb a w r) = false /\ a_st (lock_cb a w r) = AStarted).
Proof.
  intros H HS Hs Hd Hw. unfold lock_cb. destruct w as [c|run].
  - split; [|split; [|done]].
    + destruct (a_cnt a !! c) as [[[n size] v]|]; [|split; [done|by right]].
      assert (H1 : base3 (with_cnt a (<[c:=(n + 1, size, v)]> (a_cnt a)) (a_try a))) by (by apply (base3_same a)).
      destruct (n + 1 =? size); [by apply runner3|]. split; [done|by right].
    + intros c' n size v [= <-] -> Hlt. destruct (N.eqb_spec (n + 1) size); [lia|]. cbn.
      rewrite lookup_insert. done.
  - split; [|split; [done|by intros ? [= <-]]]. split.
    + eapply (base3_emit a); [exact H|reflexivity|reflexivity|]. cbn. by apply Hw.
    + right. unfold state3 in *. cbn. rewrite Hs in *. intros E. by apply hurt_cons; [|apply HS].
Qed.

(** An answer to a lock that has just come, or the one the agent gives itself when wounded. *)
Definition answered_lock (a : agent) (w : asker) (r : result) : Prop :=
  (exists id t k m e, asked (a_tr a) id (QaLock w t k m) /\ a_tr a = In (EvAnswer id r) :: e) \/
  (wounding r /\ hurt (a_tr a)).

Lemma handle_lock3 a w r : base3 a -> state3 a -> a_dead a = false -> answered_lock a w r ->
  inv3 (handle_lock a w r) /\
  (forall c n size v, a_st a = AStarted -> w = Reacq c -> a_cnt a !! c = Some (n, size, v) -> n + 1 < size ->
     a_dead (handle_lock a w r) = false /\ a_st (handle_lock a w r) = AStarted /\
     a_cnt (handle_lock a w r) !! c = Some (n + 1, size, v) /\ a_tk (handle_lock a w r) = a_tk a).
Proof.
  intros H HS Hd Ha. unfold handle_lock.
  destruct (decide (a_st a = AStarted)) as [Hs|Hs].
  2:{ split; [|intros ? ? ? ? ?; by destruct Hs]. destruct (a_st a) eqn:E; try (split; [done|by right]). }
  rewrite Hs. set (b := if is_wounded r then with_wound a true else a).
  assert (Hb : base3 b /\ state3 b /\ a_st b = AStarted /\ a_dead b = false /\ a_tr b = a_tr a /\
    a_cnt b = a_cnt a /\ a_tk b = a_tk a).
  { unfold b. destruct (is_wounded r) eqn:Ew; [|done]. split_and!; try done.
    unfold state3. cbn. rewrite Hs. intros _.
    destruct Ha as [(id & t & k & m & e & H1 & H2)|[_ H1]]; [|done].
    exists w, t, k, m, r. split; [|by apply wounded_is]. exists id. split; [done|].
    unfold got. rewrite H2, lately_cons by done. apply elem_of_list_here. }
  destruct Hb as (B1 & B2 & B3 & B4 & B5 & B6 & B7).
  destruct (lock_cb3 b w r) as (G1 & G2 & _); try done.
  { intros run ->. rewrite B5. destruct Ha as [Ha|[Ha1 Ha2]]; [by left|by right]. }
  split; [done|]. intros c n size v _ Ec En El. rewrite <- B6 in En. rewrite <- B7. by eapply G2.
Qed.

Lemma hurt_answer a w : state3 a -> a_st a = AStarted -> a_wound a = true ->
  answered_lock a w (RShardErr (ErWounded, None)).
Proof.
  intros HS Hs Hw. right. split; [by eexists|]. unfold state3 in HS. rewrite Hs in HS. auto.
Qed.

Lemma take_lock3 a w k m : base3 a -> state3 a -> a_dead a = false ->
  let r := take_lock ro a w k m in
  inv3 r.1 /\
  (forall c n size v, w = Reacq c -> a_st a = AStarted -> a_tk a <> None -> a_cnt a !! c = Some (n, size, v) ->
     (ro = true -> m = Read) -> n < size ->
     (r.2 = false -> temporary (a_tr r.1)) /\
     (r.2 = true -> n + 1 < size -> a_dead r.1 = false /\ a_st r.1 = AStarted /\ a_tk r.1 = a_tk a /\
        exists n', a_cnt r.1 !! c = Some (n', size, v) /\ n' <= n + 1)).
Proof.
  intros H HS Hd. cbn zeta. unfold take_lock.
  destruct (a_tk a) as [t|] eqn:Ht; [|split; [by apply die3|done]].
  destruct (decide (a_st a = AStarted)) as [Hs|Hs].
  2:{ split; [|done]. destruct (a_st a) eqn:E; try (split; [done|by right]). }
  rewrite Hs. destruct (ro && bool_decide (m = Write)) eqn:Ew.
  { split; [split; [done|by right]|]. intros c n size v _ _ _ _ Hro.
    apply andb_true_iff in Ew as [E1 E2]. apply bool_decide_eq_true in E2. rewrite (Hro E1) in E2. done. }
  destruct (a_wound a) eqn:Hw.
  { cbn [fst snd]. destruct (handle_lock3 a w (RShardErr (ErWounded, None))) as [G1 G2]; try done.
    { by apply hurt_answer. }
    split; [done|]. intros c n size v Ec _ _ En _ _. split; [done|]. intros _ Hlt.
    destruct (G2 c n size v Hs Ec En Hlt) as (K1 & K2 & K3 & K4). split_and!; try done; [congruence|].
    exists (n + 1). split; [done|lia]. }
  set (a1 := match a_locks a !! k with Some Write => a | _ => with_locks a (<[k:=m]> (a_locks a)) end).
  assert (H1 : base3 a1 /\ a_tr a1 = a_tr a /\ a_cnt a1 = a_cnt a /\ a_st a1 = AStarted /\ a_dead a1 = false /\
    a_wound a1 = false /\ a_tk a1 = Some t).
  { assert (Hins : base3 (with_locks a (<[k:=m]> (a_locks a)))).
    { destruct H as [G1 G2]. split; [done|]. intros Hro k' m'. cbn [a_locks with_locks].
      rewrite lookup_insert_Some. intros [[_ <-]|[_ Hl]]; [|by eapply G2].
      rewrite Hro in Ew. cbn in Ew. apply bool_decide_eq_false in Ew. by destruct m. }
    unfold a1. destruct (a_locks a !! k) as [[]|]; split_and!; done. }
  destruct H1 as (H1 & F1 & F2 & F3 & F4 & F5 & F6).
  destruct (ask a1 _) as [a2 ch] eqn:E.
  eapply ask3 in E as (H2 & E1 & E2 & E3 & E4 & E5 & E6 & E7 & E8 & _ & o & Et & Ho); [|done].
  assert (Hk : state3 a2).
  { unfold state3. rewrite E1, F3, E4, F5. done. }
  destruct ch; cbn [fst snd].
  - split; [split; [done|by right]|]. intros c n size v _ _ _ _ _ _. split; [|done]. intros _.
    rewrite Et, Ho. by apply deaf_now.
  - split; [split; [done|by right]|]. intros c n size v _ _ _ En _ _. split; [done|]. intros _ _.
    split_and!; try congruence. exists n. split; [congruence|lia].
  - destruct (handle_lock3 (emit a2 (In (EvAnswer (a_next a1) r))) w r) as [G1 G2].
    + eapply (base3_emit a2); [exact H2|reflexivity|reflexivity|exact I].
    + unfold state3 in *. cbn. rewrite E1, F3 in *. rewrite E4, F5. done.
    + cbn. congruence.
    + left. eexists _, _, _, _, _. split; [|done]. cbn. rewrite Et, Ho. right. left.
    + split; [done|]. intros c n size v Ec _ _ En _ _. split; [done|]. intros _ Hlt.
      destruct (G2 c n size v) as (K1 & K2 & K3 & K4); [cbn; congruence|done|cbn; congruence|done|].
      split_and!; try done; [cbn in K4; congruence|]. exists (n + 1). split; [done|lia].
Qed.

Lemma reacquire3 l : forall a c n size v, inv3 a -> a_dead a = false -> a_st a = AStarted -> a_tk a <> None ->
  a_cnt a !! c = Some (n, size, v) -> n + N.of_nat (length l) <= size ->
  (ro = true -> Forall (fun x : key * lock_type => x.2 = Read) l) ->
  inv3 (reacquire ro a c l).
Proof.
  induction l as [|[k m] l IH]; intros a c n size v Hi Hd Hs Ht En Hle Hro; [done|].
  cbn [reacquire]. destruct Hi as [Hb [?|HS]]; [congruence|].
  assert (Hro' : ro = true -> m = Read) by (intros E; specialize (Hro E); by apply Forall_cons in Hro as [? _]).
  destruct (take_lock3 a (Reacq c) k m) as [G1 G2]; try done.
  destruct (G2 c n size v eq_refl Hs Ht En Hro') as [G3 G4]; [cbn in Hle; lia|]. clear G2.
  destruct (take_lock ro a (Reacq c) k m) as [a1 ok]. cbn [fst snd] in *.
  destruct (a_dead a1) eqn:Hd1; [done|]. destruct ok.
  - destruct l as [|x l'].
    { done. }
    destruct (G4 eq_refl) as (K1 & K2 & K3 & n' & K4 & K5); [cbn in Hle; lia|].
    eapply IH; try done; [congruence|cbn in Hle |- *; lia|].
    intros E. specialize (Hro E). by apply Forall_cons in Hro as [_ ?].
  - apply fail3; [apply G1|]. by apply G3.
Qed.

(** ** The calls *)

Lemma function3 a r : base3 a -> a_wound a = false -> a_st a = AGetSent -> a_dead a = false -> a_tk a <> None ->
  ((forall v, r <> RValue v) -> exists t m, said (a_tr a) (QaFunction t m) r) ->
  inv3 (handle_function ro a r).
Proof.
  intros H Hw Hs Hd Ht Hsaid. unfold handle_function. rewrite Hs.
  assert (Hk : inv3 a) by (split; [done|right; unfold state3; by rewrite Hs]).
  destruct r as [|n|v|e|[e d]]; try done.
  - assert (H1 : base3 (with_locks (with_st a AStarted) ∅)).
    { destruct H as [G1 G2]. split; [done|]. intros _ k m. cbn. by rewrite lookup_empty. }
    destruct (map_to_list (a_locks a)) as [|x l] eqn:El.
    { apply runner3; [done| |done]. unfold state3. cbn. by rewrite Hw. }
    eapply (reacquire3 (x :: l) _ (a_try a) 0 (N.of_nat (length (x :: l))) v); try done.
    + split; [by eapply (base3_same (with_locks (with_st a AStarted) ∅))|]. right.
      unfold state3. cbn. by rewrite Hw.
    + cbn. by rewrite lookup_insert.
    + intros Hro. rewrite <- El. apply Forall_forall. intros [k m] Hin.
      apply elem_of_map_to_list in Hin. cbn. by eapply (proj2 H).
  - destruct Hsaid as (t & m & Hq); [done|].
    apply fail3; [done|]. left. exists t, m, (RErr e). split; [done|]. right. by exists e.
  - destruct Hsaid as (t & m & Hq); [done|].
    assert (Hbad : e <> ErWounded -> inv3 (fail a AGetError XRetrieval)).
    { intros He. apply fail3; [done|]. split; [by left|]. by exists t, m, e, d. }
    destruct e; try (by apply Hbad).
    apply fail3; [done|]. left. exists t, m, (RShardErr (ErWounded, d)). split; [done|]. left. by exists d.
Qed.

Lemma start3 a : base3 a -> a_wound a = false -> a_dead a = false ->
  inv3 (do_start fn ilt ro a).
Proof.
  intros H Hw Hd. unfold do_start.
  assert (H1 : base3 (with_st a AGetSent)) by (by apply (base3_same a)).
  assert (Hmain : forall t, a_tk a = Some t -> inv3 (
    if ro && (length fn =? 0)%nat then handle_function ro (with_st a AGetSent) (RValue [])
    else if (length fn =? 1)%nat then handle_function ro (with_st a AGetSent) (RValue fn)
    else
      let '(a2, c) := ask (with_st a AGetSent) (QaFunction t (if ro then Read else ilt)) in
      match c with Refuse => fail a2 AGetFailed XUnreachable | _ => a2 end)).
  { intros t Ht.
    destruct (ro && (length fn =? 0)%nat).
    { apply function3; try done; [cbn; congruence|]. intros Hv. by destruct (Hv _ eq_refl). }
    destruct (length fn =? 1)%nat.
    { apply function3; try done; [cbn; congruence|]. intros Hv. by destruct (Hv _ eq_refl). }
    destruct (ask _ _) as [a1 c] eqn:E.
    eapply ask3 in E as (G1 & E1 & E2 & E3 & E4 & _ & _ & _ & _ & _ & o & Et & Ho); [|done].
    destruct c.
    - apply fail3; [done|]. rewrite Et, Ho. by apply deaf_now.
    - split; [done|]. right. unfold state3. rewrite E1. cbn [a_st with_st]. by rewrite E4.
    - split; [done|]. right. unfold state3. rewrite E1. cbn [a_st with_st]. by rewrite E4. }
  destruct (a_st a), (a_tk a); first [by apply Hmain|by apply die3].
Qed.

Lemma asked_now id q r tr : asked tr id q -> said (In (EvAnswer id r) :: tr) q r.
Proof.
  intros H. exists id. split; [by apply asked_cons|]. unfold got. rewrite lately_cons by done.
  apply elem_of_list_here.
Qed.

Lemma step3 a e ch : inv ro a -> inv3 a -> (e = EvExec -> a_st a = AInit \/ a_st a = ARollbackComplete) ->
  inv3 (astep fn ilt ro a (e, ch)).
Proof.
  intros Hi Hi3 He. unfold astep. destruct (a_dead a) eqn:Hd; [done|]. cbn [fst snd].
  destruct (fits a e) eqn:Hf; [|done].
  set (b := emit (with_ch a ch) (In e)).
  destruct Hi3 as [H3 [?|HS]]; [congruence|]. destruct Hi as [HC [?|HR]]; [congruence|].
  assert (Hb : base3 b) by (eapply (base3_emit a); [exact H3|reflexivity|reflexivity|exact I]).
  assert (HSb : state3 b).
  { unfold state3 in *. cbn. destruct (a_st a); try done.
    - intros Hw. by apply hurt_cons; [|apply HS].
    - intros x Hx. by apply reason_cons; [|apply HS].
    - destruct (a_perm a); [|by apply temporary_cons].
      destruct HS as (x & G1 & G2 & G3). exists x. split; [done|]. split; [done|]. by apply reason_cons. }
  assert (Hkeep : inv3 b) by (split; [done|by right]).
  assert (Hdb : a_dead b = false) by done.
  assert (Hm : forall id q, a_made a !! id = Some q -> asked (a_tr a) id q) by (intros id q; apply (c_made _ _ HC)).
  destruct e as [|id r|id r|run k m]; cbn [dispatch].
  - unfold exec. change (a_st b) with (a_st a).
    destruct He as [Hs|Hs]; [done|..]; rewrite Hs.
    + destruct (ask _ _) as [a1 c] eqn:E.
      eapply ask3 in E as (H1 & E1 & E2 & E3 & E4 & _ & _ & _ & _ & _ & o & Et & Ho);
        [|by apply (base3_same b)].
      assert (Hk : inv3 a1).
      { split; [done|]. right. unfold state3 in *. rewrite E1. cbn [a_st with_st]. rewrite E4.
        rewrite Hs in HS. done. }
      destruct c; [|done..]. apply fail3; [done|]. rewrite Et, Ho. exists QaBegin. split; [done|].
      unfold deaf. rewrite lately_cons by done. apply elem_of_list_here.
    + apply start3; try done.
  - change (a_made b) with (a_made a). cbn in Hf.
    destruct (a_made a !! id) as [q|] eqn:Eq; [|done]. apply Hm in Eq.
    pose proof (asked_now id q r (a_tr a) Eq) as Hsaid. change (In (EvAnswer id r) :: a_tr a) with (a_tr b) in Hsaid.
    destruct q as [|t m|w t k m|v|t u|t|t]; try done.
    + unfold handle_begin. change (a_st b) with (a_st a). destruct (a_st a) eqn:Hs; try done.
      unfold state3 in HS. rewrite Hs in HS.
      destruct r; try done; [by apply start3; [apply (base3_same b)|..]|].
      apply fail3; [done|]. by eexists.
    + destruct (decide (a_st a = AGetSent)) as [Hs|Hs].
      2:{ unfold handle_function. change (a_st b) with (a_st a). by destruct (a_st a). }
      unfold state3 in HS. unfold rest in HR. rewrite Hs in HS, HR. destruct HR as [t' Ht'].
      apply function3; try done; [cbn; congruence|]. intros _. by eexists _, _.
    + apply handle_lock3; try done. left. eexists id, t, k, m, _. split; [|done]. by apply asked_cons.
    + unfold handle_commit. change (a_st b) with (a_st a). destruct (a_st a) eqn:Hs; try done.
      unfold state3 in HS. rewrite Hs in HS. destruct HS as [u' Hu].
      assert (Htmp : wounding r \/ (exists x, r = RErr x /\ x <> ECommitHazard) -> inv3 (fail b ACommitFailed XCommit)).
      { intros Hr. apply fail3; [done|]. right. left. by exists t, u, r. }
      assert (Hbad : r = RErr ECommitHazard \/ (exists c d, r = RShardErr (c, d) /\ c <> ErWounded) ->
        inv3 (fail b ACommitError XCommit)).
      { intros Hr. apply fail3; [done|]. split; [by right; right|]. by exists t, u, r. }
      destruct r as [|n|v|x|[x d]]; try done.
      * apply finish3; [done|]. cbn. congruence.
      * destruct x; first [by apply Htmp; right; eexists|by apply Hbad; left].
      * destruct x; first [by apply Htmp; left; eexists|by apply Hbad; right; eexists _, _].
    + unfold handle_rollback. change (a_st b) with (a_st a). destruct (a_st a) eqn:Hs; try done.
      destruct r as [|n|v|x|x]; try done.
      * change (a_perm (with_st b ARollbackComplete)) with (a_perm b).
        unfold state3 in HSb. change (a_st b) with (a_st a) in HSb. rewrite Hs in HSb.
        destruct (a_perm b).
        -- destruct HSb as (x & G1 & G2 & G3). apply finish3; [by apply (base3_same b)|].
           intros x'. cbn [a_res with_st]. change (a_tr (with_st b ARollbackComplete)) with (a_tr b).
           rewrite G1. by intros [= <-].
        -- unfold do_result. cbn [a_res with_res a_st with_st]. by eapply report3; [apply (base3_same b)|..].
      * apply fail3; [done|]. by eexists _, _.
    + unfold handle_finish. change (a_st b) with (a_st a). destruct (a_st a) eqn:Hs; try done.
      destruct r as [|n|v|x|x]; try done.
      * unfold state3 in HSb. change (a_st b) with (a_st a) in HSb. rewrite Hs in HSb.
        unfold do_result. cbn [a_res with_st a_st]. change (a_tk (with_st b AFinishComplete)) with (a_tk b).
        assert (Hbb : base3 (with_st b AFinishComplete)) by (by apply (base3_same b)).
        change (a_res b) with (a_res a) in *.
        destruct (a_res a) as [res|] eqn:Er; [|by apply die3].
        destruct (a_tk b) eqn:Etk; [|by apply die3].
        destruct res as [u|x]; [|by eapply report3; [| |apply HSb|..]].
        unfold report. cbn [a_res with_st a_tk]. change (a_res b) with (a_res a). rewrite Er, Etk.
        split; [|by right]. eapply base3_emit; [exact Hbb|reflexivity|reflexivity|exact I].
      * apply fail3; [done|]. by eexists _, _.
  - cbn in Hf. destruct (a_made a !! id) as [q|] eqn:Eq; [|done]. apply Hm in Eq. destruct q; try done.
    unfold handle_run. change (a_st b) with (a_st a). destruct (a_st a) eqn:Hs; try done.
    assert (Hend : forall r', r = r' -> exists v0, asked (a_tr b) id (QaRun v0) /\ ended (lately (a_tr b)) id r').
    { intros r' <-. exists v. split; [by apply asked_cons|]. cbn. apply elem_of_list_here. }
    destruct r as [u| |].
    + apply commit3. by apply (base3_same b).
    + apply fail3; [done|]. destruct (Hend _ eq_refl) as [v0 Hv]. right. right. left. by exists id, v0.
    + apply fail3; [done|]. destruct (Hend _ eq_refl) as [v0 Hv]. split; [by right; left|]. by exists id, v0.
  - by apply take_lock3.
Qed.

Lemma sstep3 lua v e : sound ro v -> inv3 (v_ag v) -> inv3 (v_ag (sstep fn ilt ro lua v e)).
Proof.
  intros Hv H3. unfold sstep. destruct (a_dead (v_ag v)) eqn:Hd; [done|].
  destruct Hv as [(Hi & HL & Hg)|Hv]; [|by destruct Hv as [Hv _]; congruence].
  destruct e as [ch|ch| |e ch].
  - destruct (a_st (v_ag v)) eqn:Hs; try done. apply step3; try done. by left.
  - destruct (v_retried v <? _)%nat eqn:Hr; [|done]. apply Nat.ltb_lt in Hr.
    destruct (l_counts _ _ _ HL) as [Hc _].
    destruct (decide (a_st (v_ag v) = ARollbackComplete)) as [Hs|Hs].
    2:{ rewrite bool_decide_eq_false_2 in Hc by done. lia. }
    destruct (v_gone v); [apply die3, H3|]. apply step3; try done. by right.
  - destruct (v_cleaned v <? _)%nat; [|done]. destruct (v_gone v); [done|].
    destruct (bool_decide _); [done|apply die3, H3].
  - assert (Hgen : e <> EvExec -> inv3 (v_ag (if fits (v_ag v) e then
              if v_gone v then set_agent v (die (emit (v_ag v) (In e)) Freed)
              else set_agent v (astep fn ilt ro (v_ag v) (e, ch)) else v))).
    { intros He. destruct (fits (v_ag v) e); [|done]. destruct (v_gone v); [|by apply step3].
      apply die3. eapply base3_emit; [apply H3|reflexivity|reflexivity|exact I]. }
    destruct e; [done|by apply Hgen..].
Qed.

Lemma init3 : inv3 agent0.
Proof. split; [|by right]. split; [done|]. intros _ k m. cbn. by rewrite lookup_empty. Qed.

Lemma srun3 lua l : once (a_tr (v_ag (srun fn ilt ro lua l))) -> inv3 (v_ag (srun fn ilt ro lua l)).
Proof.
  induction l as [|e l IH] using rev_ind; [intros _; exact init3|].
  unfold srun. rewrite foldl_app. cbn [foldl]. fold (srun fn ilt ro lua l). intros Ho.
  assert (Ho' : once (a_tr (v_ag (srun fn ilt ro lua l)))).
  { destruct (sstep_grows fn ilt ro lua (srun fn ilt ro lua l) e) as [x Hx]. rewrite Hx in Ho.
    by eapply once_suffix. }
  apply sstep3; [by apply srun_sound|by apply IH].
Qed.

Lemma told_reason lua l x e : once (a_tr (v_ag (srun fn ilt ro lua l))) ->
  past (a_tr (v_ag (srun fn ilt ro lua l))) (Out (OReport (Fail x))) e -> reason x e.
Proof. intros Ho Hp. apply (good3_past _ _ _ (proj1 (proj1 (srun3 lua l Ho))) Hp). Qed.

Lemma told_lock lua l run r e : once (a_tr (v_ag (srun fn ilt ro lua l))) ->
  past (a_tr (v_ag (srun fn ilt ro lua l))) (Out (OLock run r)) e -> lock_true e run r.
Proof. intros Ho Hp. apply (good3_past _ _ _ (proj1 (proj1 (srun3 lua l Ho))) Hp). Qed.

End Reason.
