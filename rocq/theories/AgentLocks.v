(** Proofs about the locks an agent takes, for itself and for its runner. *)
From stdpp Require Import base option list gmap fin_maps.
From Coq Require Import NArith Lia.
From Verif Require Import Base ParsecShardModel BrokerModel AgentModel AgentSpec AgentProofs AgentServer.
Open Scope N_scope.

Section Locks.
Context (ro : bool).
Notation payload u := (if ro then ∅ else u : updates).

(** An agent whose function has started, whatever is pending. *)
Record busy (k : nat) (a : agent) : Prop := {
  y_core : core ro a;
  y_dead : a_dead a = false;
  y_good : good2 ro (a_tr a);
  y_uniq : base.NoDup (pending (a_tr a)).*1;
  y_st : a_st a = AStarted;
  y_tk : exists t, a_tk a = Some t;
  y_nc : ~ committed (a_tr a);
  y_told : told a = [];
  y_retr : retries a = k
}.

Lemma busy_same k a b : busy k a -> a_tr b = a_tr a -> a_dead b = a_dead a -> a_st b = a_st a ->
  a_tk b = a_tk a -> a_made b = a_made a -> a_next b = a_next a -> a_res b = a_res a -> busy k b.
Proof.
  intros [H1 H2 H3 H4 H5 H6 H7 H8 H9] E1 E2 E3 E4 E5 E6 E7.
  split; unfold told, retries in *; rewrite ?E1, ?E2, ?E3, ?E4; try done.
  apply (core_same _ a); try done. by rewrite E7.
Qed.

Lemma alive_busy k a : inv ro a -> alive ro k a -> a_st a = AStarted -> busy k a.
Proof.
  intros [HC HR] [H1 H2 H3 H4 H5 [H6 H6'] H7] Hs.
  destruct HR as [?|HR]; [congruence|]. unfold rest in HR. rewrite Hs in *.
  split; try done.
  - intros Hc. specialize (H5 Hc). done.
  - cbn in H6'. by destruct (told a).
  - rewrite H6. exact (Nat.add_0_r k).
Qed.

Lemma busy_alive k a : busy k a -> shape ro a -> alive ro k a.
Proof.
  intros [H1 H2 H3 H4 H5 H6 H7 H8 H9] Hsh. split; try done.
  - unfold counts. rewrite H5, H8, H9. split; [exact (eq_sym (Nat.add_0_r k))|done].
  - unfold stuck_ok. rewrite H5. by intros [?|?].
Qed.

Lemma busy_idle k a : busy k a -> drv (a_tr a) = [] -> settled a -> idle ro k a.
Proof. intros [H1 H2 H3 H4 H5 H6 H7 H8 H9] Hd Hs. split; done. Qed.

(** ** Taking back locks *)

(** The [c]th counter counts [n] of [size]; [rem] locks are still to be asked for, and
    [extra] answers are about to be counted. *)
Definition locking (a : agent) (c : N) (rem extra : nat) : Prop :=
  drv (a_tr a) = [] /\ a_try a = c + 1 /\ settled_but a c /\
  exists n size v, a_cnt a !! c = Some (n, size, v) /\
    n + N.of_nat (pend c (a_tr a) + rem + extra) = size /\ n < size.

Lemma locking_alive k a c : busy k a -> locking a c 0 0 -> alive ro k a.
Proof.
  intros HB (H1 & H2 & H3 & n & size & v & H4 & H5 & H6).
  apply busy_alive; [done|]. unfold shape. rewrite (y_st _ _ HB). right. split; [done|].
  exists c, n, size, v. split_and!; try done. by rewrite <- H5, !Nat.add_0_r.
Qed.

Lemma locking_idle k a c rem : busy k a -> locking a c (S rem) 0 -> idle ro k a.
Proof.
  intros HB (H1 & H2 & H3 & n & size & v & H4 & H5 & H6).
  destruct H3 as [H3y H3]. apply busy_idle; [done..|]. split; [done|]. intros c' n' size' v' Hc.
  destruct (decide (c' = c)) as [->|Hne]; [|by eapply H3].
  rewrite H4 in Hc. injection Hc as <- <- <-. split; lia.
Qed.

Lemma counted k a c r rem : busy k a -> locking a c rem 1 ->
  (rem = 0%nat /\ alive ro k (lock_cb a (Reacq c) r)) \/
  (busy k (lock_cb a (Reacq c) r) /\ locking (lock_cb a (Reacq c) r) c rem 0).
Proof.
  intros HB (H1 & H2 & H3 & n & size & v & H4 & H5 & H6).
  unfold lock_cb. rewrite H4.
  set (b := with_cnt a (<[c:=(n + 1, size, v)]> (a_cnt a)) (a_try a)).
  assert (HBb : busy k b) by (by apply (busy_same k a)).
  destruct (N.eqb_spec (n + 1) size) as [Heq|Hneq].
  - left. split; [lia|]. destruct (y_tk _ _ HB) as [t Ht].
    apply (runner_lives ro k b t v); [|done|apply (y_st _ _ HBb)|apply (y_nc _ _ HBb)].
    destruct H3 as [H3y H3]. apply busy_idle; [done..|]. split; [done|]. intros c' n' size' v'. cbn [a_cnt b with_cnt].
    rewrite lookup_insert_Some. intros [[<- [= <- <- <-]]|[Hne Hc]].
    + split; [cbn; lia|]. right. split; [done|]. change (a_tr b) with (a_tr a). lia.
    + eapply H3; [exact Hc|congruence].
  - right. split; [done|]. split_and!; try done.
    + destruct H3 as [H3y H3]. split; [done|]. intros c' n' size' v'. cbn [a_cnt b with_cnt]. intros Hc Hne.
      rewrite lookup_insert_ne in Hc by done. by eapply H3.
    + exists (n + 1), size, v. cbn [a_cnt b with_cnt]. rewrite lookup_insert.
      split; [done|]. change (a_tr b) with (a_tr a). lia.
Qed.

(** ** A lock is asked for *)

Lemma pending_ans id r tr : pending (In (EvAnswer id r) :: tr) = filter (fun p : N * areq => p.1 <> id) (pending tr).
Proof. done. Qed.

Lemma lock_ask k a w t key m a1 c : busy k a -> a_tk a = Some t -> (ro = true -> m = Read) ->
  ask a (QaLock w t key m) = (a1, c) ->
  busy k a1 /\ a_cnt a1 = a_cnt a /\ a_try a1 = a_try a /\ drv (a_tr a1) = drv (a_tr a) /\
  match c with
  | Refuse => a_tr a1 = Out (OReq None (QaLock w t key m)) :: a_tr a
  | _ => a_tr a1 = Out (OReq (Some (a_next a)) (QaLock w t key m)) :: a_tr a
  end.
Proof.
  intros HB Ht Hro E.
  pose proof (fresh_id ro a) as Hfresh. destruct HB as [HC H2 H3 H4 H5 H6 H7 H8 H9].
  assert (Hcnt : a_cnt a1 = a_cnt a /\ a_try a1 = a_try a).
  { unfold ask in E. destruct (match a_ch a with [] => Later | c :: _ => c end); by injection E as <- <-. }
  destruct Hcnt as [Hcnt Htry].
  eapply (core_ask _ _ _ _ _ HC) in E as (HC2 & E1 & E2 & E3 & E4 & E5 & E6); try done.
  2:{ by intros t' [= <-]. }
  assert (Hgood : forall o, fine2 ro (Out (OReq o (QaLock w t key m))) (a_tr a)) by (intros o; by split).
  assert (Hsent : a_tr a1 = Out (OReq (Some (a_next a)) (QaLock w t key m)) :: a_tr a ->
    busy k a1 /\ a_cnt a1 = a_cnt a /\ a_try a1 = a_try a /\ drv (a_tr a1) = drv (a_tr a)).
  { intros Et. split_and!; try done.
    - split; try done; try congruence; rewrite ?Et.
      + done.
      + cbn [pending fmap list_fmap fst]. apply NoDup_cons. split; [|done].
        intros Hin. apply elem_of_list_fmap in Hin as ([i x] & Hi & Hin). cbn in Hi. subst i.
        by destruct (Hfresh x HC).
      + exists t. congruence.
      + intros Hc. apply (committed_cons_inv ro) in Hc; [|done].
        destruct Hc as [?|[(id & t' & u & Ei & _)|(id & t' & u & Ei & _)]]; [done|discriminate Ei..].
      + unfold told. rewrite Et. exact H8.
      + unfold retries. rewrite Et. exact H9.
    - rewrite Et. by rewrite drv_lock. }
  destruct c; [|by destruct (Hsent E6) as (? & ? & ? & ?)..].
  split_and!; try done; [|by rewrite E6].
  split; try done; try congruence; rewrite ?E6; try done.
  + exists t. congruence.
  + intros Hc. apply (committed_cons_inv ro) in Hc; [|done].
    destruct Hc as [?|[(id & t' & u & Ei & _)|(id & t' & u & Ei & _)]]; [done|discriminate Ei..].
  + unfold told. rewrite E6. exact H8.
  + unfold retries. rewrite E6. exact H9.
Qed.

(** The broker answers before it returns. *)
Lemma now_busy k a1 id w t key m r tr : busy k a1 ->
  a_tr a1 = Out (OReq (Some id) (QaLock w t key m)) :: tr -> (forall q, (id, q) ∉ pending tr) ->
  let b := emit a1 (In (EvAnswer id r)) in
  busy k b /\ pending (a_tr b) = pending tr.
Proof.
  intros HB Et Hfr b. destruct HB as [HC H2 H3 H4 H5 H6 H7 H8 H9].
  assert (Hp : pending (a_tr b) = pending tr).
  { cbn [b emit a_tr]. rewrite Et. cbn [pending]. rewrite filter_cons_False; [|cbn; intros Hq; by apply Hq].
    by apply remove_absent. }
  split; [|done]. split; try done.
  - apply core_emit; try done. intros id' r' [= <- <-]. eexists.
    apply (c_made _ _ HC). rewrite Et. apply elem_of_list_here.
  - rewrite Hp. rewrite Et in H4. cbn in H4. apply NoDup_cons in H4 as [_ H4]. exact H4.
  - intros Hc. apply (committed_cons_inv ro) in Hc; [|done].
    destruct Hc as [?|[(id' & t' & u & Ei & Ha)|(id' & t' & u & Ei & _)]]; [done| |discriminate Ei].
    injection Ei as <- ->. apply (c_made _ _ HC) in Ha.
    assert (a_made a1 !! id = Some (QaLock w t key m)) as Ha'.
    { apply (c_made _ _ HC). rewrite Et. apply elem_of_list_here. }
    congruence.
Qed.

Lemma handle_lock_busy k a w r : busy k a ->
  exists b, busy k b /\ handle_lock a w r = lock_cb b w r /\ a_tr b = a_tr a /\ a_cnt b = a_cnt a /\
    a_try b = a_try a.
Proof.
  intros HB. unfold handle_lock. rewrite (y_st _ _ HB).
  exists (if is_wounded r then with_wound a true else a).
  destruct (is_wounded r); split_and!; try done. by apply (busy_same k a).
Qed.

Lemma locking_same a b c rem extra : locking a c rem extra -> a_tr b = a_tr a -> a_cnt b = a_cnt a ->
  a_try b = a_try a -> locking b c rem extra.
Proof.
  intros (H1 & H2 & H3 & n & size & v & H4 & H5 & H6) E1 E2 E3.
  unfold locking, settled_but, young in *. destruct H3 as [H3y H3]. rewrite E1, E2, E3. split_and!; try done.
  by exists n, size, v.
Qed.

Lemma pend_pending c tr tr' : pending tr = pending tr' -> pend c tr = pend c tr'.
Proof. unfold pend. by intros ->. Qed.
Lemma drv_pending tr tr' : pending tr = pending tr' -> drv tr = drv tr'.
Proof. unfold drv. by intros ->. Qed.

Lemma reacquire_lives l : forall k a c, busy k a -> locking a c (length l) 0 ->
  alive ro k (reacquire ro a c l).
Proof.
  induction l as [|[key m] l IH]; intros k a c HB HL; [by eapply locking_alive|].
  cbn [reacquire length] in *.
  destruct (y_tk _ _ HB) as [t Ht].
  assert (Hfail : forall b, busy k b -> a_tk b = Some t -> locking b c (S (length l)) 0 ->
    alive ro k (fail b AGetFailed XRetrieval)).
  { intros b HBb Htb HLb. apply (fail_lives ro k b _ _ t); try done; [by eapply locking_idle|apply HBb]. }
  assert (Hcount : forall b r, busy k b -> locking b c (length l) 1 ->
    alive ro k (if a_dead (handle_lock b (Reacq c) r) then handle_lock b (Reacq c) r
             else reacquire ro (handle_lock b (Reacq c) r) c l)).
  { intros b r HBb HLb. destruct (handle_lock_busy k b (Reacq c) r HBb) as (b' & HB' & -> & E1 & E2 & E3).
    destruct (counted k b' c r (length l) HB') as [[Hl Ha]|[Ha Hb]].
    - by apply (locking_same b).
    - rewrite (l_dead _ _ _ Ha). destruct l; [done|discriminate Hl].
    - rewrite (y_dead _ _ Ha). by apply IH. }
  unfold take_lock. rewrite Ht, (y_st _ _ HB).
  destruct (ro && bool_decide (m = Write)) eqn:Ew.
  { rewrite (y_dead _ _ HB). by apply Hfail. }
  assert (HL1 : locking a c (length l) 1).
  { destruct HL as (H1 & H2 & H3 & n & size & v & H4 & H5 & H6). split_and!; try done.
    exists n, size, v. split_and!; [done|lia|done]. }
  destruct (a_wound a); [by apply Hcount|].
  set (a1 := match a_locks a !! key with Some Write => a | _ => with_locks a (<[key:=m]> (a_locks a)) end).
  assert (H1 : busy k a1 /\ a_tr a1 = a_tr a /\ a_cnt a1 = a_cnt a /\ a_try a1 = a_try a /\ a_tk a1 = Some t).
  { unfold a1. destruct (a_locks a !! key) as [[]|]; split_and!; try done; by apply (busy_same k a). }
  destruct H1 as (HB1 & F1 & F2 & F3 & F4).
  assert (HLa1 : locking a1 c (length l) 1) by (by apply (locking_same a)).
  assert (HLa1' : locking a1 c (S (length l)) 0) by (by apply (locking_same a)).
  destruct (ask a1 _) as [a2 ch] eqn:E.
  pose proof (ask_tk a1 (QaLock (Reacq c) t key (if ro then Read else m))) as Ek. rewrite E in Ek. cbn in Ek.
  apply (lock_ask k) in E as (HB2 & E1 & E2 & E3 & E4); try done.
  2:{ by intros ->. }
  destruct ch.
  - rewrite (y_dead _ _ HB2). apply Hfail; [done|congruence|].
    destruct HLa1' as (L1 & L2 & L3 & n & size & v & L4 & L5 & L6).
    unfold locking, settled_but, young in *. rewrite E1, E2, E3, E4. destruct L3 as [L3y L3].
    split_and!; try done. by exists n, size, v.
  - rewrite (y_dead _ _ HB2). apply IH; [done|].
    destruct HLa1' as (L1 & L2 & L3 & n & size & v & L4 & L5 & L6).
    unfold locking, settled_but, young in *. rewrite E1, E2, E3, E4. destruct L3 as [L3y L3].
    split_and!; try done.
    + intros c' Hc. rewrite pend_other; [by apply L3y|]. cbn. apply N.eqb_neq. lia.
    + intros c' n' size' v' Hc Hne. rewrite pend_other by (cbn; by apply N.eqb_neq, not_eq_sym). by eapply L3.
    + exists n, size, v. rewrite pend_lock by (cbn; apply N.eqb_refl). split_and!; [done|lia|done].
  - apply Hcount.
    + by apply (now_busy k a2 (a_next a1) (Reacq c) t key (if ro then Read else m) r (a_tr a1)); [done|done|intros q; apply (fresh_id ro), HB1].
    + destruct (now_busy k a2 (a_next a1) (Reacq c) t key (if ro then Read else m) r (a_tr a1)) as [N1 N2];
        [done|done|intros q; apply (fresh_id ro), HB1|].
      destruct HLa1 as (L1 & L2 & L3 & n & size & v & L4 & L5 & L6).
      unfold locking, settled_but, young in *. rewrite (drv_pending _ _ N2).
      cbn [a_cnt a_try emit]. rewrite E1, E2. destruct L3 as [L3y L3]. split_and!; try done.
      * intros c' Hc. rewrite (pend_pending c' _ _ N2). by apply L3y.
      * intros c' n' size' v' Hc Hne. rewrite (pend_pending c' _ _ N2). by eapply L3.
      * exists n, size, v. rewrite (pend_pending c _ _ N2). done.
Qed.

(** ** The runner asks for a lock *)

Lemma only_shape_locks a b : shape ro a -> a_st a = AStarted -> a_st b = AStarted ->
  a_cnt b = a_cnt a -> a_try b = a_try a ->
  drv (a_tr b) = drv (a_tr a) -> (forall c, pend c (a_tr b) = pend c (a_tr a)) ->
  (forall id, running (a_tr a) id -> running (a_tr b) id) -> shape ro b.
Proof.
  unfold shape. intros Hsh Hs Hs' Hc Hy Hd Hp Hr. rewrite Hs in Hsh. rewrite Hs'.
  destruct Hsh as [(id & v & H1 & H2 & H3)|(H1 & c & n & size & v & H2 & H3 & H4 & H5 & H6)].
  - left. exists id, v. split; [congruence|]. split; [auto|].
    destruct H3 as [H3y H3]. split; [intros c; rewrite Hp, Hy; apply H3y|].
    intros c n size v' Hc'. rewrite Hp, Hy. rewrite Hc in Hc'. by eapply H3.
  - right. split; [congruence|]. exists c, n, size, v. rewrite Hy, Hc, Hp. split_and!; try done.
    destruct H6 as [H6y H6]. split; [intros c'; rewrite Hp, Hy; apply H6y|].
    intros c' n' size' v' Hc' Hne. rewrite Hp, Hy. rewrite Hc in Hc'. by eapply H6.
Qed.

Lemma running_cons i tr id : (forall o q, i = Out (OReq o q) -> no_rollback q) ->
  running tr id -> running (i :: tr) id.
Proof.
  intros Hi (l & v & e & -> & Ho). exists (i :: l), v, e. split; [done|]. by apply only_cons.
Qed.

Lemma runner_lock_lives k a run key m : busy k a -> shape ro a ->
  alive ro k (take_lock ro a (Runner run) key m).1.
Proof.
  intros HB Hsh. destruct (y_tk _ _ HB) as [t Ht].
  assert (Hcb : forall b r, busy k b -> shape ro b -> alive ro k (handle_lock b (Runner run) r)).
  { intros b r HBb Hb. destruct (handle_lock_busy k b (Runner run) r HBb) as (b' & HB' & -> & E1 & E2 & E3).
    cbn. pose proof HB' as [G1 G2 G3 G4 G5 G6 G7 G8 G9].
    apply busy_alive.
    - split; try done; [by apply core_emit|]. by apply not_committed_out.
    - apply (only_shape_locks b); try done; cbn; rewrite ?E1; try done.
      + apply HBb.
      + intros id. by apply running_cons. }
  unfold take_lock. rewrite Ht, (y_st _ _ HB).
  destruct (ro && bool_decide (m = Write)); [by apply busy_alive|].
  destruct (a_wound a); [by apply Hcb|].
  set (a1 := match a_locks a !! key with Some Write => a | _ => with_locks a (<[key:=m]> (a_locks a)) end).
  assert (H1 : busy k a1 /\ a_tr a1 = a_tr a /\ a_cnt a1 = a_cnt a /\ a_try a1 = a_try a /\ a_tk a1 = Some t).
  { unfold a1. destruct (a_locks a !! key) as [[]|]; split_and!; try done; by apply (busy_same k a). }
  destruct H1 as (HB1 & F1 & F2 & F3 & F4).
  destruct (ask a1 _) as [a2 ch] eqn:E.
  apply (lock_ask k) in E as (HB2 & E1 & E2 & E3 & E4); try done.
  2:{ by intros ->. }
  assert (Hsh2 : shape ro a2).
  { apply (only_shape_locks a); try done; try congruence; try apply HB; try apply HB2.
    - intros c. destruct ch; rewrite E4, F1; rewrite ?pend_other by done; done.
    - intros id Hr. destruct ch; rewrite E4, F1; apply running_cons; try done;
        intros o q [= <- <-]; by intros ?. }
  destruct ch; cbn [fst].
  - by apply busy_alive.
  - by apply busy_alive.
  - destruct (now_busy k a2 (a_next a1) (Runner run) t key (if ro then Read else m) r (a_tr a1)) as [N1 N2];
      [done|done|intros q; apply (fresh_id ro), HB1|].
    apply Hcb; [done|].
    apply (only_shape_locks a); try done; cbn [a_cnt a_try emit a_st]; try congruence; try apply HB; try apply HB2.
    + rewrite (drv_pending _ _ N2). congruence.
    + intros c. rewrite (pend_pending c _ _ N2). congruence.
    + intros id Hr. cbn [a_tr emit]. rewrite E4, F1. apply running_cons; [done|].
      apply running_cons; [|done]. intros o q [= <- <-]. by intros ?.
Qed.

End Locks.
