(** Proofs about the locking shard. *)
From Coq Require Import NArith List Bool Lia Arith.
From stdpp Require Import base decidable list gmap.
From Verif Require Import Base TxModel CacheModel LockingShardModel LockingShardSpec.
Import ListNotations.
Open Scope N_scope.

Ltac inv H := inversion H; subst; clear H.

(** ** The shard as a sequence of events *)

Section Micro.
Variable c : shard_cfg.
Notation r := (sc_range c).

(** Effect of one event on (m_uhs, m_locked). *)
Definition mstep (e : event) (u l u' l' : gset N) : Prop :=
  match e with
  | Locked d i t =>
      sc_attested c t = true /\ (forall x, spends r t x = true -> x ∈ u) /\
      (forall x, x ∈ u' <-> x ∈ u /\ spends r t x = false) /\
      (forall x, x ∈ l' <-> x ∈ l \/ spends r t x = true)
  | Refused d i t =>
      (sc_attested c t = false \/ exists x, spends r t x = true /\ x ∉ u) /\
      u' = u /\ l' = l
  | Completed d i t =>
      (forall x, x ∈ u' <-> x ∈ u \/ creates r t x = true) /\
      (forall x, x ∈ l' <-> x ∈ l /\ spends r t x = false)
  | Cancelled d i t =>
      (forall x, x ∈ u' <-> x ∈ u \/ (spends r t x = true /\ x ∈ l)) /\
      (forall x, x ∈ l' <-> x ∈ l /\ spends r t x = false)
  end.

Definition wf_event (evs : list event) (e : event) : Prop :=
  match e with
  | Locked d i t | Refused d i t => forall t', ~ In (d, i, t') (holding evs)
  | Completed d i t | Cancelled d i t =>
      forall t', In (d, i, t') (holding evs) -> t' = t
  end.

Inductive msteps (u0 : gset N) : list event -> gset N -> gset N -> Prop :=
| ms_nil : msteps u0 [] u0 ∅
| ms_snoc evs u l e u' l' :
    msteps u0 evs u l -> wf_event evs e -> mstep e u l u' l' ->
    msteps u0 (evs ++ [e]) u' l'.

Lemma holding_snoc evs e : holding (evs ++ [e]) = hold_step (holding evs) e.
Proof. unfold holding. now rewrite fold_left_app. Qed.

Lemma spends_true t x :
  spends r t x = true <-> in_range r x = true /\ In x (ctx_inputs t).
Proof.
  unfold spends. rewrite andb_true_iff, bool_decide_eq_true, elem_of_list_In. tauto.
Qed.
Lemma creates_true t x :
  creates r t x = true <-> in_range r x = true /\ In x (ctx_outputs t).
Proof.
  unfold creates. rewrite andb_true_iff, bool_decide_eq_true, elem_of_list_In. tauto.
Qed.

Lemma lock_inputs_set ins u l u' l' :
  lock_inputs c ins u l = Done (u', l') ->
  (forall x, x ∈ u' <-> x ∈ u /\ ~ (mine c x = true /\ In x ins)) /\
  (forall x, x ∈ l' <-> x ∈ l \/ (mine c x = true /\ In x ins)).
Proof.
  revert u l. induction ins as [|y ins IH]; cbn; intros u l H.
  - inv H. split; intros x; tauto.
  - destruct (mine c y) eqn:Hy.
    + destruct (_ && _); [discriminate|].
      destruct (IH _ _ H) as [Hu Hl]. split; intros x.
      * rewrite Hu, elem_of_difference, elem_of_singleton.
        destruct (decide (x = y)) as [->|]; [tauto|]. intuition congruence.
      * rewrite Hl, elem_of_union, elem_of_singleton.
        destruct (decide (x = y)) as [->|]; [tauto|]. intuition congruence.
    + destruct (IH _ _ H) as [Hu Hl]. split; intros x.
      * rewrite Hu. destruct (decide (x = y)) as [->|]; intuition congruence.
      * rewrite Hl. destruct (decide (x = y)) as [->|]; intuition congruence.
Qed.

Lemma all_unspent_true ins u :
  all_unspent c ins u = true <->
  forall x, mine c x = true -> In x ins -> x ∈ u.
Proof.
  unfold all_unspent. rewrite forallb_forall. split.
  - intros H x Hm Hin. specialize (H x Hin). rewrite Hm in H.
    destruct (bool_decide_reflect (x ∈ u)); [done|discriminate].
  - intros H x Hin. destruct (mine c x) eqn:Hm; [|done].
    rewrite bool_decide_eq_true_2 by auto. done.
Qed.

Lemma all_unspent_false ins u :
  all_unspent c ins u = false ->
  exists x, mine c x = true /\ In x ins /\ x ∉ u.
Proof.
  intros H. induction ins as [|y ins IH]; cbn in *; [discriminate|].
  destruct (mine c y) eqn:Hm; cbn in *.
  - destruct (bool_decide_reflect (y ∈ u)); cbn in *.
    + destruct (IH H) as (x & ? & ? & ?). exists x. tauto.
    + exists y. tauto.
  - destruct (IH H) as (x & ? & ? & ?). exists x. tauto.
Qed.

Lemma check_and_lock_step d i t u l u' l' ok :
  check_and_lock_tx c t u l = Done (u', l', ok) ->
  mstep (if ok then Locked d i t else Refused d i t) u l u' l'.
Proof.
  unfold check_and_lock_tx. destruct (_ && _) eqn:E.
  - apply andb_true_iff in E as [Ha Hu].
    destruct (lock_inputs _ _ _ _) as [[u1 l1]| |] eqn:EL; cbn; intros H; inv H.
    destruct (lock_inputs_set _ _ _ _ _ EL) as [Su Sl].
    rewrite all_unspent_true in Hu. cbn.
    repeat match goal with |- _ /\ _ => split end; auto.
    + intros x Hx. apply spends_true in Hx as [? ?]. now apply Hu.
    + intros x. rewrite Su.
      destruct (spends r t x) eqn:Es; [apply spends_true in Es|]; unfold mine.
      * intuition congruence.
      * split; [tauto|]. intros [? _]. split; [done|]. intros Hs.
        apply spends_true in Hs. congruence.
    + intros x. rewrite Sl, spends_true. unfold mine. tauto.
  - intros H. inv H. cbn. split; [|done].
    apply andb_false_iff in E as [?|E]; [tauto|]. right.
    destruct (all_unspent_false _ _ E) as (x & ? & ? & ?).
    exists x. rewrite spends_true. unfold mine in *. tauto.
Qed.

Lemma lock_txs_steps u0 d txs : forall u l u' l' oks,
  lock_txs c txs u l = Done (u', l', oks) ->
  forall evs i, msteps u0 evs u l ->
  (forall j t', (i <= j)%nat -> ~ In (d, j, t') (holding evs)) ->
  length oks = length txs /\
  msteps u0 (evs ++ lock_events d i txs oks) u' l' /\
  (forall d' j t',
     In (d', j, t') (holding (evs ++ lock_events d i txs oks)) <->
     In (d', j, t') (holding evs) \/
     (d' = d /\ exists k, j = (i + k)%nat /\ nth_error txs k = Some t' /\
                nth_error oks k = Some true)).
Proof.
  induction txs as [|t txs IH]; cbn; intros u l u' l' oks H evs i Hm Hn.
  - inv H. cbn. rewrite app_nil_r. split; [done|]. split; [done|].
    intros d' j t'. split; [tauto|]. intros [?|(_ & k & _ & Hk & _)]; [done|].
    destruct k; discriminate.
  - destruct (check_and_lock_tx c t u l) as [[[u1 l1] ok]| |] eqn:E1; try discriminate.
    cbn in H. destruct (lock_txs c txs u1 l1) as [[[u2 l2] os]| |] eqn:E2; try discriminate.
    cbn in H. inv H.
    set (e := if ok then Locked d i t else Refused d i t).
    assert (Hm1 : msteps u0 (evs ++ [e]) u1 l1).
    { eapply ms_snoc; [exact Hm| |].
      - unfold e. destruct ok; cbn; intros t'; apply Hn; lia.
      - unfold e. now apply check_and_lock_step. }
    assert (Hh : holding (evs ++ [e])
                 = if ok then (d, i, t) :: holding evs else holding evs).
    { rewrite holding_snoc. unfold e. now destruct ok. }
    destruct (IH _ _ _ _ _ E2 (evs ++ [e]) (S i) Hm1) as (Hl & Hm2 & Hhold).
    { intros j t' Hj. rewrite Hh. destruct ok; cbn.
      - intros [Heq|Hin]; [inv Heq; lia|]. apply (Hn j t'); [lia|done].
      - apply Hn. lia. }
    cbn. fold e. replace (evs ++ e :: lock_events d (S i) txs os)
      with ((evs ++ [e]) ++ lock_events d (S i) txs os) by now rewrite <- app_assoc.
    split; [lia|]. split; [done|].
    intros d' j t'. rewrite Hhold, Hh. clear Hhold. split.
    + intros [Hin|(-> & k & -> & Hk & Hk2)].
      * destruct ok; [|tauto]. destruct Hin as [Heq|?]; [|tauto]. inv Heq.
        right. split; [done|]. exists 0%nat. cbn. split; [lia|]. tauto.
      * right. split; [done|]. exists (S k). cbn. split; [lia|]. tauto.
    + intros [Hin|(-> & k & -> & Hk & Hk2)].
      * left. destruct ok; [right|]; done.
      * destruct k; cbn in *.
        -- inv Hk. inv Hk2. left. left. do 2 f_equal. lia.
        -- right. split; [done|]. exists k. split; [lia|]. tauto.
Qed.

Lemma add_outputs_set complete outs u x :
  x ∈ add_outputs c complete outs u <->
  x ∈ u \/ (complete = true /\ mine c x = true /\ In x outs).
Proof.
  unfold add_outputs. revert u. induction outs as [|y outs IH]; cbn; intros u; [tauto|].
  rewrite IH. destruct (mine c y) eqn:Hy, complete; cbn;
    rewrite ?elem_of_union, ?elem_of_singleton;
    destruct (decide (x = y)) as [->|]; intuition congruence.
Qed.

Lemma release_inputs_set complete ins u l u' l' :
  release_inputs c complete ins (u, l) = (u', l') ->
  (forall x, x ∈ u' <-> x ∈ u \/
     (complete = false /\ mine c x = true /\ In x ins /\ x ∈ l)) /\
  (forall x, x ∈ l' <-> x ∈ l /\ ~ (mine c x = true /\ In x ins)).
Proof.
  unfold release_inputs. revert u l.
  induction ins as [|y ins IH]; cbn; intros u l H.
  - inv H. split; intros x; tauto.
  - destruct (mine c y) eqn:Hy.
    + destruct (IH _ _ H) as [Hu Hl]. clear IH H. split; intros x.
      * rewrite Hu, elem_of_difference, elem_of_singleton. clear Hu Hl.
        destruct complete; cbn.
        { intuition congruence. }
        destruct (bool_decide_reflect (y ∈ l)); cbn;
          rewrite ?elem_of_union, ?elem_of_singleton;
          destruct (decide (x = y)) as [->|]; intuition congruence.
      * rewrite Hl, elem_of_difference, elem_of_singleton.
        destruct (decide (x = y)) as [->|]; intuition congruence.
    + destruct (IH _ _ H) as [Hu Hl]. clear IH H. split; intros x.
      * rewrite Hu. destruct (decide (x = y)) as [->|]; intuition congruence.
      * rewrite Hl. destruct (decide (x = y)) as [->|]; intuition congruence.
Qed.

Lemma apply_tx_step d i t f u l q u' l' q' :
  apply_tx c f t (u, l, q) = (u', l', q') ->
  mstep (if f then Completed d i t else Cancelled d i t) u l u' l'.
Proof.
  unfold apply_tx.
  destruct (release_inputs _ _ _ _) as [u1 l1] eqn:E. intros H. inv H.
  destruct (release_inputs_set _ _ _ _ _ _ E) as [Hu Hl]. clear E.
  assert (Hl' : forall x, x ∈ l' <-> x ∈ l /\ spends r t x = false).
  { intros x. rewrite Hl. destruct (spends r t x) eqn:Es.
    - apply spends_true in Es. unfold mine. intuition congruence.
    - split; [tauto|]. intros [? _]. split; [done|]. intros Hs.
      apply spends_true in Hs. congruence. }
  destruct f; cbn; (split; [|exact Hl']); intros x; rewrite Hu, add_outputs_set.
  - rewrite creates_true. unfold mine. intuition congruence.
  - rewrite spends_true. unfold mine. intuition congruence.
Qed.

Lemma in_hold_filter (h : list (N * nat * compact_tx)) d i d' j t' :
  In (d', j, t') (List.filter (fun k => negb (bool_decide (fst k = (d, i)))) h) <->
  In (d', j, t') h /\ ~ (d' = d /\ j = i).
Proof.
  rewrite filter_In. cbn.
  destruct (bool_decide_reflect ((d', j) = (d, i))) as [E|E]; cbn.
  - inv E. intuition congruence.
  - intuition. subst. tauto.
Qed.

Lemma apply_txs_steps u0 d : forall txs flags u l q u' l' q',
  apply_txs c flags txs (u, l, q) = (u', l', q') ->
  length flags = length txs ->
  forall evs i, msteps u0 evs u l ->
  (forall k t', In (d, (i + k)%nat, t') (holding evs) -> nth_error txs k = Some t') ->
  msteps u0 (evs ++ apply_events d i txs flags) u' l' /\
  (forall d' j t',
     In (d', j, t') (holding (evs ++ apply_events d i txs flags)) <->
     In (d', j, t') (holding evs) /\ ~ (d' = d /\ (i <= j)%nat)).
Proof.
  induction txs as [|t txs IH]; intros flags u l q u' l' q' H Hlen evs i Hm Hn.
  - destruct flags; [|discriminate]. cbn in *. inv H. rewrite app_nil_r.
    split; [done|]. intros d' j t'. split; [|tauto]. intros Hin. split; [done|].
    intros [-> Hle]. specialize (Hn (j - i)%nat t').
    replace (i + (j - i))%nat with j in Hn by lia. specialize (Hn Hin).
    destruct (j - i)%nat; discriminate.
  - destruct flags as [|f flags]; [discriminate|]. cbn [apply_txs] in H.
    destruct (apply_tx c f t (u, l, q)) as [[u1 l1] q1] eqn:E1.
    set (e := if f then Completed d i t else Cancelled d i t).
    assert (Hm1 : msteps u0 (evs ++ [e]) u1 l1).
    { eapply ms_snoc; [exact Hm| |].
      - assert (G : forall t', In (d, i, t') (holding evs) -> t' = t).
        { intros t' Hin. specialize (Hn 0%nat t'). cbn in Hn.
          rewrite Nat.add_0_r in Hn. specialize (Hn Hin). congruence. }
        unfold e. destruct f; cbn; exact G.
      - unfold e. eapply apply_tx_step. exact E1. }
    assert (Hh : forall d' j t', In (d', j, t') (holding (evs ++ [e])) <->
                 In (d', j, t') (holding evs) /\ ~ (d' = d /\ j = i)).
    { intros d' j t'. rewrite holding_snoc. unfold e.
      destruct f; cbn [hold_step]; apply in_hold_filter. }
    destruct (IH flags _ _ _ _ _ _ H ltac:(cbn in Hlen; lia) (evs ++ [e]) (S i) Hm1)
      as [Hm2 Hhold].
    { intros k t' Hin. apply Hh in Hin as [Hin _].
      specialize (Hn (S k) t'). cbn in Hn. apply Hn.
      now replace (i + S k)%nat with (S (i + k)) by lia. }
    cbn [apply_events]. fold e.
    replace (evs ++ e :: apply_events d (S i) txs flags)
      with ((evs ++ [e]) ++ apply_events d (S i) txs flags) by now rewrite <- app_assoc.
    split; [done|]. intros d' j t'. rewrite Hhold, Hh. split.
    + intros [[? Hne] Hge]. split; [done|]. intros [-> Hle].
      destruct (decide (j = i)); [tauto|]. apply Hge. split; [done|lia].
    + intros [? Hge]. repeat split; auto; intros [-> ?]; apply Hge; split; auto; lia.
Qed.

(** ** Requests *)

Record linked (u0 : gset N) (s : shard) (open : gmap N (list compact_tx))
    (evs : list event) : Prop := {
  lk_running : sh_running s = true;
  lk_steps : msteps u0 evs (sh_uhs s) (sh_locked s);
  lk_open : forall d, open !! d = pd_txs <$> (sh_prepared s !! d);
  lk_len : forall d p, sh_prepared s !! d = Some p ->
             length (pd_results p) = length (pd_txs p);
  lk_hold : forall d i t, In (d, i, t) (holding evs) <->
     exists p, sh_prepared s !! d = Some p /\ nth_error (pd_txs p) i = Some t /\
       nth_error (pd_results p) i = Some true }.

Lemma linked_new preseed cache :
  linked preseed (shard_new preseed cache) ∅ [].
Proof.
  constructor; cbn [sh_running sh_uhs sh_locked sh_prepared shard_new]; auto.
  - constructor.
  - intros d. now rewrite !lookup_empty.
  - intros d i t. split; [intros []|]. intros (p & Hp & _).
    rewrite lookup_empty in Hp. discriminate.
Qed.

Lemma process_linked u0 s open evs rq s' rp :
  linked u0 s open evs ->
  process_request c s rq = Done (s', rp) ->
  linked u0 s' (fst (read_call open rq rp)) (evs ++ snd (read_call open rq rp)).
Proof.
  intros [Hrun Hst Hopen Hlen Hhold] H. destruct rq as [d txs|d flags|d]; cbn in H.
  - unfold lock_outputs in H. rewrite Hrun in H. cbn in H.
    destruct (sh_prepared s !! d) as [p|] eqn:Ep; cbn in H.
    + inv H. cbn. rewrite Hopen, Ep. cbn. rewrite app_nil_r. now constructor.
    + destruct (lock_txs c txs (sh_uhs s) (sh_locked s)) as [[[u l] oks]| |] eqn:El;
        cbn in H; [|discriminate..].
      inv H. cbn. rewrite Hopen, Ep. cbn.
      assert (Hnone : forall j t', ~ In (d, j, t') (holding evs)).
      { intros j t' Hin. apply Hhold in Hin as (p & Hp & _). congruence. }
      destruct (lock_txs_steps u0 d txs _ _ _ _ _ El evs 0%nat Hst) as (Hl & Hm & Hh).
      { intros; apply Hnone. }
      constructor; cbn; auto.
      * intros d'. destruct (decide (d' = d)) as [->|Hne].
        -- now rewrite !lookup_insert.
        -- now rewrite !lookup_insert_ne by auto.
      * intros d' p'. destruct (decide (d' = d)) as [->|Hne].
        -- rewrite lookup_insert. intros E. inv E. cbn. lia.
        -- rewrite lookup_insert_ne by auto. apply Hlen.
      * intros d' i t. rewrite Hh. destruct (decide (d' = d)) as [->|Hne].
        -- rewrite lookup_insert. split.
           ++ intros [Hin|(_ & k & -> & Hk & Hk2)]; [exfalso; eapply Hnone; eauto|].
              eexists. split; [done|]. cbn. auto.
           ++ intros (p & Hp & Ht & Hr). inv Hp. cbn in *. right. split; [done|].
              exists i. auto.
        -- rewrite lookup_insert_ne by auto. rewrite Hhold. split; [|tauto].
           intros [?|[? _]]; [done|congruence].
  - unfold apply_outputs in H. rewrite Hrun in H. cbn in H.
    destruct (sh_prepared s !! d) as [p|] eqn:Ep.
    + destruct (length flags =? length (pd_txs p))%nat eqn:Elen; cbn in H; [|discriminate].
      apply Nat.eqb_eq in Elen.
      destruct (apply_txs c flags (pd_txs p) _) as [[u l] q] eqn:Ea.
      cbn in H. rewrite andb_false_r in H. inv H. cbn. rewrite Hopen, Ep. cbn.
      destruct (apply_txs_steps u0 d _ _ _ _ _ _ _ _ Ea Elen evs 0%nat Hst) as [Hm Hh].
      { intros k t' Hin. apply Hhold in Hin as (p' & Hp' & Ht & _).
        cbn in *. congruence. }
      constructor; cbn; auto.
      * intros d'. destruct (decide (d' = d)) as [->|Hne].
        -- now rewrite !lookup_delete.
        -- now rewrite !lookup_delete_ne by auto.
      * intros d' p'. destruct (decide (d' = d)) as [->|Hne].
        -- rewrite lookup_delete. discriminate.
        -- rewrite lookup_delete_ne by auto. apply Hlen.
      * intros d' i t. rewrite Hh. destruct (decide (d' = d)) as [->|Hne].
        -- rewrite lookup_delete. split.
           ++ intros [_ Hno]. exfalso. apply Hno. split; [done|lia].
           ++ intros (? & ? & _). discriminate.
        -- rewrite lookup_delete_ne by auto. rewrite Hhold. split; [tauto|].
           intros ?. split; [done|]. intros [? _]. congruence.
    + destruct (bool_decide _); [|discriminate]. cbn in H.
      rewrite andb_false_r in H. inv H. cbn. rewrite Hopen, Ep. cbn.
      rewrite app_nil_r. now constructor.
  - unfold discard_dtx in H. rewrite Hrun in H. cbn in H.
    rewrite andb_false_r in H. inv H. cbn. rewrite app_nil_r. now constructor.
Qed.

Lemma run_linked u0 rqs : forall s open evs s' rps,
  linked u0 s open evs ->
  run_shard c s rqs = Done (s', rps) ->
  exists open', linked u0 s' open' (evs ++ read_history open rqs rps).
Proof.
  induction rqs as [|rq rqs IH]; cbn; intros s open evs s' rps HL H.
  - inv H. exists open. now rewrite app_nil_r.
  - destruct (process_request c s rq) as [[s1 rp]| |] eqn:E1; cbn in H; try discriminate.
    destruct (run_shard c s1 rqs) as [[s2 rs]| |] eqn:E2; cbn in H; try discriminate.
    inv H.
    pose proof (process_linked _ _ _ _ _ _ _ HL E1) as HL1.
    destruct (read_call open rq rp) as [open1 evs1] eqn:Er. cbn in HL1.
    destruct (IH _ _ _ _ _ HL1 E2) as [open' HL2]. exists open'.
    now rewrite app_assoc.
Qed.

Lemma reaches_linked preseed cache rqs s rps :
  reaches c preseed cache rqs s rps ->
  exists open, linked preseed s open (history rqs rps).
Proof. apply (run_linked preseed rqs _ ∅ []). apply linked_new. Qed.

(** ** Counting *)

Definition b2n (b : bool) : nat := if b then 1 else 0.
Definition nholders (x : N) (h : list (N * nat * compact_tx)) : nat :=
  length (List.filter (fun k => spends r (snd k) x) h).

Lemma times_spent_app x e1 e2 :
  times_spent r x (e1 ++ e2) = (times_spent r x e1 + times_spent r x e2)%nat.
Proof. induction e1 as [|[] e1 IH]; cbn; lia. Qed.
Lemma times_created_app x e1 e2 :
  times_created r x (e1 ++ e2) = (times_created r x e1 + times_created r x e2)%nat.
Proof. induction e1 as [|[] e1 IH]; cbn; lia. Qed.
Lemma unspent_snoc u0 evs e x :
  unspent r u0 (evs ++ [e]) x = unspent_step r x (unspent r u0 evs x) e.
Proof. unfold unspent. now rewrite fold_left_app. Qed.

Lemma keys_nodup u0 evs u l :
  msteps u0 evs u l -> List.NoDup (map fst (holding evs)).
Proof.
  induction 1 as [|evs u l e u' l' Hm IH Hwf Hs]; [constructor|].
  assert (F : forall f, List.NoDup (map fst (List.filter f (holding evs)))).
  { intros f. clear -IH. induction (holding evs) as [|k h IHh]; cbn; [constructor|].
    inv IH. destruct (f k); cbn; [|auto]. constructor; [|auto].
    intros Hin. apply H1. apply in_map_iff in Hin as (k' & <- & Hin).
    apply filter_In in Hin as [? _]. now apply in_map. }
  rewrite holding_snoc. destruct e; cbn in *; auto.
  constructor; [|done]. intros Hin. apply in_map_iff in Hin as ([k t'] & Hk & Hin).
  cbn in Hk. subst. eapply Hwf; eauto.
Qed.

Lemma nholders_filter x (h : list (N * nat * compact_tx)) d i t :
  List.NoDup (map fst h) -> In (d, i, t) h ->
  nholders x h =
  (b2n (spends r t x) +
   nholders x (List.filter (fun k => negb (bool_decide (fst k = (d, i)))) h))%nat.
Proof.
  unfold nholders. induction h as [|k h IH]; cbn [In map]; intros Hnd Hin; [tauto|].
  inv Hnd. destruct Hin as [->|Hin].
  - cbn. rewrite bool_decide_eq_true_2 by done. cbn.
    assert (E : List.filter (fun k => negb (bool_decide (fst k = (d, i)))) h = h).
    { clear -H1. cbn in H1. induction h as [|k h IH]; cbn; [done|].
      rewrite bool_decide_eq_false_2.
      - cbn. f_equal. apply IH. cbn in *. tauto.
      - intros E. apply H1. cbn. left. done. }
    rewrite E. destruct (spends r t x); cbn; lia.
  - cbn. rewrite bool_decide_eq_false_2.
    + cbn. destruct (spends r (snd k) x); cbn; rewrite (IH H2 Hin); lia.
    + intros E. apply H1. rewrite E.
      change (d, i) with (fst (d, i, t)). now apply in_map.
Qed.

Lemma nholders_pos x h :
  nholders x h <> 0%nat <->
  exists d i t, In (d, i, t) h /\ spends r t x = true.
Proof.
  unfold nholders. split.
  - intros H. destruct (List.filter _ h) as [|[[d i] t] h'] eqn:E; [now cbn in H|].
    exists d, i, t. assert (Hin : In (d, i, t) (List.filter (fun k => spends r (snd k) x) h)).
    { rewrite E. now left. }
    apply filter_In in Hin. done.
  - intros (d & i & t & Hin & Hs) E.
    assert (Hin' : In (d, i, t) (List.filter (fun k => spends r (snd k) x) h)).
    { apply filter_In. done. }
    destruct (List.filter _ h); [done|discriminate].
Qed.

Lemma filter_absent (h : list (N * nat * compact_tx)) d i :
  (forall t : compact_tx, ~ In (d, i, t) h) ->
  List.filter (fun k => negb (bool_decide (fst k = (d, i)))) h = h.
Proof.
  induction h as [|[k t] h IH]; cbn; intros H; [done|].
  rewrite bool_decide_eq_false_2.
  - cbn. f_equal. apply IH. intros t' Hin. eapply H. right; eauto.
  - intros ->. eapply H. now left.
Qed.

(** Locked UHS IDs have a holder, whatever the caller does. *)
Lemma locked_held u0 evs u l x :
  msteps u0 evs u l -> x ∈ l -> nholders x (holding evs) <> 0%nat.
Proof.
  intros Hm. revert x. induction Hm as [|evs u l e u' l' Hm IH Hwf Hs]; intros x Hx.
  { exfalso. now apply not_elem_of_empty in Hx. }
  rewrite holding_snoc.
  destruct e as [d i t|d i t|d i t|d i t]; cbn [mstep hold_step wf_event] in *.
  - destruct Hs as (_ & _ & _ & Hl). apply Hl in Hx as [Hx|Hx].
    + apply nholders_pos. apply IH, nholders_pos in Hx as (d' & i' & t' & ? & ?).
      exists d', i', t'. split; [now right|done].
    + apply nholders_pos. exists d, i, t. split; [now left|done].
  - destruct Hs as (_ & _ & ->). auto.
  - destruct Hs as [_ Hl]. apply Hl in Hx as [Hx Hn].
    apply IH, nholders_pos in Hx as (d' & i' & t' & ? & ?). apply nholders_pos.
    exists d', i', t'. split; [|done]. apply in_hold_filter. split; [done|].
    intros [-> ->]. apply Hwf in H. congruence.
  - destruct Hs as [_ Hl]. apply Hl in Hx as [Hx Hn].
    apply IH, nholders_pos in Hx as (d' & i' & t' & ? & ?). apply nholders_pos.
    exists d', i', t'. split; [|done]. apply in_hold_filter. split; [done|].
    intros [-> ->]. apply Hwf in H. congruence.
Qed.

Lemma prefix_rule {P : list event -> event -> Prop} evs e :
  (forall e1 e' e2, evs ++ [e] = e1 ++ e' :: e2 -> P e1 e') ->
  (forall e1 e' e2, evs = e1 ++ e' :: e2 -> P e1 e') /\ P evs e.
Proof.
  intros H. split.
  - intros e1 e' e2 ->. eapply H. rewrite <- app_assoc. reflexivity.
  - eapply H. reflexivity.
Qed.

Lemma completes_locked_snoc evs e :
  completes_locked (evs ++ [e]) ->
  completes_locked evs /\
  (forall d i t, e = Completed d i t -> In (d, i, t) (holding evs)).
Proof.
  intros H. split.
  - intros e1 d i t e2 ->. eapply H. rewrite <- app_assoc. reflexivity.
  - intros d i t ->. eapply H. reflexivity.
Qed.

Lemma no_conflict_snoc evs e :
  no_conflicting_cancel r (evs ++ [e]) ->
  no_conflicting_cancel r evs /\
  (forall d i t x, e = Cancelled d i t -> ~ In (d, i, t) (holding evs) ->
     spends r t x = true -> nholders x (holding evs) = 0%nat).
Proof.
  intros H. split.
  - intros e1 d i t e2 d' i' t' x ->. eapply H. rewrite <- app_assoc. reflexivity.
  - intros d i t x -> Hn Hs. destruct (decide (nholders x (holding evs) = 0%nat)); [done|].
    exfalso. apply nholders_pos in n as (d' & i' & t' & Hin & Hs').
    rewrite (H evs d i t [] d' i' t' x eq_refl Hn Hin Hs) in Hs'. discriminate.
Qed.

Lemma fresh_snoc u0 evs e :
  fresh_outputs r u0 (evs ++ [e]) ->
  fresh_outputs r u0 evs /\
  (forall d i t x, e = Completed d i t -> creates r t x = true ->
     unspent r u0 evs x = false).
Proof.
  intros H. split.
  - intros e1 d i t e2 x ->. eapply H. rewrite <- app_assoc. reflexivity.
  - intros d i t x ->. eapply H. reflexivity.
Qed.

(** The supply of one UHS ID. *)
Lemma supply_bound u0 evs u l x :
  msteps u0 evs u l -> in_range r x = true ->
  completes_locked evs -> no_conflicting_cancel r evs ->
  (times_spent r x evs + b2n (bool_decide (x ∈ u)) + nholders x (holding evs)
   <= b2n (bool_decide (x ∈ u0)) + times_created r x evs)%nat.
Proof.
  intros Hm Hx. induction Hm as [|evs u l e u' l' Hm IH Hwf Hs]; intros Hc Hn.
  { cbn. lia. }
  apply completes_locked_snoc in Hc as [Hc Hc1].
  apply no_conflict_snoc in Hn as [Hn Hn1]. specialize (IH Hc Hn).
  pose proof (keys_nodup _ _ _ _ Hm) as Hnd.
  rewrite holding_snoc, times_spent_app, times_created_app.
  destruct e as [d i t|d i t|d i t|d i t]; cbn [mstep hold_step wf_event] in *;
    cbn [times_spent times_created].
  - destruct Hs as (_ & Hu & Hu' & _). unfold nholders in *. cbn [List.filter snd].
    destruct (spends r t x) eqn:Es; cbn [length].
    + rewrite (bool_decide_eq_true_2 (x ∈ u)) in IH by auto.
      rewrite (bool_decide_eq_false_2 (x ∈ u')).
      * cbn [b2n] in *. lia.
      * rewrite Hu'. intros [_ ?]. congruence.
    + rewrite (bool_decide_ext (x ∈ u') (x ∈ u)); [lia|]. rewrite Hu'. tauto.
  - destruct Hs as (_ & -> & ->). lia.
  - destruct Hs as [Hu _].
    rewrite (nholders_filter x _ d i t Hnd) in IH by auto.
    assert (b2n (bool_decide (x ∈ u'))
            <= b2n (bool_decide (x ∈ u)) + (if creates r t x then 1 else 0))%nat.
    { destruct (bool_decide_reflect (x ∈ u')) as [Hin|]; cbn [b2n]; [|lia].
      apply Hu in Hin as [Hin| ->]; [rewrite bool_decide_eq_true_2 by done; cbn; lia|lia]. }
    unfold b2n in *. destruct (spends r t x); lia.
  - destruct Hs as [Hu _].
    destruct (in_dec (fun a b => decide (a = b)) (d, i, t) (holding evs)) as [Hin|Hin].
    + rewrite (nholders_filter x _ d i t Hnd Hin) in IH.
      assert (b2n (bool_decide (x ∈ u'))
              <= b2n (bool_decide (x ∈ u)) + b2n (spends r t x))%nat.
      { destruct (bool_decide_reflect (x ∈ u')) as [Hx'|]; cbn [b2n]; [|lia].
        apply Hu in Hx' as [Hx'|[-> _]];
          [rewrite bool_decide_eq_true_2 by done; cbn; lia|cbn; lia]. }
      lia.
    + rewrite filter_absent.
      2:{ intros t' Hin'. pose proof (Hwf _ Hin'). congruence. }
      assert (b2n (bool_decide (x ∈ u')) <= b2n (bool_decide (x ∈ u)))%nat; [|lia].
      destruct (bool_decide_reflect (x ∈ u')) as [Hx'|]; cbn [b2n]; [|lia].
      apply Hu in Hx' as [Hx'|[Hs' Hl]];
        [rewrite bool_decide_eq_true_2 by done; cbn; lia|].
      exfalso. apply (locked_held _ _ _ _ _ Hm) in Hl. eauto.
Qed.

(** Spendable and locked stay disjoint when created IDs are new to the shard. *)
Lemma disjoint_if u0 evs u l :
  msteps u0 evs u l ->
  (forall e1 d i t e2 x d' i' t', evs = e1 ++ Completed d i t :: e2 ->
     creates r t x = true -> In (d', i', t') (holding e1) -> spends r t' x = false) ->
  forall x, x ∈ u -> x ∉ l.
Proof.
  induction 1 as [|evs u l e u' l' Hm IH Hwf Hs]; intros Hf x Hu' Hl'.
  { now apply not_elem_of_empty in Hl'. }
  assert (IH' : forall x, x ∈ u -> x ∉ l).
  { apply IH. intros e1 d i t e2 y d' i' t' ->. eapply Hf. rewrite <- app_assoc. reflexivity. }
  clear IH.
  destruct e as [d i t|d i t|d i t|d i t]; cbn [mstep wf_event] in *.
  - destruct Hs as (_ & _ & Hu & Hl). apply Hu in Hu' as [Hu' ?].
    apply Hl in Hl' as [?|?]; [now apply (IH' x)|congruence].
  - destruct Hs as (_ & -> & ->). now apply (IH' x).
  - destruct Hs as [Hu Hl]. apply Hl in Hl' as [Hl' Hns].
    apply Hu in Hu' as [?|Hcr]; [now apply (IH' x)|].
    apply (locked_held _ _ _ _ _ Hm), nholders_pos in Hl' as (d' & i' & t' & Hin & Hsp).
    rewrite (Hf evs d i t [] x d' i' t' eq_refl Hcr Hin) in Hsp. discriminate.
  - destruct Hs as [Hu Hl]. apply Hl in Hl' as [Hl' Hns].
    apply Hu in Hu' as [?|[? _]]; [now apply (IH' x)|congruence].
Qed.

(** Under the callers' rules the shard is the ideal ledger. *)
Lemma ideal_ledger u0 evs u l x :
  msteps u0 evs u l -> in_range r x = true ->
  completes_locked evs -> no_conflicting_cancel r evs -> fresh_outputs r u0 evs ->
  (x ∈ l <-> nholders x (holding evs) <> 0%nat) /\
  (nholders x (holding evs) <= 1)%nat /\
  (x ∈ u <-> unspent r u0 evs x = true /\ nholders x (holding evs) = 0%nat) /\
  (nholders x (holding evs) <> 0%nat -> unspent r u0 evs x = true).
Proof.
  intros Hm Hx. induction Hm as [|evs u l e u' l' Hm IH Hwf Hs]; intros Hc Hn Hf.
  { unfold unspent. cbn. repeat split; try lia.
    - intros H. now apply not_elem_of_empty in H.
    - now apply bool_decide_eq_true.
    - intros [H _]. now apply bool_decide_eq_true in H. }
  apply completes_locked_snoc in Hc as [Hc Hc1].
  apply no_conflict_snoc in Hn as [Hn Hn1].
  apply fresh_snoc in Hf as [Hf Hf1].
  specialize (IH Hc Hn Hf) as (IHl & IH1 & IHu & IHh).
  pose proof (keys_nodup _ _ _ _ Hm) as Hnd.
  rewrite holding_snoc, unspent_snoc.
  destruct e as [d i t|d i t|d i t|d i t]; cbn [mstep hold_step wf_event unspent_step] in *.
  - destruct Hs as (_ & Hu & Hu' & Hl').
    assert (E : nholders x ((d, i, t) :: holding evs)
                = (b2n (spends r t x) + nholders x (holding evs))%nat).
    { unfold nholders. cbn. destruct (spends r t x); reflexivity. }
    rewrite E. destruct (spends r t x) eqn:Es; cbn [b2n].
    + pose proof (proj1 IHu (Hu _ Es)) as [H1 H2].
      rewrite Hu', Hl', Es. split; [split; [lia|tauto]|]. split; [lia|].
      split; [|auto]. split; intros [? ?]; [congruence|lia].
    + cbn [plus]. rewrite Hu', Hl', Es. rewrite IHl, IHu. intuition congruence.
  - destruct Hs as (_ & -> & ->). auto.
  - destruct Hs as [Hu' Hl'].
    pose proof (Hc1 _ _ _ eq_refl) as Hin.
    pose proof (nholders_filter x _ d i t Hnd Hin) as E.
    rewrite Hu', Hl', IHl, IHu.
    destruct (creates r t x) eqn:Ec.
    + pose proof (Hf1 _ _ _ x eq_refl Ec) as Hun.
      assert (H0 : nholders x (holding evs) = 0%nat).
      { destruct (decide (nholders x (holding evs) = 0%nat)); [done|].
        apply IHh in n. congruence. }
      rewrite H0 in *. destruct (spends r t x); cbn [b2n] in E; [lia|].
      rewrite <- (eq_sym E). rewrite orb_true_r. cbn.
      assert (nholders x (List.filter (fun k => negb (bool_decide (fst k = (d, i))))
               (holding evs)) = 0)%nat as -> by lia.
      intuition (try congruence; try lia).
    + rewrite orb_false_r. destruct (spends r t x) eqn:Es; cbn [b2n] in E; cbn [negb].
      * assert (nholders x (List.filter (fun k => negb (bool_decide (fst k = (d, i))))
               (holding evs)) = 0)%nat as -> by lia.
        rewrite andb_false_r. intuition (try congruence; try lia).
      * rewrite andb_true_r. cbn [plus] in E. rewrite <- E.
        intuition (try congruence; try lia).
  - destruct Hs as [Hu' Hl'].
    destruct (in_dec (fun a b => decide (a = b)) (d, i, t) (holding evs)) as [Hin|Hin].
    + pose proof (nholders_filter x _ d i t Hnd Hin) as E.
      rewrite Hu', Hl', IHl, IHu.
      destruct (spends r t x) eqn:Es; cbn [b2n] in E.
      * assert (nholders x (List.filter (fun k => negb (bool_decide (fst k = (d, i))))
               (holding evs)) = 0)%nat as -> by lia.
        assert (nholders x (holding evs) <> 0%nat) by lia.
        intuition (try congruence; try lia).
      * cbn [plus] in E. rewrite <- E. intuition (try congruence; try lia).
    + rewrite filter_absent.
      2:{ intros t' Hin'. pose proof (Hwf _ Hin'). congruence. }
      rewrite Hu', Hl'. destruct (spends r t x) eqn:Es.
      * assert (Hz : nholders x (holding evs) = 0%nat) by eauto.
        rewrite IHl, IHu, Hz. intuition (try congruence; try lia).
      * rewrite IHl, IHu. intuition (try congruence; try lia).
Qed.

(** Every event of a history splits it into a shorter history. *)
Lemma msteps_split u0 evs u l e1 e e2 :
  msteps u0 evs u l -> evs = e1 ++ e :: e2 ->
  exists u1 l1 u2 l2, msteps u0 e1 u1 l1 /\ wf_event e1 e /\ mstep e u1 l1 u2 l2.
Proof.
  intros Hm. revert e2. induction Hm as [|evs u l e' u' l' Hm IH Hwf Hs]; intros e2 E.
  { destruct e1; discriminate. }
  destruct e2 as [|e3 e2 _] using rev_ind.
  - apply app_inj_tail in E as [-> ->]. eauto 10.
  - rewrite app_comm_cons, app_assoc in E. apply app_inj_tail in E as [-> ->]. eauto.
Qed.
End Micro.
