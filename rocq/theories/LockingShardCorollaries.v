(** Statements about whole histories of a locking shard. *)
From Coq Require Import NArith List Bool Lia Arith.
From stdpp Require Import base decidable list gmap.
From Verif Require Import Base CodecModel TxModel CacheModel CacheProofs
  LockingShardModel LockingShardSpec LockingShardProofs.
Import ListNotations.
Open Scope N_scope.

Section Hist.
Variable c : shard_cfg.
Notation r := (sc_range c).
Variables (preseed : gset N) (cache : N).

Lemma no_double_spend rqs s rps x :
  reaches c preseed cache rqs s rps -> in_range r x = true ->
  completes_locked (history rqs rps) -> no_conflicting_cancel r (history rqs rps) ->
  (times_spent r x (history rqs rps)
   <= (if bool_decide (x ∈ preseed) then 1 else 0)
      + times_created r x (history rqs rps))%nat.
Proof.
  intros H Hx Hc Hn. apply reaches_linked in H as [open L].
  pose proof (supply_bound c preseed _ _ _ x (lk_steps _ _ _ _ _ L) Hx Hc Hn).
  unfold b2n in *. lia.
Qed.

Lemma completes_locked_pre e1 e2 :
  completes_locked (e1 ++ e2) -> completes_locked e1.
Proof. intros H f1 d i t f2 ->. eapply H. rewrite <- app_assoc. reflexivity. Qed.
Lemma no_conflict_pre e1 e2 :
  no_conflicting_cancel r (e1 ++ e2) -> no_conflicting_cancel r e1.
Proof. intros H f1 d i t f2 d' i' t' x ->. eapply H. rewrite <- app_assoc. reflexivity. Qed.
Lemma fresh_pre e1 e2 :
  fresh_outputs r preseed (e1 ++ e2) -> fresh_outputs r preseed e1.
Proof. intros H f1 d i t f2 x ->. eapply H. rewrite <- app_assoc. reflexivity. Qed.

Lemma spends_in_range t x : spends r t x = true -> in_range r x = true.
Proof. intros H. now apply spends_true in H. Qed.

Lemma lock_decision rqs s rps e1 d i t e2 :
  reaches c preseed cache rqs s rps ->
  completes_locked (history rqs rps) -> no_conflicting_cancel r (history rqs rps) ->
  fresh_outputs r preseed (history rqs rps) ->
  (history rqs rps = e1 ++ Locked d i t :: e2 ->
   sc_attested c t = true /\
   forall x, spends r t x = true -> unspent r preseed e1 x = true /\
     forall d' i' t', In (d', i', t') (holding e1) -> spends r t' x = false) /\
  (history rqs rps = e1 ++ Refused d i t :: e2 ->
   sc_attested c t = false \/
   exists x, spends r t x = true /\
     (unspent r preseed e1 x = false \/
      exists d' i' t', In (d', i', t') (holding e1) /\ spends r t' x = true)).
Proof.
  intros H Hc Hn Hf. apply reaches_linked in H as [open L].
  pose proof (lk_steps _ _ _ _ _ L) as Hm. split; intros E.
  - destruct (msteps_split c preseed _ _ _ _ _ _ Hm E) as (u1 & l1 & u2 & l2 & Hm1 & _ & Hs).
    rewrite E in Hc, Hn, Hf. apply completes_locked_pre in Hc.
    apply no_conflict_pre in Hn. apply fresh_pre in Hf.
    destruct Hs as (Ha & Hu & _). split; [done|]. intros x Hx.
    destruct (ideal_ledger c preseed _ _ _ x Hm1 (spends_in_range _ _ Hx) Hc Hn Hf)
      as (_ & _ & Hiff & _).
    apply Hu, Hiff in Hx as [Hun Hz]. split; [done|].
    intros d' i' t' Hin. destruct (spends r t' x) eqn:Es; [|done].
    exfalso. apply (proj2 (nholders_pos c x (holding e1))); [|done]. eauto.
  - destruct (msteps_split c preseed _ _ _ _ _ _ Hm E) as (u1 & l1 & u2 & l2 & Hm1 & _ & Hs).
    rewrite E in Hc, Hn, Hf. apply completes_locked_pre in Hc.
    apply no_conflict_pre in Hn. apply fresh_pre in Hf.
    destruct Hs as ([Ha|(x & Hx & Hu)] & _); [tauto|]. right. exists x.
    split; [done|].
    destruct (ideal_ledger c preseed _ _ _ x Hm1 (spends_in_range _ _ Hx) Hc Hn Hf)
      as (_ & _ & Hiff & _).
    destruct (unspent r preseed e1 x) eqn:Eu; [right|tauto].
    destruct (decide (nholders c x (holding e1) = 0%nat)); [tauto|].
    apply nholders_pos in n as (d' & i' & t' & ? & ?). eauto.
Qed.

Lemma unspent_needs_creation e1 e2 x :
  unspent r preseed e1 x = false -> unspent r preseed (e1 ++ e2) x = true ->
  exists f1 d i t f2, e2 = f1 ++ Completed d i t :: f2 /\ creates r t x = true.
Proof.
  intros H1. induction e2 as [|e e2 IH] using rev_ind; intros H2.
  - rewrite app_nil_r in H2. congruence.
  - rewrite app_assoc, unspent_snoc in H2.
    destruct (unspent r preseed (e1 ++ e2) x) eqn:E.
    + destruct (IH eq_refl) as (f1 & d & i & t & f2 & -> & ?).
      exists f1, d, i, t, (f2 ++ [e]). now rewrite <- app_assoc.
    + destruct e as [d i t|d i t|d i t|d i t]; cbn in H2; try discriminate.
      apply andb_true_iff in H2 as [H2 _]. exists e2, d, i, t, []. done.
Qed.

Lemma respend_needs_creation rqs s rps e1 d i t e2 d' i' t' e3 x :
  reaches c preseed cache rqs s rps ->
  completes_locked (history rqs rps) -> no_conflicting_cancel r (history rqs rps) ->
  fresh_outputs r preseed (history rqs rps) ->
  history rqs rps = e1 ++ Completed d i t :: e2 ++ Locked d' i' t' :: e3 ->
  spends r t x = true -> spends r t' x = true ->
  exists f1 d'' i'' t'' f2,
    e2 = f1 ++ Completed d'' i'' t'' :: f2 /\ creates r t'' x = true.
Proof.
  intros H Hc Hn Hf E Hs Hs'.
  assert (E' : history rqs rps
               = (e1 ++ Completed d i t :: e2) ++ Locked d' i' t' :: e3).
  { rewrite E, <- app_assoc. reflexivity. }
  destruct (lock_decision rqs s rps (e1 ++ Completed d i t :: e2) d' i' t' e3 H Hc Hn Hf) as [G _].
  specialize (G E') as [_ G]. destruct (G x Hs') as [G1 _].
  apply (unspent_needs_creation (e1 ++ [Completed d i t]) e2 x).
  - rewrite unspent_snoc. cbn. rewrite Hs. apply andb_false_r.
  - now rewrite <- app_assoc.
Qed.

Lemma check_unspent_exact rqs s rps x :
  reaches c preseed cache rqs s rps -> in_range r x = true ->
  completes_locked (history rqs rps) -> no_conflicting_cancel r (history rqs rps) ->
  fresh_outputs r preseed (history rqs rps) ->
  check_unspent s x = unspent r preseed (history rqs rps) x.
Proof.
  intros H Hx Hc Hn Hf. apply reaches_linked in H as [open L].
  destruct (ideal_ledger c preseed _ _ _ x (lk_steps _ _ _ _ _ L) Hx Hc Hn Hf)
    as (Hl & _ & Hu & Hh).
  unfold check_unspent. apply eq_true_iff_eq.
  rewrite orb_true_iff, !bool_decide_eq_true, Hl, Hu.
  destruct (decide (nholders c x (holding (history rqs rps)) = 0%nat)); tauto.
Qed.

(** C13 *)
Lemma locked_owned rqs s rps x :
  reaches c preseed cache rqs s rps -> x ∈ sh_locked s ->
  exists d i t, In (d, i, t) (holding (history rqs rps)) /\ spends r t x = true.
Proof.
  intros H Hx. apply reaches_linked in H as [open L].
  apply nholders_pos. eapply locked_held; [exact (lk_steps _ _ _ _ _ L)|done].
Qed.

Lemma holding_is_prepared rqs s rps d i t :
  reaches c preseed cache rqs s rps ->
  In (d, i, t) (holding (history rqs rps)) <->
  exists p, sh_prepared s !! d = Some p /\ nth_error (pd_txs p) i = Some t /\
    nth_error (pd_results p) i = Some true.
Proof. intros H. apply reaches_linked in H as [open L]. apply (lk_hold _ _ _ _ _ L). Qed.

Lemma spendable_locked_disjoint rqs s rps :
  reaches c preseed cache rqs s rps ->
  (forall e1 d i t e2 x d' i' t',
     history rqs rps = e1 ++ Completed d i t :: e2 ->
     creates r t x = true -> In (d', i', t') (holding e1) -> spends r t' x = false) ->
  sh_uhs s ## sh_locked s.
Proof.
  intros H Hf. apply reaches_linked in H as [open L].
  intros x. exact (disjoint_if c preseed _ _ _ (lk_steps _ _ _ _ _ L) Hf x).
Qed.

Lemma held_once rqs s rps x d i t d' i' t' :
  reaches c preseed cache rqs s rps ->
  completes_locked (history rqs rps) -> no_conflicting_cancel r (history rqs rps) ->
  fresh_outputs r preseed (history rqs rps) ->
  In (d, i, t) (holding (history rqs rps)) ->
  In (d', i', t') (holding (history rqs rps)) ->
  spends r t x = true -> spends r t' x = true -> (d', i') = (d, i) /\ t' = t.
Proof.
  intros H Hc Hn Hf Hin Hin' Hs Hs'. apply reaches_linked in H as [open L].
  pose proof (lk_steps _ _ _ _ _ L) as Hm.
  destruct (ideal_ledger c preseed _ _ _ x Hm (spends_in_range _ _ Hs) Hc Hn Hf)
    as (_ & H1 & _).
  pose proof (keys_nodup c preseed _ _ _ Hm) as Hnd.
  pose proof (nholders_filter c x _ d i t Hnd Hin) as E. rewrite Hs in E. cbn in E.
  destruct (decide ((d', i') = (d, i))) as [Eq|Hne].
  - split; [done|]. injection Eq as -> ->.
    clear -Hnd Hin Hin'. induction (holding (history rqs rps)) as [|k h IH]; [done|].
    cbn in Hnd. inv Hnd. destruct Hin as [->|Hin], Hin' as [E|Hin'].
    + congruence.
    + exfalso. apply H1. apply (in_map fst) in Hin'. exact Hin'.
    + subst. exfalso. apply H1. apply (in_map fst) in Hin. exact Hin.
    + auto.
  - exfalso.
    assert (nholders c x (List.filter (fun k => negb (bool_decide (fst k = (d, i))))
              (holding (history rqs rps))) <> 0%nat); [|lia].
    apply nholders_pos. exists d', i', t'. split; [|done].
    apply in_hold_filter. split; [done|]. intros [-> ->]. done.
Qed.

(** C19 *)
Lemma finished_app e1 e2 :
  finished_ids r (e1 ++ e2) = finished_ids r e1 ++ finished_ids r e2.
Proof.
  induction e1 as [|[d i t|d i t|d i t|d i t] e1 IH]; cbn [app finished_ids]; auto;
    rewrite IH; destruct (in_range r (ctx_id t)); reflexivity.
Qed.

Definition cache_all (q : cache_set N) (ids : list N) : cache_set N :=
  fst (cache_adds q ids).

Lemma cache_all_cons q x l : cache_all q (x :: l) = cache_all (fst (cache_add q x)) l.
Proof.
  unfold cache_all. cbn. destruct (cache_add q x) as [q1 b]. cbn.
  now destruct (cache_adds q1 l).
Qed.
Lemma cache_all_app q l1 l2 : cache_all q (l1 ++ l2) = cache_all (cache_all q l1) l2.
Proof.
  revert q. induction l1 as [|x l1 IH]; intros q; [done|]. cbn [app].
  now rewrite !cache_all_cons.
Qed.

Lemma apply_txs_cache d : forall txs flags i st,
  length flags = length txs ->
  snd (apply_txs c flags txs st)
  = cache_all (snd st) (finished_ids r (apply_events d i txs flags)).
Proof.
  induction txs as [|t txs IH]; intros [|f flags] i st Hlen; try discriminate; [done|].
  cbn [apply_txs apply_events]. rewrite (IH flags (S i)) by (cbn in Hlen; lia).
  unfold apply_tx. destruct st as [[u l] q].
  destruct (release_inputs _ _ _ _). cbn [snd].
  assert (E : finished_ids r ((if f then Completed d i t else Cancelled d i t)
                :: apply_events d (S i) txs flags)
              = if in_range r (ctx_id t)
                then ctx_id t :: finished_ids r (apply_events d (S i) txs flags)
                else finished_ids r (apply_events d (S i) txs flags)).
  { now destruct f. }
  rewrite E. unfold mine. destruct (in_range r (ctx_id t)); [|done].
  now rewrite cache_all_cons.
Qed.

Lemma lock_events_no_ids d : forall txs oks i,
  finished_ids r (lock_events d i txs oks) = [].
Proof. induction txs as [|t txs IH]; intros [|[] oks] i; cbn; auto. Qed.

Lemma process_cache u0 s open evs rq s' rp :
  linked c u0 s open evs -> process_request c s rq = Done (s', rp) ->
  sh_completed s'
  = cache_all (sh_completed s) (finished_ids r (snd (read_call open rq rp))).
Proof.
  intros [Hrun Hst Hopen Hlen Hhold] H. destruct rq as [d txs|d flags|d]; cbn in H.
  - unfold lock_outputs in H. rewrite Hrun in H. cbn in H.
    destruct (sh_prepared s !! d) as [p|] eqn:Ep; cbn in H.
    + inv H. cbn. rewrite Hopen, Ep. done.
    + destruct (lock_txs c txs (sh_uhs s) (sh_locked s)) as [[[u l] oks]| |];
        cbn in H; [|discriminate..].
      inv H. cbn. rewrite Hopen, Ep. cbn. now rewrite lock_events_no_ids.
  - unfold apply_outputs in H. rewrite Hrun in H. cbn in H.
    destruct (sh_prepared s !! d) as [p|] eqn:Ep.
    + destruct (length flags =? length (pd_txs p))%nat eqn:Elen; cbn in H; [|discriminate].
      apply Nat.eqb_eq in Elen.
      pose proof (apply_txs_cache d (pd_txs p) flags 0
                    (sh_uhs s, sh_locked s, sh_completed s) Elen) as Hq.
      destruct (apply_txs c flags (pd_txs p) _) as [[u l] q] eqn:Ea.
      cbn in H. rewrite andb_false_r in H. inv H. cbn. rewrite Hopen, Ep. cbn. exact Hq.
    + destruct (bool_decide _); [|discriminate]. cbn in H.
      rewrite andb_false_r in H. inv H. cbn. rewrite Hopen, Ep. done.
  - unfold discard_dtx in H. rewrite Hrun in H. cbn in H.
    rewrite andb_false_r in H. inv H. done.
Qed.

Lemma run_cache u0 rqs : forall s open evs s' rps,
  linked c u0 s open evs -> run_shard c s rqs = Done (s', rps) ->
  sh_completed s'
  = cache_all (sh_completed s) (finished_ids r (read_history open rqs rps)).
Proof.
  induction rqs as [|rq rqs IH]; cbn; intros s open evs s' rps HL H.
  - inv H. done.
  - destruct (process_request c s rq) as [[s1 rp]| |] eqn:E1; cbn in H; try discriminate.
    destruct (run_shard c s1 rqs) as [[s2 rs]| |] eqn:E2; cbn in H; try discriminate.
    inv H.
    pose proof (process_linked _ _ _ _ _ _ _ _ HL E1) as HL1.
    pose proof (process_cache _ _ _ _ _ _ _ HL E1) as HC1.
    destruct (read_call open rq rp) as [open1 evs1] eqn:Er. cbn in HL1, HC1.
    rewrite (IH _ _ _ _ _ HL1 E2), HC1, finished_app, cache_all_app. done.
Qed.

Lemma check_tx_id_cache rqs s rps x :
  reaches c preseed cache rqs s rps ->
  check_tx_id s x
  = cache_contains (fst (cache_adds (cache_new cache)
      (finished_ids r (history rqs rps)))) x.
Proof.
  intros H. unfold check_tx_id.
  rewrite (run_cache preseed rqs _ ∅ [] s rps (linked_new c preseed cache) H). done.
Qed.

Lemma accepted_in (vs : list N) : forall bs x, In x (accepted vs bs) -> In x vs.
Proof.
  induction vs as [|v vs IH]; intros [|[] bs] x; cbn; try tauto.
  - intros [?|?]; [tauto|]. right. eauto.
  - intros ?. right. eauto.
Qed.

Lemma finished_in evs x :
  In x (finished_ids r evs) ->
  exists d i t, (In (Completed d i t) evs \/ In (Cancelled d i t) evs) /\ ctx_id t = x.
Proof.
  induction evs as [|e evs IH]; cbn; [tauto|].
  intros H.
  assert (Hrec : In x (finished_ids r evs) -> exists d i t,
     ((e = Completed d i t \/ In (Completed d i t) evs)
      \/ e = Cancelled d i t \/ In (Cancelled d i t) evs) /\ ctx_id t = x).
  { intros Hr. destruct (IH Hr) as (d & i & t & [?|?] & ?); exists d, i, t; tauto. }
  destruct e as [d i t|d i t|d i t|d i t]; auto;
    (destruct (in_range r (ctx_id t)); [|auto]); (destruct H as [H|H]; [|auto]);
    exists d, i, t; tauto.
Qed.

Lemma check_tx_id_finished rqs s rps x :
  reaches c preseed cache rqs s rps -> check_tx_id s x = true ->
  exists d i t,
    (In (Completed d i t) (history rqs rps) \/ In (Cancelled d i t) (history rqs rps))
    /\ ctx_id t = x.
Proof.
  intros H Hx. rewrite (check_tx_id_cache _ _ _ _ H) in Hx.
  apply cache_contains_iff in Hx.
  destruct (cache_adds _ _) as [q bs] eqn:E. cbn in Hx.
  rewrite (cache_contents _ _ _ _ E) in Hx. unfold last_n in Hx.
  apply finished_in, (accepted_in _ bs).
  rewrite <- (firstn_skipn (length (accepted (finished_ids r (history rqs rps)) bs)
                - (N.to_nat cache - 1))).
  apply in_or_app. now right.
Qed.

(** C14 *)
Lemma process_running s rq s' rp :
  sh_running s = true -> process_request c s rq = Done (s', rp) ->
  sh_running s' = true.
Proof.
  intros Hrun H. destruct rq as [d txs|d flags|d]; cbn in H.
  - unfold lock_outputs in H. rewrite Hrun in H. cbn in H.
    destruct (sh_prepared s !! d); cbn in H; [now inv H|].
    destruct (lock_txs _ _ _ _) as [[[? ?] ?]| |]; cbn in H; now inv H.
  - unfold apply_outputs in H. rewrite Hrun in H. cbn in H.
    destruct (sh_prepared s !! d).
    + destruct (_ =? _)%nat; cbn in H; [|discriminate].
      destruct (apply_txs _ _ _ _) as [[? ?] ?]. cbn in H.
      rewrite andb_false_r in H. now inv H.
    + destruct (bool_decide _); cbn in H; [|discriminate].
      rewrite andb_false_r in H. now inv H.
  - unfold discard_dtx in H. rewrite Hrun in H. cbn in H.
    rewrite andb_false_r in H. now inv H.
Qed.

Lemma run_ind_prop (P : shard -> Prop) (Q : sreq -> Prop) :
  (forall s rq s' rp, P s -> Q rq -> process_request c s rq = Done (s', rp) -> P s') ->
  forall rqs s s' rps, P s -> (forall q, In q rqs -> Q q) ->
    run_shard c s rqs = Done (s', rps) -> P s'.
Proof.
  intros HP. induction rqs as [|rq rqs IH]; cbn; intros s s' rps Hs HQ H.
  - now inv H.
  - destruct (process_request c s rq) as [[s1 rp]| |] eqn:E1; cbn in H; try discriminate.
    destruct (run_shard c s1 rqs) as [[s2 rs]| |] eqn:E2; cbn in H; try discriminate.
    inv H. eapply IH; [|intros q Hq; apply HQ; now right|exact E2].
    eapply HP; [exact Hs|apply HQ; now left|exact E1].
Qed.

Lemma lock_retry s d txs s1 oks rqs s2 rps txs' :
  sh_running s = true ->
  process_request c s (RLock d txs) = Done (s1, ALock oks) ->
  run_shard c s1 rqs = Done (s2, rps) ->
  (forall q, In q rqs -> ~ is_apply d q) ->
  process_request c s2 (RLock d txs') = Done (s2, ALock oks).
Proof.
  intros Hrun H1 H2 Hq.
  assert (P1 : sh_running s1 = true /\
               exists p, sh_prepared s1 !! d = Some p /\ pd_results p = oks).
  { split; [eapply process_running; eauto|].
    cbn in H1. unfold lock_outputs in H1. rewrite Hrun in H1. cbn in H1.
    destruct (sh_prepared s !! d) as [p|] eqn:Ep; cbn in H1; [inv H1; eauto|].
    destruct (lock_txs _ _ _ _) as [[[? ?] ?]| |]; cbn in H1; inv H1.
    cbn. rewrite lookup_insert. eauto. }
  assert (P2 : sh_running s2 = true /\
               exists p, sh_prepared s2 !! d = Some p /\ pd_results p = oks).
  { eapply (run_ind_prop (fun s => sh_running s = true /\
        exists p, sh_prepared s !! d = Some p /\ pd_results p = oks)
        (fun q => ~ is_apply d q)); [|exact P1|exact Hq|exact H2].
    clear. intros s rq s' rp [Hrun (p & Hp & Hr)] Hq H.
    split; [eapply process_running; eauto|]. exists p. split; [|done].
    destruct rq as [d' txs|d' flags|d']; cbn in H.
    - unfold lock_outputs in H. rewrite Hrun in H. cbn in H.
      destruct (sh_prepared s !! d') eqn:Ed; cbn in H; [now inv H|].
      destruct (lock_txs _ _ _ _) as [[[? ?] ?]| |]; cbn in H; inv H.
      cbn. rewrite lookup_insert_ne; [done|]. intros ->. congruence.
    - assert (d' <> d) by (intros ->; apply Hq; exists flags; done).
      unfold apply_outputs in H. rewrite Hrun in H. cbn in H.
      destruct (sh_prepared s !! d').
      + destruct (_ =? _)%nat; cbn in H; [|discriminate].
        destruct (apply_txs _ _ _ _) as [[? ?] ?]. cbn in H.
        rewrite andb_false_r in H. inv H. cbn. now rewrite lookup_delete_ne.
      + destruct (bool_decide _); cbn in H; [|discriminate].
        rewrite andb_false_r in H. now inv H.
    - unfold discard_dtx in H. rewrite Hrun in H. cbn in H.
      rewrite andb_false_r in H. now inv H. }
  destruct P2 as [Hrun2 (p & Hp & Hr)]. cbn. unfold lock_outputs.
  rewrite Hrun2, Hp. cbn. now rewrite Hr.
Qed.

Lemma apply_retry s d flags s1 rqs s2 rps flags' :
  sh_running s = true ->
  process_request c s (RApply d flags) = Done (s1, AApply) ->
  run_shard c s1 rqs = Done (s2, rps) ->
  (forall q, In q rqs -> ~ is_lock d q /\ ~ is_discard d q) ->
  process_request c s2 (RApply d flags') = Done (s2, AApply).
Proof.
  intros Hrun H1 H2 Hq.
  assert (P1 : sh_running s1 = true /\ sh_prepared s1 !! d = None /\ d ∈ sh_applied s1).
  { split; [eapply process_running; eauto|].
    cbn in H1. unfold apply_outputs in H1. rewrite Hrun in H1. cbn in H1.
    destruct (sh_prepared s !! d) as [p|] eqn:Ep; cbn in H1.
    - destruct (_ =? _)%nat; cbn in H1; [|discriminate].
      destruct (apply_txs _ _ _ _) as [[? ?] ?]. cbn in H1.
      rewrite andb_false_r in H1. inv H1. cbn. rewrite lookup_delete.
      split; [done|]. apply elem_of_union. right. now apply elem_of_singleton.
    - destruct (bool_decide_reflect (d ∈ sh_applied s)); cbn in H1; [|discriminate].
      rewrite andb_false_r in H1. now inv H1. }
  assert (P2 : sh_running s2 = true /\ sh_prepared s2 !! d = None /\ d ∈ sh_applied s2).
  { eapply (run_ind_prop (fun s => sh_running s = true /\
        sh_prepared s !! d = None /\ d ∈ sh_applied s)
        (fun q => ~ is_lock d q /\ ~ is_discard d q)); [|exact P1|exact Hq|exact H2].
    clear. intros s rq s' rp (Hrun & Hp & Ha) [Hq1 Hq2] H.
    split; [eapply process_running; eauto|].
    destruct rq as [d' txs|d' flags|d']; cbn in H.
    - assert (d' <> d) by (intros ->; apply Hq1; exists txs; done).
      unfold lock_outputs in H. rewrite Hrun in H. cbn in H.
      destruct (sh_prepared s !! d') eqn:Ed; cbn in H; [now inv H|].
      destruct (lock_txs _ _ _ _) as [[[? ?] ?]| |]; cbn in H; inv H.
      cbn. rewrite lookup_insert_ne; done.
    - unfold apply_outputs in H. rewrite Hrun in H. cbn in H.
      destruct (sh_prepared s !! d') eqn:Ed'.
      + destruct (_ =? _)%nat; cbn in H; [|discriminate].
        destruct (apply_txs _ _ _ _) as [[? ?] ?]. cbn in H.
        rewrite andb_false_r in H. inv H. cbn.
        split; [|apply elem_of_union; tauto].
        rewrite lookup_delete_ne; [done|]. intros ->. congruence.
      + destruct (bool_decide _); cbn in H; [|discriminate].
        rewrite andb_false_r in H. now inv H.
    - assert (d' <> d) by (intros ->; now apply Hq2).
      unfold discard_dtx in H. rewrite Hrun in H. cbn in H.
      rewrite andb_false_r in H. inv H. cbn. split; [done|].
      apply elem_of_difference. split; [done|]. rewrite elem_of_singleton. auto. }
  destruct P2 as (Hrun2 & Hp & Ha). cbn. unfold apply_outputs.
  rewrite Hrun2, Hp. cbn. rewrite bool_decide_eq_true_2 by done. cbn.
  now rewrite andb_false_r.
Qed.

Lemma discard_retry s d s1 :
  sh_running s = true ->
  process_request c s (RDiscard d) = Done (s1, ADiscard) ->
  process_request c s1 (RDiscard d) = Done (s1, ADiscard) /\
  sh_uhs s1 = sh_uhs s /\ sh_locked s1 = sh_locked s /\
  sh_prepared s1 = sh_prepared s /\ sh_completed s1 = sh_completed s.
Proof.
  intros Hrun H. cbn in *. unfold discard_dtx in *. rewrite Hrun in H. cbn in H.
  rewrite andb_false_r in H. inv H. cbn. rewrite andb_false_r.
  repeat match goal with |- _ /\ _ => split end; try reflexivity.
  do 2 f_equal. f_equal. apply set_eq. intros x.
  rewrite !elem_of_difference. tauto.
Qed.
End Hist.
