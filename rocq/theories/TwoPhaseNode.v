(** One shard as seen by the coordinators: the status of a distributed transaction
    on a shard and the effect of every request on it. *)
From Coq Require Import NArith List Bool Lia Arith.
From stdpp Require Import base decidable list gmap.
From Verif Require Import Base CodecModel TxModel CacheModel LockingShardModel
  LockingShardSpec LockingShardProofs LockingShardCorollaries TwoPhaseModel TwoPhaseSpec.
Import ListNotations.
Open Scope N_scope.

(** ** Histories grow at the end *)

Fixpoint open_after (open : gmap N (list compact_tx)) (rqs : list sreq)
    (rps : list sresp) : gmap N (list compact_tx) :=
  match rqs, rps with
  | rq :: rqs', rp :: rps' => open_after (fst (read_call open rq rp)) rqs' rps'
  | _, _ => open
  end.

Lemma read_history_snoc rqs : forall open rps rq rp,
  length rqs = length rps ->
  read_history open (rqs ++ [rq]) (rps ++ [rp])
  = read_history open rqs rps ++ snd (read_call (open_after open rqs rps) rq rp).
Proof.
  induction rqs as [|q rqs IH]; intros open [|p rps] rq rp Hl; try discriminate; cbn.
  - destruct (read_call open rq rp). now rewrite app_nil_r.
  - destruct (read_call open q p) as [open1 evs] eqn:E. cbn.
    rewrite IH by (cbn in Hl; lia). now rewrite app_assoc.
Qed.

Lemma run_shard_snoc c rqs : forall s s' rps rq s'' rp,
  run_shard c s rqs = Done (s', rps) -> process_request c s' rq = Done (s'', rp) ->
  run_shard c s (rqs ++ [rq]) = Done (s'', rps ++ [rp]).
Proof.
  induction rqs as [|q rqs IH]; cbn; intros s s' rps rq s'' rp H1 H2.
  - inv H1. rewrite H2. done.
  - destruct (process_request c s q) as [[s1 rp1]| |] eqn:E1; cbn in *; try discriminate.
    destruct (run_shard c s1 rqs) as [[s2 rs]| |] eqn:E2; cbn in *; try discriminate.
    inv H1. rewrite (IH _ _ _ _ _ _ E2 H2). done.
Qed.

Lemma run_shard_length c rqs : forall s s' rps,
  run_shard c s rqs = Done (s', rps) -> length rqs = length rps.
Proof.
  induction rqs as [|q rqs IH]; cbn; intros s s' rps H.
  - inv H. done.
  - destruct (process_request c s q) as [[s1 rp1]| |] eqn:E1; cbn in *; try discriminate.
    destruct (run_shard c s1 rqs) as [[s2 rs]| |] eqn:E2; cbn in *; try discriminate.
    inv H. cbn. f_equal. eauto.
Qed.

Lemma run_linked_after c u0 rqs : forall s open evs s' rps,
  linked c u0 s open evs -> run_shard c s rqs = Done (s', rps) ->
  linked c u0 s' (open_after open rqs rps) (evs ++ read_history open rqs rps).
Proof.
  induction rqs as [|rq rqs IH]; cbn; intros s open evs s' rps HL H.
  - inv H. now rewrite app_nil_r.
  - destruct (process_request c s rq) as [[s1 rp]| |] eqn:E1; cbn in H; try discriminate.
    destruct (run_shard c s1 rqs) as [[s2 rs]| |] eqn:E2; cbn in H; try discriminate.
    inv H. pose proof (process_linked _ _ _ _ _ _ _ _ HL E1) as HL1.
    pose proof (IH _ _ _ _ _ HL1 E2) as HL2.
    destruct (read_call open rq rp) as [open1 evs1] eqn:Er. cbn in *.
    now rewrite app_assoc.
Qed.

(** ** Nodes *)

Definition nd_events (nd : node) : list event := history (nd_rqs nd) (nd_rps nd).
Definition node_ok (c : shard_cfg) (preseed : gset N) (cache : N) (nd : node) : Prop :=
  reaches c preseed cache (nd_rqs nd) (nd_shard nd) (nd_rps nd).
Definition node_next (nd : node) (sh : shard) (rq : sreq) (rp : sresp) : node :=
  Node sh (nd_rqs nd ++ [rq]) (nd_rps nd ++ [rp]).

Lemma node_linked c p k nd :
  node_ok c p k nd ->
  linked c p (nd_shard nd) (pd_txs <$> sh_prepared (nd_shard nd)) (nd_events nd).
Proof.
  intros H. pose proof (run_linked_after c p _ _ ∅ [] _ _ (linked_new c p k) H) as L.
  cbn in L.
  replace (pd_txs <$> sh_prepared (nd_shard nd))
    with (open_after ∅ (nd_rqs nd) (nd_rps nd)); [exact L|].
  apply map_eq. intros d. rewrite lookup_fmap. apply (lk_open _ _ _ _ _ L).
Qed.

Lemma node_step c p k nd rq sh rp :
  node_ok c p k nd -> process_request c (nd_shard nd) rq = Done (sh, rp) ->
  node_ok c p k (node_next nd sh rq rp) /\
  nd_events (node_next nd sh rq rp)
  = nd_events nd
    ++ snd (read_call (pd_txs <$> sh_prepared (nd_shard nd)) rq rp).
Proof.
  intros H Hp. split.
  - unfold node_ok, reaches in *. cbn. eapply run_shard_snoc; eauto.
  - unfold nd_events, history. cbn.
    rewrite read_history_snoc by (eapply run_shard_length; exact H).
    f_equal. f_equal. f_equal.
    pose proof (run_linked_after c p _ _ ∅ [] _ _ (linked_new c p k) H) as L.
    apply map_eq. intros d. rewrite lookup_fmap. apply (lk_open _ _ _ _ _ L).
Qed.

(** ** Status of a distributed transaction on a node *)

Definition evs_of (d : N) (nd : node) : list event :=
  List.filter (about d) (nd_events nd).

Definition st_none (nd : node) (d : N) : Prop :=
  evs_of d nd = [] /\ sh_prepared (nd_shard nd) !! d = None /\
  d ∉ sh_applied (nd_shard nd).
Definition st_locked (nd : node) (d : N) (txs : list compact_tx) (res : list bool) : Prop :=
  evs_of d nd = lock_events d 0 txs res /\
  sh_prepared (nd_shard nd) !! d = Some (PreparedDtx txs res) /\
  d ∉ sh_applied (nd_shard nd) /\
  length res = length txs.
Definition st_applied (nd : node) (d : N) (txs : list compact_tx)
    (res flags : list bool) : Prop :=
  evs_of d nd = lock_events d 0 txs res ++ apply_events d 0 txs flags /\
  sh_prepared (nd_shard nd) !! d = None /\
  length res = length txs /\ length flags = length txs.
Definition recalled (nd : node) (d : N) : Prop := d ∈ sh_applied (nd_shard nd).

(** What another distributed transaction sees is unchanged. *)
Definition same_for (d : N) (nd nd' : node) : Prop :=
  evs_of d nd' = evs_of d nd /\
  sh_prepared (nd_shard nd') !! d = sh_prepared (nd_shard nd) !! d /\
  (d ∈ sh_applied (nd_shard nd') <-> d ∈ sh_applied (nd_shard nd)).

Lemma same_none d nd nd' : same_for d nd nd' -> st_none nd d -> st_none nd' d.
Proof. intros (E & P & A) (H1 & H2 & H3). repeat split; rewrite ?E, ?P, ?A; auto. Qed.
Lemma same_locked d nd nd' txs res :
  same_for d nd nd' -> st_locked nd d txs res -> st_locked nd' d txs res.
Proof. intros (E & P & A) (H1 & H2 & H3 & H4). repeat split; rewrite ?E, ?P, ?A; auto. Qed.
Lemma same_applied d nd nd' txs res flags :
  same_for d nd nd' -> st_applied nd d txs res flags -> st_applied nd' d txs res flags.
Proof. intros (E & P & A) (H1 & H2 & H3 & H4). repeat split; rewrite ?E, ?P, ?A; auto. Qed.
Lemma same_recalled d nd nd' : same_for d nd nd' -> recalled nd d -> recalled nd' d.
Proof. intros (E & P & A) H. unfold recalled. now apply A. Qed.
Lemma same_refl d nd : same_for d nd nd.
Proof. repeat split; auto. Qed.

Definition dtx_of (rq : sreq) : N :=
  match rq with RLock d _ | RApply d _ | RDiscard d => d end.

Lemma filter_lock_events d d' txs : forall i oks,
  List.filter (about d) (lock_events d' i txs oks)
  = if bool_decide (d' = d) then lock_events d' i txs oks else [].
Proof.
  induction txs as [|t txs IH]; intros i [|ok oks]; cbn; try (now destruct (bool_decide _)).
  rewrite IH. destruct ok; cbn; destruct (bool_decide (d' = d)); reflexivity.
Qed.
Lemma filter_apply_events d d' txs : forall i oks,
  List.filter (about d) (apply_events d' i txs oks)
  = if bool_decide (d' = d) then apply_events d' i txs oks else [].
Proof.
  induction txs as [|t txs IH]; intros i [|ok oks]; cbn; try (now destruct (bool_decide _)).
  rewrite IH. destruct ok; cbn; destruct (bool_decide (d' = d)); reflexivity.
Qed.

Lemma read_call_about d open rq rp :
  d <> dtx_of rq -> List.filter (about d) (snd (read_call open rq rp)) = [].
Proof.
  destruct rq as [d' txs|d' flags|d'], rp; cbn; intros Hd; auto.
  - destruct (open !! d'); cbn; [done|]. rewrite filter_lock_events.
    now rewrite bool_decide_eq_false_2 by auto.
  - destruct (open !! d'); cbn; [|done]. rewrite filter_apply_events.
    now rewrite bool_decide_eq_false_2 by auto.
Qed.

Lemma frame c p k nd rq sh rp d :
  node_ok c p k nd -> process_request c (nd_shard nd) rq = Done (sh, rp) ->
  d <> dtx_of rq -> same_for d nd (node_next nd sh rq rp).
Proof.
  intros H Hp Hd. destruct (node_step c p k nd rq sh rp H Hp) as [_ E].
  pose proof (lk_running _ _ _ _ _ (node_linked c p k nd H)) as Hrun.
  split.
  { unfold evs_of. rewrite E, List.filter_app, read_call_about by done. apply app_nil_r. }
  cbn [nd_shard node_next]. destruct rq as [d' txs|d' flags|d']; cbn in Hp, Hd.
  - unfold lock_outputs in Hp. rewrite Hrun in Hp. cbn in Hp.
    destruct (sh_prepared (nd_shard nd) !! d'); cbn in Hp; [now inv Hp|].
    destruct (lock_txs _ _ _ _) as [[[? ?] ?]| |]; cbn in Hp; inv Hp. cbn.
    rewrite lookup_insert_ne by auto. done.
  - unfold apply_outputs in Hp. rewrite Hrun in Hp. cbn in Hp.
    destruct (sh_prepared (nd_shard nd) !! d').
    + destruct (_ =? _)%nat; cbn in Hp; [|discriminate].
      destruct (apply_txs _ _ _ _) as [[? ?] ?]. cbn in Hp.
      rewrite andb_false_r in Hp. inv Hp. cbn. rewrite lookup_delete_ne by auto.
      split; [done|]. rewrite elem_of_union, elem_of_singleton. intuition congruence.
    + destruct (bool_decide _); cbn in Hp; [|discriminate].
      rewrite andb_false_r in Hp. now inv Hp.
  - unfold discard_dtx in Hp. rewrite Hrun in Hp. cbn in Hp.
    rewrite andb_false_r in Hp. inv Hp. cbn.
    split; [done|]. rewrite elem_of_difference, elem_of_singleton. intuition congruence.
Qed.

(** ** No assertion fails when no transaction lists an input twice *)

Definition proper (c : shard_cfg) (txs : list compact_tx) : Prop :=
  sc_asserts c = true -> List.Forall (fun t => List.NoDup (ctx_inputs t)) txs.

Lemma lock_inputs_total c ins : forall u l,
  (sc_asserts c = true -> List.NoDup ins) ->
  (forall x, mine c x = true -> In x ins -> x ∈ u) ->
  exists u' l', lock_inputs c ins u l = Done (u', l').
Proof.
  induction ins as [|x ins IH]; cbn; intros u l Hnd Hu; [eauto|].
  destruct (mine c x) eqn:Hx.
  - rewrite (bool_decide_eq_true_2 (x ∈ u)) by auto. cbn. rewrite andb_false_r.
    destruct (sc_asserts c) eqn:Ha.
    + apply IH.
      * intros _. specialize (Hnd eq_refl). now inv Hnd.
      * intros y Hy Hin. specialize (Hnd eq_refl). inv Hnd.
        apply elem_of_difference. split; [auto|]. rewrite elem_of_singleton.
        intros ->. done.
    + assert (G : forall ins u l, exists u' l', lock_inputs c ins u l = Done (u', l')).
      { clear -Ha. induction ins as [|y ins IH]; cbn; intros u l; [eauto|].
        rewrite Ha. cbn. destruct (mine c y); apply IH. }
      apply G.
  - apply IH; [|auto]. intros Ha. specialize (Hnd Ha). now inv Hnd.
Qed.

Lemma lock_txs_total c txs : forall u l,
  proper c txs -> exists u' l' oks, lock_txs c txs u l = Done (u', l', oks).
Proof.
  induction txs as [|t txs IH]; cbn; intros u l Hp; [eauto|].
  assert (Hp1 : sc_asserts c = true -> List.NoDup (ctx_inputs t)).
  { intros Ha. specialize (Hp Ha). now inv Hp. }
  assert (Hp2 : proper c txs).
  { intros Ha. specialize (Hp Ha). now inv Hp. }
  unfold check_and_lock_tx. destruct (_ && _) eqn:E.
  - apply andb_true_iff in E as [_ E]. rewrite all_unspent_true in E.
    destruct (lock_inputs_total c (ctx_inputs t) u l Hp1 E) as (u1 & l1 & ->). cbn.
    destruct (IH u1 l1 Hp2) as (u2 & l2 & oks & ->). cbn. eauto.
  - cbn. destruct (IH u l Hp2) as (u2 & l2 & oks & ->). cbn. eauto.
Qed.

Lemma lock_txs_length c txs : forall u l u' l' oks,
  lock_txs c txs u l = Done (u', l', oks) -> length oks = length txs.
Proof.
  induction txs as [|t txs IH]; cbn; intros u l u' l' oks H; [now inv H|].
  destruct (check_and_lock_tx c t u l) as [[[u1 l1] ok]| |]; cbn in H; try discriminate.
  destruct (lock_txs c txs u1 l1) as [[[u2 l2] os]| |] eqn:E; cbn in H; try discriminate.
  inv H. cbn. f_equal. eauto.
Qed.

(** ** Effect of the requests *)

Lemma call_lock_new c p k nd d txs :
  node_ok c p k nd -> st_none nd d ->
  match process_request c (nd_shard nd) (RLock d txs) with
  | Done (sh, rp) => exists res, rp = ALock res /\
      st_locked (node_next nd sh (RLock d txs) rp) d txs res
  | _ => ~ proper c txs
  end.
Proof.
  intros H (He & Hprep & Happ).
  pose proof (lk_running _ _ _ _ _ (node_linked c p k nd H)) as Hrun.
  destruct (lock_txs c txs (sh_uhs (nd_shard nd)) (sh_locked (nd_shard nd)))
    as [[[u l] oks]| |] eqn:El.
  2,3: cbn; unfold lock_outputs; rewrite Hrun, Hprep, El; cbn; intros Hpr;
    destruct (lock_txs_total c txs (sh_uhs (nd_shard nd)) (sh_locked (nd_shard nd)) Hpr)
      as (? & ? & ? & ?); congruence.
  assert (Ep : process_request c (nd_shard nd) (RLock d txs)
               = Done (Shard true u l (<[d := PreparedDtx txs oks]>
                   (sh_prepared (nd_shard nd))) (sh_applied (nd_shard nd))
                   (sh_completed (nd_shard nd)), ALock oks)).
  { cbn. unfold lock_outputs. rewrite Hrun, Hprep, El. reflexivity. }
  rewrite Ep. exists oks. split; [done|].
  destruct (node_step c p k nd _ _ _ H Ep) as [_ E].
  split; [|split; [|split]].
  - unfold evs_of. rewrite E, List.filter_app. unfold evs_of in He. rewrite He.
    cbn. rewrite lookup_fmap, Hprep. cbn. rewrite filter_lock_events.
    now rewrite bool_decide_eq_true_2.
  - cbn. now rewrite lookup_insert.
  - done.
  - eapply lock_txs_length; eauto.
Qed.

Lemma call_lock_again c p k nd d txs txs' res :
  node_ok c p k nd -> st_locked nd d txs res ->
  process_request c (nd_shard nd) (RLock d txs') = Done (nd_shard nd, ALock res) /\
  forall d', same_for d' nd (node_next nd (nd_shard nd) (RLock d txs') (ALock res)).
Proof.
  intros H (He & Hprep & Hna & Hl).
  pose proof (lk_running _ _ _ _ _ (node_linked c p k nd H)) as Hrun.
  assert (Ep : process_request c (nd_shard nd) (RLock d txs')
               = Done (nd_shard nd, ALock res)).
  { cbn. unfold lock_outputs. rewrite Hrun, Hprep. reflexivity. }
  split; [exact Ep|]. intros d'.
  destruct (node_step c p k nd _ _ _ H Ep) as [_ E]. cbn in E.
  rewrite lookup_fmap, Hprep in E. cbn in E. rewrite app_nil_r in E.
  split; [|split]; cbn; auto. unfold evs_of. now rewrite E.
Qed.

Lemma call_apply_new c p k nd d txs res flags :
  node_ok c p k nd -> st_locked nd d txs res -> length flags = length txs ->
  exists sh,
    process_request c (nd_shard nd) (RApply d flags) = Done (sh, AApply) /\
    st_applied (node_next nd sh (RApply d flags) AApply) d txs res flags /\
    recalled (node_next nd sh (RApply d flags) AApply) d.
Proof.
  intros H (He & Hprep & Hna & Hl) Hlen.
  pose proof (lk_running _ _ _ _ _ (node_linked c p k nd H)) as Hrun.
  assert (Ep : exists u l q, process_request c (nd_shard nd) (RApply d flags)
               = Done (Shard true u l (delete d (sh_prepared (nd_shard nd)))
                         (sh_applied (nd_shard nd) ∪ {[d]}) q, AApply)).
  { cbn. unfold apply_outputs. rewrite Hrun, Hprep. cbn.
    rewrite (proj2 (Nat.eqb_eq _ _) Hlen). cbn.
    destruct (apply_txs _ _ _ _) as [[u l] q]. cbn. rewrite andb_false_r. eauto. }
  destruct Ep as (u & l & q & Ep). eexists. split; [exact Ep|].
  destruct (node_step c p k nd _ _ _ H Ep) as [_ E]. split.
  - split; [|split; [|split]]; auto.
    + unfold evs_of in *. rewrite E, List.filter_app, He. cbn. rewrite lookup_fmap, Hprep. cbn.
      rewrite filter_apply_events. now rewrite bool_decide_eq_true_2.
    + cbn. now rewrite lookup_delete.
  - unfold recalled. cbn. apply elem_of_union. right. now apply elem_of_singleton.
Qed.

Lemma call_apply_again c p k nd d txs res flags flags' :
  node_ok c p k nd -> st_applied nd d txs res flags -> recalled nd d ->
  process_request c (nd_shard nd) (RApply d flags') = Done (nd_shard nd, AApply) /\
  forall d', same_for d' nd (node_next nd (nd_shard nd) (RApply d flags') AApply).
Proof.
  intros H (He & Hprep & _) Hr.
  pose proof (lk_running _ _ _ _ _ (node_linked c p k nd H)) as Hrun.
  assert (Ep : process_request c (nd_shard nd) (RApply d flags')
               = Done (nd_shard nd, AApply)).
  { cbn. unfold apply_outputs. rewrite Hrun, Hprep. cbn.
    rewrite bool_decide_eq_true_2 by exact Hr. cbn. now rewrite andb_false_r. }
  split; [exact Ep|]. intros d'.
  destruct (node_step c p k nd _ _ _ H Ep) as [_ E]. cbn in E.
  rewrite lookup_fmap, Hprep in E. cbn in E. rewrite app_nil_r in E.
  split; [|split]; cbn; auto. unfold evs_of. now rewrite E.
Qed.

Lemma call_discard c p k nd d :
  node_ok c p k nd ->
  exists sh,
    process_request c (nd_shard nd) (RDiscard d) = Done (sh, ADiscard) /\
    (forall d', evs_of d' (node_next nd sh (RDiscard d) ADiscard) = evs_of d' nd) /\
    sh_prepared sh = sh_prepared (nd_shard nd) /\
    sh_uhs sh = sh_uhs (nd_shard nd) /\ sh_locked sh = sh_locked (nd_shard nd) /\
    sh_completed sh = sh_completed (nd_shard nd) /\
    sh_applied sh = sh_applied (nd_shard nd) ∖ {[d]}.
Proof.
  intros H. pose proof (lk_running _ _ _ _ _ (node_linked c p k nd H)) as Hrun.
  eexists. assert (Ep : process_request c (nd_shard nd) (RDiscard d)
      = Done (Shard true (sh_uhs (nd_shard nd)) (sh_locked (nd_shard nd))
          (sh_prepared (nd_shard nd)) (sh_applied (nd_shard nd) ∖ {[d]})
          (sh_completed (nd_shard nd)), ADiscard)).
  { cbn. unfold discard_dtx. rewrite Hrun. cbn. now rewrite andb_false_r. }
  split; [exact Ep|]. split; [|done].
  intros d'. destruct (node_step c p k nd _ _ _ H Ep) as [_ E].
  unfold evs_of. rewrite E. cbn. now rewrite app_nil_r.
Qed.

(** ** Batches *)

Lemma active_spec r t : active r t = true <-> concerns r t.
Proof.
  unfold active, concerns. rewrite !orb_true_iff, !existsb_exists. tauto.
Qed.

Lemma relevant_cons r k t B :
  relevant r k (t :: B)
  = if active r t then (k, t) :: relevant r (S k) B else relevant r (S k) B.
Proof.
  cbn. destruct (decide (concerns r t)) as [H|H].
  - apply active_spec in H. now rewrite H.
  - destruct (active r t) eqn:E; [|done]. now apply active_spec in E.
Qed.

Lemma relevant_snoc r B t : forall k,
  relevant r k (B ++ [t])
  = relevant r k B ++ (if active r t then [((k + length B)%nat, t)] else []).
Proof.
  induction B as [|u B IH]; intros k; cbn [app]; rewrite !relevant_cons.
  - cbn. rewrite Nat.add_0_r. destruct (active r t); reflexivity.
  - rewrite IH. cbn [length]. replace (S k + length B)%nat with (k + S (length B))%nat by lia.
    destruct (active r u); reflexivity.
Qed.

Definition part_txs (r : N * N) (B : list compact_tx) := map snd (relevant r 0 B).
Definition part_idxs (r : N * N) (B : list compact_tx) := map fst (relevant r 0 B).

Lemma zip_with_map {A B C} (f : A -> B -> C) (g : A -> B) l :
  zip_with f l (map g l) = map (fun a => f a (g a)) l.
Proof. induction l as [|a l IH]; cbn; [done|]. now rewrite IH. Qed.

Lemma add_txs_fields rs B cl :
  dx_full (add_txs rs (dtx_new (length rs) cl) B) = B /\
  dx_txs (add_txs rs (dtx_new (length rs) cl) B) = map (fun r => part_txs r B) rs /\
  dx_idxs (add_txs rs (dtx_new (length rs) cl) B) = map (fun r => part_idxs r B) rs /\
  dx_phase (add_txs rs (dtx_new (length rs) cl) B) = PhStart /\
  dx_client (add_txs rs (dtx_new (length rs) cl) B) = cl.
Proof.
  induction B as [|t B IH] using rev_ind.
  - cbn. repeat split; induction rs; cbn; congruence.
  - unfold add_txs in *. rewrite fold_left_app. cbn [fold_left].
    destruct IH as (E1 & E2 & E3 & E4 & E5).
    set (x := fold_left (add_tx rs) B (dtx_new (length rs) cl)) in *.
    unfold add_tx. cbn [dx_full dx_txs dx_idxs dx_phase dx_client].
    rewrite E1, E2, E3, E4, E5, !zip_with_map.
    repeat split; apply map_ext; intros r; unfold part_txs, part_idxs;
      rewrite relevant_snoc, map_app; destruct (active r t); cbn;
      now rewrite ?app_nil_r.
Qed.

Lemma relevant_lookup r B : forall k0 j k t,
  relevant r k0 B !! j = Some (k, t) ->
  (k0 <= k)%nat /\ B !! (k - k0)%nat = Some t /\ active r t = true.
Proof.
  induction B as [|u B IH]; intros k0 j k t H; [discriminate|].
  rewrite relevant_cons in H. destruct (active r u) eqn:Ea.
  - destruct j; cbn in H.
    + inv H. split; [lia|]. rewrite Nat.sub_diag. done.
    + apply IH in H as (? & ? & ?). split; [lia|].
      replace (k - k0)%nat with (S (k - S k0)) by lia. done.
  - apply IH in H as (? & ? & ?). split; [lia|].
    replace (k - k0)%nat with (S (k - S k0)) by lia. done.
Qed.

Lemma relevant_complete r B : forall k0 k t,
  B !! k = Some t -> active r t = true ->
  exists j, relevant r k0 B !! j = Some ((k0 + k)%nat, t).
Proof.
  induction B as [|u B IH]; intros k0 k t H Ha; [discriminate|].
  rewrite relevant_cons. destruct k; cbn in H.
  - inv H. rewrite Ha. exists 0%nat. cbn. do 2 f_equal. lia.
  - destruct (IH (S k0) k t H Ha) as [j Hj].
    replace (S k0 + k)%nat with (k0 + S k)%nat in Hj by lia.
    destruct (active r u); [exists (S j)|exists j]; done.
Qed.

Lemma relevant_inj r B : forall k0 j j' k t t',
  relevant r k0 B !! j = Some (k, t) -> relevant r k0 B !! j' = Some (k, t') -> j = j'.
Proof.
  induction B as [|u B IH]; intros k0 j j' k t t' H H'; [discriminate|].
  rewrite relevant_cons in H, H'. destruct (active r u) eqn:Ea; [|eauto].
  destruct j, j'; cbn in H, H'; auto.
  - inv H. apply relevant_lookup in H' as [? _]. lia.
  - inv H'. apply relevant_lookup in H as [? _]. lia.
  - f_equal. eauto.
Qed.

Lemma part_lookup r B j t :
  part_txs r B !! j = Some t <-> exists k, relevant r 0 B !! j = Some (k, t).
Proof.
  unfold part_txs. rewrite list_lookup_fmap. destruct (relevant r 0 B !! j) as [[k' t']|]; cbn.
  - split; [intros E; inv E; eauto|intros [k E]; inv E; done].
  - split; [done|intros [k E]; done].
Qed.
Lemma idxs_lookup r B j k :
  part_idxs r B !! j = Some k <-> exists t, relevant r 0 B !! j = Some (k, t).
Proof.
  unfold part_idxs. rewrite list_lookup_fmap. destruct (relevant r 0 B !! j) as [[k' t']|]; cbn.
  - split; [intros E; inv E; eauto|intros [t E]; inv E; done].
  - split; [done|intros [t E]; done].
Qed.
Lemma part_lengths r B : length (part_idxs r B) = length (part_txs r B).
Proof. unfold part_idxs, part_txs. now rewrite !map_length. Qed.

Lemma part_proper c r B : proper c B -> proper c (part_txs r B).
Proof.
  intros H Ha. specialize (H Ha). rewrite List.Forall_forall in *.
  intros t Ht. apply H. apply elem_of_list_In, elem_of_list_lookup in Ht as [j Hj].
  apply part_lookup in Hj as [k Hj]. apply relevant_lookup in Hj as (_ & Hk & _).
  apply elem_of_list_In, elem_of_list_lookup. eauto.
Qed.

(** ** Decisions *)

Lemma merge_one_spec ks : forall res ret,
  length res = length ks ->
  length (merge_one ks res ret) = length ret /\
  forall k, merge_one ks res ret !! k = Some true <->
    ret !! k = Some true /\ forall j, ks !! j = Some k -> res !! j = Some true.
Proof.
  induction ks as [|k0 ks IH]; intros [|b res] ret Hl; try discriminate; cbn.
  - split; [done|]. intros k. split; [|tauto]. intros ?. split; [done|].
    intros j Hj. now rewrite lookup_nil in Hj.
  - destruct (IH res (if b then ret else <[k0:=false]> ret) ltac:(cbn in Hl; lia))
      as [Hlen Hiff]. split.
    + rewrite Hlen. destruct b; [done|]. apply insert_length.
    + intros k. rewrite Hiff. clear Hiff. split.
      * intros [Hr Hall]. split.
        -- destruct b; [done|]. destruct (decide (k = k0)) as [->|].
           ++ apply list_lookup_insert_Some in Hr as [(_ & ? & _)|[? _]]; congruence.
           ++ now rewrite list_lookup_insert_ne in Hr by auto.
        -- intros [|j] Hj; cbn in *; [|auto]. inv Hj. destruct b; [done|].
           apply list_lookup_insert_Some in Hr as [(_ & ? & _)|[? _]]; congruence.
      * intros [Hr Hall]. split.
        -- destruct b; [done|]. destruct (decide (k = k0)) as [->|].
           ++ specialize (Hall 0%nat eq_refl). cbn in Hall. congruence.
           ++ rewrite list_lookup_insert_ne by auto. done.
        -- intros j Hj. apply (Hall (S j)). done.
Qed.

Lemma merge_all_spec idxs : forall got ret C,
  length got = length idxs ->
  merge_all idxs got ret = Done (Some C) ->
  length C = length ret /\
  (forall i ks, idxs !! i = Some ks -> ks <> [] ->
     exists res, got !! i = Some (Some res) /\ length res = length ks) /\
  forall k, C !! k = Some true <->
    ret !! k = Some true /\
    forall i ks res j, idxs !! i = Some ks -> got !! i = Some (Some res) ->
      ks !! j = Some k -> res !! j = Some true.
Proof.
  induction idxs as [|ks0 idxs IH]; intros [|g got] ret C Hl H; try discriminate.
  - cbn in H. inv H. split; [done|]. split.
    + intros i ks Hi. now rewrite lookup_nil in Hi.
    + intros k. split; [|tauto]. intros ?. split; [done|].
      intros i ks res j Hi. now rewrite lookup_nil in Hi.
  - cbn in Hl. destruct ks0 as [|k0 ks0].
    + cbn in H. destruct (IH got ret C ltac:(lia) H) as (H1 & H2 & H3).
      split; [done|]. split.
      * intros [|i] ks Hi Hne; cbn in *; [inv Hi; done|]. eauto.
      * intros k. rewrite H3. split; intros [? Hall]; (split; [done|]).
        -- intros [|i] ks res j Hi Hg Hj; cbn in *; [inv Hi; now rewrite lookup_nil in Hj|].
           eauto.
        -- intros i ks res j Hi Hg Hj. apply (Hall (S i) ks res j); done.
    + destruct g as [res0|]; cbn [merge_all] in H; [|discriminate].
      destruct (length res0 =? length (k0 :: ks0))%nat eqn:El; [|discriminate].
      apply Nat.eqb_eq in El.
      destruct (IH got _ C ltac:(lia) H) as (H1 & H2 & H3).
      destruct (merge_one_spec (k0 :: ks0) res0 ret El) as [M1 M2].
      split; [lia|]. split.
      * intros [|i] ks Hi Hne; cbn in Hi |- *; [inv Hi; eauto|]. eauto.
      * intros k. rewrite H3, M2. split.
        -- intros [[? Hj0] Hall]. split; [done|].
           intros [|i] ks res j Hi Hg Hj; cbn in Hi, Hg; [inv Hi; inv Hg; auto|]. eauto.
        -- intros [? Hall]. split; [split; [done|]|].
           ++ intros j Hj. apply (Hall 0%nat (k0 :: ks0) res0 j); done.
           ++ intros i ks res j Hi Hg Hj. apply (Hall (S i) ks res j); done.
Qed.

Lemma merge_all_total idxs : forall got ret,
  length got = length idxs ->
  (forall i ks res, idxs !! i = Some ks -> ks <> [] -> got !! i = Some (Some res) ->
     length res = length ks) ->
  exists o, merge_all idxs got ret = Done o.
Proof.
  induction idxs as [|ks0 idxs IH]; intros [|g got] ret Hl H; try discriminate; [eexists; done|].
  cbn in Hl. assert (Hrec : forall i ks res, idxs !! i = Some ks -> ks <> [] ->
     got !! i = Some (Some res) -> length res = length ks).
  { intros i ks res Hi Hne Hg. apply (H (S i) ks res); done. }
  destruct ks0 as [|k0 ks0]; cbn [merge_all].
  - apply IH; [lia|done].
  - destruct g as [res0|]; [|eauto].
    rewrite (H 0%nat (k0 :: ks0) res0 eq_refl ltac:(done) eq_refl), Nat.eqb_refl.
    apply IH; [lia|done].
Qed.

Lemma merge_all_ready idxs : forall got ret,
  length got = length idxs ->
  (forall i ks, idxs !! i = Some ks -> ks <> [] ->
     exists res, got !! i = Some (Some res) /\ length res = length ks) ->
  exists C, merge_all idxs got ret = Done (Some C).
Proof.
  induction idxs as [|ks0 idxs IH]; intros [|g got] ret Hl H; try discriminate; [eexists; done|].
  cbn in Hl. assert (Hrec : forall i ks, idxs !! i = Some ks -> ks <> [] ->
     exists res, got !! i = Some (Some res) /\ length res = length ks).
  { intros i ks Hi Hne. apply (H (S i) ks); done. }
  destruct ks0 as [|k0 ks0]; cbn [merge_all].
  - apply IH; [lia|done].
  - destruct (H 0%nat (k0 :: ks0) eq_refl ltac:(done)) as (res & Hg & Hlr).
    cbn in Hg. inv Hg. rewrite Hlr, Nat.eqb_refl. apply IH; [lia|done].
Qed.

Lemma shard_flags_total C ks :
  (forall k, In k ks -> (k < length C)%nat) ->
  exists flags, shard_flags C ks = Some flags /\ length flags = length ks /\
    forall j k, ks !! j = Some k -> flags !! j = C !! k.
Proof.
  unfold shard_flags. induction ks as [|k0 ks IH]; intros H.
  - exists []. cbn. split; [done|]. split; [done|]. intros j k Hj. now rewrite lookup_nil in Hj.
  - destruct IH as (flags & E & Hl & Hj). { intros k Hk. apply H. now right. }
    destruct (lookup_lt_is_Some_2 C k0) as [b Hb]. { apply H. now left. }
    exists (b :: flags). cbn. rewrite Hb. cbn. rewrite E. cbn.
    split; [done|]. split; [lia|]. intros [|j] k Hk; cbn in *; [inv Hk; done|auto].
Qed.

Lemma part_idxs_bound r B k : In k (part_idxs r B) -> (k < length B)%nat.
Proof.
  intros H. apply elem_of_list_In, elem_of_list_lookup in H as [j Hj].
  apply idxs_lookup in Hj as [t Hj]. apply relevant_lookup in Hj as (_ & Hk & _).
  apply lookup_lt_Some in Hk. lia.
Qed.

Lemma lookup_repeat {A} (x y : A) m i :
  repeat x m !! i = Some y <-> y = x /\ (i < m)%nat.
Proof.
  revert i. induction m as [|m IH]; intros [|i]; cbn.
  - split; [done|]. intros [_ ?]; lia.
  - split; [done|]. intros [_ ?]; lia.
  - split; [intros E; inv E; split; [done|lia]|intros [-> _]; done].
  - rewrite IH. intuition lia.
Qed.
