(** Consequences of the system invariant in terms of events. *)
From Coq Require Import NArith List Bool Lia Arith.
From stdpp Require Import base decidable list gmap.
From Verif Require Import Base CodecModel TxModel CacheModel LockingShardModel
  LockingShardSpec LockingShardProofs LockingShardCorollaries TwoPhaseModel TwoPhaseSpec
  TwoPhaseNode TwoPhaseProofs.
Import ListNotations.
Open Scope N_scope.

(** ** Runs *)

Section Runs.
Context (cfgs : list shard_cfg) (preseeds : list (gset N)) (cache : N).
Local Notation good := (good cfgs preseeds cache).

Lemma run_good ls : forall s s', good s -> run cfgs s ls = SOk s' -> good s'.
Proof.
  induction ls as [|l ls IH]; cbn; intros s s' HG H; [now inv H|].
  pose proof (step_good _ _ _ s l HG) as G.
  destruct (step cfgs s l); try discriminate. eapply IH; eauto.
Qed.

Lemma reachable_good s : reachable cfgs preseeds cache s -> good s.
Proof. intros [Hl [ls H]]. eapply run_good; [|exact H]. now apply good_new. Qed.

Lemma shard_call_batches s i rq k s' :
  shard_call cfgs s i rq k = SOk s' ->
  s' = s \/ exists s1 rp, k s1 rp = SOk s' /\ sy_batches s1 = sy_batches s.
Proof.
  unfold shard_call. destruct (sy_nodes s !! i), (cfgs !! i); try (intros H; inv H; now left).
  destruct (process_request _ _ _) as [[sh rp]| |]; try discriminate.
  intros H. right. eexists _, _. split; [exact H|]. done.
Qed.

Lemma step_batches s l s' :
  step cfgs s l = SOk s' ->
  sy_batches s' = sy_batches s \/
  exists d txs, l = LNew d txs /\ sy_batches s' = <[d := txs]> (sy_batches s).
Proof.
  destruct l as [d txs|d|d i recv|d|d i recv|d|d i recv|d|d|d]; cbn; intros H;
    try (left; repeat case_match; simplify_eq; try reflexivity;
         try (unfold replicate in *; repeat case_match; simplify_eq; reflexivity);
         try (apply shard_call_batches in H as [->|(s1 & rp & H & E)]; [reflexivity|];
              destruct rp; simplify_eq; repeat case_match; simplify_eq; cbn; congruence);
         fail).
  destruct (sy_batches s !! d); inv H; [now left|]. right. eauto.
Qed.

Lemma step_proper s l s' :
  proper_label l -> proper_sys cfgs s -> step cfgs s l = SOk s' -> proper_sys cfgs s'.
Proof.
  intros Hl Hp H. destruct (step_batches s l s' H) as [E|(d & txs & -> & E)];
    intros d' B c Hb Hc; rewrite E in Hb; [eauto|].
  destruct (decide (d' = d)) as [->|Hne].
  - rewrite lookup_insert in Hb. inv Hb. intros _. exact Hl.
  - rewrite lookup_insert_ne in Hb by congruence. eauto.
Qed.

Lemma run_total ls : forall s,
  good s -> proper_sys cfgs s -> List.Forall proper_label ls ->
  exists s', run cfgs s ls = SOk s' /\ good s' /\ proper_sys cfgs s'.
Proof.
  induction ls as [|l ls IH]; cbn; intros s HG Hp HF; [eauto|].
  inv HF. pose proof (step_good _ _ _ s l HG) as G.
  destruct (step cfgs s l) as [s1| | |] eqn:E; cbn in G; try contradiction.
  apply IH; auto. eapply step_proper; eauto.
Qed.

Lemma never_fails ls :
  length preseeds = length cfgs -> List.Forall proper_label ls ->
  exists s, run cfgs (sys_new preseeds cache) ls = SOk s.
Proof.
  intros Hl HF. destruct (run_total ls (sys_new preseeds cache)) as (s & H & _).
  - now apply good_new.
  - intros d B c Hb. cbn in Hb. now rewrite lookup_empty in Hb.
  - done.
  - eauto.
Qed.

(** Without asserts (a release build) no restriction is needed. *)
Lemma never_fails_release ls :
  length preseeds = length cfgs -> List.Forall (fun c => sc_asserts c = false) cfgs ->
  exists s, run cfgs (sys_new preseeds cache) ls = SOk s.
Proof.
  intros Hl HF.
  assert (Hp : forall s, proper_sys cfgs s).
  { intros s d B c _ Hc Ha. rewrite List.Forall_forall in HF. apply HF in Hc. congruence. }
  assert (G : forall ls s, good s -> exists s', run cfgs s ls = SOk s').
  { induction ls0 as [|l ls0 IH]; cbn; intros s HG; [eauto|].
    pose proof (step_good _ _ _ s l HG) as G.
    destruct (step cfgs s l) as [s1| | |] eqn:E; cbn in G; try contradiction.
    - eauto.
    - destruct (G (Hp s)). }
  apply G. now apply good_new.
Qed.

Lemma one_phase s d :
  reachable cfgs preseeds cache s ->
  (rs_prepare (sy_rsm s) !! d <> None ->
     rs_commit (sy_rsm s) !! d = None /\ d ∉ rs_discard (sy_rsm s)) /\
  (rs_commit (sy_rsm s) !! d <> None -> d ∉ rs_discard (sy_rsm s)).
Proof.
  intros H. apply reachable_good in H as (_ & _ & Hv). specialize (Hv d).
  unfold view_of in Hv. destruct (sy_batches s !! d) as [B|].
  - destruct (bool_decide (d ∈ rs_discard (sy_rsm s))) eqn:E;
      [|apply bool_decide_eq_false in E]; inversion Hv; split; try done; congruence.
  - destruct Hv as (_ & -> & -> & ? & _). done.
Qed.

End Runs.

(** ** Events of one distributed transaction *)

Lemma lock_events_in d txs : forall i0 oks e,
  In e (lock_events d i0 txs oks) ->
  exists (j : nat) (t : compact_tx) (b : bool), txs !! j = Some t /\ oks !! j = Some b /\
    e = if b then Locked d (i0 + j) t else Refused d (i0 + j) t.
Proof.
  induction txs as [|t txs IH]; intros i0 [|b oks] e H; cbn in H; try contradiction.
  destruct H as [<-|H].
  - exists 0%nat, t, b. rewrite Nat.add_0_r. done.
  - apply IH in H as (j & t' & b' & H1 & H2 & ->). exists (S j), t', b'.
    replace (i0 + S j)%nat with (S i0 + j)%nat by lia. done.
Qed.
Lemma lock_events_has d txs : forall i0 oks (j : nat) (t : compact_tx) (b : bool),
  txs !! j = Some t -> oks !! j = Some b ->
  In (if b then Locked d (i0 + j) t else Refused d (i0 + j) t) (lock_events d i0 txs oks).
Proof.
  induction txs as [|t0 txs IH]; intros i0 [|b0 oks] j t b H1 H2; try done.
  destruct j; cbn in *.
  - inv H1. inv H2. rewrite Nat.add_0_r. now left.
  - right. replace (i0 + S j)%nat with (S i0 + j)%nat by lia. eauto.
Qed.
Lemma apply_events_in d txs : forall i0 oks e,
  In e (apply_events d i0 txs oks) ->
  exists (j : nat) (t : compact_tx) (b : bool), txs !! j = Some t /\ oks !! j = Some b /\
    e = if b then Completed d (i0 + j) t else Cancelled d (i0 + j) t.
Proof.
  induction txs as [|t txs IH]; intros i0 [|b oks] e H; cbn in H; try contradiction.
  destruct H as [<-|H].
  - exists 0%nat, t, b. rewrite Nat.add_0_r. done.
  - apply IH in H as (j & t' & b' & H1 & H2 & ->). exists (S j), t', b'.
    replace (i0 + S j)%nat with (S i0 + j)%nat by lia. done.
Qed.
Lemma apply_events_has d txs : forall i0 oks (j : nat) (t : compact_tx) (b : bool),
  txs !! j = Some t -> oks !! j = Some b ->
  In (if b then Completed d (i0 + j) t else Cancelled d (i0 + j) t)
     (apply_events d i0 txs oks).
Proof.
  induction txs as [|t0 txs IH]; intros i0 [|b0 oks] j t b H1 H2; try done.
  destruct j; cbn in *.
  - inv H1. inv H2. rewrite Nat.add_0_r. now left.
  - right. replace (i0 + S j)%nat with (S i0 + j)%nat by lia. eauto.
Qed.

Lemma lock_events_nodup d txs : forall i0 oks, List.NoDup (lock_events d i0 txs oks).
Proof.
  induction txs as [|t txs IH]; intros i0 [|b oks]; cbn; constructor; auto.
  intros H. apply lock_events_in in H as (j & t' & b' & _ & _ & E).
  destruct b, b'; inv E; lia.
Qed.
Lemma apply_events_nodup d txs : forall i0 oks, List.NoDup (apply_events d i0 txs oks).
Proof.
  induction txs as [|t txs IH]; intros i0 [|b oks]; cbn; constructor; auto.
  intros H. apply apply_events_in in H as (j & t' & b' & _ & _ & E).
  destruct b, b'; inv E; lia.
Qed.

Definition event_dtx (e : event) : N :=
  match e with
  | Locked d _ _ | Refused d _ _ | Completed d _ _ | Cancelled d _ _ => d
  end.
Lemma about_spec d e : about d e = true <-> event_dtx e = d.
Proof. destruct e; apply bool_decide_eq_true. Qed.

Lemma in_evs_of d e nd : event_dtx e = d -> In e (nd_events nd) <-> In e (evs_of d nd).
Proof.
  intros H. unfold evs_of. rewrite filter_In, about_spec. tauto.
Qed.

Lemma nodup_by_dtx (l : list event) :
  (forall d, List.NoDup (List.filter (about d) l)) -> List.NoDup l.
Proof.
  induction l as [|e l IH]; intros H; constructor.
  - specialize (H (event_dtx e)). cbn in H.
    rewrite (proj2 (about_spec _ _) eq_refl) in H. inv H.
    intros Hin. match goal with Hx : ~ In _ _ |- _ => apply Hx end.
    apply filter_In. split; [done|]. now apply about_spec.
  - apply IH. intros d. specialize (H d). cbn in H.
    destruct (about d e); [now inv H|done].
Qed.

Section Story.
Context (cfgs : list shard_cfg) (preseeds : list (gset N)) (cache : N).
Local Notation good := (good cfgs preseeds cache).
Local Notation pidx := (pidx cfgs).
Local Notation ptxs := (ptxs cfgs).
Local Notation decided := (decided cfgs).

(** What every shard did for a batch: [R] are the lock answers, [C] the decision. *)
Definition story (d : N) (B : list compact_tx) (ns : list node) (R : nat -> list bool)
    (C : list bool) (D : bool) : Prop :=
  (D = true -> decided B C R) /\
  (forall i nd, ns !! i = Some nd ->
     (pidx B i = [] /\ evs_of d nd = []) \/
     (pidx B i <> [] /\ length (R i) = length (ptxs B i) /\
       ((D = false /\ evs_of d nd = []) \/
        evs_of d nd = lock_events d 0 (ptxs B i) (R i) \/
        (D = true /\ exists flags, shard_flags C (pidx B i) = Some flags /\
           length flags = length (ptxs B i) /\
           evs_of d nd = lock_events d 0 (ptxs B i) (R i)
                         ++ apply_events d 0 (ptxs B i) flags)))).

Lemma good_story s d B :
  good s -> sy_batches s !! d = Some B ->
  exists R C D, story d B (sy_nodes s) R C D.
Proof.
  intros (_ & _ & Hv) Hb. specialize (Hv d). unfold view_of in Hv. rewrite Hb in Hv.
  inversion Hv as [th H1 H2|th H1 H2|th C R HD H1 H2|th C R HD H1 H2|th C R an HD H1 H2 H3];
    subst; clear Hv.
  - exists (fun i => repeat false (length (ptxs B i))), [], false. split; [done|].
    intros i nd Hi. destruct (H1 i nd Hi) as (He & _).
    destruct (decide (pidx B i = [])); [now left|]. right. rewrite repeat_length. auto.
  - exists (fun i => match sy_nodes s !! i with
              | Some nd => match sh_prepared (nd_shard nd) !! d with
                           | Some p => pd_results p
                           | None => repeat false (length (ptxs B i)) end
              | None => [] end), [], false. split; [done|].
    intros i nd Hi. rewrite Hi. destruct (H1 i nd Hi) as [(He & Hp & _)|[Hne [res (He & Hp & Ha & Hl)]]].
    + rewrite Hp. destruct (decide (pidx B i = [])); [now left|]. right.
      rewrite repeat_length. auto.
    + rewrite Hp. cbn. right. auto.
  - exists R, C, true. split; [done|]. intros i nd Hi.
    destruct (H1 i nd Hi) as [[? (He & _)]|[Hne [(He & Hp & Ha & Hl)|[(f & Hf & He & _ & Hl & Hlf) _]]]].
    + now left.
    + right. auto.
    + right. split; [done|]. split; [done|]. right. right. eauto.
  - exists R, C, true. split; [done|]. intros i nd Hi.
    destruct (H1 i nd Hi) as [[? (He & _)]|[Hne (f & Hf & He & _ & Hl & Hlf)]].
    + now left.
    + right. split; [done|]. split; [done|]. right. right. eauto.
  - exists R, C, true. split; [done|]. intros i nd Hi.
    destruct (H1 i nd Hi) as [[? (He & _)]|[Hne (f & Hf & He & _ & Hl & Hlf)]].
    + now left.
    + right. split; [done|]. split; [done|]. right. right. eauto.
Qed.

Lemma sent_ptxs B i j k t :
  sent cfgs B i j k t <-> pidx B i !! j = Some k /\ ptxs B i !! j = Some t.
Proof.
  unfold sent, TwoPhaseProofs.pidx, TwoPhaseProofs.ptxs. destruct (cfgs !! i) as [c|].
  - rewrite idxs_lookup, part_lookup. split.
    + intros (c' & Ec & H). inv Ec. eauto.
    + intros [[t' H1] [k' H2]]. assert (k' = k /\ t' = t) as [-> ->] by (split; congruence).
      eauto.
  - split; [intros (c & ? & _); done|]. intros [? _]. done.
Qed.

Lemma flags_lookup C ks flags j k :
  shard_flags C ks = Some flags -> ks !! j = Some k -> flags !! j = C !! k.
Proof.
  unfold shard_flags. revert flags j. induction ks as [|k0 ks IH]; intros flags j H Hj; [done|].
  cbn in H. destruct (C !! k0) as [b|] eqn:Eb; cbn in H; [|discriminate].
  destruct (mapM _ ks) as [fs|] eqn:Ef; cbn in H; inv H.
  destruct j; cbn in Hj |- *; [inv Hj; done|]. eapply IH; eauto.
Qed.

Lemma sent_node s i B j k t :
  good s -> sent cfgs B i j k t -> exists nd, sy_nodes s !! i = Some nd.
Proof.
  intros HG (c & Hc & _). destruct (node_get cfgs preseeds cache s i HG) as (nd & _ & _ & ? & _).
  { eapply lookup_lt_Some; eauto. } eauto.
Qed.

Lemma in_events_at s i nd e :
  sy_nodes s !! i = Some nd -> In e (events_at s i) <-> In e (evs_of (event_dtx e) nd).
Proof.
  intros Hn. unfold events_at. rewrite Hn. apply (in_evs_of _ e nd). done.
Qed.

(** An event of a story. *)
Lemma story_event d B ns R C D i nd e :
  story d B ns R C D -> ns !! i = Some nd -> In e (evs_of d nd) ->
  exists j k t, pidx B i !! j = Some k /\ ptxs B i !! j = Some t /\
   (e = (match R i !! j with Some true => Locked d j t | _ => Refused d j t end) \/
    (D = true /\ e = match C !! k with Some true => Completed d j t | _ => Cancelled d j t end)).
Proof.
  intros [_ H] Hn Hin. assert (Hidx : forall j t, ptxs B i !! j = Some t ->
    exists k, pidx B i !! j = Some k).
  { intros j t Hj. apply lookup_lt_Some in Hj. rewrite <- pidx_ptxs in Hj.
    now apply lookup_lt_is_Some_2. }
  destruct (H i nd Hn) as [[_ E]|[Hne [Hl [[_ E]|[E|(HD & flags & Hf & Hlf & E)]]]]];
    rewrite E in Hin; try (now destruct Hin).
  - apply lock_events_in in Hin as (j & t & b & Ht & Hb & ->).
    destruct (Hidx j t Ht) as [k Hk]. exists j, k, t. rewrite Hb.
    destruct b; eauto 6.
  - apply in_app_or in Hin as [Hin|Hin].
    + apply lock_events_in in Hin as (j & t & b & Ht & Hb & ->).
      destruct (Hidx j t Ht) as [k Hk]. exists j, k, t. rewrite Hb.
      destruct b; eauto 6.
    + apply apply_events_in in Hin as (j & t & b & Ht & Hb & ->).
      destruct (Hidx j t Ht) as [k Hk]. exists j, k, t.
      rewrite (flags_lookup _ _ _ _ _ Hf Hk) in Hb. rewrite Hb.
      destruct b; eauto 8.
Qed.

Lemma sent_inj B i j j' k t t' :
  sent cfgs B i j k t -> sent cfgs B i j' k t' -> j = j'.
Proof.
  intros (c & Hc & H) (c' & Hc' & H'). assert (c' = c) as -> by congruence.
  eapply relevant_inj; eauto.
Qed.
Lemma sent_fun B i j k k' t t' :
  sent cfgs B i j k t -> sent cfgs B i j k' t' -> k = k' /\ t = t'.
Proof.
  intros (c & Hc & H) (c' & Hc' & H'). assert (c' = c) as -> by congruence.
  rewrite H in H'. inv H'. done.
Qed.

Lemma only_sent s i e :
  good s -> In e (events_at s i) ->
  exists B j k t, sy_batches s !! event_dtx e = Some B /\ sent cfgs B i j k t /\
    (e = Locked (event_dtx e) j t \/ e = Refused (event_dtx e) j t \/
     e = Completed (event_dtx e) j t \/ e = Cancelled (event_dtx e) j t).
Proof.
  intros HG Hin. destruct (sy_nodes s !! i) as [nd|] eqn:Hn;
    [|unfold events_at in Hin; rewrite Hn in Hin; destruct Hin].
  rewrite (in_events_at s i nd e Hn) in Hin.
  destruct (sy_batches s !! event_dtx e) as [B|] eqn:Hb.
  - destruct (good_story s _ B HG Hb) as (R & C & D & HS).
    destruct (story_event _ _ _ _ _ _ _ _ _ HS Hn Hin) as (j & k & t & H1 & H2 & He).
    exists B, j, k, t. split; [done|]. split; [now apply sent_ptxs|].
    destruct He as [He|[_ He]].
    + destruct (R i !! j) as [[|]|]; auto.
    + destruct (C !! k) as [[|]|]; auto.
  - pose proof HG as (_ & _ & Hv). specialize (Hv (event_dtx e)). unfold view_of in Hv.
    rewrite Hb in Hv. destruct Hv as (Hnone & _). destruct (Hnone i nd Hn) as (E & _).
    rewrite E in Hin. destruct Hin.
Qed.

Lemma decision_event s d B i j k t (b : bool) R C D :
  story d B (sy_nodes s) R C D -> sent cfgs B i j k t ->
  In (if b then Completed d j t else Cancelled d j t) (events_at s i) ->
  D = true /\ (C !! k = Some true <-> b = true).
Proof.
  intros HS Hs Hin. destruct (sy_nodes s !! i) as [nd|] eqn:Hn;
    [|unfold events_at in Hin; rewrite Hn in Hin; destruct Hin].
  rewrite (in_events_at s i nd _ Hn) in Hin.
  replace (event_dtx (if b then Completed d j t else Cancelled d j t)) with d in Hin
    by now destruct b.
  destruct (story_event _ _ _ _ _ _ _ _ _ HS Hn Hin) as (j' & k' & t' & H1 & H2 & He).
  destruct He as [He|[HD He]].
  - destruct b, (R i !! j') as [[|]|]; discriminate.
  - assert (j' = j) as ->.
    { destruct b, (C !! k') as [[|]|]; inv He; done. }
    assert (k' = k) as ->.
    { apply sent_ptxs in Hs as [Hs _]. congruence. }
    split; [done|]. destruct b, (C !! k) as [[|]|]; inv He; split; congruence.
Qed.

Lemma atomic s d B i j i' j' k t t' :
  good s -> sy_batches s !! d = Some B ->
  sent cfgs B i j k t -> sent cfgs B i' j' k t' ->
  In (Completed d j t) (events_at s i) -> In (Cancelled d j' t') (events_at s i') -> False.
Proof.
  intros HG Hb Hs Hs' H1 H2. destruct (good_story s d B HG Hb) as (R & C & D & HS).
  destruct (decision_event s d B i j k t true R C D HS Hs H1) as [_ E1].
  destruct (decision_event s d B i' j' k t' false R C D HS Hs' H2) as [_ E2].
  apply proj2 in E1. specialize (E1 eq_refl). apply E2 in E1. discriminate.
Qed.

Lemma story_locked d B ns R C i nd j k t :
  story d B ns R C true -> ns !! i = Some nd -> sent cfgs B i j k t ->
  exists b : bool, R i !! j = Some b /\
    In (if b then Locked d j t else Refused d j t) (evs_of d nd).
Proof.
  intros [_ H] Hn Hs. apply sent_ptxs in Hs as [Hk Ht].
  destruct (H i nd Hn) as [[Hz _]|[Hne [Hl [[? _]|[E|(_ & flags & Hf & Hlf & E)]]]]];
    [now rewrite Hz in Hk|done| |].
  - destruct (lookup_lt_is_Some_2 (R i) j) as [b Hb].
    { rewrite Hl. now apply lookup_lt_Some in Ht. }
    exists b. split; [done|]. rewrite E. apply (lock_events_has d _ 0 _ j t b Ht Hb).
  - destruct (lookup_lt_is_Some_2 (R i) j) as [b Hb].
    { rewrite Hl. now apply lookup_lt_Some in Ht. }
    exists b. split; [done|]. rewrite E. apply in_or_app. left.
    apply (lock_events_has d _ 0 _ j t b Ht Hb).
Qed.

Lemma completed_all_locked s d B i j k t :
  good s -> sy_batches s !! d = Some B -> sent cfgs B i j k t ->
  In (Completed d j t) (events_at s i) ->
  forall i' j' t', sent cfgs B i' j' k t' -> In (Locked d j' t') (events_at s i').
Proof.
  intros HG Hb Hs Hin i' j' t' Hs'. destruct (good_story s d B HG Hb) as (R & C & D & HS).
  destruct (decision_event s d B i j k t true R C D HS Hs Hin) as [-> E1].
  destruct (sent_node s i' B j' k t' HG Hs') as [nd' Hn'].
  destruct (story_locked _ _ _ _ _ _ _ _ _ _ HS Hn' Hs') as (b & Hb' & He).
  pose proof HS as [HD _]. destruct (HD eq_refl) as [_ Hdec].
  destruct (proj1 (Hdec k) (proj2 E1 eq_refl)) as [_ Hall].
  apply sent_ptxs in Hs' as [Hk Ht]. rewrite (Hall i' j' Hk) in Hb'. inv Hb'.
  apply (in_events_at s i' nd' _ Hn'). done.
Qed.

Lemma cancelled_some_refused s d B i j k t :
  good s -> sy_batches s !! d = Some B -> sent cfgs B i j k t ->
  In (Cancelled d j t) (events_at s i) ->
  exists i' j' t', sent cfgs B i' j' k t' /\ In (Refused d j' t') (events_at s i').
Proof.
  intros HG Hb Hs Hin. destruct (good_story s d B HG Hb) as (R & C & D & HS).
  destruct (decision_event s d B i j k t false R C D HS Hs Hin) as [-> E1].
  pose proof HS as [HD _]. destruct (HD eq_refl) as [_ Hdec].
  assert (HkB : (k < length B)%nat).
  { apply sent_ptxs in Hs as [Hk _]. apply (pidx_bound cfgs B i).
    apply elem_of_list_In, elem_of_list_lookup. eauto. }
  (* search for a shard that refused *)
  assert (Hsearch : forall m, (exists i' j' t', sent cfgs B i' j' k t' /\ R i' !! j' <> Some true)
            \/ forall i' j' t', (i' < m)%nat -> sent cfgs B i' j' k t' -> R i' !! j' = Some true).
  { induction m as [|m [IH|IH]]; [right; intros; lia|now left|].
    destruct (cfgs !! m) as [c|] eqn:Ec.
    2: { right. intros i' j' t' Hlt Hs'. destruct (decide (i' = m)) as [->|].
         - destruct Hs' as (c & ? & _). congruence.
         - apply (IH i' j' t'); [lia|done]. }
    destruct (lookup_lt_is_Some_2 B k HkB) as [t' Ht'].
    destruct (active (sc_range c) t') eqn:Ea.
    - destruct (relevant_complete (sc_range c) B 0 k t' Ht' Ea) as [j' Hj].
      cbn in Hj.
      destruct (decide (R m !! j' = Some true)) as [HR|HR].
      + right. intros i2 j2 t2 Hlt Hs2. destruct (decide (i2 = m)) as [->|].
        * assert (j2 = j') as ->; [|done]. eapply sent_inj; [exact Hs2|]. exists c. eauto.
        * apply (IH i2 j2 t2); [lia|done].
      + left. exists m, j', t'. split; [|done]. exists c. done.
    - right. intros i2 j2 t2 Hlt Hs2. destruct (decide (i2 = m)) as [->|].
      * exfalso. destruct Hs2 as (c2 & Hc2 & H2). assert (c2 = c) as -> by congruence.
        apply relevant_lookup in H2 as (_ & H2 & H3). rewrite Nat.sub_0_r in H2. congruence.
      * apply (IH i2 j2 t2); [lia|done]. }
  destruct (Hsearch (length cfgs)) as [(i' & j' & t' & Hs' & HR)|Hall].
  - destruct (sent_node s i' B j' k t' HG Hs') as [nd' Hn'].
    destruct (story_locked _ _ _ _ _ _ _ _ _ _ HS Hn' Hs') as (b & Hb' & He).
    destruct b; [congruence|]. exists i', j', t'. split; [done|].
    apply (in_events_at s i' nd' _ Hn'). done.
  - exfalso. assert (false = true); [|done]. apply E1. apply Hdec. split; [done|].
    intros i' j' Hk'. assert (exists t', ptxs B i' !! j' = Some t') as [t' Ht'].
    { apply lookup_lt_Some in Hk'. rewrite pidx_ptxs in Hk'. now apply lookup_lt_is_Some_2. }
    assert (Hs' : sent cfgs B i' j' k t') by now apply sent_ptxs.
    apply (Hall i' j' t'); [|done]. destruct Hs' as (c & Hc & _). now apply lookup_lt_Some in Hc.
Qed.

Lemma answer_exact s d A :
  good s -> sy_answers s !! d = Some A ->
  exists B, sy_batches s !! d = Some B /\ length A = length B /\
    forall i j k t, sent cfgs B i j k t ->
      exists b : bool, A !! k = Some b /\
        In (if b then Completed d j t else Cancelled d j t) (events_at s i).
Proof.
  intros HG Ha. pose proof HG as (_ & _ & Hv). specialize (Hv d). unfold view_of in Hv.
  destruct (sy_batches s !! d) as [B|] eqn:Hb; [|destruct Hv as (_&_&_&_&_&?); congruence].
  exists B. split; [done|]. rewrite Ha in Hv.
  inversion Hv as [| | | |th C R an HD H1 H2 H3]; subst.
  destruct H3 as [?|E]; [done|]. inv E. split; [apply HD|].
  intros i j k t Hs. destruct (sent_node s i B j k t HG Hs) as [nd Hn].
  pose proof Hs as Hs0. apply sent_ptxs in Hs as [Hk Ht].
  destruct (H1 i nd Hn) as [[Hz _]|[Hne (f & Hf & He & _ & Hl & Hlf)]]; [now rewrite Hz in Hk|].
  destruct (lookup_lt_is_Some_2 f j) as [b Hbf].
  { rewrite Hlf. now apply lookup_lt_Some in Ht. }
  exists b. split; [now rewrite <- (flags_lookup _ _ _ _ _ Hf Hk)|].
  apply (in_events_at s i nd _ Hn).
  replace (event_dtx (if b then Completed d j t else Cancelled d j t)) with d by now destruct b.
  rewrite He. apply in_or_app. right. apply (apply_events_has d _ 0 f j t b Ht Hbf).
Qed.

Lemma events_once s i : good s -> List.NoDup (events_at s i).
Proof.
  intros HG. unfold events_at. destruct (sy_nodes s !! i) as [nd|] eqn:Hn; [|constructor].
  apply nodup_by_dtx. intros d. fold (evs_of d nd).
  destruct (sy_batches s !! d) as [B|] eqn:Hb.
  - destruct (good_story s d B HG Hb) as (R & C & D & _ & H).
    destruct (H i nd Hn) as [[_ E]|[_ [Hl [[_ E]|[E|(_ & flags & Hf & Hlf & E)]]]]].
    + unfold evs_of in E. change (history _ _) with (nd_events nd). rewrite E. constructor.
    + unfold evs_of in E. change (history _ _) with (nd_events nd). rewrite E. constructor.
    + unfold evs_of in E. change (history _ _) with (nd_events nd). rewrite E.
      apply lock_events_nodup.
    + unfold evs_of in E. change (history _ _) with (nd_events nd). rewrite E.
      rewrite <- NoDup_ListNoDup. apply NoDup_app. split; [apply NoDup_ListNoDup, lock_events_nodup|].
      split; [|apply NoDup_ListNoDup, apply_events_nodup].
      intros e H1 H2. apply elem_of_list_In in H1, H2.
      apply lock_events_in in H1 as (? & ? & b1 & _ & _ & ->).
      apply apply_events_in in H2 as (? & ? & b2 & _ & _ & E2). destruct b1, b2; discriminate.
  - pose proof HG as (_ & _ & Hv). specialize (Hv d). unfold view_of in Hv.
    rewrite Hb in Hv. destruct Hv as (Hnone & _). destruct (Hnone i nd Hn) as (E & _).
    unfold evs_of in E. change (history _ _) with (nd_events nd). rewrite E. constructor.
Qed.

Lemma app_cons_split {A} (L A2 l1 l2 : list A) x :
  l1 ++ x :: l2 = L ++ A2 -> ~ In x L -> exists p, l1 = L ++ p /\ A2 = p ++ x :: l2.
Proof.
  revert l1. induction L as [|y L IH]; cbn; intros l1 E Hx; [eauto|].
  destruct l1 as [|z l1]; cbn in E; inv E; [tauto|].
  destruct (IH l1) as (p & -> & ->); [done|tauto|]. eauto.
Qed.

Lemma holding_app e1 e2 : holding (e1 ++ e2) = fold_left hold_step e2 (holding e1).
Proof. apply fold_left_app. Qed.

Lemma holding_in d i t e1 :
  In (Locked d i t) e1 ->
  (forall e, In e e1 -> forall t', e <> Completed d i t' /\ e <> Cancelled d i t') ->
  In (d, i, t) (holding e1).
Proof.
  induction e1 as [|e e1 IH] using rev_ind; intros Hin Hno; [destruct Hin|].
  rewrite holding_app. cbn.
  assert (Hno' : forall e0, In e0 e1 -> forall t', e0 <> Completed d i t' /\ e0 <> Cancelled d i t').
  { intros e0 H0. apply Hno. apply in_or_app. now left. }
  assert (He : forall t', e <> Completed d i t' /\ e <> Cancelled d i t').
  { apply Hno. apply in_or_app. right. now left. }
  apply in_app_or in Hin as [Hin|[->|[]]].
  - specialize (IH Hin Hno'). destruct e as [d' i' t'|d' i' t'|d' i' t'|d' i' t']; cbn;
      auto; apply filter_In; (split; [done|]); cbn; apply negb_true_iff, bool_decide_eq_false;
      intros E; inv E; destruct (He t') as [? ?]; congruence.
  - cbn. now left.
Qed.

Lemma system_completes_locked s i : good s -> completes_locked (events_at s i).
Proof.
  intros HG e1 d j t e2 E. unfold events_at in E.
  destruct (sy_nodes s !! i) as [nd|] eqn:Hn; [|destruct e1; discriminate].
  change (history _ _) with (nd_events nd) in E.
  assert (Ef : evs_of d nd = List.filter (about d) e1 ++ Completed d j t :: List.filter (about d) e2).
  { unfold evs_of. rewrite E, List.filter_app. cbn. now rewrite bool_decide_eq_true_2. }
  destruct (sy_batches s !! d) as [B|] eqn:Hb.
  2: { pose proof HG as (_ & _ & Hv). specialize (Hv d). unfold view_of in Hv.
       rewrite Hb in Hv. destruct Hv as (Hnone & _). destruct (Hnone i nd Hn) as (E0 & _).
       rewrite E0 in Ef. destruct (List.filter (about d) e1); discriminate. }
  destruct (good_story s d B HG Hb) as (R & C & D & HS). pose proof HS as [HD H].
  destruct (H i nd Hn) as [[_ E0]|[_ [Hl [[_ E0]|[E0|(HDt & flags & Hf & Hlf & E0)]]]]];
    rewrite E0 in Ef; try (destruct (List.filter (about d) e1); discriminate).
  - assert (Hin : In (Completed d j t) (lock_events d 0 (ptxs B i) (R i))).
    { rewrite Ef. apply in_or_app. right. now left. }
    apply lock_events_in in Hin as (? & ? & b & _ & _ & Hx). destruct b; discriminate.
  - symmetry in Ef. apply app_cons_split in Ef as (p & E1 & E2).
    2: { intros Hin. apply lock_events_in in Hin as (? & ? & b & _ & _ & Hx). destruct b; discriminate. }
    assert (Hin : In (Completed d j t) (apply_events d 0 (ptxs B i) flags)).
    { rewrite E2. apply in_or_app. right. now left. }
    apply apply_events_in in Hin as (j' & t' & b & Ht & Hbf & Hx). cbn in Hx.
    destruct b; [|discriminate]. inv Hx.
    assert (exists k, pidx B i !! j' = Some k) as [k Hk].
    { pose proof Ht as Ht0. apply lookup_lt_Some in Ht0. rewrite <- pidx_ptxs in Ht0.
      now apply lookup_lt_is_Some_2. }
    assert (HR : R i !! j' = Some true).
    { destruct (HD eq_refl) as [_ Hdec]. rewrite (flags_lookup _ _ _ _ _ Hf Hk) in Hbf.
      apply Hdec in Hbf as [_ Hall]. auto. }
    apply holding_in.
    + assert (Hl1 : In (Locked d j' t') (List.filter (about d) e1)).
      { rewrite E1. apply in_or_app. left. apply (lock_events_has d _ 0 _ j' t' true Ht HR). }
      now apply filter_In in Hl1 as [? _].
    + intros e He t''. assert (Hcase : e = Completed d j' t'' \/ e = Cancelled d j' t'' ->
        In e p).
      { intros Hc. assert (Hf1 : In e (List.filter (about d) e1)).
        { apply filter_In. split; [done|]. apply about_spec. destruct Hc as [-> | ->]; done. }
        rewrite E1 in Hf1. apply in_app_or in Hf1 as [Hf1|Hf1]; [|done].
        apply lock_events_in in Hf1 as (? & ? & b & _ & _ & Hx).
        destruct b, Hc as [-> | ->]; discriminate. }
      (* positions in the apply events are distinct *)
      assert (Hpos : forall txs fl i0 p q, apply_events d i0 txs fl = p ++ Completed d j' t' :: q ->
                forall e, In e p -> forall t2, e <> Completed d j' t2 /\ e <> Cancelled d j' t2).
      { clear. induction txs as [|t0 txs IH]; intros [|f fl] i0 p q Hq e He t2; cbn in Hq;
          try (destruct p; discriminate).
        destruct p as [|e0 p]; [destruct He|]. cbn in Hq. inversion Hq as [[Hh Ht]].
        assert (Hc : In (Completed d j' t') (apply_events d (S i0) txs fl)).
        { rewrite Ht. apply in_or_app. right. now left. }
        apply apply_events_in in Hc as (j0 & ? & b & _ & _ & Hx). destruct b; [|discriminate].
        inv Hx. destruct He as [<-|He].
        - destruct f; split; intros Hx; inv Hx; lia.
        - eapply IH; eauto. }
      split; intros Hc; destruct (Hpos _ _ _ _ _ E2 e (Hcase ltac:(auto)) t'') as [N1 N2];
        [now apply N1|now apply N2].
Qed.

End Story.
