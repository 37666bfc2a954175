(** Crash recovery of coordinators. *)
From Coq Require Import NArith List Bool Lia Arith.
From stdpp Require Import base decidable list gmap.
From Verif Require Import Base CodecModel TxModel CacheModel LockingShardModel
  LockingShardSpec LockingShardProofs LockingShardCorollaries TwoPhaseModel TwoPhaseSpec
  TwoPhaseNode TwoPhaseProofs TwoPhaseCorollaries.
Import ListNotations.
Open Scope N_scope.

Section Recovery.
Context (cfgs : list shard_cfg) (preseeds : list (gset N)) (cache : N).
Local Notation good := (good cfgs preseeds cache).
Local Notation pidx := (pidx cfgs).
Local Notation ptxs := (ptxs cfgs).
Local Notation decided := (decided cfgs).
Local Notation idxs_of := (idxs_of cfgs).
Local Notation n := (length cfgs).

(** ** Events are never forgotten *)

Lemma call_events s i rq k s' j e :
  good s -> shard_call cfgs s i rq k = SOk s' ->
  (forall s1 rp, k s1 rp = SOk s' -> sy_nodes s' = sy_nodes s1) ->
  In e (events_at s j) -> In e (events_at s' j).
Proof.
  intros HG H Hk Hin. unfold shard_call in H.
  destruct (sy_nodes s !! i) as [nd|] eqn:En; [|now inv H].
  destruct (cfgs !! i) as [c|] eqn:Ec; [|now inv H].
  destruct (process_request c (nd_shard nd) rq) as [[sh rp]| |] eqn:Ep; try discriminate.
  pose proof (Hk _ _ H) as Hn. cbn in Hn. unfold events_at. rewrite Hn.
  destruct (decide (j = i)) as [->|Hne].
  - rewrite list_lookup_insert by (eapply lookup_lt_Some; eauto).
    destruct (node_get cfgs preseeds cache s i HG) as (nd' & c' & p & En' & Ec' & Hok & _).
    { eapply lookup_lt_Some; eauto. }
    assert (nd' = nd) as -> by congruence. assert (c' = c) as -> by congruence.
    destruct (node_step c p cache nd rq sh rp Hok Ep) as [_ E].
    unfold nd_events, node_next in E. cbn in E |- *. rewrite E. apply in_or_app. left.
    unfold events_at in Hin. now rewrite En in Hin.
  - rewrite list_lookup_insert_ne by auto. exact Hin.
Qed.

Lemma step_events s l s' j e :
  good s -> step cfgs s l = SOk s' -> In e (events_at s j) -> In e (events_at s' j).
Proof.
  intros HG H Hin.
  destruct l as [d txs|d|d i recv|d|d i recv|d|d i recv|d|d|d]; cbn in H;
    try (repeat case_match; simplify_eq; try exact Hin;
         try (unfold replicate in *; repeat case_match; simplify_eq; exact Hin);
         try (eapply call_events; [exact HG|exact H| |exact Hin];
              intros s1 rp Hk; destruct rp; simplify_eq; repeat case_match; simplify_eq; reflexivity);
         fail).
Qed.

Lemma run_events ls : forall s s' j e,
  good s -> run cfgs s ls = SOk s' -> In e (events_at s j) -> In e (events_at s' j).
Proof.
  induction ls as [|l ls IH]; cbn; intros s s' j e HG H Hin; [now inv H|].
  pose proof (step_good _ _ _ s l HG) as G.
  destruct (step cfgs s l) as [s1| | |] eqn:E; try discriminate.
  apply (IH s1 s'); [exact G|exact H|]. apply (step_events s l s1 j e HG E Hin).
Qed.

Lemma run_batches ls : forall s s' d B,
  run cfgs s ls = SOk s' -> sy_batches s !! d = Some B -> sy_batches s' !! d = Some B.
Proof.
  induction ls as [|l ls IH]; cbn; intros s s' d B H Hb; [now inv H|].
  destruct (step cfgs s l) as [s1| | |] eqn:E; try discriminate.
  eapply IH; [exact H|]. destruct (step_batches cfgs s l s1 E) as [->|(d' & txs & -> & E')]; [done|].
  destruct (decide (d' = d)) as [->|Hne].
  - cbn in E. rewrite Hb in E. inv E. done.
  - rewrite E'. now rewrite lookup_insert_ne.
Qed.

Lemma locked_refused s i d j t t' :
  good s -> In (Locked d j t) (events_at s i) -> In (Refused d j t') (events_at s i) -> False.
Proof.
  intros HG H1 H2.
  destruct (only_sent cfgs preseeds cache s i _ HG H1) as (B & _ & _ & _ & Hb & _).
  cbn in Hb. destruct (good_story cfgs preseeds cache s d B HG Hb) as (R & C & D & HS).
  destruct (sy_nodes s !! i) as [nd|] eqn:Hn;
    [|unfold events_at in H1; rewrite Hn in H1; destruct H1].
  apply (in_events_at s i nd _ Hn) in H1. apply (in_events_at s i nd _ Hn) in H2.
  cbn [event_dtx] in H1, H2.
  destruct (story_event cfgs _ _ _ _ _ _ _ _ _ HS Hn H1) as (j1 & k1 & t1 & A1 & A2 & A3).
  destruct (story_event cfgs _ _ _ _ _ _ _ _ _ HS Hn H2) as (j2 & k2 & t2 & B1 & B2 & B3).
  destruct A3 as [A3|[_ A3]]; [|destruct (C !! k1) as [[|]|]; discriminate].
  destruct B3 as [B3|[_ B3]]; [|destruct (C !! k2) as [[|]|]; discriminate].
  destruct (R i !! j1) as [[|]|] eqn:E1; inv A3.
  destruct (R i !! j2) as [[|]|] eqn:E2; inv B3; congruence.
Qed.

(** The recorded decision is a function of the lock answers. *)
Lemma recorded_story s d C idxs :
  good s -> rs_commit (sy_rsm s) !! d = Some (C, idxs) ->
  exists B R, sy_batches s !! d = Some B /\ decided B C R /\
    forall i j k t, sent cfgs B i j k t -> exists b : bool, R i !! j = Some b /\
      In (if b then Locked d j t else Refused d j t) (events_at s i).
Proof.
  intros HG Hc. pose proof HG as (_ & _ & Hv). specialize (Hv d). unfold view_of in Hv.
  destruct (sy_batches s !! d) as [B|] eqn:Hb; [|destruct Hv as (_ & _ & ? & _); congruence].
  rewrite Hc in Hv. inversion Hv as [| |th C' R HD H1 H2| |]; subst.
  exists B, R. split; [done|]. split; [done|]. intros i j k t Hs.
  destruct (sent_node cfgs preseeds cache s i B j k t HG Hs) as [nd Hn].
  pose proof Hs as Hs0. apply sent_ptxs in Hs as [Hk Ht].
  assert (He : exists b : bool, R i !! j = Some b /\
     In (if b then Locked d j t else Refused d j t) (evs_of d nd)).
  { destruct (H1 i nd Hn) as [[Hz _]|[_ [(He & _ & _ & Hl)|[(f & _ & He & _ & Hl & _) _]]]].
    - now rewrite Hz in Hk.
    - destruct (lookup_lt_is_Some_2 (R i) j) as [b Hbb].
      { rewrite Hl. now apply lookup_lt_Some in Ht. }
      exists b. split; [done|]. rewrite He. apply (lock_events_has d _ 0 _ j t b Ht Hbb).
    - destruct (lookup_lt_is_Some_2 (R i) j) as [b Hbb].
      { rewrite Hl. now apply lookup_lt_Some in Ht. }
      exists b. split; [done|]. rewrite He. apply in_or_app. left.
      apply (lock_events_has d _ 0 _ j t b Ht Hbb). }
  destruct He as (b & Hbb & He). exists b. split; [done|].
  apply (in_events_at s i nd _ Hn).
  now replace (event_dtx (if b then Locked d j t else Refused d j t)) with d by now destruct b.
Qed.

Lemma decision_stable s ls s' d C idxs B i j k t :
  good s -> rs_commit (sy_rsm s) !! d = Some (C, idxs) -> sy_batches s !! d = Some B ->
  run cfgs s ls = SOk s' -> sent cfgs B i j k t ->
  (In (Completed d j t) (events_at s' i) -> C !! k = Some true) /\
  (In (Cancelled d j t) (events_at s' i) -> C !! k = Some false).
Proof.
  intros HG Hc Hb Hrun Hs.
  destruct (recorded_story s d C idxs HG Hc) as (B' & R & Hb' & HD & Hlk).
  assert (B' = B) as -> by congruence. clear Hb'.
  assert (HG' : good s') by (eapply run_good; eauto).
  assert (Hb' : sy_batches s' !! d = Some B) by (eapply run_batches; eauto).
  destruct HD as [HlC Hdec].
  assert (HkB : (k < length B)%nat).
  { apply sent_ptxs in Hs as [Hk _]. apply (pidx_bound cfgs B i).
    apply elem_of_list_In, elem_of_list_lookup. eauto. }
  split; intros Hin.
  - apply Hdec. split; [done|]. intros i' j' Hk'.
    assert (exists t', ptxs B i' !! j' = Some t') as [t' Ht'].
    { apply lookup_lt_Some in Hk'. rewrite pidx_ptxs in Hk'. now apply lookup_lt_is_Some_2. }
    assert (Hs' : sent cfgs B i' j' k t') by now apply sent_ptxs.
    pose proof (completed_all_locked cfgs preseeds cache s' d B i j k t HG' Hb' Hs Hin i' j' t' Hs') as HL.
    destruct (Hlk i' j' k t' Hs') as ([|] & HR & He); [done|].
    exfalso. apply (locked_refused s' i' d j' t' t' HG' HL).
    apply (run_events ls s s' i' _ HG Hrun He).
  - destruct (C !! k) as [[|]|] eqn:EC; [|done|].
    + exfalso. apply Hdec in EC as [_ Hall].
      destruct (cancelled_some_refused cfgs preseeds cache s' d B i j k t HG' Hb' Hs Hin)
        as (i' & j' & t' & Hs' & HR).
      destruct (Hlk i' j' k t' Hs') as (b & HRb & He).
      pose proof Hs' as Hs2. apply sent_ptxs in Hs2 as [Hk' _].
      rewrite (Hall i' j' Hk') in HRb. inv HRb.
      apply (locked_refused s' i' d j' t' t' HG'); [|exact HR].
      apply (run_events ls s s' i' _ HG Hrun He).
    + apply lookup_ge_None in EC. lia.
Qed.

(** ** Completing an execution *)

Definition shard_at (s : sys) (i : nat) : option shard := nd_shard <$> sy_nodes s !! i.

Definition after (c : shard_cfg) (sh : shard) (rq : sreq) : shard :=
  match process_request c sh rq with Done (sh', _) => sh' | _ => sh end.
Definition lock_shard (d : N) (B : list compact_tx) (i : nat) (sh : shard) : shard :=
  match cfgs !! i, pidx B i with
  | Some c, _ :: _ => after c sh (RLock d (ptxs B i))
  | _, _ => sh
  end.
Definition apply_shard (d : N) (B : list compact_tx) (C : list bool) (i : nat) (sh : shard)
  : shard :=
  match cfgs !! i, pidx B i, shard_flags C (pidx B i) with
  | Some c, _ :: _, Some flags => after c sh (RApply d flags)
  | _, _, _ => sh
  end.

Lemma set_phase_twice x p q : set_phase (set_phase x p) q = set_phase x q.
Proof. done. Qed.
Lemma set_phase_same x p : dx_phase x = p -> set_phase x p = x.
Proof. intros <-. now destruct x. Qed.

Lemma shard_at_insert s i nd j :
  (i < length (sy_nodes s))%nat ->
  nd_shard <$> (<[i := nd]> (sy_nodes s)) !! j
  = if decide (j = i) then Some (nd_shard nd) else shard_at s j.
Proof.
  intros Hi. destruct (decide (j = i)) as [->|].
  - rewrite list_lookup_insert by done. done.
  - rewrite list_lookup_insert_ne by auto. done.
Qed.

(** The thread of an execution in the locking phase. *)
Definition locking (s : sys) (d : N) (B : list compact_tx) (x : dtx)
    (got : list (option (list bool))) : Prop :=
  good s /\ proper_sys cfgs s /\ sy_batches s !! d = Some B /\
  sy_dtx s !! d = Some x /\ dx_phase x = PhPrepare got.

Lemma locking_view s d B x got :
  locking s d B x got ->
  plan cfgs B x /\ length got = n /\
  rs_prepare (sy_rsm s) !! d = Some B /\ rs_commit (sy_rsm s) !! d = None /\
  d ∉ rs_discard (sy_rsm s) /\
  (forall i nd, sy_nodes s !! i = Some nd ->
       st_none nd d \/
       (pidx B i <> [] /\ exists res, st_locked nd d (ptxs B i) res)) /\
  (forall i nd res, sy_nodes s !! i = Some nd -> got !! i = Some (Some res) ->
           st_locked nd d (ptxs B i) res).
Proof.
  intros (HG & _ & Hb & Hx & Hph). pose proof HG as (_ & _ & Hv). specialize (Hv d).
  unfold view_of in Hv. rewrite Hb, Hx in Hv.
  inversion Hv as [th H1 H2 E1 E2 E3 E4 E5|th H1 H2 E1 E2 E3 E4 E5|th C R HD H1 H2 E1 E2 E3 E4 E5
      |th C R HD H1 H2 E1 E2 E3 E4 E5|th C R an HD H1 H2 H3 E1 E2 E3 E4 E5]; subst.
  - destruct (H2 x eq_refl) as (_ & ?); congruence.
  - destruct (H2 x eq_refl) as [Hp (g & Hg & Hl & Hgot)]. rewrite Hph in Hg.
    injection Hg as <-. split; [done|]. split; [done|]. split; [done|]. split; [done|].
    split; [|done]. symmetry in E3. now apply bool_decide_eq_false in E3.
  - destruct (H2 x eq_refl) as (_ & _ & g & ? & _); congruence.
  - destruct (H2 x eq_refl) as ((g & ? & _) & _); congruence.
  - specialize (H2 x eq_refl); congruence.
Qed.

Lemma lock_one s d B x got i :
  locking s d B x got -> (i < n)%nat ->
  exists s' got', step cfgs s (LLock d i true) = SOk s' /\
    locking s' d B (set_phase x (PhPrepare got')) got' /\
    sy_rsm s' = sy_rsm s /\
    (pidx B i <> [] -> exists r, got' !! i = Some (Some r)) /\
    (forall (j : nat) r, got !! j = Some (Some r) -> got' !! j = Some (Some r)) /\
    (forall j, shard_at s' j
       = if decide (j = i) then lock_shard d B i <$> shard_at s i else shard_at s j).
Proof.
  intros HL Hi. pose proof (locking_view _ _ _ _ _ HL) as ((P1 & P2 & P3) & Hlg & Hpr & _ & _ & Hst & Hgot).
  destruct HL as (HG & Hprop & Hb & Hx & Hph).
  destruct (node_get cfgs preseeds cache s i HG Hi) as (nd & c & p & En & Ec & Hok & Ep).
  assert (Hsame : forall j, shard_at s j = if decide (j = i) then shard_at s i else shard_at s j).
  { intros j. now destruct (decide (j = i)) as [->|]. }
  destruct (pidx B i) as [|k0 ks0] eqn:Ek.
  { exists s, got. split; [|split; [|split; [|split; [|split]]]]; try done.
    - cbn. rewrite Hx, Hph, P3, (idxs_of_lookup' cfgs B i Hi), Ek. done.
    - rewrite set_phase_same by done. done.
    - intros j. rewrite Hsame. destruct (decide (j = i)); [|done].
      unfold lock_shard. rewrite Ec, Ek. now rewrite option_fmap_id. }
  assert (Hne : pidx B i <> []) by congruence.
  destruct (lookup_lt_is_Some_2 got i) as [g Hg]; [lia|].
  assert (Htx : dx_txs x !! i = Some (ptxs B i)).
  { rewrite P2. unfold txs_of, TwoPhaseProofs.ptxs, ranges. rewrite map_map, list_lookup_fmap, Ec. done. }
  assert (Hcall : match process_request c (nd_shard nd) (RLock d (ptxs B i)) with
                    | Done (sh, rp) => exists res, rp = ALock res
                    | _ => ~ proper c (ptxs B i) end).
  { destruct (Hst i nd En) as [Hn|[_ [res Hlk]]].
    - pose proof (call_lock_new c p cache nd d (ptxs B i) Hok Hn) as Hc.
      destruct (process_request _ _ _) as [[sh rp]| |]; [|done|done].
      destruct Hc as (res & ? & _). eauto.
    - destruct (call_lock_again c p cache nd d (ptxs B i) (ptxs B i) res Hok Hlk) as [-> _]. eauto. }
  destruct (process_request c (nd_shard nd) (RLock d (ptxs B i))) as [[sh rp]| |] eqn:Epr.
  2,3: exfalso; apply Hcall; eapply proper_ptxs; eauto.
  destruct Hcall as (res & ->).
  assert (Hsh : lock_shard d B i <$> shard_at s i = Some sh).
  { unfold shard_at, lock_shard, after. rewrite En, Ec, Ek. cbn. cbn in Epr. now rewrite Epr. }
  destruct g as [r0|].
  - (* already answered: the call is not due, and would change nothing *)
    exists s, got. split; [|split; [|split; [|split; [|split]]]]; try done.
    + cbn. rewrite Hx, Hph, P3, (idxs_of_lookup' cfgs B i Hi), Ek, Htx, Hg. done.
    + rewrite set_phase_same by done. done.
    + eauto.
    + intros j. rewrite Hsame. destruct (decide (j = i)); [|done].
      rewrite Hsh. unfold shard_at. rewrite En. cbn. f_equal.
      destruct (call_lock_again c p cache nd d (ptxs B i) (ptxs B i) r0 Hok) as [Ea _];
        [eauto|]. congruence.
  - set (s1 := Sys (<[i := Node sh (nd_rqs nd ++ [RLock d (ptxs B i)]) (nd_rps nd ++ [ALock res])]>
                 (sy_nodes s)) (sy_rsm s) (sy_dtx s) (sy_batches s) (sy_answers s)).
    set (x' := set_phase x (PhPrepare (<[i := Some res]> got))).
    assert (Estep : step cfgs s (LLock d i true) = SOk (set_dtx s1 d x')).
    { cbn. rewrite Hx, Hph, P3, (idxs_of_lookup' cfgs B i Hi), Ek, Htx, Hg.
      unfold shard_call. rewrite En, Ec. cbn in Epr. cbn. rewrite Epr. done. }
    exists (set_dtx s1 d x'), (<[i := Some res]> got).
    split; [done|]. split; [|split; [|split; [|split]]]; try done.
    + split; [|split; [|split; [|split]]]; try done.
      * pose proof (step_good cfgs preseeds cache s (LLock d i true) HG) as G.
        rewrite Estep in G. exact G.
      * cbn. apply lookup_insert.
    + intros _. exists res. rewrite list_lookup_insert; [done|lia].
    + intros j r Hj. destruct (decide (j = i)) as [->|]; [congruence|].
      rewrite list_lookup_insert_ne by auto; done.
    + intros j. rewrite Hsh. unfold shard_at at 1. cbn [sy_nodes set_dtx s1].
      apply shard_at_insert. now apply lookup_lt_Some in En.
Qed.

Lemma lock_all L : forall s d B x got,
  locking s d B x got -> List.NoDup L -> (forall i, In i L -> (i < n)%nat) ->
  exists s' got', run cfgs s (map (fun i => LLock d i true) L) = SOk s' /\
    locking s' d B (set_phase x (PhPrepare got')) got' /\
    sy_rsm s' = sy_rsm s /\
    (forall i, In i L -> pidx B i <> [] -> exists r, got' !! i = Some (Some r)) /\
    (forall (j : nat) r, got !! j = Some (Some r) -> got' !! j = Some (Some r)) /\
    (forall j, shard_at s' j
       = if decide (j ∈ L) then lock_shard d B j <$> shard_at s j else shard_at s j).
Proof.
  induction L as [|i L IH]; intros s d B x got HL Hnd Hlt.
  - exists s, got. cbn. split; [done|]. split.
    { pose proof HL as (_ & _ & _ & _ & Hph). now rewrite set_phase_same. }
    split; [done|]. split; [intros ? []|]. split; [done|].
    intros j. destruct (decide (j ∈ [])) as [H|]; [|done]. now apply elem_of_nil in H.
  - inv Hnd. destruct (lock_one s d B x got i HL) as (s1 & got1 & E1 & HL1 & R1 & G1 & K1 & S1).
    { apply Hlt. now left. }
    destruct (IH s1 d B _ got1 HL1) as (s2 & got2 & E2 & HL2 & R2 & G2 & K2 & S2); [done| |].
    { intros j Hj. apply Hlt. now right. }
    exists s2, got2. cbn [map run]. rewrite E1. split; [done|]. split; [exact HL2|].
    split; [congruence|]. split; [|split].
    + intros j [<-|Hj] Hne; [|eauto]. destruct (G1 Hne) as [r Hr]. eauto.
    + eauto.
    + intros j. rewrite S2, !S1. destruct (decide (j = i)) as [->|Hji].
      * destruct (decide (i ∈ L)) as [Hj|_]; [now apply elem_of_list_In in Hj|].
        destruct (decide (i ∈ i :: L)) as [_|Hj]; [done|]. exfalso. apply Hj. now left.
      * destruct (decide (j ∈ L)) as [Hj|Hj], (decide (j ∈ i :: L)) as [Hj'|Hj']; try done;
          rewrite elem_of_cons in Hj'; tauto.
Qed.

(** The thread of an execution in the commit phase. *)
Definition committing (s : sys) (d : N) (B : list compact_tx) (C : list bool)
    (x : dtx) (acked : list bool) : Prop :=
  good s /\ proper_sys cfgs s /\ sy_batches s !! d = Some B /\
  sy_dtx s !! d = Some x /\ dx_phase x = PhCommit acked /\
  rs_commit (sy_rsm s) !! d = Some (C, idxs_of B).

Lemma decide_one s d B x got :
  locking s d B x got ->
  (forall i, pidx B i <> [] -> exists r, got !! i = Some (Some r)) ->
  exists s' C R x', step cfgs s (LDecide d) = SOk s' /\
    committing s' d B C x' (repeat false n) /\ decided B C R /\
    (forall i nd, sy_nodes s !! i = Some nd -> pidx B i <> [] ->
       st_locked nd d (ptxs B i) (R i)) /\
    sy_nodes s' = sy_nodes s.
Proof.
  intros HL Hall.
  pose proof (locking_view _ _ _ _ _ HL) as ((P1 & P2 & P3) & Hlg & Hpr & Hcm & _ & Hst & Hgot).
  destruct HL as (HG & Hprop & Hb & Hx & Hph).
  destruct (merge_all_ready (idxs_of B) got (repeat true (length B))) as [C EC].
  { now rewrite idxs_of_length. }
  { intros i ks Hi Hne. apply idxs_of_lookup in Hi as [-> Hlt].
    destruct (Hall i Hne) as [r Hr]. exists r. split; [done|].
    destruct (node_get cfgs preseeds cache s i HG Hlt) as (nd & c & p & En & _).
    destruct (Hgot i nd r En Hr) as (_ & _ & _ & Hl). rewrite Hl. symmetry. apply pidx_ptxs. }
  destruct (decided_true_merge cfgs B got C Hlg EC) as [_ HD].
  set (x' := Dtx (dx_full x) (dx_txs x) (dx_idxs x) C (PhCommit (repeat false n)) (dx_client x)).
  set (m' := Rsm (delete d (rs_prepare (sy_rsm s))) (<[d := (C, idxs_of B)]> (rs_commit (sy_rsm s)))
                 (rs_discard (sy_rsm s))).
  set (s' := set_dtx (Sys (sy_nodes s) m' (sy_dtx s) (sy_batches s) (sy_answers s)) d x').
  assert (Estep : step cfgs s (LDecide d) = SOk s').
  { cbn. rewrite Hx, Hph, P1, P3, EC. unfold replicate, rsm_commit. rewrite Hpr, Hcm.
    unfold s', x', m'. now rewrite P1, P3. }
  exists s', C, (fun i => match got !! i with Some (Some r) => r | _ => [] end), x'.
  split; [done|]. split; [|split; [done|split; [|done]]].
  - split; [|split; [|split; [|split; [|split]]]]; try done.
    + pose proof (step_good cfgs preseeds cache s (LDecide d) HG) as G.
      rewrite Estep in G. exact G.
    + cbn. apply lookup_insert.
    + cbn. apply lookup_insert.
  - intros i nd En Hne. destruct (Hall i Hne) as [r Hr]. rewrite Hr. eauto.
Qed.

Lemma committing_view s d B C x acked :
  committing s d B C x acked ->
  exists R, decided B C R /\ length acked = n /\ dx_idxs x = idxs_of B /\ dx_complete x = C /\
  rs_prepare (sy_rsm s) !! d = None /\ d ∉ rs_discard (sy_rsm s) /\
  (forall i nd, sy_nodes s !! i = Some nd -> pidx B i <> [] ->
         (st_locked nd d (ptxs B i) (R i) \/
          (applied_at cfgs d B C R nd i /\ recalled nd d))) /\
  (forall i nd, sy_nodes s !! i = Some nd -> pidx B i <> [] -> acked !! i = Some true ->
           applied_at cfgs d B C R nd i /\ recalled nd d).
Proof.
  intros (HG & _ & Hb & Hx & Hph & Hc). pose proof HG as (_ & _ & Hv). specialize (Hv d).
  unfold view_of in Hv. rewrite Hb, Hx, Hc in Hv.
  inversion Hv as [| |th C' R HD H1 H2 E1 E2 E3 E4 E5| |]; subst.
  destruct (H2 x eq_refl) as (P1 & P2 & acked' & Eg' & Hla & Hack).
  rewrite Hph in Eg'. injection Eg' as <-.
  exists R. split; [done|]. split; [done|]. split; [done|]. split; [done|]. split; [done|].
  split. { symmetry in E3. now apply bool_decide_eq_false in E3. }
  split; [|done]. intros i nd En Hne. destruct (H1 i nd En) as [[? _]|[_ ?]]; done.
Qed.

Lemma apply_one s d B C x acked i :
  committing s d B C x acked -> (i < n)%nat ->
  exists s' acked', step cfgs s (LApply d i true) = SOk s' /\
    committing s' d B C (set_phase x (PhCommit acked')) acked' /\
    (pidx B i <> [] -> acked' !! i = Some true) /\
    (forall j : nat, acked !! j = Some true -> acked' !! j = Some true) /\
    (forall j, shard_at s' j
       = if decide (j = i) then apply_shard d B C i <$> shard_at s i else shard_at s j).
Proof.
  intros HC Hi. pose proof (committing_view _ _ _ _ _ _ HC) as
    (R & HD & Hla & P1 & P2 & _ & _ & Hst & Hack).
  destruct HC as (HG & Hprop & Hb & Hx & Hph & Hcm).
  destruct (node_get cfgs preseeds cache s i HG Hi) as (nd & c & p & En & Ec & Hok & Ep).
  assert (Hsame : forall j, shard_at s j = if decide (j = i) then shard_at s i else shard_at s j).
  { intros j. now destruct (decide (j = i)) as [->|]. }
  destruct (pidx B i) as [|k0 ks0] eqn:Ek.
  { exists s, acked. split; [|split; [|split; [|split]]]; try done.
    - cbn. rewrite Hx, Hph, P1, (idxs_of_lookup' cfgs B i Hi), Ek. done.
    - rewrite set_phase_same by done. done.
    - intros j. rewrite Hsame. destruct (decide (j = i)); [|done].
      unfold apply_shard. rewrite Ec, Ek. now rewrite option_fmap_id. }
  assert (Hne : pidx B i <> []) by congruence.
  destruct (lookup_lt_is_Some_2 acked i) as [g Hg]; [lia|].
  destruct (flags_of cfgs B C R i HD) as (flags & Ef & Hlf).
  assert (Hcall : exists sh, process_request c (nd_shard nd) (RApply d flags) = Done (sh, AApply)
            /\ (g = true -> sh = nd_shard nd)).
  { destruct (Hst i nd En Hne) as [Hlk|[(f' & Ef' & Hap) Hr]].
    - destruct (call_apply_new c p cache nd d _ _ flags Hok Hlk Hlf) as (sh & ? & ? & ?).
      exists sh. split; [done|]. intros ->.
      destruct (Hack i nd En Hne Hg) as [(f2 & _ & _ & Hnone & _) _].
      destruct Hlk as (_ & Hsome & _). congruence.
    - destruct (call_apply_again c p cache nd d _ _ _ flags Hok Hap Hr) as [Epr _].
      exists (nd_shard nd). done. }
  destruct Hcall as (sh & Epr & Hgt).
  assert (Hsh : apply_shard d B C i <$> shard_at s i = Some sh).
  { unfold shard_at, apply_shard, after. rewrite En, Ec, Ef, Ek. cbn. cbn in Epr. now rewrite Epr. }
  destruct g.
  - exists s, acked. split; [|split; [|split; [|split]]]; try done.
    + cbn. rewrite Hx, Hph, P1, (idxs_of_lookup' cfgs B i Hi), Ek, Hg. done.
    + rewrite set_phase_same by done. done.
    + intros j. rewrite Hsame. destruct (decide (j = i)); [|done].
      rewrite Hsh. unfold shard_at. rewrite En. cbn. f_equal. symmetry. auto.
  - set (s1 := Sys (<[i := Node sh (nd_rqs nd ++ [RApply d flags]) (nd_rps nd ++ [AApply])]>
                 (sy_nodes s)) (sy_rsm s) (sy_dtx s) (sy_batches s) (sy_answers s)).
    set (x' := set_phase x (PhCommit (<[i := true]> acked))).
    assert (Estep : step cfgs s (LApply d i true) = SOk (set_dtx s1 d x')).
    { cbn. rewrite Hx, Hph, P1, (idxs_of_lookup' cfgs B i Hi), P2.
      rewrite Ek in Ef |- *. rewrite Hg, Ef.
      unfold shard_call. rewrite En, Ec. cbn in Epr. cbn. rewrite Epr. done. }
    exists (set_dtx s1 d x'), (<[i := true]> acked).
    split; [done|]. split; [|split; [|split]]; try done.
    + split; [|split; [|split; [|split; [|split]]]]; try done.
      * pose proof (step_good cfgs preseeds cache s (LApply d i true) HG) as G.
        rewrite Estep in G. exact G.
      * cbn. apply lookup_insert.
    + intros _. rewrite list_lookup_insert; [done|lia].
    + intros j Hj. destruct (decide (j = i)) as [->|]; [congruence|].
      rewrite list_lookup_insert_ne by auto; done.
    + intros j. rewrite Hsh. unfold shard_at at 1. cbn [sy_nodes set_dtx s1].
      apply shard_at_insert. now apply lookup_lt_Some in En.
Qed.

Lemma apply_all L : forall s d B C x acked,
  committing s d B C x acked -> List.NoDup L -> (forall i, In i L -> (i < n)%nat) ->
  exists s' acked', run cfgs s (map (fun i => LApply d i true) L) = SOk s' /\
    committing s' d B C (set_phase x (PhCommit acked')) acked' /\
    (forall i, In i L -> pidx B i <> [] -> acked' !! i = Some true) /\
    (forall j : nat, acked !! j = Some true -> acked' !! j = Some true) /\
    (forall j, shard_at s' j
       = if decide (j ∈ L) then apply_shard d B C j <$> shard_at s j else shard_at s j).
Proof.
  induction L as [|i L IH]; intros s d B C x acked HL Hnd Hlt.
  - exists s, acked. cbn. split; [done|]. split.
    { pose proof HL as (_ & _ & _ & _ & Hph & _). now rewrite set_phase_same. }
    split; [intros ? []|]. split; [done|].
    intros j. destruct (decide (j ∈ [])) as [H|]; [|done]. now apply elem_of_nil in H.
  - inv Hnd. destruct (apply_one s d B C x acked i HL) as (s1 & got1 & E1 & HL1 & G1 & K1 & S1).
    { apply Hlt. now left. }
    destruct (IH s1 d B C _ got1 HL1) as (s2 & got2 & E2 & HL2 & G2 & K2 & S2); [done| |].
    { intros j Hj. apply Hlt. now right. }
    exists s2, got2. cbn [map run]. rewrite E1. split; [done|]. split; [exact HL2|].
    split; [|split].
    + intros j [<-|Hj] Hne; [|eauto]. eauto.
    + eauto.
    + intros j. rewrite S2, !S1. destruct (decide (j = i)) as [->|Hji].
      * destruct (decide (i ∈ L)) as [Hj|_]; [now apply elem_of_list_In in Hj|].
        destruct (decide (i ∈ i :: L)) as [_|Hj]; [done|]. exfalso. apply Hj. now left.
      * destruct (decide (j ∈ L)) as [Hj|Hj], (decide (j ∈ i :: L)) as [Hj'|Hj']; try done;
          rewrite elem_of_cons in Hj'; tauto.
Qed.

(** The thread of an execution in the discard phase. *)
Definition discarding (s : sys) (d : N) (B : list compact_tx)
    (x : dtx) (acked : list bool) : Prop :=
  good s /\ proper_sys cfgs s /\ sy_batches s !! d = Some B /\
  sy_dtx s !! d = Some x /\ dx_phase x = PhDiscard acked.

Lemma all_acked_true idxs acked :
  (forall i ks, idxs !! i = Some ks -> ks <> [] -> acked !! i = Some true) ->
  all_acked idxs acked = true.
Proof.
  revert acked. induction idxs as [|ks idxs IH]; intros [|a acked] H; try done.
  unfold all_acked in *. cbn. apply andb_true_iff. split.
  - destruct ks; [done|]. specialize (H 0%nat _ eq_refl ltac:(done)). cbn in H. congruence.
  - apply IH. intros i ks' Hi Hne. apply (H (S i) ks'); done.
Qed.

Lemma finish_one s d B C x acked :
  committing s d B C x acked ->
  (forall i, pidx B i <> [] -> acked !! i = Some true) ->
  exists s', step cfgs s (LFinish d) = SOk s' /\
    discarding s' d B (set_phase x (PhDiscard (repeat false n))) (repeat false n) /\
    sy_nodes s' = sy_nodes s.
Proof.
  intros HC Hall. pose proof (committing_view _ _ _ _ _ _ HC) as
    (R & HD & Hla & P1 & P2 & _ & _ & Hst & Hack).
  destruct HC as (HG & Hprop & Hb & Hx & Hph & Hcm).
  set (x' := set_phase x (PhDiscard (repeat false n))).
  set (m' := Rsm (rs_prepare (sy_rsm s)) (delete d (rs_commit (sy_rsm s)))
                 (rs_discard (sy_rsm s) ∪ {[d]})).
  set (s' := set_dtx (Sys (sy_nodes s) m' (sy_dtx s) (sy_batches s) (sy_answers s)) d x').
  assert (Estep : step cfgs s (LFinish d) = SOk s').
  { cbn. rewrite Hx, Hph, all_acked_true.
    - unfold replicate, rsm_commit. rewrite Hcm. done.
    - intros i ks Hi Hne. rewrite P1 in Hi. apply idxs_of_lookup in Hi as [-> _]. auto. }
  exists s'. split; [done|]. split; [|done].
  split; [|split; [|split; [|split]]]; try done.
  - pose proof (step_good cfgs preseeds cache s (LFinish d) HG) as G.
    rewrite Estep in G. exact G.
  - cbn. apply lookup_insert.
Qed.

Lemma discarding_view s d B x acked :
  discarding s d B x acked ->
  length acked = n /\ d ∈ rs_discard (sy_rsm s) /\
  rs_prepare (sy_rsm s) !! d = None /\ rs_commit (sy_rsm s) !! d = None /\
  (forall i ks, dx_idxs x !! i = Some ks -> ks <> [] -> (i < n)%nat).
Proof.
  intros (HG & _ & Hb & Hx & Hph). pose proof HG as (_ & _ & Hv). specialize (Hv d).
  unfold view_of in Hv. rewrite Hb, Hx in Hv.
  inversion Hv as [th H1 H2 E1 E2 E3 E4 E5|th H1 H2 E1 E2 E3 E4 E5|th C R HD H1 H2 E1 E2 E3 E4 E5
      |th C R HD H1 H2 E1 E2 E3 E4 E5|th C R an HD H1 H2 H3 E1 E2 E3 E4 E5]; subst.
  - destruct (H2 x eq_refl) as (_ & ?); congruence.
  - destruct (H2 x eq_refl) as (_ & g & ? & _); congruence.
  - destruct (H2 x eq_refl) as (_ & _ & g & ? & _); congruence.
  - destruct (H2 x eq_refl) as ((g & Hg & Hl) & Hor). rewrite Hph in Hg. injection Hg as <-.
    split; [done|]. split. { symmetry in E3. now apply bool_decide_eq_true in E3. }
    split; [done|]. split; [done|]. intros i ks Hi Hne. destruct Hor as [[Hi2 _]|[Hi2 _]]; rewrite Hi2 in Hi.
    + now apply idxs_of_lookup in Hi as [_ ?].
    + apply lookup_repeat in Hi as [_ ?]. done.
  - specialize (H2 x eq_refl); congruence.
Qed.

Lemma discard_one s d B x acked i :
  discarding s d B x acked -> (i < n)%nat ->
  exists s' acked', step cfgs s (LDiscard d i true) = SOk s' /\
    discarding s' d B (set_phase x (PhDiscard acked')) acked' /\
    (forall ks, dx_idxs x !! i = Some ks -> ks <> [] -> acked' !! i = Some true) /\
    (forall j : nat, acked !! j = Some true -> acked' !! j = Some true) /\
    (forall j, ledger s' j = ledger s j).
Proof.
  intros HC Hi. pose proof (discarding_view _ _ _ _ _ HC) as (Hla & Hd & _).
  destruct HC as (HG & Hprop & Hb & Hx & Hph).
  destruct (node_get cfgs preseeds cache s i HG Hi) as (nd & c & p & En & Ec & Hok & Ep).
  destruct (lookup_lt_is_Some_2 acked i) as [g Hg]; [lia|].
  destruct (dx_idxs x !! i) as [[|k0 ks0]|] eqn:Ei.
  1,3: exists s, acked; split; [cbn; rewrite Hx, Hph, Ei; done|];
    rewrite set_phase_same by done; split; [done|]; split; [intros ks E; congruence|]; done.
  destruct g.
  { exists s, acked. split; [|split; [|split; [|split]]]; try done.
    - cbn. rewrite Hx, Hph, Ei, Hg. done.
    - rewrite set_phase_same by done. done. }
  destruct (call_discard c p cache nd d Hok) as (sh & Epr & _ & L1 & L2 & L3 & L4 & _).
  set (s1 := Sys (<[i := Node sh (nd_rqs nd ++ [RDiscard d]) (nd_rps nd ++ [ADiscard])]>
                 (sy_nodes s)) (sy_rsm s) (sy_dtx s) (sy_batches s) (sy_answers s)).
  set (x' := set_phase x (PhDiscard (<[i := true]> acked))).
  assert (Estep : step cfgs s (LDiscard d i true) = SOk (set_dtx s1 d x')).
  { cbn. rewrite Hx, Hph, Ei, Hg. unfold shard_call. rewrite En, Ec.
    cbn in Epr. cbn. rewrite Epr. done. }
  exists (set_dtx s1 d x'), (<[i := true]> acked).
  split; [done|]. split; [|split; [|split]].
  - split; [|split; [|split; [|split]]]; try done.
    + pose proof (step_good cfgs preseeds cache s (LDiscard d i true) HG) as G.
      rewrite Estep in G. exact G.
    + cbn. apply lookup_insert.
  - intros _ _ _. rewrite list_lookup_insert; [done|lia].
  - intros j Hj. destruct (decide (j = i)) as [->|]; [congruence|].
    rewrite list_lookup_insert_ne by auto; done.
  - intros j. unfold ledger. cbn [sy_nodes set_dtx s1]. destruct (decide (j = i)) as [->|].
    + rewrite list_lookup_insert by (eapply lookup_lt_Some; eauto). rewrite En. cbn.
      now rewrite L1, L2, L3, L4.
    + rewrite list_lookup_insert_ne by auto; done.
Qed.

Lemma discard_all L : forall s d B x acked,
  discarding s d B x acked -> (forall i, In i L -> (i < n)%nat) ->
  exists s' acked', run cfgs s (map (fun i => LDiscard d i true) L) = SOk s' /\
    discarding s' d B (set_phase x (PhDiscard acked')) acked' /\
    (forall i ks, In i L -> dx_idxs x !! i = Some ks -> ks <> [] -> acked' !! i = Some true) /\
    (forall j : nat, acked !! j = Some true -> acked' !! j = Some true) /\
    (forall j, ledger s' j = ledger s j).
Proof.
  induction L as [|i L IH]; intros s d B x acked HL Hlt.
  - exists s, acked. cbn. split; [done|]. split.
    { pose proof HL as (_ & _ & _ & _ & Hph). now rewrite set_phase_same. }
    split; [intros ? ? []|]. done.
  - destruct (discard_one s d B x acked i HL) as (s1 & got1 & E1 & HL1 & G1 & K1 & S1).
    { apply Hlt. now left. }
    destruct (IH s1 d B _ got1 HL1) as (s2 & got2 & E2 & HL2 & G2 & K2 & S2).
    { intros j Hj. apply Hlt. now right. }
    exists s2, got2. cbn [map run]. rewrite E1. split; [done|]. split; [exact HL2|].
    split; [|split].
    + intros j ks [<-|Hj] Hks Hne; [|eauto]. eauto.
    + eauto.
    + intros j. rewrite S2. apply S1.
Qed.

Lemma done_one s d B x acked :
  discarding s d B x acked ->
  (forall i ks, dx_idxs x !! i = Some ks -> ks <> [] -> acked !! i = Some true) ->
  exists s', step cfgs s (LDone d) = SOk s' /\ good s' /\ ~ in_progress s' d /\
    sy_nodes s' = sy_nodes s.
Proof.
  intros HC Hall. pose proof (discarding_view _ _ _ _ _ HC) as (Hla & Hd & Hp1 & Hp2 & _).
  destruct HC as (HG & Hprop & Hb & Hx & Hph).
  assert (Estep : exists s', step cfgs s (LDone d) = SOk s' /\ ~ in_progress s' d /\
    sy_nodes s' = sy_nodes s).
  { cbn. rewrite Hx, Hph, all_acked_true by eauto.
    unfold replicate, rsm_commit. rewrite bool_decide_eq_true_2 by done.
    eexists. split; [reflexivity|]. split; [|done]. unfold in_progress. cbn.
    rewrite Hp1, Hp2. intros [?|[?|Hx']]; try done.
    apply elem_of_difference in Hx' as [_ Hx']. apply Hx'. now apply elem_of_singleton. }
  destruct Estep as (s' & Estep & Hnot & Hn). exists s'. split; [done|]. split; [|done].
  pose proof (step_good cfgs preseeds cache s (LDone d) HG) as G. rewrite Estep in G. exact G.
Qed.

Lemma run_app ls1 : forall s ls2,
  run cfgs s (ls1 ++ ls2)
  = match run cfgs s ls1 with SOk s' => run cfgs s' ls2 | e => e end.
Proof.
  induction ls1 as [|l ls1 IH]; intros s ls2; cbn; [done|].
  destruct (step cfgs s l); auto.
Qed.

Lemma seq_ok i : In i (seq 0 n) -> (i < n)%nat.
Proof. rewrite in_seq. lia. Qed.
Lemma seq_in i : (i < n)%nat -> In i (seq 0 n).
Proof. rewrite in_seq. lia. Qed.

(** ** The three ways to the end *)

Definition core (sh : shard) := (sh_uhs sh, sh_locked sh, sh_prepared sh, sh_completed sh).

Lemma ledger_core s i : ledger s i = core <$> shard_at s i.
Proof. unfold ledger, shard_at. now destruct (sy_nodes s !! i). Qed.

Lemma end_discard s d B x acked :
  discarding s d B x acked ->
  exists s', run cfgs s (map (fun i => LDiscard d i true) (seq 0 n) ++ [LDone d]) = SOk s' /\
    good s' /\ ~ in_progress s' d /\ (forall i, ledger s' i = ledger s i).
Proof.
  intros H. destruct (discard_all (seq 0 n) s d B x acked H seq_ok)
    as (s1 & a1 & E1 & H1 & G1 & _ & S1).
  destruct (done_one s1 d B _ a1 H1) as (s2 & E2 & HG2 & Hnot & Hn2).
  { intros i ks Hi Hne. apply (G1 i ks); [|done|done].
    pose proof (discarding_view _ _ _ _ _ H) as (_ & _ & _ & _ & Hlt).
    apply seq_in. eauto. }
  exists s2. rewrite run_app, E1. cbn [run]. rewrite E2. split; [done|].
  split; [done|]. split; [done|]. intros i. rewrite <- S1. unfold ledger. now rewrite Hn2.
Qed.

Lemma end_commit s d B C x acked :
  committing s d B C x acked ->
  exists s', run cfgs s (map (fun i => LApply d i true) (seq 0 n) ++ [LFinish d]
      ++ map (fun i => LDiscard d i true) (seq 0 n) ++ [LDone d]) = SOk s' /\
    good s' /\ ~ in_progress s' d /\
    (forall i, ledger s' i = core <$> (apply_shard d B C i <$> shard_at s i)) /\
    (forall i j k t, sent cfgs B i j k t -> exists b : bool, C !! k = Some b /\
       In (if b then Completed d j t else Cancelled d j t) (events_at s' i)).
Proof.
  intros H. destruct (apply_all (seq 0 n) s d B C x acked H (seq_NoDup n 0) seq_ok)
    as (s1 & a1 & E1 & H1 & G1 & _ & S1).
  assert (Hack : forall i, pidx B i <> [] -> a1 !! i = Some true).
  { intros i Hne. apply G1; [|done]. apply seq_in. now apply pidx_lt in Hne. }
  destruct (finish_one s1 d B C _ a1 H1 Hack) as (s2 & E2 & H2 & N2).
  destruct (end_discard s2 d B _ _ H2) as (s3 & E3 & HG3 & Hnot & L3).
  exists s3. rewrite run_app, E1. cbn [app run]. rewrite E2, E3.
  split; [done|]. split; [done|]. split; [done|]. split.
  - intros i. rewrite L3. unfold ledger. rewrite N2. fold (ledger s1 i). rewrite ledger_core, S1.
    destruct (decide (i ∈ seq 0 n)) as [|Hout]; [done|].
    assert (Hn0 : sy_nodes s !! i = None).
    { apply lookup_ge_None. destruct H as (([Hl _] & _) & _). rewrite Hl.
      rewrite elem_of_list_In, in_seq in Hout. lia. }
    unfold shard_at. rewrite Hn0. done.
  - intros i j k t Hs. pose proof H1 as (HG1 & _).
    destruct (sent_node cfgs preseeds cache s1 i B j k t HG1 Hs) as [nd Hn].
    pose proof Hs as Hs0. apply sent_ptxs in Hs as [Hk Ht].
    assert (Hne : pidx B i <> []) by (intros Hz; now rewrite Hz in Hk).
    destruct (committing_view _ _ _ _ _ _ H1) as (R & HD & _ & _ & _ & _ & _ & _ & Hap).
    destruct (Hap i nd Hn Hne (Hack i Hne)) as [(f & Hf & He & _ & _ & Hlf) _].
    destruct (lookup_lt_is_Some_2 f j) as [b Hbf].
    { rewrite Hlf. now apply lookup_lt_Some in Ht. }
    exists b. split; [now rewrite <- (flags_lookup _ _ _ _ _ Hf Hk)|].
    assert (Hin : In (if b then Completed d j t else Cancelled d j t) (events_at s1 i)).
    { apply (in_events_at s1 i nd _ Hn).
      replace (event_dtx (if b then Completed d j t else Cancelled d j t)) with d by now destruct b.
      rewrite He. apply in_or_app. right. apply (apply_events_has d _ 0 f j t b Ht Hbf). }
    assert (Hin2 : In (if b then Completed d j t else Cancelled d j t) (events_at s2 i)).
    { unfold events_at in *. now rewrite N2. }
    destruct H2 as (HG2 & _). apply (run_events _ s2 s3 i _ HG2 E3 Hin2).
Qed.

Lemma decided_unique B C R C' R' :
  decided B C R -> decided B C' R' -> (forall i, pidx B i <> [] -> R i = R' i) -> C = C'.
Proof.
  intros [Hl Hd] [Hl' Hd'] HR.
  assert (Hiff : forall k, C !! k = Some true <-> C' !! k = Some true).
  { intros k. rewrite Hd, Hd'. split; intros [Hk Hall]; (split; [done|]); intros i j Hj;
      (assert (Hne : pidx B i <> []) by (intros Hz; now rewrite Hz in Hj)).
    - rewrite <- HR by done. auto.
    - rewrite HR by done. auto. }
  apply list_eq. intros k.
  destruct (C !! k) as [b|] eqn:E.
  - destruct (lookup_lt_is_Some_2 C' k) as [b' E'].
    { apply lookup_lt_Some in E. lia. }
    rewrite E'. f_equal. specialize (Hiff k). rewrite E, E' in Hiff.
    destruct b, b'; auto; [symmetry|]; (assert (Some false = Some true) by (apply Hiff; done); congruence).
  - symmetry. apply lookup_ge_None. apply lookup_ge_None in E. lia.
Qed.

Lemma end_lock s d B x got :
  locking s d B x got ->
  exists s' C R, run cfgs s (finish n d) = SOk s' /\
    good s' /\ ~ in_progress s' d /\
    decided B C R /\
    (forall i sh, shard_at s i = Some sh -> pidx B i <> [] ->
       exists p, sh_prepared (lock_shard d B i sh) !! d = Some p /\ pd_results p = R i) /\
    (forall i, ledger s' i = core <$> (apply_shard d B C i <$> (lock_shard d B i <$> shard_at s i))) /\
    (forall i j k t, sent cfgs B i j k t -> exists b : bool, C !! k = Some b /\
       In (if b then Completed d j t else Cancelled d j t) (events_at s' i)).
Proof.
  intros H. destruct (lock_all (seq 0 n) s d B x got H (seq_NoDup n 0) seq_ok)
    as (s1 & g1 & E1 & H1 & R1 & G1 & _ & S1).
  destruct (decide_one s1 d B _ g1 H1) as (s2 & C & R & x2 & E2 & H2 & HD & HR & N2).
  { intros i Hne. apply G1; [|done]. apply seq_in. now apply pidx_lt in Hne. }
  destruct (end_commit s2 d B C _ _ H2) as (s3 & E3 & HG3 & Hnot & L3 & O3).
  assert (Hlk : forall i, shard_at s2 i = lock_shard d B i <$> shard_at s i).
  { intros i. unfold shard_at at 1. rewrite N2. fold (shard_at s1 i). rewrite S1.
    destruct (decide (i ∈ seq 0 n)) as [|Hout]; [done|].
    assert (Hn0 : sy_nodes s !! i = None).
    { apply lookup_ge_None. destruct H as (([Hl _] & _) & _). rewrite Hl.
      rewrite elem_of_list_In, in_seq in Hout. lia. }
    unfold shard_at. rewrite Hn0. done. }
  exists s3, C, R. unfold finish. rewrite run_app, E1. cbn [app run] in E3 |- *. rewrite E2, E3.
  split; [done|]. split; [done|]. split; [done|]. split; [done|]. split; [|split; [|done]].
  - intros i sh Hi Hne. specialize (Hlk i). rewrite Hi in Hlk. unfold shard_at in Hlk.
    rewrite N2 in Hlk. destruct (sy_nodes s1 !! i) as [nd|] eqn:En; [|done]. cbn in Hlk.
    inversion Hlk as [Hsh]. destruct (HR i nd En Hne) as (_ & Hp & _).
    eauto.
  - intros i. rewrite L3, Hlk. done.
Qed.

(** Labels that are not due change nothing. *)
Lemma idle_run (ls : list label) s :
  (forall l, In l ls -> step cfgs s l = SOk s) -> run cfgs s ls = SOk s.
Proof.
  induction ls as [|l ls IH]; intros H; [done|]. cbn. rewrite (H l) by (now left).
  apply IH. intros l' Hl. apply H. now right.
Qed.

Lemma finish_commit s d B C x acked :
  committing s d B C x acked ->
  run cfgs s (finish n d)
  = run cfgs s (map (fun i => LApply d i true) (seq 0 n) ++ [LFinish d]
      ++ map (fun i => LDiscard d i true) (seq 0 n) ++ [LDone d]).
Proof.
  intros (_ & _ & _ & Hx & Hph & _). unfold finish. rewrite run_app, idle_run.
  - cbn [app run]. replace (step cfgs s (LDecide d)) with (SOk s); [done|].
    cbn. now rewrite Hx, Hph.
  - intros l Hl. apply in_map_iff in Hl as (i & <- & _). cbn. now rewrite Hx, Hph.
Qed.

Lemma finish_discard s d B x acked :
  discarding s d B x acked ->
  run cfgs s (finish n d)
  = run cfgs s (map (fun i => LDiscard d i true) (seq 0 n) ++ [LDone d]).
Proof.
  intros (_ & _ & _ & Hx & Hph). unfold finish. rewrite run_app, idle_run.
  - cbn [app run]. replace (step cfgs s (LDecide d)) with (SOk s).
    2: { cbn. now rewrite Hx, Hph. }
    rewrite run_app, idle_run.
    + cbn [app run]. replace (step cfgs s (LFinish d)) with (SOk s); [done|].
      cbn. now rewrite Hx, Hph.
    + intros l Hl. apply in_map_iff in Hl as (i & <- & _). cbn. now rewrite Hx, Hph.
  - intros l Hl. apply in_map_iff in Hl as (i & <- & _). cbn. now rewrite Hx, Hph.
Qed.

(** Where an execution in progress can be. *)
Lemma progress_cases s d :
  good s -> in_progress s d ->
  exists B, sy_batches s !! d = Some B /\
    ((rs_prepare (sy_rsm s) !! d = Some B /\
        forall x, sy_dtx s !! d = Some x -> exists got, dx_phase x = PhPrepare got) \/
     (exists C, rs_commit (sy_rsm s) !! d = Some (C, idxs_of B) /\
        rs_prepare (sy_rsm s) !! d = None /\
        forall x, sy_dtx s !! d = Some x -> exists acked, dx_phase x = PhCommit acked) \/
     (d ∈ rs_discard (sy_rsm s) /\ rs_prepare (sy_rsm s) !! d = None /\
        rs_commit (sy_rsm s) !! d = None /\
        forall x, sy_dtx s !! d = Some x -> exists acked, dx_phase x = PhDiscard acked)).
Proof.
  intros HG Hin. pose proof HG as (_ & _ & Hv). specialize (Hv d). unfold view_of in Hv.
  destruct (sy_batches s !! d) as [B|] eqn:Hb.
  2: { destruct Hv as (_ & H1 & H2 & H3 & _). destruct Hin as [?|[?|?]]; congruence. }
  exists B. split; [done|].
  inversion Hv as [th H1 H2 E1 E2 E3 E4 E5|th H1 H2 E1 E2 E3 E4 E5|th C R HD H1 H2 E1 E2 E3 E4 E5
      |th C R HD H1 H2 E1 E2 E3 E4 E5|th C R an HD H1 H2 H3 E1 E2 E3 E4 E5]; subst.
  - exfalso. destruct Hin as [?|[?|Hin]]; try congruence.
    symmetry in E3. apply bool_decide_eq_false in E3. done.
  - left. split; [done|]. intros x Hx. destruct (H2 x Hx) as (_ & g & ? & _). eauto.
  - right. left. exists C. split; [done|]. split; [done|].
    intros x Hx. destruct (H2 x Hx) as (_ & _ & g & ? & _). eauto.
  - right. right. split. { symmetry in E3. now apply bool_decide_eq_true in E3. }
    split; [done|]. split; [done|].
    intros x Hx. destruct (H2 x Hx) as ((g & ? & _) & _). eauto.
  - exfalso. destruct Hin as [?|[?|Hin]]; try congruence.
    symmetry in E3. apply bool_decide_eq_false in E3. done.
Qed.

(** A coordinator that holds the execution completes it. *)
Lemma finish_done s d x B :
  good s -> proper_sys cfgs s -> in_progress s d -> sy_dtx s !! d = Some x ->
  sy_batches s !! d = Some B ->
  exists s', run cfgs s (finish n d) = SOk s' /\ good s' /\ ~ in_progress s' d /\
    ((exists C R, rs_prepare (sy_rsm s) !! d = Some B /\ decided B C R /\
      (forall i sh, shard_at s i = Some sh -> pidx B i <> [] ->
         exists p, sh_prepared (lock_shard d B i sh) !! d = Some p /\ pd_results p = R i) /\
      (forall i, ledger s' i
         = core <$> (apply_shard d B C i <$> (lock_shard d B i <$> shard_at s i)))) \/
     (exists C, rs_commit (sy_rsm s) !! d = Some (C, idxs_of B) /\
      forall i, ledger s' i = core <$> (apply_shard d B C i <$> shard_at s i)) \/
     (d ∈ rs_discard (sy_rsm s) /\ forall i, ledger s' i = ledger s i)).
Proof.
  intros HG Hp Hin Hx Hb. destruct (progress_cases s d HG Hin) as (B' & Hb' & Hc).
  assert (B' = B) as -> by congruence.
  destruct Hc as [[Hpr Hph]|[(C & Hcm & _ & Hph)|(Hd & Hd1 & Hd2 & Hph)]].
  - destruct (Hph x Hx) as [got Hg].
    destruct (end_lock s d B x got) as (s' & C & R & E & HG' & Hn & HD & HR & HL & _).
    { repeat split; auto; apply HG. }
    exists s'. split; [done|]. split; [done|]. split; [done|]. left. exists C, R. done.
  - destruct (Hph x Hx) as [acked Ha].
    assert (HC : committing s d B C x acked).
    { repeat split; auto; apply HG. }
    destruct (end_commit s d B C x acked HC) as (s' & E & HG' & Hn & HL & _).
    exists s'. rewrite (finish_commit s d B C x acked HC). split; [done|]. split; [done|].
    split; [done|]. right. left. exists C. done.
  - destruct (Hph x Hx) as [acked Ha].
    assert (HC : discarding s d B x acked).
    { repeat split; auto; apply HG. }
    destruct (end_discard s d B x acked HC) as (s' & E & HG' & Hn & HL).
    exists s'. rewrite (finish_discard s d B x acked HC). split; [done|]. split; [done|].
    split; [done|]. right. right. done.
Qed.

(** Crash and recovery give an execution again, with the same state. *)
Lemma takeover_start s d :
  good s -> in_progress s d ->
  exists s' x, run cfgs s [LCrash d; LRecover d] = SOk s' /\ good s' /\
    sy_dtx s' !! d = Some x /\ sy_rsm s' = sy_rsm s /\ sy_nodes s' = sy_nodes s /\
    sy_batches s' = sy_batches s.
Proof.
  intros HG Hin.
  assert (Hr : exists x, recovered (ranges cfgs) (sy_rsm s) d = Some x).
  { unfold recovered. destruct (rs_prepare (sy_rsm s) !! d) eqn:E1; [eauto|].
    destruct (rs_commit (sy_rsm s) !! d) as [[C ks]|] eqn:E2; [eauto|].
    destruct Hin as [?|[?|Hd]]; [congruence|congruence|].
    rewrite bool_decide_eq_true_2 by done. eauto. }
  destruct Hr as [x Hx].
  assert (E : run cfgs s [LCrash d; LRecover d] = SOk (set_dtx (drop_dtx s d) d x)).
  { cbn. rewrite lookup_delete, Hx. done. }
  exists (set_dtx (drop_dtx s d) d x), x. split; [done|].
  split; [eapply run_good; eauto|]. split; [cbn; apply lookup_insert|]. done.
Qed.

Lemma takeover_done s d :
  good s -> proper_sys cfgs s -> in_progress s d ->
  exists B s' C, sy_batches s !! d = Some B /\
    run cfgs s (takeover n d) = SOk s' /\ ~ in_progress s' d /\
    (forall C0 ks, rs_commit (sy_rsm s) !! d = Some (C0, ks) -> C = C0) /\
    length C = length B /\
    forall i j k t, sent cfgs B i j k t -> exists b : bool, C !! k = Some b /\
       In (if b then Completed d j t else Cancelled d j t) (events_at s' i).
Proof.
  intros HG Hp Hin. destruct (takeover_start s d HG Hin) as (s1 & x & E1 & HG1 & Hx & Hr & Hn & Hbt).
  assert (Hin1 : in_progress s1 d) by (unfold in_progress; now rewrite Hr).
  destruct (progress_cases s1 d HG1 Hin1) as (B & Hb & Hc).
  assert (Hp1 : proper_sys cfgs s1) by (unfold proper_sys; now rewrite Hbt).
  exists B. unfold takeover. change (LCrash d :: LRecover d :: finish n d)
    with ([LCrash d; LRecover d] ++ finish n d). rewrite run_app, E1.
  destruct Hc as [[Hpr Hph]|[(C & Hcm & _ & Hph)|(Hd & Hd1 & Hd2 & Hph)]].
  - destruct (Hph x Hx) as [got Hg].
    destruct (end_lock s1 d B x got) as (s' & C & R & E & HG' & Hnot & HD & _ & _ & HO).
    { repeat split; auto; apply HG1. }
    exists s', C. split; [congruence|]. split; [done|]. split; [done|]. split; [|split; [apply HD|done]].
    intros C0 ks H0. pose proof HG1 as (_ & _ & Hv). specialize (Hv d). unfold view_of in Hv.
    rewrite Hb, Hpr, Hr, H0 in Hv. inversion Hv.
  - destruct (Hph x Hx) as [acked Ha].
    assert (HC : committing s1 d B C x acked).
    { repeat split; auto; apply HG1. }
    destruct (end_commit s1 d B C x acked HC) as (s' & E & HG' & Hnot & HL & HO).
    destruct (committing_view _ _ _ _ _ _ HC) as (R & HD & _).
    exists s', C. rewrite (finish_commit s1 d B C x acked HC). split; [congruence|].
    split; [done|]. split; [done|]. split; [|split; [apply HD|done]].
    intros C0 ks H0. rewrite Hr in Hcm. congruence.
  - destruct (Hph x Hx) as [acked Ha].
    assert (HC : discarding s1 d B x acked).
    { repeat split; auto; apply HG1. }
    destruct (end_discard s1 d B x acked HC) as (s' & E & HG' & Hnot & HL).
    (* everything was applied already *)
    pose proof HG1 as (_ & _ & Hv). specialize (Hv d). unfold view_of in Hv.
    rewrite Hb, Hd1, Hd2, bool_decide_eq_true_2 in Hv by done.
    inversion Hv as [| | |th C R HD H1 H2 E1' E2' E3' E4' E5'|]; subst.
    exists s', C. rewrite (finish_discard s1 d B x acked HC). split; [congruence|].
    split; [done|]. split; [done|]. split; [|split; [apply HD|]].
    + intros C0 ks H0. rewrite Hr in Hd2. congruence.
    + intros i j k t Hs.
      destruct (sent_node cfgs preseeds cache s1 i B j k t HG1 Hs) as [nd Hnd].
      pose proof Hs as Hs0. apply sent_ptxs in Hs as [Hk Ht].
      destruct (H1 i nd Hnd) as [[Hz _]|[Hne (f & Hf & He & _ & Hl & Hlf)]]; [now rewrite Hz in Hk|].
      destruct (lookup_lt_is_Some_2 f j) as [b Hbf].
      { rewrite Hlf. now apply lookup_lt_Some in Ht. }
      exists b. split; [now rewrite <- (flags_lookup _ _ _ _ _ Hf Hk)|].
      assert (Hin2 : In (if b then Completed d j t else Cancelled d j t) (events_at s1 i)).
      { apply (in_events_at s1 i nd _ Hnd).
        replace (event_dtx (if b then Completed d j t else Cancelled d j t)) with d by now destruct b.
        rewrite He. apply in_or_app. right. apply (apply_events_has d _ 0 f j t b Ht Hbf). }
      apply (run_events _ s1 s' i _ HG1 E Hin2).
Qed.

(** Taking over or not makes no difference to the shards' ledgers. *)
Lemma takeover_same s d x s1 s2 :
  good s -> proper_sys cfgs s -> in_progress s d -> sy_dtx s !! d = Some x ->
  run cfgs s (finish n d) = SOk s1 -> run cfgs s (takeover n d) = SOk s2 ->
  forall i, ledger s1 i = ledger s2 i.
Proof.
  intros HG Hp Hin Hx E1 E2 i.
  destruct (progress_cases s d HG Hin) as (B & Hb & _).
  destruct (takeover_start s d HG Hin) as (s' & x' & E' & HG' & Hx' & Hr & Hn & Hbt).
  assert (Hin' : in_progress s' d) by (unfold in_progress; now rewrite Hr).
  assert (Hp' : proper_sys cfgs s') by (unfold proper_sys; now rewrite Hbt).
  assert (Hb' : sy_batches s' !! d = Some B) by congruence.
  unfold takeover in E2. change (LCrash d :: LRecover d :: finish n d)
    with ([LCrash d; LRecover d] ++ finish n d) in E2. rewrite run_app, E' in E2.
  destruct (finish_done s d x B HG Hp Hin Hx Hb) as (t1 & F1 & _ & _ & C1).
  destruct (finish_done s' d x' B HG' Hp' Hin' Hx' Hb') as (t2 & F2 & _ & _ & C2).
  rewrite E1 in F1. injection F1 as <-. rewrite E2 in F2. injection F2 as <-.
  assert (Hsh : forall j, shard_at s' j = shard_at s j) by (intros j; unfold shard_at; now rewrite Hn).
  rewrite Hr in C2. pose proof HG as (_ & _ & Hv). specialize (Hv d). unfold view_of in Hv.
  rewrite Hb in Hv.
  destruct C1 as [(C & R & P1 & D1 & R1 & L1)|[(C & P1 & L1)|[P1 L1]]],
    C2 as [(C' & R' & P2 & D2 & R2 & L2)|[(C' & P2 & L2)|[P2 L2]]];
    try (exfalso; rewrite ?P1, ?P2 in Hv; inversion Hv; congruence);
    try (exfalso; rewrite ?P1, ?P2, ?bool_decide_eq_true_2 in Hv by done; inversion Hv; congruence).
  - assert (C = C') as <-.
    { apply (decided_unique B C R C' R' D1 D2). intros j Hne.
      destruct (node_get cfgs preseeds cache s j HG) as (nd & _ & _ & En & _).
      { now apply pidx_lt in Hne. }
      destruct (R1 j (nd_shard nd)) as (p & Hp1 & <-); [unfold shard_at; now rewrite En|done|].
      destruct (R2 j (nd_shard nd)) as (p2 & Hp2 & <-); [rewrite Hsh; unfold shard_at; now rewrite En|done|].
      congruence. }
    rewrite L1, L2, Hsh. done.
  - assert (C = C') as <- by congruence. rewrite L1, L2, Hsh. done.
  - rewrite L1, L2. unfold ledger. now rewrite Hn.
Qed.

(** ** Any number of crashes *)

(** The ledgers that completing [d] from [s] will lead to. *)
Definition final (s : sys) (d : N) (B : list compact_tx)
    (L : nat -> option (gset N * gset N * gmap N prepared_dtx * cache_set N)) : Prop :=
  (exists C R, rs_prepare (sy_rsm s) !! d = Some B /\ decided B C R /\
      (forall i sh, shard_at s i = Some sh -> pidx B i <> [] ->
         exists p, sh_prepared (lock_shard d B i sh) !! d = Some p /\ pd_results p = R i) /\
      (forall i, L i
         = core <$> (apply_shard d B C i <$> (lock_shard d B i <$> shard_at s i)))) \/
  (exists C, rs_commit (sy_rsm s) !! d = Some (C, idxs_of B) /\
      forall i, L i = core <$> (apply_shard d B C i <$> shard_at s i)) \/
  (d ∈ rs_discard (sy_rsm s) /\ forall i, L i = ledger s i).

Lemma rsm_cases s d B :
  good s -> sy_batches s !! d = Some B -> in_progress s d ->
  (rs_prepare (sy_rsm s) !! d = Some B /\ rs_commit (sy_rsm s) !! d = None /\
     d ∉ rs_discard (sy_rsm s)) \/
  (exists C, rs_prepare (sy_rsm s) !! d = None /\
     rs_commit (sy_rsm s) !! d = Some (C, idxs_of B) /\ d ∉ rs_discard (sy_rsm s)) \/
  (rs_prepare (sy_rsm s) !! d = None /\ rs_commit (sy_rsm s) !! d = None /\
     d ∈ rs_discard (sy_rsm s)).
Proof.
  intros HG Hb Hin. pose proof HG as (_ & _ & Hv). specialize (Hv d). unfold view_of in Hv.
  rewrite Hb in Hv. destruct (bool_decide (d ∈ rs_discard (sy_rsm s))) eqn:E3;
    [apply bool_decide_eq_true in E3|apply bool_decide_eq_false in E3];
    inversion Hv; try congruence; eauto 7;
    exfalso; destruct Hin as [?|[?|Hin]]; congruence.
Qed.

Lemma final_unique s d B L1 L2 :
  good s -> sy_batches s !! d = Some B -> in_progress s d ->
  final s d B L1 -> final s d B L2 -> forall i, L1 i = L2 i.
Proof.
  intros HG Hb Hin F1 F2 i. pose proof (rsm_cases s d B HG Hb Hin) as Hc.
  destruct F1 as [(C & R & P1 & D1 & R1 & H1)|[(C & P1 & H1)|[P1 H1]]],
    F2 as [(C' & R' & P2 & D2 & R2 & H2)|[(C' & P2 & H2)|[P2 H2]]];
    try (exfalso; destruct Hc as [(?&?&?)|[(?&?&?&?)|(?&?&?)]]; congruence).
  - assert (C = C') as <-.
    { apply (decided_unique B C R C' R' D1 D2). intros j Hne.
      destruct (node_get cfgs preseeds cache s j HG) as (nd & _ & _ & En & _).
      { now apply pidx_lt in Hne. }
      assert (Hs : shard_at s j = Some (nd_shard nd)) by (unfold shard_at; now rewrite En).
      destruct (R1 j (nd_shard nd) Hs Hne) as (p & Hp1 & <-).
      destruct (R2 j (nd_shard nd) Hs Hne) as (p2 & Hp2 & <-). congruence. }
    rewrite H1, H2. done.
  - assert (C = C') as <- by congruence. rewrite H1, H2. done.
  - rewrite H1, H2. done.
Qed.

Lemma final_quiet s s1 d B L :
  sy_nodes s1 = sy_nodes s -> sy_rsm s1 = sy_rsm s -> final s d B L -> final s1 d B L.
Proof.
  intros Hn Hr. unfold final, shard_at, ledger. rewrite Hn, Hr. done.
Qed.

Lemma takeover_final s d B s' :
  good s -> proper_sys cfgs s -> in_progress s d -> sy_batches s !! d = Some B ->
  run cfgs s (takeover n d) = SOk s' -> final s d B (ledger s').
Proof.
  intros HG Hp Hin Hb E.
  destruct (takeover_start s d HG Hin) as (s1 & x & E1 & HG1 & Hx & Hr & Hn & Hbt).
  unfold takeover in E. change (LCrash d :: LRecover d :: finish n d)
    with ([LCrash d; LRecover d] ++ finish n d) in E. rewrite run_app, E1 in E.
  destruct (finish_done s1 d x B HG1) as (t & Ft & _ & _ & Hc); auto.
  { unfold proper_sys. now rewrite Hbt. }
  { unfold in_progress. now rewrite Hr. }
  { congruence. }
  rewrite E in Ft. injection Ft as <-. apply (final_quiet s1 s d B); auto.
Qed.

Lemma call_inv s i rq (k : sys -> sresp -> sres) s1 :
  shard_call cfgs s i rq k = SOk s1 ->
  s1 = s \/
  exists nd c sh rp, sy_nodes s !! i = Some nd /\ cfgs !! i = Some c /\
    process_request c (nd_shard nd) rq = Done (sh, rp) /\
    k (Sys (<[i := node_next nd sh rq rp]> (sy_nodes s))
         (sy_rsm s) (sy_dtx s) (sy_batches s) (sy_answers s)) rp = SOk s1.
Proof.
  unfold shard_call. destruct (sy_nodes s !! i) as [nd|] eqn:En; [|intros H; inv H; now left].
  destruct (cfgs !! i) as [c|] eqn:Ec; [|intros H; inv H; now left].
  destruct (process_request c (nd_shard nd) rq) as [[sh rp]| |] eqn:Ep; try discriminate.
  intros H. right. exists nd, c, sh, rp. done.
Qed.

(** A participant that is locked stays as it is when locked again. *)
Lemma lock_shard_locked s d B i nd res :
  good s -> sy_nodes s !! i = Some nd -> st_locked nd d (ptxs B i) res ->
  lock_shard d B i (nd_shard nd) = nd_shard nd.
Proof.
  intros HG Hn Hl.
  destruct (node_get cfgs preseeds cache s i HG) as (nd' & c & p & En & Ec & Hok & _).
  { destruct HG as ([<- _] & _). now apply lookup_lt_Some in Hn. }
  assert (nd' = nd) as -> by congruence. unfold lock_shard, after. rewrite Ec.
  destruct (pidx B i); [done|].
  destruct (call_lock_again c p cache nd d (ptxs B i) (ptxs B i) res Hok Hl) as [-> _]. done.
Qed.
Lemma apply_shard_applied s d B C R i nd :
  good s -> sy_nodes s !! i = Some nd -> applied_at cfgs d B C R nd i -> recalled nd d ->
  apply_shard d B C i (nd_shard nd) = nd_shard nd.
Proof.
  intros HG Hn (f & Hf & Ha) Hr.
  destruct (node_get cfgs preseeds cache s i HG) as (nd' & c & p & En & Ec & Hok & _).
  { destruct HG as ([<- _] & _). now apply lookup_lt_Some in Hn. }
  assert (nd' = nd) as -> by congruence. unfold apply_shard, after. rewrite Ec, Hf.
  destruct (pidx B i); [done|].
  destruct (call_apply_again c p cache nd d _ _ _ f Hok Ha Hr) as [-> _]. done.
Qed.

Lemma final_step s l s1 d B L :
  good s -> sy_batches s !! d = Some B -> in_progress s d ->
  final s d B L -> label_dtx l = d -> step cfgs s l = SOk s1 ->
  (in_progress s1 d /\ final s1 d B L) \/
  (~ in_progress s1 d /\ forall i, L i = ledger s1 i).
Proof.
  intros HG Hb Hin HF Hl H.
  pose proof (step_good cfgs preseeds cache s l HG) as HG1. rewrite H in HG1. cbn in HG1.
  assert (Hq : forall s2, sy_nodes s2 = sy_nodes s -> sy_rsm s2 = sy_rsm s ->
            (in_progress s2 d /\ final s2 d B L) \/
            (~ in_progress s2 d /\ forall i, L i = ledger s2 i)).
  { intros s2 E1 E2. left. split; [unfold in_progress; now rewrite E2|].
    now apply (final_quiet s). }
  destruct (progress_cases s d HG Hin) as (B' & Hb' & Hcase).
  assert (B' = B) as -> by congruence. clear Hb'.
  pose proof (rsm_cases s d B HG Hb Hin) as Hrc.
  assert (Hsame : forall s2, SOk s2 = SOk s1 -> sy_nodes s2 = sy_nodes s ->
            sy_rsm s2 = sy_rsm s ->
            (in_progress s1 d /\ final s1 d B L) \/
            (~ in_progress s1 d /\ forall i, L i = ledger s1 i)).
  { intros s2 E. injection E as <-. apply Hq. }
  assert (Hsh : forall i nd, sy_nodes s !! i = Some nd -> shard_at s i = Some (nd_shard nd)).
  { intros i nd E. unfold shard_at. now rewrite E. }
  destruct l as [d0 txs|d0|d0 i recv|d0|d0 i recv|d0|d0 i recv|d0|d0|d0]; cbn in Hl; subst d0;
    cbn in H.
  - (* LNew *) rewrite Hb in H. now apply (Hsame s).
  - (* LPrepare *)
    destruct (sy_dtx s !! d) as [x|] eqn:Hx; [|now apply (Hsame s)].
    destruct (dx_phase x) eqn:Hph; try now apply (Hsame s).
    exfalso. destruct Hcase as [[_ Hp]|[(? & _ & _ & Hp)|(_ & _ & _ & Hp)]];
      destruct (Hp x eq_refl) as [g Hg]; congruence.
  - (* LLock *)
    destruct (sy_dtx s !! d) as [x|] eqn:Hx; [|now apply (Hsame s)].
    destruct (dx_phase x) as [|got| | |] eqn:Hph; try now apply (Hsame s).
    destruct (dx_idxs x !! i) as [[|k0 ks0]|] eqn:Ei; try now apply (Hsame s).
    destruct (dx_txs x !! i) as [txs|] eqn:Et; try now apply (Hsame s).
    destruct (got !! i) as [[|]|] eqn:Eg; try now apply (Hsame s).
    apply call_inv in H as [->|(nd & c & sh & rp & En & Ec & Epr & H)]; [now apply (Hsame s)|].
    (* the plan *)
    destruct Hrc as [(Hpr & Hcm & Hds)|[(? & Hpr & _ & _)|(Hpr & _ & _)]];
      [|destruct Hcase as [[? _]|[(? & _ & _ & Hp)|(_ & _ & _ & Hp)]];
          [congruence|destruct (Hp x eq_refl); congruence..]
       |destruct Hcase as [[? _]|[(? & _ & _ & Hp)|(_ & _ & _ & Hp)]];
          [congruence|destruct (Hp x eq_refl); congruence..]].
    destruct HF as [(C & R & _ & HD & HR & HL)|[(? & ? & _)|[? _]]]; [|congruence|congruence].
    pose proof HG as (_ & _ & Hv). specialize (Hv d). unfold view_of in Hv.
    rewrite Hb, Hx, Hpr, Hcm, bool_decide_eq_false_2 in Hv by done.
    inversion Hv as [|th H1 H2 E1 E2 E3 E4 E5| | |]; subst. clear Hv.
    destruct (H2 x eq_refl) as ((P1 & P2 & P3) & _).
    rewrite P3 in Ei. apply idxs_of_lookup in Ei as [Ek Hi].
    rewrite P2 in Et. apply txs_of_lookup in Et as ->.
    destruct (node_get cfgs preseeds cache s i HG Hi) as (nd' & c' & p & En' & Ec' & Hok & _).
    assert (nd' = nd) as -> by congruence. assert (c' = c) as -> by congruence.
    assert (Hidem : lock_shard d B i (nd_shard nd) = sh /\ lock_shard d B i sh = sh).
    { unfold lock_shard, after. rewrite Ec, <- Ek, Epr. split; [done|].
      destruct (H1 i nd En) as [Hn|[_ [res Hlk]]].
      - pose proof (call_lock_new c p cache nd d (ptxs B i) Hok Hn) as Hc. rewrite Epr in Hc.
        destruct Hc as (res & -> & Hst).
        destruct (node_step c p cache nd _ _ _ Hok Epr) as [Hok' _].
        destruct (call_lock_again c p cache _ d (ptxs B i) (ptxs B i) res Hok' Hst) as [E _].
        cbn [nd_shard node_next] in E. now rewrite E.
      - destruct (call_lock_again c p cache nd d (ptxs B i) (ptxs B i) res Hok Hlk) as [E _].
        rewrite E in Epr. injection Epr as <- <-. now rewrite E. }
    destruct Hidem as [Hid1 Hid2].
    assert (Hn1 : sy_nodes s1 = <[i := node_next nd sh (RLock d (ptxs B i)) rp]> (sy_nodes s)
                  /\ sy_rsm s1 = sy_rsm s).
    { destruct rp; try discriminate. destruct recv; inv H; done. }
    destruct Hn1 as [Hn1 Hr1].
    assert (Hsh1 : forall j, lock_shard d B j <$> shard_at s1 j = lock_shard d B j <$> shard_at s j).
    { intros j. unfold shard_at at 1. rewrite Hn1, shard_at_insert by now apply lookup_lt_Some in En.
      destruct (decide (j = i)) as [->|]; [|done]. rewrite (Hsh i nd En). cbn.
      now rewrite Hid1, Hid2. }
    left. split; [unfold in_progress; now rewrite Hr1|].
    left. exists C, R. rewrite Hr1. split; [done|]. split; [done|]. split.
    + intros j sh0 Hj Hne. specialize (Hsh1 j). rewrite Hj in Hsh1.
      destruct (shard_at s j) as [sh2|] eqn:Ej; [|done]. cbn in Hsh1. injection Hsh1 as ->. eauto.
    + intros j. rewrite HL, Hsh1. done.
  - (* LDecide *)
    destruct (sy_dtx s !! d) as [x|] eqn:Hx; [|now apply (Hsame s)].
    destruct (dx_phase x) as [|got| | |] eqn:Hph; try now apply (Hsame s).
    destruct (merge_all (dx_idxs x) got (repeat true (length (dx_full x)))) as [[C2|]| |] eqn:Em;
      try discriminate; [|now apply (Hsame s)].
    unfold replicate in H.
    destruct (rsm_commit (sy_rsm s) (CCommit d C2 (dx_idxs x))) as [m| |] eqn:Er; try discriminate.
    injection H as <-.
    destruct Hrc as [(Hpr & Hcm & Hds)|[(? & Hpr & _ & _)|(Hpr & _ & _)]];
      [|cbn in Er; rewrite Hpr in Er; discriminate..].
    cbn in Er. rewrite Hpr, Hcm in Er. injection Er as <-.
    destruct HF as [(C & R & _ & HD & HR & HL)|[(? & ? & _)|[? _]]]; [|congruence|congruence].
    pose proof HG as (_ & _ & Hv). specialize (Hv d). unfold view_of in Hv.
    rewrite Hb, Hx, Hpr, Hcm, bool_decide_eq_false_2 in Hv by done.
    inversion Hv as [|th H1 H2 E1 E2 E3 E4 E5| | |]; subst. clear Hv.
    destruct (H2 x eq_refl) as ((P1 & P2 & P3) & got' & Hg' & Hlg & Hgot).
    rewrite Hph in Hg'. injection Hg' as <-. rewrite P1, P3 in Em.
    destruct (decided_true_merge cfgs B got C2 Hlg Em) as [Hall HD2].
    assert (Hlk : forall i nd, sy_nodes s !! i = Some nd -> pidx B i <> [] ->
              exists r, got !! i = Some (Some r) /\ st_locked nd d (ptxs B i) r).
    { intros i nd En Hne. destruct (Hall i Hne) as (r & Hr & _). eauto. }
    assert (C2 = C) as ->.
    { apply (decided_unique B _ _ _ _ HD2 HD). intros i Hne.
      destruct (node_get cfgs preseeds cache s i HG) as (nd & _ & _ & En & _).
      { now apply pidx_lt in Hne. }
      destruct (Hlk i nd En Hne) as (r & Hr & Hst). rewrite Hr.
      destruct (HR i (nd_shard nd) (Hsh i nd En) Hne) as (p & Hp & <-).
      rewrite (lock_shard_locked s d B i nd r HG En Hst) in Hp.
      destruct Hst as (_ & Hp2 & _). rewrite Hp2 in Hp. injection Hp as <-. done. }
    left. split; [right; left; cbn; rewrite lookup_insert; done|].
    right. left. exists C. split; [cbn; rewrite lookup_insert, P3; done|].
    intros i. rewrite HL. unfold shard_at. cbn [sy_nodes set_dtx].
    destruct (sy_nodes s !! i) as [nd|] eqn:En; [|done]. cbn. f_equal. f_equal. f_equal.
    destruct (decide (pidx B i = [])) as [Hz|Hne].
    + unfold lock_shard. rewrite Hz. now destruct (cfgs !! i).
    + destruct (Hlk i nd En Hne) as (r & _ & Hst). eapply lock_shard_locked; eauto.
  - (* LApply *)
    destruct (sy_dtx s !! d) as [x|] eqn:Hx; [|now apply (Hsame s)].
    destruct (dx_phase x) as [| |acked| |] eqn:Hph; try now apply (Hsame s).
    destruct (dx_idxs x !! i) as [[|k0 ks0]|] eqn:Ei; try now apply (Hsame s).
    destruct (acked !! i) as [[|]|] eqn:Eg; try now apply (Hsame s).
    destruct (shard_flags (dx_complete x) (k0 :: ks0)) as [flags|] eqn:Ef; [|discriminate].
    apply call_inv in H as [->|(nd & c & sh & rp & En & Ec & Epr & H)]; [now apply (Hsame s)|].
    destruct Hrc as [(Hpr & Hcm & Hds)|[(C & Hpr & Hcm & Hds)|(Hpr & Hcm & Hds)]].
    1,3: exfalso; destruct Hcase as [[_ Hp]|[(? & ? & _ & Hp)|(? & _ & _ & Hp)]];
      [destruct (Hp x eq_refl); congruence|congruence|destruct (Hp x eq_refl); congruence].
    destruct HF as [(? & ? & ? & _)|[(C' & HC' & HL)|[? _]]]; [congruence| |congruence].
    assert (C' = C) as -> by congruence.
    pose proof HG as (_ & _ & Hv). specialize (Hv d). unfold view_of in Hv.
    rewrite Hb, Hx, Hpr, Hcm, bool_decide_eq_false_2 in Hv by done.
    inversion Hv as [| |th C0 R HD H1 H2 E1 E2 E3 E4 E5| |]; subst. clear Hv.
    destruct (H2 x eq_refl) as (P1 & P2 & _). rewrite P2 in Ef.
    rewrite P1 in Ei. apply idxs_of_lookup in Ei as [Ek Hi].
    destruct (node_get cfgs preseeds cache s i HG Hi) as (nd' & c' & p & En' & Ec' & Hok & _).
    assert (nd' = nd) as -> by congruence. assert (c' = c) as -> by congruence.
    rewrite Ek in Ef.
    destruct (flags_of cfgs B _ R i HD) as (flags' & Ef' & Hlf).
    assert (flags' = flags) as -> by congruence.
    assert (Hidem : apply_shard d B C i (nd_shard nd) = sh /\
                    apply_shard d B C i sh = sh).
    { unfold apply_shard, after. rewrite Ec, Ef, <- Ek, Epr. split; [done|].
      destruct (H1 i nd En) as [[Hz _]|[_ [Hlk|[(f' & Ef2 & Hap) Hr]]]]; [congruence| |].
      - destruct (call_apply_new c p cache nd d _ _ flags Hok Hlk Hlf) as (sh' & E & Hap & Hr).
        rewrite E in Epr. injection Epr as <- <-.
        destruct (node_step c p cache nd _ _ _ Hok E) as [Hok' _].
        destruct (call_apply_again c p cache _ d _ _ _ flags Hok' Hap Hr) as [E' _].
        cbn [nd_shard node_next] in E'. now rewrite E'.
      - destruct (call_apply_again c p cache nd d _ _ _ flags Hok Hap Hr) as [E' _].
        rewrite E' in Epr. injection Epr as <- <-. now rewrite E'. }
    destruct Hidem as [Hid1 Hid2].
    assert (Hn1 : sy_nodes s1 = <[i := node_next nd sh (RApply d flags) rp]> (sy_nodes s)
                  /\ sy_rsm s1 = sy_rsm s).
    { destruct recv; inv H; done. }
    destruct Hn1 as [Hn1 Hr1].
    left. split; [unfold in_progress; now rewrite Hr1|].
    right. left. exists C. rewrite Hr1. split; [done|]. intros j. rewrite HL.
    unfold shard_at at 2. rewrite Hn1, shard_at_insert by now apply lookup_lt_Some in En.
    destruct (decide (j = i)) as [->|]; [|done]. rewrite (Hsh i nd En). cbn.
    now rewrite Hid1, Hid2.
  - (* LFinish *)
    destruct (sy_dtx s !! d) as [x|] eqn:Hx; [|now apply (Hsame s)].
    destruct (dx_phase x) as [| |acked| |] eqn:Hph; try now apply (Hsame s).
    destruct (all_acked (dx_idxs x) acked) eqn:Ea; [|now apply (Hsame s)].
    unfold replicate in H.
    destruct (rsm_commit (sy_rsm s) (CDiscard d)) as [m| |] eqn:Er; try discriminate.
    injection H as <-.
    destruct Hrc as [(Hpr & Hcm & Hds)|[(C & Hpr & Hcm & Hds)|(Hpr & Hcm & Hds)]].
    1,3: cbn in Er; rewrite Hcm in Er; discriminate.
    cbn in Er. rewrite Hcm in Er. injection Er as <-.
    destruct HF as [(? & ? & ? & _)|[(C' & HC' & HL)|[? _]]]; [congruence| |congruence].
    assert (C' = C) as -> by congruence.
    pose proof HG as (_ & _ & Hv). specialize (Hv d). unfold view_of in Hv.
    rewrite Hb, Hx, Hpr, Hcm, bool_decide_eq_false_2 in Hv by done.
    inversion Hv as [| |th C0 R HD H1 H2 E1 E2 E3 E4 E5| |]; subst. clear Hv.
    destruct (H2 x eq_refl) as (P1 & P2 & acked' & Hg & Hla & Hack).
    rewrite Hph in Hg. injection Hg as <-. rewrite P1 in Ea.
    left. split. { right. right. cbn. apply elem_of_union. right. now apply elem_of_singleton. }
    right. right. split. { cbn. apply elem_of_union. right. now apply elem_of_singleton. }
    intros i. rewrite HL. unfold ledger, shard_at. cbn [sy_nodes set_dtx].
    destruct (sy_nodes s !! i) as [nd|] eqn:En; [|done]. cbn. f_equal.
    destruct (decide (pidx B i = [])) as [Hz|Hne].
    + unfold apply_shard. rewrite Hz. destruct (cfgs !! i); reflexivity.
    + assert (Hai : acked !! i = Some true).
      { apply (all_acked_spec (idxs_of B) acked) with (i := i) (ks := pidx B i); auto.
        - rewrite idxs_of_length. done.
        - apply idxs_of_lookup'. now apply pidx_lt in Hne. }
      destruct (Hack i nd En Hne Hai) as [Hap Hr].
      rewrite (apply_shard_applied s d B _ R i nd HG En Hap Hr). done.
  - (* LDiscard *)
    destruct (sy_dtx s !! d) as [x|] eqn:Hx; [|now apply (Hsame s)].
    destruct (dx_phase x) as [| | |acked|] eqn:Hph; try now apply (Hsame s).
    destruct (dx_idxs x !! i) as [[|k0 ks0]|] eqn:Ei; try now apply (Hsame s).
    destruct (acked !! i) as [[|]|] eqn:Eg; try now apply (Hsame s).
    apply call_inv in H as [->|(nd & c & sh & rp & En & Ec & Epr & H)]; [now apply (Hsame s)|].
    destruct Hrc as [(Hpr & Hcm & Hds)|[(C & Hpr & Hcm & Hds)|(Hpr & Hcm & Hds)]].
    1,2: exfalso; destruct Hcase as [[_ Hp]|[(? & ? & _ & Hp)|(? & _ & _ & Hp)]];
      first [congruence|destruct (Hp x eq_refl); congruence].
    destruct HF as [(? & ? & ? & _)|[(C' & HC' & HL)|[_ HL]]]; [congruence|congruence|].
    destruct (node_get cfgs preseeds cache s i HG) as (nd' & c' & p & En' & Ec' & Hok & _).
    { now apply lookup_lt_Some in Ec. }
    assert (nd' = nd) as -> by congruence. assert (c' = c) as -> by congruence.
    destruct (call_discard c p cache nd d Hok) as (sh' & E & _ & L1 & L2 & L3 & L4 & _).
    rewrite E in Epr. injection Epr as <- <-.
    assert (Hn1 : sy_nodes s1 = <[i := node_next nd sh' (RDiscard d) ADiscard]> (sy_nodes s)
                  /\ sy_rsm s1 = sy_rsm s).
    { destruct recv; inv H; done. }
    destruct Hn1 as [Hn1 Hr1].
    left. split; [unfold in_progress; now rewrite Hr1|].
    right. right. rewrite Hr1. split; [done|]. intros j. rewrite HL. unfold ledger. rewrite Hn1.
    destruct (decide (j = i)) as [->|].
    + rewrite list_lookup_insert by now apply lookup_lt_Some in En. rewrite En. cbn.
      now rewrite L1, L2, L3, L4.
    + rewrite list_lookup_insert_ne by auto. done.
  - (* LDone *)
    destruct (sy_dtx s !! d) as [x|] eqn:Hx; [|now apply (Hsame s)].
    destruct (dx_phase x) as [| | |acked|] eqn:Hph; try now apply (Hsame s).
    destruct (all_acked (dx_idxs x) acked) eqn:Ea; [|now apply (Hsame s)].
    unfold replicate in H.
    destruct (rsm_commit (sy_rsm s) (CDone d)) as [m| |] eqn:Er; try discriminate.
    injection H as <-. cbn in Er.
    destruct Hrc as [(Hpr & Hcm & Hds)|[(C & Hpr & Hcm & Hds)|(Hpr & Hcm & Hds)]].
    1,2: rewrite bool_decide_eq_false_2 in Er by done; discriminate.
    rewrite bool_decide_eq_true_2 in Er by done. injection Er as <-.
    destruct HF as [(? & ? & ? & _)|[(C' & HC' & HL)|[_ HL]]]; [congruence|congruence|].
    right. split.
    + unfold in_progress. cbn. rewrite Hpr, Hcm. intros [?|[?|Hx']]; try done.
      apply elem_of_difference in Hx' as [_ Hx']. apply Hx'. now apply elem_of_singleton.
    + intros i. rewrite HL. done.
  - (* LCrash *) now apply (Hsame (drop_dtx s d)).
  - (* LRecover *)
    destruct (sy_dtx s !! d) as [x|] eqn:Hx; [now apply (Hsame s)|].
    destruct (recovered (ranges cfgs) (sy_rsm s) d) as [x|]; [|now apply (Hsame s)].
    now apply (Hsame (set_dtx s d x)).
Qed.

(** A finished execution stays finished. *)
Lemma finished_step s l s1 d B :
  good s -> sy_batches s !! d = Some B -> ~ in_progress s d ->
  (forall x, sy_dtx s !! d = Some x -> dx_phase x = PhDone) ->
  label_dtx l = d -> step cfgs s l = SOk s1 ->
  sy_nodes s1 = sy_nodes s /\ ~ in_progress s1 d /\ sy_batches s1 !! d = Some B /\
  (forall x, sy_dtx s1 !! d = Some x -> dx_phase x = PhDone).
Proof.
  intros HG Hb Hin Hth Hl H.
  destruct l as [d0 txs|d0|d0 i recv|d0|d0 i recv|d0|d0 i recv|d0|d0|d0]; cbn in Hl; subst d0;
    cbn in H; try (rewrite Hb in H; now inv H);
    try (destruct (sy_dtx s !! d) as [x|] eqn:Hx;
         [rewrite (Hth x eq_refl) in H; inv H; rewrite Hx in *; auto
         |inv H; rewrite ?Hx in *; auto]; fail).
  - inv H. cbn. rewrite lookup_delete. done.
  - destruct (sy_dtx s !! d) as [x|] eqn:Hx; [inv H; rewrite Hx; auto|].
    destruct (recovered (ranges cfgs) (sy_rsm s) d) as [x|] eqn:Er; [|inv H; rewrite Hx; auto].
    exfalso. apply Hin. unfold recovered in Er. unfold in_progress.
    destruct (rs_prepare (sy_rsm s) !! d); [now left|].
    destruct (rs_commit (sy_rsm s) !! d); [right; now left|].
    destruct (bool_decide (d ∈ rs_discard (sy_rsm s))) eqn:E; [|done].
    apply bool_decide_eq_true in E. right. now right.
Qed.

Lemma call_thread s i rq (k : sys -> sresp -> sres) s1 d x x1 :
  shard_call cfgs s i rq k = SOk s1 -> sy_dtx s !! d = Some x -> dx_phase x <> PhStart ->
  (forall s2 rp, sy_dtx s2 = sy_dtx s -> k s2 rp = SOk s1 ->
     forall x2, sy_dtx s1 !! d = Some x2 -> dx_phase x2 <> PhStart) ->
  sy_dtx s1 !! d = Some x1 -> dx_phase x1 <> PhStart.
Proof.
  intros H Hx Hph Hk Hx1. apply call_inv in H as [->|(nd & c & sh & rp & _ & _ & _ & H)].
  - congruence.
  - eapply Hk; [|exact H|exact Hx1]. done.
Qed.

Lemma step_start s l s1 d B x :
  sy_batches s !! d = Some B -> label_dtx l = d -> step cfgs s l = SOk s1 ->
  sy_dtx s1 !! d = Some x -> dx_phase x = PhStart ->
  exists x0, sy_dtx s !! d = Some x0 /\ dx_phase x0 = PhStart.
Proof.
  intros Hb Hl H Hx Hph.
  destruct (sy_dtx s !! d) as [x0|] eqn:Hx0.
  2: { exfalso. destruct l as [d0 txs|d0|d0 i recv|d0|d0 i recv|d0|d0 i recv|d0|d0|d0];
         cbn in Hl; subst d0; cbn in H; rewrite ?Hb, ?Hx0 in H; try (inv H; congruence).
       - inv H. cbn in Hx. now rewrite lookup_delete in Hx.
       - destruct (recovered (ranges cfgs) (sy_rsm s) d) as [x1|] eqn:Er; [|inv H; congruence].
         inv H. cbn in Hx. rewrite lookup_insert in Hx. injection Hx as ->.
         unfold recovered in Er. repeat case_match; simplify_eq; cbn in Hph; discriminate. }
  assert (E : dx_phase x0 = PhStart \/ dx_phase x0 <> PhStart)
    by (destruct (dx_phase x0); auto; right; discriminate).
  destruct E as [E|E]; [eauto|]. exfalso.
  destruct l as [d0 txs|d0|d0 i recv|d0|d0 i recv|d0|d0 i recv|d0|d0|d0];
    cbn in Hl; subst d0; cbn in H; rewrite ?Hb, ?Hx0 in H; try (inv H; congruence).
  - destruct (dx_phase x0) eqn:E0; [congruence|inv H; congruence..].
  - destruct (dx_phase x0) as [|got| | |] eqn:E0; try (inv H; congruence).
    destruct (dx_idxs x0 !! i) as [[|k0 ks0]|]; try (inv H; congruence).
    destruct (dx_txs x0 !! i); try (inv H; congruence).
    destruct (got !! i) as [[|]|]; try (inv H; congruence).
    revert Hph. eapply call_thread; eauto; [congruence|].
    intros s2 rp E2 Hk x2 Hx2. destruct rp; try discriminate. destruct recv; inv Hk.
    + cbn in Hx2. rewrite lookup_insert in Hx2. injection Hx2 as <-. done.
    + rewrite E2, Hx0 in Hx2. congruence.
  - destruct (dx_phase x0) as [|got| | |] eqn:E0; try (inv H; congruence).
    destruct (merge_all _ _ _) as [[C2|]| |]; try discriminate; [|inv H; congruence].
    unfold replicate in H. destruct (rsm_commit _ _) as [m| |]; inv H.
    cbn in Hx. rewrite lookup_insert in Hx. injection Hx as <-. done.
  - destruct (dx_phase x0) as [| |acked| |] eqn:E0; try (inv H; congruence).
    destruct (dx_idxs x0 !! i) as [[|k0 ks0]|]; try (inv H; congruence).
    destruct (acked !! i) as [[|]|]; try (inv H; congruence).
    destruct (shard_flags _ _); [|discriminate].
    revert Hph. eapply call_thread; eauto; [congruence|].
    intros s2 rp E2 Hk x2 Hx2. destruct recv; inv Hk.
    + cbn in Hx2. rewrite lookup_insert in Hx2. injection Hx2 as <-. done.
    + rewrite E2, Hx0 in Hx2. congruence.
  - destruct (dx_phase x0) as [| |acked| |] eqn:E0; try (inv H; congruence).
    destruct (all_acked _ _); [|inv H; congruence].
    unfold replicate in H. destruct (rsm_commit _ _) as [m| |]; inv H.
    cbn in Hx. rewrite lookup_insert in Hx. injection Hx as <-. done.
  - destruct (dx_phase x0) as [| | |acked|] eqn:E0; try (inv H; congruence).
    destruct (dx_idxs x0 !! i) as [[|k0 ks0]|]; try (inv H; congruence).
    destruct (acked !! i) as [[|]|]; try (inv H; congruence).
    revert Hph. eapply call_thread; eauto; [congruence|].
    intros s2 rp E2 Hk x2 Hx2. destruct recv; inv Hk.
    + cbn in Hx2. rewrite lookup_insert in Hx2. injection Hx2 as <-. done.
    + rewrite E2, Hx0 in Hx2. congruence.
  - destruct (dx_phase x0) as [| | |acked|] eqn:E0; try (inv H; congruence).
    destruct (all_acked _ _); [|inv H; congruence].
    unfold replicate in H. destruct (rsm_commit _ _) as [m| |]; inv H.
    cbn in Hx. rewrite lookup_insert in Hx. injection Hx as <-. done.
  - inv H. cbn in Hx. now rewrite lookup_delete in Hx.
Qed.

Lemma after_done s l s1 d :
  good s -> in_progress s d -> label_dtx l = d -> step cfgs s l = SOk s1 ->
  ~ in_progress s1 d -> forall x, sy_dtx s1 !! d = Some x -> dx_phase x = PhDone.
Proof.
  intros HG Hin Hl0 H Hnot x Hx.
  assert (Hl : label_dtx l = d /\ True) by done. clear Hl0.
  pose proof (step_good cfgs preseeds cache s l HG) as HG1. rewrite H in HG1. cbn in HG1.
  pose proof HG1 as (_ & _ & Hv). specialize (Hv d). unfold view_of in Hv.
  destruct (progress_cases s d HG Hin) as (B & Hb & Hc).
  assert (Hb1 : sy_batches s1 !! d = Some B).
  { apply (run_batches [l] s s1); [cbn; now rewrite H|done]. }
  rewrite Hb1, Hx in Hv.
  destruct (bool_decide (d ∈ rs_discard (sy_rsm s1))) eqn:E3.
  { exfalso. apply Hnot. apply bool_decide_eq_true in E3. right. now right. }
  inversion Hv as [th H1 H2 E1 E2 E3' E4 E5|th H1 H2 E1 E2 E3' E4 E5
      |th C R HD H1 H2 E1 E2 E3' E4 E5| |th C R an HD H1 H2 H3 E1 E2 E3' E4 E5]; subst.
  - exfalso. destruct (H2 x eq_refl) as [_ Hph].
    destruct Hl as [Hl _].
    destruct (step_start s l s1 d B x Hb Hl H Hx Hph) as (x0 & Hx0 & Hph0).
    destruct Hc as [[_ Hp]|[(? & _ & _ & Hp)|(_ & _ & _ & Hp)]];
      destruct (Hp x0 Hx0) as [g Hg]; congruence.
  - exfalso. apply Hnot. left. congruence.
  - exfalso. apply Hnot. right. left. congruence.
  - eauto.
Qed.

Lemma any_crashes_aux d B ls : forall s L s1,
  good s -> sy_batches s !! d = Some B -> in_progress s d -> final s d B L ->
  Forall (fun l => label_dtx l = d) ls -> run cfgs s ls = SOk s1 ->
  (in_progress s1 d /\ final s1 d B L) \/
  (~ in_progress s1 d /\ forall i, L i = ledger s1 i).
Proof.
  induction ls as [|l ls IH]; intros s L s1 HG Hb Hin HF Hls H.
  - inv H. left. done.
  - inv Hls. cbn in H. destruct (step cfgs s l) as [s2| | |] eqn:E; try discriminate.
    pose proof (step_good cfgs preseeds cache s l HG) as HG2. rewrite E in HG2. cbn in HG2.
    assert (Hb2 : sy_batches s2 !! label_dtx l = Some B).
    { apply (run_batches [l] s s2); [cbn; now rewrite E|done]. }
    destruct (final_step s l s2 _ B L HG Hb Hin HF eq_refl E) as [[Hin2 HF2]|[Hn2 HL2]].
    + eapply IH; eauto.
    + right. pose proof (after_done s l s2 _ HG Hin eq_refl E Hn2) as Hd2.
      clear IH Hin HF Hb E HG s.
      revert s2 HG2 Hb2 Hn2 HL2 Hd2 H. induction ls as [|l2 ls IH2]; intros s2 HG2 Hb2 Hn2 HL2 Hd2 H.
      { inv H. done. }
      match goal with Hf : Forall _ (_ :: _) |- _ => inv Hf end. cbn in H.
      destruct (step cfgs s2 l2) as [s3| | |] eqn:E; try discriminate.
      pose proof (step_good cfgs preseeds cache s2 l2 HG2) as HG3. rewrite E in HG3. cbn in HG3.
      destruct (finished_step s2 l2 s3 (label_dtx l) B) as (F1 & F2 & F3 & F4); auto.
      apply (IH2 ltac:(assumption) s3); auto. intros i. rewrite HL2. unfold ledger. now rewrite F1.
Qed.

(** However often coordinators of [d] crash, whatever they did before: once [d]
    is finished the ledgers are those an execution without crashes gives. *)
Lemma any_crashes s d x s1 ls s2 :
  good s -> proper_sys cfgs s -> in_progress s d -> sy_dtx s !! d = Some x ->
  run cfgs s (finish n d) = SOk s1 ->
  Forall (fun l => label_dtx l = d) ls -> run cfgs s ls = SOk s2 -> ~ in_progress s2 d ->
  forall i, ledger s2 i = ledger s1 i.
Proof.
  intros HG Hp Hin Hx E1 Hls E2 Hnot i.
  destruct (progress_cases s d HG Hin) as (B & Hb & _).
  destruct (finish_done s d x B HG Hp Hin Hx Hb) as (t1 & F1 & _ & _ & HF).
  rewrite E1 in F1. injection F1 as <-.
  destruct (any_crashes_aux d B ls s (ledger s1) s2 HG Hb Hin HF Hls E2) as [[? _]|[_ HL]]; [done|].
  symmetry. apply HL.
Qed.

End Recovery.
