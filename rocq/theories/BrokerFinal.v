(** What the invariant says about commits, rollbacks and recovery. *)
From stdpp Require Import base option list gmap fin_maps fin_sets.
From Coq Require Import NArith Lia.
From Verif Require Import Base ParsecShardModel ParsecShardSpec ParsecShardProofs ParsecShardSteps ParsecShardRuns
  ParsecShardFinal BrokerModel BrokerSpec BrokerShard BrokerInv BrokerStage BrokerHandle BrokerNet BrokerExec
  BrokerRecover BrokerProofs.
Open Scope N_scope.

Section Final.
Context (loc : key -> N) (nsh : N) (self : N) (own : ticket_no -> bool).
Context (Hloc : forall k, loc k < nsh).

Notation reaches := (reaches loc nsh self own).
Notation step := (n_step loc nsh self).

Lemma absent_none s t : status_of s t = Absent <-> s_tk s !! t = None.
Proof.
  unfold status_of, tstatus. destruct (s_tk s !! t) as [x|]; [|done]. split; [|done]. now destruct (t_state x).
Qed.

Lemma asked_as n g t j : c_as (w_c (nvw n g t) j) = true <-> j ∈ asked g t.
Proof. cbn. apply bool_decide_eq_true. Qed.

(** A commit on one shard is a commit on all. *)
Lemma done_own n g t i u : Inv loc nsh self own n g -> g_done g !! (t, i) = Some u -> reaches n g -> own t = true.
Proof.
  intros _ H R. revert i u H. induction R as [|n g a n' cs R IH A E]; intros i u H; [cbn in H; now rewrite lookup_empty in H|].
  assert (Hd : g_done (note loc n g a cs) = g_done g -> own t = true) by (intros Hd; rewrite Hd in H; eauto).
  pose proof (inv_reaches loc nsh self own Hloc n g R) as (st & C & _).
  destruct a; try (apply Hd; done); cbn [note] in *.
  - apply Hd. now destruct (broker_state n tn) as [[]|].
  - apply Hd. now destruct (commit_check _ _ _).
  - apply Hd. now destruct (broker_state n tn) as [[]|].
  - destruct (n_req n i0) as [|[q c] r] eqn:Eq; [eauto|]. destruct q as [| |t0| | |]; eauto.
    destruct (s_tk _ !! _) as [x|]; [|eauto]. case_bool_decide; [|eauto]. cbn in H.
    apply lookup_insert_Some in H as [[[= <- <-] _]|[_ H]]; [|eauto].
    destruct (i_req _ _ _ _ _ _ _ C i0 (QCommit t0) c) as (_ & _ & Ho); [rewrite Eq; left|]. now apply Ho.
  - apply Hd. now destruct (existsb _ _).
Qed.

Lemma all_or_nothing n g t i u :
  reaches n g -> g_done g !! (t, i) = Some u ->
  exists U, g_upd g !! t = Some U /\ u = part loc U i /\ i ∈ asked g t /\
    forall j, j ∈ asked g t -> g_done g !! (t, j) = Some (part loc U j) \/ ready n j t (part loc U j).
Proof.
  intros R Hd. pose proof (inv_reaches loc nsh self own Hloc n g R) as I. pose proof I as (st & C & _).
  pose proof (done_own n g t i u I Hd R) as Ho.
  destruct (i_t _ _ _ _ _ _ _ C t Ho) as [Hb H].
  assert (Hai : i ∈ asked g t).
  { apply (asked_as n). apply (Hb i). cbn. congruence. }
  assert (Hrd : forall j U, status_of (n_sh n j) t = Ready (part loc U j) -> ready n j t (part loc U j)).
  { intros j U Hs. now apply status_ready in Hs. }
  assert (Hdn : forall j, c_dn (w_c (nvw n g t) j) = g_done g !! (t, j)) by done.
  assert (Hno : (forall j, c_dn (w_c (nvw n g t) j) = None) -> False).
  { intros Hn. specialize (Hn i). cbn in Hn. congruence. }
  assert (Hpre : forall U, w_up (nvw n g t) = Some U -> (forall j, pre loc U j (w_c (nvw n g t) j)) ->
    exists U, g_upd g !! t = Some U /\ u = part loc U i /\ i ∈ asked g t /\
    forall j, j ∈ asked g t -> g_done g !! (t, j) = Some (part loc U j) \/ ready n j t (part loc U j)).
  { intros U HU P. exists U. split; [done|].
    assert (Hj : forall j, j ∈ asked g t -> g_done g !! (t, j) = Some (part loc U j) \/
       (g_done g !! (t, j) = None /\ ready n j t (part loc U j))).
    { intros j Hj. apply (asked_as n) in Hj. destruct (P j) as [(s & _ & [[S D]|[S D]] & _)|(_ & _ & F & _)]; [|auto|congruence].
      right. split; [exact D|]. now apply Hrd. }
    split; [destruct (Hj i Hai) as [E|[E _]]; congruence|]. split; [done|]. intros j Hj'. destruct (Hj j Hj') as [|[_ ?]]; auto. }
  assert (Hall : forall U, w_up (nvw n g t) = Some U ->
    (forall j, (c_as (w_c (nvw n g t) j) = true -> c_dn (w_c (nvw n g t) j) <> None) /\
               (forall x, c_dn (w_c (nvw n g t) j) = Some x -> x = part loc U j)) ->
    exists U, g_upd g !! t = Some U /\ u = part loc U i /\ i ∈ asked g t /\
    forall j, j ∈ asked g t -> g_done g !! (t, j) = Some (part loc U j) \/ ready n j t (part loc U j)).
  { intros U HU P. exists U. split; [done|]. split; [apply (P i), Hd|]. split; [done|].
    intros j Hj. apply (asked_as n) in Hj. destruct (P j) as [P1 P2]. specialize (P1 Hj). cbn in P1, P2. left.
    destruct (g_done g !! (t, j)) as [x|]; [|done]. now rewrite (P2 x). }
  assert (Hcmt : forall U, w_up (nvw n g t) = Some U -> (forall j, cmt loc U j (w_c (nvw n g t) j)) ->
    exists U, g_upd g !! t = Some U /\ u = part loc U i /\ i ∈ asked g t /\
    forall j, j ∈ asked g t -> g_done g !! (t, j) = Some (part loc U j) \/ ready n j t (part loc U j)).
  { intros U HU P. apply (Hall U HU). intros j. destruct (P j) as [(s & _ & D & _)|(_ & A & B & _)]; [|done].
    rewrite D. split; [done|]. congruence. }
  assert (Hroll : forall b, rollmode nsh b (nvw n g t) -> False).
  { intros b [[_ [P _]]|[_ P]]; apply Hno; intros j; [apply (P j)|apply (P j)]. }
  assert (Hgone : gone loc (nvw n g t) -> exists U, g_upd g !! t = Some U /\ u = part loc U i /\ i ∈ asked g t /\
    forall j, j ∈ asked g t -> g_done g !! (t, j) = Some (part loc U j) \/ ready n j t (part loc U j)).
  { intros [_ [P|(U & HU & P)]]; [exfalso; apply Hno; intros j; apply P|]. apply (Hall U HU), P. }
  destruct (w_bs (nvw n g t)) as [b|], (w_ph (nvw n g t)) as [[]|].
  - exfalso. apply Hno. intros j. destruct H as [_ H]. apply (H j).
  - destruct H as (U & HU & [[_ H]|[[_ H]|[_ H]]]); [|eauto..]. exfalso. apply Hno. intros j. apply (H j).
  - exfalso. eauto.
  - destruct H as [H|(U & HU & [[_ H]|[_ H]])]; [exfalso; eauto|eauto..].
  - done.
  - auto.
  - auto.
  - auto.
  - destruct H as [[_ [_ [P|(U & HU & P)]]]|H]; [exfalso; apply Hno; intros j; apply P| |auto].
    exists U. split; [done|]. split; [|split; [done|]].
    + destruct (P i) as [(_ & B & _)|[(_ & B)|(_ & B)]]; [now apply B|cbn in B; congruence|cbn in B; congruence].
    + intros j Hj. apply (asked_as n) in Hj. destruct (P j) as [(A & B & D)|[(A & B)|(A & B)]].
      * specialize (D Hj j Hj). left. destruct (c_dn (w_c (nvw n g t) j)) as [x|] eqn:Ex; [|done].
        rewrite (B x eq_refl) in Ex. exact Ex.
      * right. now apply Hrd.
      * left. exact B.
  - exfalso. apply Hno. intros j. apply (H j).
Qed.

(** What a commit does to the values. *)
Lemma commit_writes n g i tn u c r n' cs :
  reaches n g -> n_req n i = (QCommit tn, c) :: r -> ready n i tn u -> step n (AShard i) = Some (n', cs) ->
  g_done (note loc n g (AShard i) cs) !! (tn, i) = Some u /\
  (forall k, value n' i k = default (value n i k) (u !! k)) /\
  (forall j k, j <> i -> value n' j k = value n j k).
Proof.
  intros R Eq (x & Hx & Hp & Hu) E. pose proof (inv_reaches loc nsh self own Hloc n g R) as (st & C & _).
  cbn [n_step] in E. rewrite Eq in E. cbn [to_op] in E.
  destruct (ParsecShardModel.step (n_sh n i) (OCommit tn)) as [[s' ev]| | |] eqn:Es; try discriminate.
  injection E as <- <-. split; [|split].
  - rewrite (note_done _ _ _ _ _ _ _ _ _ _ Eq), decide_True by done. cbn. rewrite decide_True by done. rewrite Hx.
    rewrite bool_decide_eq_true_2 by done. now rewrite Hu.
  - intros k. unfold value. cbn [n_sh]. rewrite upd_eq. cbn [ParsecShardModel.step] in Es.
    pose proof (commit_outcome_ok (n_sh n i) tn (i_shard _ _ _ _ _ _ _ C i)) as Ho. rewrite Es in Ho.
    inversion Ho as [e Hn|t1 s1 s2 ev1 Ht1 Hst Htk Hel H1 H2 Ht2 Hs]; subst.
    + exfalso. apply Hn. exists x. done.
    + assert (t1 = x) as -> by congruence. pose proof (m_val _ _ _ (v_moves _ _ _ _ Hs) k) as Hv. rewrite Hv, Hel. done.
  - intros j k Hj. unfold value. cbn [n_sh]. now rewrite upd_ne.
Qed.

Lemma rolled_back n g i tn c r :
  reaches n g -> n_req n i = (QRollback tn, c) :: r -> s_tk (n_sh n i) !! tn <> None -> committed_nowhere g tn.
Proof.
  intros R Eq Hs. pose proof (inv_reaches loc nsh self own Hloc n g R) as (st & C & _).
  destruct (i_req _ _ _ _ _ _ _ C i (QRollback tn) c) as (_ & _ & Ho); [rewrite Eq; left|].
  specialize (Ho tn eq_refl). destruct (i_t _ _ _ _ _ _ _ C tn Ho) as [Hb H].
  assert (HR : c_R (w_c (nvw n g tn) i) = QRollback tn :: reqs_of tn r).
  { cbn. rewrite Eq. unfold reqs_of at 1. cbn. now rewrite bool_decide_eq_true_2. }
  assert (Hin : QRollback tn ∈ c_R (w_c (nvw n g tn) i)) by (rewrite HR; left).
  assert (Hst : c_st (w_c (nvw n g tn) i) <> Absent) by (cbn; intros Ha; now apply absent_none in Ha).
  assert (Hbeg : forall uo, (forall j, beg loc nsh uo j (w_c (nvw n g tn) j)) -> committed_nowhere g tn).
  { intros uo P j. apply (P j). }
  assert (Hpre : forall U, (forall j, pre loc U j (w_c (nvw n g tn) j)) -> committed_nowhere g tn).
  { intros U P. exfalso. destruct (P i) as [(s & _ & _ & Q & _)|((A & _) & _)]; [|done].
    destruct (Q _ Hin) as [[]|[[]|[]]]. }
  assert (Hcmt : forall U, (forall j, cmt loc U j (w_c (nvw n g tn) j)) -> committed_nowhere g tn).
  { intros U P. exfalso. destruct (P i) as [(s & _ & _ & _ & Q & _)|((A & _) & _)]; [|done].
    destruct (Q _ Hin) as [[]|[[]|[[]|[]]]]. }
  assert (Hroll : forall b, rollmode nsh b (nvw n g tn) -> committed_nowhere g tn).
  { intros b [[_ [P _]]|[_ P]] j; apply (P j). }
  assert (Hgone : gone loc (nvw n g tn) -> committed_nowhere g tn).
  { intros [P _]. exfalso. now apply Hst, (P i). }
  destruct (w_bs (nvw n g tn)) as [b|], (w_ph (nvw n g tn)) as [[]|]; auto.
  - destruct H as [_ H]. eauto.
  - destruct H as (U & HU & [[_ H]|[[_ H]|[_ H]]]); eauto.
  - eauto.
  - destruct H as [H|(U & HU & [[_ H]|[_ H]])]; eauto.
  - done.
  - destruct H as [[_ [P _]]|H]; [|auto]. exfalso. destruct (P i) as [P1 _]. rewrite HR in P1. discriminate.
  - exfalso. now apply Hst, (H i).
Qed.

(** ** Success reported *)

Lemma committed_state st n g tn t : core loc nsh self own st n g -> b_tk (n_b n) !! tn = Some t ->
  bt_state t = BCommitted -> committed_everywhere loc g tn.
Proof.
  intros C Et Hs. assert (Ho : own tn = true) by (apply (i_tk _ _ _ _ _ _ _ C); eauto).
  destruct (i_t _ _ _ _ _ _ _ C tn Ho) as [Hb H]. cbn [w_bs nvw vw] in H. rewrite Et in H. cbn [fmap option_fmap option_map] in H.
  rewrite Hs in H.
  assert (Hcmt : forall U, w_up (nvw n g tn) = Some U -> (forall j, cmt loc U j (w_c (nvw n g tn) j)) -> committed_everywhere loc g tn).
  { intros U HU P. exists U. split; [done|]. intros j Hj. apply (asked_as n) in Hj.
    destruct (P j) as [(s & _ & D & _)|(_ & A & B & _)]; [exact D|]. specialize (A Hj). cbn in A, B.
    destruct (g_done g !! (tn, j)) as [x|]; [|done]. now rewrite (B x). }
  cbn [w_ph nvw vw] in H. destruct (g_ph g !! tn) as [[]|]; try done.
  - destruct H; discriminate.
  - destruct H as (U & HU & [[? _]|[[? _]|[_ H]]]); try discriminate. eauto.
  - destruct H as [[? _]|[? _]]; discriminate.
  - destruct H as [[[? _]|[? _]]|(U & HU & [[? _]|[_ H]])]; try discriminate. eauto.
Qed.
Lemma aborted_state st n g tn t : core loc nsh self own st n g -> b_tk (n_b n) !! tn = Some t ->
  bt_state t = BAborted -> forgotten n tn /\ committed_nowhere g tn.
Proof.
  intros C Et Hs. assert (Ho : own tn = true) by (apply (i_tk _ _ _ _ _ _ _ C); eauto).
  destruct (i_t _ _ _ _ _ _ _ C tn Ho) as [Hb H]. cbn [w_bs nvw vw] in H. rewrite Et in H. cbn [fmap option_fmap option_map] in H.
  rewrite Hs in H.
  assert (Hroll : rollmode nsh BAborted (nvw n g tn) -> forgotten n tn /\ committed_nowhere g tn).
  { intros [[? _]|[_ P]]; [discriminate|]. split; intros j; [|apply (P j)].
    apply absent_none. destruct (P j) as [[A _] _]. exact A. }
  cbn [w_ph nvw vw] in H. destruct (g_ph g !! tn) as [[]|]; try done; auto.
  - destruct H; discriminate.
  - destruct H as (U & HU & [[? _]|[[? _]|[? _]]]); discriminate.
  - destruct H as [H|(U & HU & [[? _]|[? _]])]; [auto|discriminate..].
Qed.
Lemma gone_state n g tn : core loc nsh self own true n g -> b_tk (n_b n) !! tn = None -> is_Some (g_ph g !! tn) ->
  forgotten n tn /\ (committed_everywhere loc g tn \/ committed_nowhere g tn).
Proof.
  intros C Et [ph Hph]. assert (Ho : own tn = true) by (apply (i_ph _ _ _ _ _ _ _ C); eauto).
  destruct (i_t _ _ _ _ _ _ _ C tn Ho) as [Hb H]. cbn [w_bs w_ph nvw vw] in H. rewrite Et, Hph in H. cbn in H.
  assert (G : gone loc (nvw n g tn)).
  { destruct ph; auto. destruct H as [[? _]|H]; [discriminate|auto]. }
  destruct G as [G1 G2]. split; [intros j; apply absent_none; apply (G1 j)|].
  destruct G2 as [G2|(U & HU & G2)]; [right; intros j; apply G2|left]. exists U. split; [done|]. intros j Hj.
  apply (asked_as n) in Hj. destruct (G2 j) as [A B]. specialize (A Hj). cbn in A, B.
  destruct (g_done g !! (tn, j)) as [x|]; [|done]. now rewrite (B x).
Qed.

Lemma in_calls w r os : (w, r) ∈ calls os <-> OCall w r ∈ os.
Proof.
  unfold calls. rewrite elem_of_list_omap. split.
  - intros ([i q c|w' r'] & H & E); [discriminate|]. injection E as -> ->. done.
  - intros H. eexists. split; [exact H|done].
Qed.
(** A call of the client's callback comes from its own method. *)
Lemma user_call b o r cid ord down b' os : mute o -> call_opt (b, o, r) (CUser cid) ord down = (b', os) ->
  (Client cid, ROk) ∈ calls os -> b' = b /\ r = Some ROk.
Proof.
  intros M. cbn. destruct r as [r|].
  - intros [= <- <-] H. apply in_calls in H. apply elem_of_app in H as [H|H]; [now apply M in H|].
    apply elem_of_list_singleton in H. injection H as <-. done.
  - intros [= <- <-] H. apply in_calls in H. now apply M in H.
Qed.

Lemma inv_after n g a n' cs : reaches n g -> allowed nsh self own n g a -> step n a = Some (n', cs) ->
  exists st, core loc nsh self own st n' (note loc n g a cs) /\ stage nsh own st n' (note loc n g a cs).
Proof.
  intros R A E. apply (inv_step loc nsh self own Hloc n g a n' cs); [|done|done]. now apply inv_reaches.
Qed.

Lemma docommit_res b tn t cb ord down b' os r : do_commit b tn t cb ord down = (b', os, r) -> r <> Some ROk.
Proof. unfold do_commit. destruct (visit _ _ _ _ _ _) as [[shs o] []]; intros [= <- <- <-]; discriminate. Qed.
Lemma commit_res b tn u cb ord down b' os r : b_commit b tn u cb ord down = (b', os, r) -> r <> Some ROk.
Proof.
  unfold b_commit. destruct (commit_check b tn u) as [e|t]; [intros [= <- <- <-]; discriminate|].
  destruct (bt_state t); try apply docommit_res;
    unfold do_prepare; destruct (visit _ _ _ _ _ _) as [[shs o] []]; intros [= <- <- <-]; discriminate.
Qed.
Lemma hprepare_res b i cb tn r ord down b' os res : h_prepare b i cb tn r ord down = (b', os, res) -> res <> Some ROk.
Proof.
  unfold h_prepare. destruct (b_tk b !! tn) as [t|]; [|intros [= <- <- <-]; discriminate].
  destruct (bt_state t); try (intros [= <- <- <-]; discriminate).
  case_bool_decide; cbn [negb]; [|intros [= <- <- <-]; discriminate].
  destruct r as [[e d]|].
  - destruct e; try (intros [= <- <- <-]; discriminate). destruct (existsb _ _); intros [= <- <- <-]; discriminate.
  - destruct (all_in _ _); [apply docommit_res|intros [= <- <- <-]; discriminate].
Qed.
Lemma hcommit_res b i tn r b' os : h_commit b i tn r = (b', os, Some ROk) ->
  exists t, b_tk b' !! tn = Some t /\ bt_state t = BCommitted.
Proof.
  unfold h_commit. destruct (b_tk b !! tn) as [t|]; [|discriminate].
  destruct (bt_state t); try discriminate. case_bool_decide; cbn [negb]; [|discriminate].
  destruct r as [e|]; [discriminate|]. destruct (all_in _ _); [|discriminate]. intros [= <- <-].
  eexists. split; [apply lookup_insert|done].
Qed.
Lemma hrollback_res b i tn r b' os : h_rollback b i tn r = (b', os, Some ROk) ->
  exists t, b_tk b' !! tn = Some t /\ bt_state t = BAborted.
Proof.
  unfold h_rollback. destruct (b_tk b !! tn) as [t|]; [|discriminate].
  destruct (bt_state t); try discriminate. case_bool_decide; cbn [negb]; [|discriminate].
  destruct r as [e|]; [discriminate|]. destruct (all_in _ _); [|discriminate]. intros [= <- <-].
  eexists. split; [apply lookup_insert|done].
Qed.
Lemma rollback_res b tn cb ord down b' os : b_rollback b tn cb ord down = (b', os, Some ROk) ->
  exists t, b_tk b' !! tn = Some t /\ bt_state t = BAborted.
Proof.
  unfold b_rollback. destruct (b_tk b !! tn) as [t|]; [|discriminate].
  destruct (bt_state t); try discriminate. case_bool_decide.
  - intros [= <- <-]. eexists. split; [apply lookup_insert|done].
  - destruct (visit _ _ _ _ _ _) as [[shs o] []]; discriminate.
Qed.
Lemma hfinish_res b i tn r b' os : h_finish b i tn r = (b', os, Some ROk) ->
  b_tk b' !! tn = None /\ is_Some (b_tk b !! tn).
Proof.
  unfold h_finish. destruct (b_tk b !! tn) as [t|]; [|discriminate].
  destruct (bt_state t); try discriminate. case_bool_decide; cbn [negb]; [|discriminate].
  destruct r as [e|]; [discriminate|]. destruct (all_in _ _); [|discriminate]. intros [= <- <-].
  split; [apply lookup_delete|eauto].
Qed.
Lemma finish_res b tn cb ord down b' os : b_finish b tn cb ord down = (b', os, Some ROk) ->
  b_tk b' !! tn = None /\ is_Some (b_tk b !! tn).
Proof.
  unfold b_finish. destruct (b_tk b !! tn) as [t|]; [|discriminate].
  destruct (bt_state t); try discriminate.
  - destruct (visit _ _ _ _ _ _) as [[shs o] []]; discriminate.
  - intros [= <- <-]. split; [apply lookup_delete|eauto].
Qed.

Lemma reported_commit n g a n' cs cid tn :
  reaches n g -> allowed nsh self own n g a -> step n a = Some (n', cs) ->
  of_commit n a cid tn -> (Client cid, ROk) ∈ cs -> committed_everywhere loc (note loc n g a cs) tn.
Proof.
  intros R A E Hof Hin. destruct (inv_after n g a n' cs R A E) as (st & C & _).
  destruct a as [| |cid' tn' u ord down|cid' tn' ord down|cid' tn' ord down| | |i ord down| |]; try done; cbn [of_commit] in Hof; cbn [n_step] in E.
  - destruct Hof as [-> ->]. destruct (b_commit _ _ _ _ _ _) as [[b1 o1] r] eqn:Eb.
    destruct (call_opt (b1, o1, r) (CUser cid) ord down) as [b' os] eqn:Eo. injection E as <- <-. cbn [snd] in Hin.
    apply (user_call _ _ _ _ _ _ _ _ (commit_mute _ _ _ _ _ _ _ _ _ Eb) Eo) in Hin as [_ ->]. now apply commit_res in Eb.
  - destruct Hof as (c & p & r & Er & Hc). rewrite Er in E.
    destruct (handle nsh (n_b n) i c p ord down) as [b' os] eqn:Eh. injection E as <- <-. cbn [snd fst] in *.
    destruct Hc as [->| ->]; cbn [handle] in Eh; destruct p as [x|res|m];
      try (injection Eh as <- <-; now apply elem_of_nil in Hin).
    + destruct (h_prepare _ _ _ _ _ _ _) as [[b1 o1] r1] eqn:Ehp.
      apply (user_call _ _ _ _ _ _ _ _ (hprepare_mute _ _ _ _ _ _ _ _ _ _ Ehp) Eh) in Hin as [_ ->].
      now apply hprepare_res in Ehp.
    + destruct (h_commit _ _ _ _) as [[b1 o1] r1] eqn:Ehp.
      apply (user_call _ _ _ _ _ _ _ _ (hcommit_mute _ _ _ _ _ _ _ Ehp) Eh) in Hin as [-> ->].
      apply hcommit_res in Ehp as (t & Et & Hs). eapply committed_state; [exact C|exact Et|exact Hs].
Qed.
Lemma reported_rollback n g a n' cs cid tn :
  reaches n g -> allowed nsh self own n g a -> step n a = Some (n', cs) ->
  of_rollback n a cid tn -> (Client cid, ROk) ∈ cs ->
  forgotten n' tn /\ committed_nowhere (note loc n g a cs) tn.
Proof.
  intros R A E Hof Hin. destruct (inv_after n g a n' cs R A E) as (st & C & _).
  destruct a as [| |cid' tn' u ord down|cid' tn' ord down|cid' tn' ord down| | |i ord down| |]; try done; cbn [of_rollback] in Hof; cbn [n_step] in E.
  - destruct Hof as [-> ->]. destruct (b_rollback _ _ _ _ _) as [[b1 o1] r] eqn:Eb.
    destruct (call_opt (b1, o1, r) (CUser cid) ord down) as [b' os] eqn:Eo. injection E as <- <-. cbn [snd] in Hin.
    apply (user_call _ _ _ _ _ _ _ _ (rollback_mute _ _ _ _ _ _ _ _ Eb) Eo) in Hin as [-> ->].
    apply rollback_res in Eb as (t & Et & Hs). eapply aborted_state; [exact C|exact Et|exact Hs].
  - destruct Hof as (p & r & Er). rewrite Er in E.
    destruct (handle nsh (n_b n) i _ p ord down) as [b' os] eqn:Eh. injection E as <- <-. cbn [snd fst] in *.
    cbn [handle] in Eh; destruct p as [x|res|m];
      try (injection Eh as <- <-; now apply elem_of_nil in Hin).
    destruct (h_rollback _ _ _ _) as [[b1 o1] r1] eqn:Ehp.
    apply (user_call _ _ _ _ _ _ _ _ (hrollback_mute _ _ _ _ _ _ _ Ehp) Eh) in Hin as [-> ->].
    apply hrollback_res in Ehp as (t & Et & Hs). eapply aborted_state; [exact C|exact Et|exact Hs].
Qed.

(** A ticket the broker has was begun. *)
Lemma known_begun st n g tn : core loc nsh self own st n g -> is_Some (b_tk (n_b n) !! tn) -> is_Some (g_ph g !! tn).
Proof.
  intros C [t Et]. assert (Ho : own tn = true) by (apply (i_tk _ _ _ _ _ _ _ C); eauto).
  destruct (i_t _ _ _ _ _ _ _ C tn Ho) as [_ H]. cbn [w_bs w_ph nvw vw] in H. rewrite Et in H. cbn in H.
  destruct (g_ph g !! tn); [eauto|done].
Qed.

Lemma reported_finish n g a n' cs cid tn :
  reaches n g -> allowed nsh self own n g a -> step n a = Some (n', cs) ->
  of_finish n a cid tn -> (Client cid, ROk) ∈ cs ->
  let g' := note loc n g a cs in
  forgotten n' tn /\ (committed_everywhere loc g' tn \/ committed_nowhere g' tn).
Proof.
  intros R A E Hof Hin g'.
  destruct a as [| |cid' tn' u ord down|cid' tn' ord down|cid' tn' ord down| | |i ord down| |]; try done; cbn [of_finish] in Hof.
  - destruct Hof as [-> ->]. unfold g' in *. cbn [note] in *. assert (Hm : g_mode g = Open) by apply A.
    assert (I : Inv loc nsh self own n' g) by (apply (inv_step loc nsh self own Hloc n g _ n' cs) in E; [exact E|now apply inv_reaches|done]).
    destruct (inv_reaches loc nsh self own Hloc n g R) as (st0 & C0 & _).
    destruct I as (st & C & S). apply stage_open in S as [-> _]; [|done].
    cbn [n_step] in E. destruct (b_finish _ _ _ _ _) as [[b1 o1] r] eqn:Eb.
    destruct (call_opt (b1, o1, r) (CUser cid) ord down) as [b' os] eqn:Eo. injection E as <- <-. cbn [snd] in Hin.
    apply (user_call _ _ _ _ _ _ _ _ (finish_mute _ _ _ _ _ _ _ _ Eb) Eo) in Hin as [-> ->].
    apply finish_res in Eb as [Eb1 Eb2]. eapply gone_state; [exact C|exact Eb1|]. eapply known_begun; eauto.
  - destruct Hof as (p & r & Er). pose proof (inv_reaches loc nsh self own Hloc n g R) as I0.
    pose proof I0 as (st0 & C0 & S0).
    assert (Hst : st0 = true).
    { unfold stage in S0. destruct (g_mode g).
      - destruct S0 as (_ & _ & Hq). destruct (Hq i) as (_ & Hn & _). rewrite Er in Hn. discriminate.
      - destruct S0 as [[_ K]|[-> _]]; [|done]. destruct (k_one _ _ _ _ K i) as [(_ & H & _)|[(m' & _ & H & _)|[(_ & H & _)|(m' & _ & H & _)]]];
          rewrite Er in H; discriminate.
      - now destruct S0 as [-> _]. }
    subst st0. cbn [n_step] in E. rewrite Er in E.
    destruct (handle nsh (n_b n) i _ p ord down) as [b' os] eqn:Eh. injection E as <- <-. cbn [snd fst] in *.
    pose proof (handle_core loc nsh self own true n g i _ p r ord down tn b' os C0 A Er eq_refl Eh) as C.
    assert (C' : core loc nsh self own true
       (Net b' (n_sh n) (post (n_req n) os) (upd (n_rsp n) i r) (n_wait n) (n_next n)) g').
    { unfold g'. destruct (note_answer loc n g i ord down (calls os)) as [[-> _]|[-> _]]; [done|now apply core_mode]. }
    cbn [handle] in Eh; destruct p as [x|res|m];
      try (injection Eh as <- <-; now apply elem_of_nil in Hin).
    destruct (h_finish _ _ _ _) as [[b1 o1] r1] eqn:Ehp.
    apply (user_call _ _ _ _ _ _ _ _ (hfinish_mute _ _ _ _ _ _ _ Ehp) Eh) in Hin as [-> ->].
    apply hfinish_res in Ehp as [Eb1 Eb2]. eapply gone_state; [exact C'|exact Eb1|].
    unfold g'. destruct (note_answer loc n g i ord down (calls os)) as [[-> _]|[-> _]]; eapply (known_begun true n g); eauto.
Qed.

(** ** Recovery *)

Lemma api_rok b o r cid ord down b' os : mute o -> call_opt (b, o, r) (CUser cid) ord down = (b', os) ->
  (Recovery, ROk) ∉ calls os.
Proof.
  intros M. cbn. destruct r as [r|]; intros [= <- <-] H; apply in_calls in H.
  - apply elem_of_app in H as [H|H]; [now apply M in H|]. apply elem_of_list_singleton in H. discriminate.
  - now apply M in H.
Qed.

Lemma recovered n g a n' cs tn :
  reaches n g -> allowed nsh self own n g a -> step n a = Some (n', cs) -> (Recovery, ROk) ∈ cs ->
  let g' := note loc n g a cs in
  b_tk (n_b n') = ∅ /\
  (is_Some (g_ph g' !! tn) ->
   forgotten n' tn /\ (committed_everywhere loc g' tn \/ committed_nowhere g' tn)).
Proof.
  intros R A E Hin g'.
  destruct a as [cid tn'|cid tn' k m up|cid' tn' u ord down|cid' tn' ord down|cid' tn' ord down|down|i|i ord down|i o|]; cbn [n_step] in E.
  - exfalso. injection E as <- <-. apply elem_of_list_singleton in Hin. discriminate.
  - exfalso. injection E as <- <-. apply in_calls in Hin. unfold b_lock in Hin.
    repeat match type of Hin with context [match ?x with _ => _ end] => destruct x eqn:? end;
      apply elem_of_list_singleton in Hin; discriminate.
  - exfalso. destruct (b_commit _ _ _ _ _ _) as [[b1 o1] r] eqn:Eb.
    destruct (call_opt (b1, o1, r) (CUser _) ord down) as [b' os] eqn:Eo. injection E as <- <-.
    eapply api_rok; [eapply commit_mute; eauto|exact Eo|exact Hin].
  - exfalso. destruct (b_rollback _ _ _ _ _) as [[b1 o1] r] eqn:Eb.
    destruct (call_opt (b1, o1, r) (CUser _) ord down) as [b' os] eqn:Eo. injection E as <- <-.
    eapply api_rok; [eapply rollback_mute; eauto|exact Eo|exact Hin].
  - exfalso. destruct (b_finish _ _ _ _ _) as [[b1 o1] r] eqn:Eb.
    destruct (call_opt (b1, o1, r) (CUser _) ord down) as [b' os] eqn:Eo. injection E as <- <-.
    eapply api_rok; [eapply finish_mute; eauto|exact Eo|exact Hin].
  - exfalso. injection E as <- <-. cbn [snd] in Hin. apply in_calls in Hin. unfold b_recover in Hin.
    destruct (bool_decide _); [|now apply elem_of_nil in Hin].
    induction (shards nsh) as [|j l IH]; cbn [ask_tickets] in Hin; [now apply elem_of_nil in Hin|].
    destruct (bool_decide _); [now apply elem_of_nil in Hin|]. apply elem_of_cons in Hin as [Hin|Hin]; [discriminate|auto].
  - exfalso. destruct (n_req n i) as [|[q c] r]; [discriminate|].
    destruct (ParsecShardModel.step _ _) as [[s' ev]| | |]; try discriminate. injection E as <- <-. now apply elem_of_nil in Hin.
  - destruct (n_rsp n i) as [|[c p] r] eqn:Er; [discriminate|]. injection E as <- <-.
    destruct (inv_answer loc nsh self own n g i c p r ord down) as [_ H]; [now apply inv_reaches|exact A|exact Er|].
    apply rok_calls in Hin as Hr. destruct (H Hr) as [C Hb]. split; [exact Hb|]. intros Hph.
    eapply gone_state; [exact C| |exact Hph]. cbn [n_b]. rewrite Hb. apply lookup_empty.
  - exfalso. destruct (ParsecShardModel.step _ _) as [[s' ev]| | |]; try discriminate. injection E as <- <-. now apply elem_of_nil in Hin.
  - exfalso. injection E as <- <-. now apply elem_of_nil in Hin.
Qed.
(** ** The keys a ticket asked for are on the shards it asked *)

Definition has_key (b : broker) (tn : ticket_no) (k : key) : Prop :=
  exists t i s, b_tk b !! tn = Some t /\ bt_sh t !! i = Some s /\ is_Some (ss_keys s !! k).
Definition fewer (b b' : broker) : Prop := forall tn k, has_key b' tn k -> has_key b tn k.
Definition tfewer (t t' : btk) : Prop := forall i s k, bt_sh t' !! i = Some s -> is_Some (ss_keys s !! k) ->
  exists s0, bt_sh t !! i = Some s0 /\ is_Some (ss_keys s0 !! k).

Lemma fewer_refl b : fewer b b.
Proof. intros tn k H. exact H. Qed.
Lemma fewer_trans b1 b2 b3 : fewer b1 b2 -> fewer b2 b3 -> fewer b1 b3.
Proof. intros H1 H2 tn k H. apply H1, H2, H. Qed.
Lemma fewer_set b tn t t' : b_tk b !! tn = Some t -> tfewer t t' -> fewer b (set_btk b tn t').
Proof.
  intros E F tn' k (t1 & i & s & H1 & H2 & H3). cbn in H1. apply lookup_insert_Some in H1 as [[<- <-]|[Hne H1]].
  - destruct (F i s k H2 H3) as (s0 & A & B). exists t, i, s0. done.
  - exists t1, i, s. done.
Qed.
Lemma fewer_del b tn : fewer b (del_btk b tn).
Proof. intros tn' k (t1 & i & s & H1 & H2 & H3). cbn in H1. apply lookup_delete_Some in H1 as [_ H1]. exists t1, i, s. done. Qed.
Lemma fewer_same b b' : b_tk b' = b_tk b -> fewer b b'.
Proof. intros E tn k. unfold has_key. now rewrite E. Qed.

Lemma tfewer_mark t i x st : tfewer t (Btk st (bt_sh (mark t i x))).
Proof.
  intros j s k Hj Hk. cbn in Hj. apply lookup_insert_Some in Hj as [[<- <-]|[_ Hj]]; [|eauto].
  cbn in Hk. unfold sh in Hk. destruct (bt_sh t !! i) as [s0|] eqn:E; [eauto|]. cbn in Hk. rewrite lookup_empty in Hk. now destruct Hk.
Qed.
Lemma tfewer_touch t i : tfewer t (touch t i).
Proof.
  intros j s k Hj Hk. cbn in Hj. apply lookup_insert_Some in Hj as [[<- <-]|[_ Hj]]; [|eauto].
  unfold sh in Hk. destruct (bt_sh t !! i) as [s0|] eqn:E; [eauto|]. cbn in Hk. rewrite lookup_empty in Hk. now destruct Hk.
Qed.
Lemma tfewer_mark' t i x : tfewer t (mark t i x).
Proof. exact (tfewer_mark t i x (bt_state t)). Qed.
Lemma tfewer_clear t i x st : tfewer t (Btk st (bt_sh (set_sh t i (Sst ∅ x)))).
Proof.
  intros j s k Hj Hk. cbn in Hj. apply lookup_insert_Some in Hj as [[<- <-]|[_ Hj]]; [|eauto].
  cbn in Hk. rewrite lookup_empty in Hk. now destruct Hk.
Qed.
Lemma tfewer_clear' t i x : tfewer t (set_sh t i (Sst ∅ x)).
Proof. exact (tfewer_clear t i x (bt_state t)). Qed.
Lemma tfewer_trans t1 t2 t3 : tfewer t1 t2 -> tfewer t2 t3 -> tfewer t1 t3.
Proof. intros F G i s k H1 H2. destruct (G i s k H1 H2) as (s0 & A & B). eauto. Qed.
Lemma visit_fewer skip busy mk ord down : forall shs shs' os r st st', visit skip busy mk shs ord down = (shs', os, r) ->
  tfewer (Btk st shs) (Btk st' shs').
Proof.
  induction ord as [|i ord IH]; intros shs shs' os r st st'; cbn [visit].
  - intros [= <- <- <-] j s k H1 H2. eauto.
  - destruct (shs !! i) as [s|] eqn:E; [|apply IH]. case_bool_decide; [apply IH|].
    assert (F : tfewer (Btk st shs) (Btk st (<[i := Sst (ss_keys s) busy]> shs))).
    { intros j s' k Hj Hk. cbn in Hj. apply lookup_insert_Some in Hj as [[<- <-]|[_ Hj]]; [|eauto]. cbn in Hk. eauto. }
    case_bool_decide; [intros [= <- <- <-]; exact F|].
    destruct (visit skip busy mk (<[i := Sst (ss_keys s) busy]> shs) ord down) as [[shs2 o] ok'] eqn:Ev.
    intros [= <- <- <-]. eapply tfewer_trans; [exact F|]. eapply IH, Ev.
Qed.

Lemma docommit_fewer b tn t t0 cb ord down b' os r : b_tk b !! tn = Some t0 -> tfewer t0 t ->
  do_commit b tn t cb ord down = (b', os, r) -> fewer b b'.
Proof.
  intros E F. unfold do_commit. destruct (visit _ _ _ _ _ _) as [[shs o] ok'] eqn:Ev. intros [= <- <- <-].
  apply (fewer_set b tn t0); [done|]. eapply tfewer_trans; [exact F|]. destruct t as [bs shs0]. eapply visit_fewer, Ev.
Qed.
Lemma tfewer_refl t : tfewer t t.
Proof. intros i s k H1 H2. eauto. Qed.
Lemma commit_fewer b tn u cb ord down b' os r : b_commit b tn u cb ord down = (b', os, r) -> fewer b b'.
Proof.
  unfold b_commit. destruct (commit_check b tn u) as [e|t] eqn:Ec; [intros [= <- <- <-]; apply fewer_refl|].
  apply commit_check_ok in Ec as (Et & _).
  assert (Hp : do_prepare b tn t u cb ord down = (b', os, r) -> fewer b b').
  { unfold do_prepare. destruct (visit _ _ _ _ _ _) as [[shs o] ok'] eqn:Ev. intros [= <- <- <-].
    apply (fewer_set b tn t); [done|]. destruct t as [bs shs0]. eapply visit_fewer, Ev. }
  destruct (bt_state t); try exact Hp. apply (docommit_fewer b tn t t); [done|apply tfewer_refl].
Qed.
Lemma finish_fewer b tn cb ord down b' os r : b_finish b tn cb ord down = (b', os, r) -> fewer b b'.
Proof.
  unfold b_finish. destruct (b_tk b !! tn) as [t|] eqn:Et; [|intros [= <- <- <-]; apply fewer_refl].
  destruct (bt_state t) eqn:Es; try (intros [= <- <- <-]; apply fewer_refl).
  - destruct (visit _ _ _ _ _ _) as [[shs o] ok'] eqn:Ev. intros [= <- <- <-]. apply (fewer_set b tn t); [done|].
    destruct t as [bs shs0]. eapply visit_fewer, Ev.
  - intros [= <- <- <-]. apply fewer_del.
Qed.
Lemma rollback_fewer b tn cb ord down b' os r : b_rollback b tn cb ord down = (b', os, r) -> fewer b b'.
Proof.
  unfold b_rollback. destruct (b_tk b !! tn) as [t|] eqn:Et; [|intros [= <- <- <-]; apply fewer_refl].
  destruct (bt_state t) eqn:Es; try (intros [= <- <- <-]; apply fewer_refl). case_bool_decide.
  - intros [= <- <- <-]. apply (fewer_set b tn t); [done|]. intros i s k Hi. cbn in Hi. now rewrite lookup_empty in Hi.
  - destruct (visit _ _ _ _ _ _) as [[shs o] ok'] eqn:Ev. intros [= <- <- <-]. apply (fewer_set b tn t); [done|].
    destruct t as [bs shs0]. eapply visit_fewer, Ev.
Qed.
Lemma then_fewer b tn ord down b' os : then_finish b tn ord down = (b', os) -> fewer b b'.
Proof.
  unfold then_finish. destruct (b_finish _ _ _ _ _) as [[b1 o] r] eqn:E. intros [= <- <-]. eapply finish_fewer, E.
Qed.
Lemma call_fewer b cb r ord down b' os : call b cb r ord down = (b', os) -> fewer b b'.
Proof.
  destruct cb; cbn; try (intros [= <- <-]; apply fewer_refl);
    destruct r; try (intros [= <- <-]; apply fewer_refl); apply then_fewer.
Qed.
Lemma call_opt_fewer b b1 o1 r cb ord down b' os : fewer b b1 -> call_opt (b1, o1, r) cb ord down = (b', os) -> fewer b b'.
Proof.
  intros F. cbn. destruct r as [r|]; [|intros [= <- <-]; exact F].
  destruct (call b1 cb r ord down) as [b2 o2] eqn:E. intros [= <- <-]. eapply fewer_trans; [exact F|]. eapply call_fewer, E.
Qed.
Lemma hprepare_fewer b i cb tn r ord down b' os res : h_prepare b i cb tn r ord down = (b', os, res) -> fewer b b'.
Proof.
  unfold h_prepare. destruct (b_tk b !! tn) as [t|] eqn:Et; [|intros [= <- <- <-]; apply fewer_refl].
  destruct (bt_state t); try (intros [= <- <- <-]; apply fewer_refl).
  assert (Ht : fewer b (set_btk b tn (touch t i))) by (apply (fewer_set b tn t); [done|apply tfewer_touch]).
  case_bool_decide; cbn [negb]; [|intros [= <- <- <-]; exact Ht].
  destruct r as [[e d]|].
  - destruct e; try (intros [= <- <- <-]; exact Ht). destruct (existsb _ _); intros [= <- <- <-]; [exact Ht|].
    apply (fewer_set b tn t); [done|apply tfewer_mark'].
  - destruct (all_in _ _); [apply (docommit_fewer b tn _ t); [done|apply tfewer_mark]|].
    intros [= <- <- <-]. apply (fewer_set b tn t); [done|apply tfewer_mark'].
Qed.
Lemma hcommit_fewer b i tn r b' os res : h_commit b i tn r = (b', os, res) -> fewer b b'.
Proof.
  unfold h_commit. destruct (b_tk b !! tn) as [t|] eqn:Et; [|intros [= <- <- <-]; apply fewer_refl].
  destruct (bt_state t); try (intros [= <- <- <-]; apply fewer_refl).
  assert (Ht : fewer b (set_btk b tn (touch t i))) by (apply (fewer_set b tn t); [done|apply tfewer_touch]).
  case_bool_decide; cbn [negb]; [|intros [= <- <- <-]; exact Ht].
  destruct r as [e|]; [intros [= <- <- <-]; exact Ht|].
  destruct (all_in _ _); intros [= <- <- <-]; (apply (fewer_set b tn t); [done|]); [apply tfewer_mark|apply tfewer_mark'].
Qed.
Lemma hrollback_fewer b i tn r b' os res : h_rollback b i tn r = (b', os, res) -> fewer b b'.
Proof.
  unfold h_rollback. destruct (b_tk b !! tn) as [t|] eqn:Et; [|intros [= <- <- <-]; apply fewer_refl].
  destruct (bt_state t); try (intros [= <- <- <-]; apply fewer_refl).
  assert (Ht : fewer b (set_btk b tn (touch t i))) by (apply (fewer_set b tn t); [done|apply tfewer_touch]).
  case_bool_decide; cbn [negb]; [|intros [= <- <- <-]; exact Ht].
  destruct r as [e|]; [intros [= <- <- <-]; exact Ht|].
  destruct (all_in _ _); intros [= <- <- <-]; (apply (fewer_set b tn t); [done|]); [apply tfewer_clear|apply tfewer_clear'].
Qed.
Lemma hfinish_fewer b i tn r b' os res : h_finish b i tn r = (b', os, res) -> fewer b b'.
Proof.
  unfold h_finish. destruct (b_tk b !! tn) as [t|] eqn:Et; [|intros [= <- <- <-]; apply fewer_refl].
  destruct (bt_state t); try (intros [= <- <- <-]; apply fewer_refl).
  assert (Ht : fewer b (set_btk b tn (touch t i))) by (apply (fewer_set b tn t); [done|apply tfewer_touch]).
  case_bool_decide; cbn [negb]; [|intros [= <- <- <-]; exact Ht].
  destruct r as [e|]; [intros [= <- <- <-]; exact Ht|].
  destruct (all_in _ _); intros [= <- <- <-]; [apply fewer_del|]. apply (fewer_set b tn t); [done|apply tfewer_mark'].
Qed.
Lemma hlock_fewer b i cid tn k a b' os : h_lock b i cid tn k a = (b', os) -> fewer b b'.
Proof.
  unfold h_lock. destruct a as [v|e]; [|intros [= <- <-]; apply fewer_refl].
  destruct (b_tk b !! tn) as [t|] eqn:Et; [|intros [= <- <-]; apply fewer_refl].
  assert (Ht : fewer b (set_btk b tn (touch t i))) by (apply (fewer_set b tn t); [done|apply tfewer_touch]).
  destruct (ss_keys (sh t i) !! k) as [[m|m v']|] eqn:Ek; intros [= <- <-]; try exact Ht.
  apply (fewer_set b tn t); [done|]. intros j s k' Hj Hk. cbn in Hj. apply lookup_insert_Some in Hj as [[<- <-]|[_ Hj]]; [|eauto].
  cbn in Hk. unfold sh in Hk, Ek. destruct (bt_sh t !! i) as [s0|] eqn:E; [|cbn in Ek; now rewrite lookup_empty in Ek].
  exists s0. split; [done|]. cbn in *. destruct (decide (k' = k)) as [->|Hne]; [eauto|]. now rewrite lookup_insert_ne in Hk by congruence.
Qed.
Lemma merge_one_fewer i tk p tn k h1 r1 h2 r2 :
  has_key (Broker (merge_one i tk p) h1 r1) tn k -> has_key (Broker tk h2 r2) tn k.
Proof.
  intros (t & j & s & H1 & H2 & H3). cbn in H1. unfold merge_one in H1.
  apply lookup_insert_Some in H1 as [[<- <-]|[_ H1]]; [|exists t, j, s; done].
  destruct (tk !! p.1) as [t0|] eqn:E.
  - destruct (tfewer_mark' t0 i (found_state p.2) j s k H2 H3) as (s0 & A & B). exists t0, j, s0. done.
  - exfalso. destruct (tfewer_mark' btk0 i (found_state p.2) j s k H2 H3) as (s0 & A & B). cbn in A. now rewrite lookup_empty in A.
Qed.
Lemma merge_fewer rc : forall b rc', fewer b (Broker (merge (b_tk b) rc) (b_high b) rc').
Proof.
  intros b rc' tn k. unfold merge. destruct b as [tk hi rc0]. cbn. revert tk.
  induction (map_to_list rc) as [|[i m] l IH]; intros tk; cbn; [intros H; exact H|]. intros H. apply IH in H. clear IH.
  revert tk H. induction (map_to_list m) as [|p l' IH]; intros tk H; cbn in *; [exact H|]. apply IH in H.
  eapply merge_one_fewer, H.
Qed.
Lemma recover_one_fewer ord down b o tn b' o' : recover_one ord down (b, o) tn = (b', o') -> fewer b b'.
Proof.
  unfold recover_one. destruct (b_tk b !! tn) as [t|] eqn:Et; [|intros [= <- <-]; apply fewer_refl].
  destruct (negb (recoverable t)); [intros [= <- <-]; apply fewer_refl|].
  assert (F : forall st, fewer b (set_btk b tn (Btk st (bt_sh t)))).
  { intros st. apply (fewer_set b tn t); [done|]. intros i s k H1 H2. eauto. }
  destruct (_ =? _)%nat; [|destruct (0 <? _)%nat].
  - destruct (b_finish _ _ _ _ _) as [[b1 o1] r] eqn:E1. destruct (call_opt _ _ _ _) as [b2 o2] eqn:E2. intros [= <- <-].
    eapply call_opt_fewer; [|exact E2]. eapply fewer_trans; [apply F|]. eapply finish_fewer, E1.
  - destruct (b_commit _ _ _ _ _ _) as [[b1 o1] r] eqn:E1. destruct (call_opt _ _ _ _) as [b2 o2] eqn:E2. intros [= <- <-].
    eapply call_opt_fewer; [|exact E2]. eapply fewer_trans; [apply F|]. eapply commit_fewer, E1.
  - destruct (b_rollback _ _ _ _ _) as [[b1 o1] r] eqn:E1. destruct (call_opt _ _ _ _) as [b2 o2] eqn:E2. intros [= <- <-].
    eapply call_opt_fewer; [|exact E2]. eapply fewer_trans; [apply F|]. eapply rollback_fewer, E1.
Qed.
Lemma recover_all_fewer ord down l : forall b o b' o', fold_left (recover_one ord down) l (b, o) = (b', o') -> fewer b b'.
Proof.
  induction l as [|tn l IH]; intros b o b' o'; cbn [fold_left]; [intros [= <- <-]; apply fewer_refl|].
  destruct (recover_one ord down (b, o) tn) as [b1 o1] eqn:E. intros H. eapply fewer_trans; [eapply recover_one_fewer, E|]. eapply IH, H.
Qed.
Lemma hget_fewer b i m ord down b' os : h_get nsh b i m ord down = (b', os) -> fewer b b'.
Proof.
  unfold h_get. set (rc := match b_rec b !! i with Some _ => _ | None => _ end).
  destruct (negb _); [intros [= <- <-]; now apply fewer_same|].
  case_bool_decide; [intros [= <- <-]; apply merge_fewer|]. intros H0. eapply fewer_trans; [apply (merge_fewer rc)|].
  eapply recover_all_fewer, H0.
Qed.
Lemma handle_fewer b i c p ord down b' os : handle nsh b i c p ord down = (b', os) -> fewer b b'.
Proof.
  destruct c, p; cbn [handle]; try (intros [= <- <-]; apply fewer_refl).
  - apply hlock_fewer.
  - destruct (h_prepare _ _ _ _ _ _ _) as [[b1 o1] r1] eqn:E. apply call_opt_fewer. eapply hprepare_fewer, E.
  - destruct (h_commit _ _ _ _) as [[b1 o1] r1] eqn:E. apply call_opt_fewer. eapply hcommit_fewer, E.
  - destruct (h_rollback _ _ _ _) as [[b1 o1] r1] eqn:E. apply call_opt_fewer. eapply hrollback_fewer, E.
  - destruct (h_finish _ _ _ _) as [[b1 o1] r1] eqn:E. apply call_opt_fewer. eapply hfinish_fewer, E.
  - apply hget_fewer.
Qed.
Lemma lock_keys b cid tn k m up b' os tn' k' : b_lock loc b cid tn k m up = (b', os) -> has_key b' tn' k' ->
  (has_key b tn' k' /\ (tn' = tn -> bt_state <$> b_tk b !! tn <> Some BAborted)) \/
  (tn' = tn /\ k' = k /\ (bt_state <$> b_tk b !! tn = Some BBegun \/ bt_state <$> b_tk b !! tn = Some BAborted)).
Proof.
  unfold b_lock. destruct (b_tk b !! tn) as [t|] eqn:Et.
  2: { intros [= <- <-] H. left. split; [done|]. intros _. cbn. discriminate. }
  cbn [fmap option_fmap option_map].
  assert (G : forall t0, tfewer t t0 -> (bt_state t = BBegun \/ (bt_state t = BAborted /\ bt_sh t0 = ∅)) ->
    (match ss_keys (sh t0 (loc k)) !! k with
     | Some (KLocked m' v) => if lt_ge m' m then (set_btk b tn (touch t0 (loc k)), [OCall (Client cid) (RValue v)])
         else if up then (set_btk b tn (set_sh t0 (loc k) (Sst (<[k := KLocking m]> (ss_keys (sh t0 (loc k)))) (ss_state (sh t0 (loc k))))),
                [OSend (loc k) (QLock tn k m (bool_decide (ss_keys (sh t0 (loc k)) = ∅))) (KLock cid tn k)])
         else (set_btk b tn (set_sh t0 (loc k) (Sst (<[k := KLocking m]> (ss_keys (sh t0 (loc k)))) (ss_state (sh t0 (loc k))))),
                [OCall (Client cid) (RErr EShardUnreachable)])
     | _ => if up then (set_btk b tn (set_sh t0 (loc k) (Sst (<[k := KLocking m]> (ss_keys (sh t0 (loc k)))) (ss_state (sh t0 (loc k))))),
                [OSend (loc k) (QLock tn k m (bool_decide (ss_keys (sh t0 (loc k)) = ∅))) (KLock cid tn k)])
         else (set_btk b tn (set_sh t0 (loc k) (Sst (<[k := KLocking m]> (ss_keys (sh t0 (loc k)))) (ss_state (sh t0 (loc k))))),
                [OCall (Client cid) (RErr EShardUnreachable)])
     end) = (b', os) -> has_key b' tn' k' ->
    (has_key b tn' k' /\ (tn' = tn -> Some (bt_state t) <> Some BAborted)) \/
    (tn' = tn /\ k' = k /\ (Some (bt_state t) = Some BBegun \/ Some (bt_state t) = Some BAborted))).
  { intros t0 F Hst.
    assert (Hold : forall tx, (forall i s, bt_sh tx !! i = Some s -> is_Some (ss_keys s !! k') -> k' = k \/
       exists s0, bt_sh t0 !! i = Some s0 /\ is_Some (ss_keys s0 !! k')) -> b' = set_btk b tn tx -> has_key b' tn' k' ->
       (has_key b tn' k' /\ (tn' = tn -> Some (bt_state t) <> Some BAborted)) \/
       (tn' = tn /\ k' = k /\ (Some (bt_state t) = Some BBegun \/ Some (bt_state t) = Some BAborted))).
    { intros tx HX -> (t1 & i & s & H1 & H2 & H3). cbn in H1. apply lookup_insert_Some in H1 as [[<- <-]|[Hne H1]].
      - destruct (HX i s H2 H3) as [->|(s0 & A & B)].
        + right. split; [done|]. split; [done|]. destruct Hst as [->|[-> _]]; auto.
        + left. destruct Hst as [Hst|[_ Hst]]; [|rewrite Hst, lookup_empty in A; discriminate].
          split; [|rewrite Hst; discriminate]. destruct (F i s0 k' A B) as (s1 & A1 & B1). exists t, i, s1. done.
      - left. split; [exists t1, i, s; done|]. intros ->. done. }
    assert (Hask : forall x, b' = set_btk b tn (set_sh t0 (loc k) (Sst (<[k := KLocking m]> (ss_keys (sh t0 (loc k)))) x)) ->
       has_key b' tn' k' -> (has_key b tn' k' /\ (tn' = tn -> Some (bt_state t) <> Some BAborted)) \/
       (tn' = tn /\ k' = k /\ (Some (bt_state t) = Some BBegun \/ Some (bt_state t) = Some BAborted))).
    { intros x. apply Hold. intros i s H1 H2. cbn in H1. apply lookup_insert_Some in H1 as [[<- <-]|[_ H1]]; [|eauto].
      cbn in H2. destruct (decide (k' = k)) as [->|Hne]; [auto|]. right. rewrite lookup_insert_ne in H2 by congruence.
      unfold sh in H2. destruct (bt_sh t0 !! loc k) as [s0|] eqn:E; [eauto|]. cbn in H2. rewrite lookup_empty in H2. now destruct H2. }
    assert (Htouch : b' = set_btk b tn (touch t0 (loc k)) ->
       has_key b' tn' k' -> (has_key b tn' k' /\ (tn' = tn -> Some (bt_state t) <> Some BAborted)) \/
       (tn' = tn /\ k' = k /\ (Some (bt_state t) = Some BBegun \/ Some (bt_state t) = Some BAborted))).
    { apply Hold. intros i s H1 H2. right. eapply tfewer_touch; eauto. }
    destruct (ss_keys (sh t0 (loc k)) !! k) as [[m'|m' v]|]; [|destruct (lt_ge m' m)|]; try destruct up;
      intros [= <- _]; first [now apply Htouch|now eapply Hask]. }
  destruct (bt_state t) eqn:Es.
  - apply (G t); [apply tfewer_refl|auto].
  - intros [= <- <-] H. left. split; [done|]. intros _. discriminate.
  - intros [= <- <-] H. left. split; [done|]. intros _. discriminate.
  - apply (G (Btk BBegun ∅)); [|auto]. intros i s k0 H1. cbn in H1. now rewrite lookup_empty in H1.
Qed.

(** The updates of a commit are for keys on shards that were asked. *)
Lemma covered_inv n g : reaches n g ->
  (forall tn k, has_key (n_b n) tn k -> loc k ∈ asked g tn) /\
  (forall tn U k, g_upd g !! tn = Some U -> is_Some (U !! k) -> loc k ∈ asked g tn) /\
  (forall tn, g_ph g !! tn = None -> g_upd g !! tn = None).
Proof.
  induction 1 as [|n g a n' cs R (IH1 & IH2 & IH3) A E].
  { split; [|split]; intros tn; cbn; [|intros U k|]; rewrite ?lookup_empty; try done. intros k (t & i & s & H & _). cbn in H. now rewrite lookup_empty in H. }
  pose proof (inv_reaches loc nsh self own Hloc n g R) as (st & C & _).
  assert (Hsame : forall g', g_ph g' = g_ph g -> g_asked g' = g_asked g -> g_upd g' = g_upd g -> fewer (n_b n) (n_b n') ->
    (forall tn k, has_key (n_b n') tn k -> loc k ∈ asked g' tn) /\
    (forall tn U k, g_upd g' !! tn = Some U -> is_Some (U !! k) -> loc k ∈ asked g' tn) /\
    (forall tn, g_ph g' !! tn = None -> g_upd g' !! tn = None)).
  { intros g' E1 E2 E3 F. unfold asked. rewrite E1, E2, E3. split; [|split; assumption]. intros tn k H. apply IH1, F, H. }
  destruct a as [cid tn'|cid tn' k m up|cid' tn' u ord down|cid' tn' ord down|cid' tn' ord down|down|i|i ord down|i o|]; cbn [n_step] in E.
  - destruct A as (_ & Ho & Hph). injection E as <- <-. cbn [note].
    assert (Hn : b_tk (n_b n) !! tn' = None).
    { destruct (b_tk (n_b n) !! tn') eqn:Et; [|done]. destruct (known_begun _ _ _ tn' C) as [p Hp]; [eauto|congruence]. }
    assert (Ha : forall tn, tn <> tn' -> asked (Memo (<[tn' := Work]> (g_ph g)) (<[tn' := ∅]> (g_asked g)) (g_upd g) (g_done g) (g_mode g)) tn = asked g tn).
    { intros tn Hne. unfold asked. cbn. now rewrite lookup_insert_ne by congruence. }
    split; [|split].
    + intros tn k (t & i & s & H1 & H2 & H3). cbn in H1. rewrite Hn in H1. apply lookup_insert_Some in H1 as [[<- <-]|[Hne H1]].
      * cbn in H2. now rewrite lookup_empty in H2.
      * rewrite Ha by congruence. apply IH1. exists t, i, s. done.
    + intros tn U k HU Hk. cbn in HU. destruct (decide (tn = tn')) as [->|Hne]; [rewrite IH3 in HU by done; discriminate|].
      rewrite Ha by done. eauto.
    + intros tn Hp. cbn in *. apply IH3. now apply lookup_insert_None in Hp as [? _].
  - destruct (b_lock loc (n_b n) cid tn' k m up) as [b' os] eqn:Eb. injection E as <- <-. cbn [with_broker n_b fst] in *.
    cbn [note]. unfold broker_state.
    assert (Hk := fun tn k' => lock_keys _ _ _ _ _ _ _ _ tn k' Eb).
    destruct (bt_state <$> b_tk (n_b n) !! tn') as [[]|] eqn:Es.
    + (* Begun *) set (g' := Memo _ _ _ _ _).
      assert (Ha : forall tn x, x ∈ asked g tn -> x ∈ asked g' tn).
      { intros tn x Hx. unfold asked at 1. cbn. destruct (decide (tn = tn')) as [->|Hne];
          [rewrite lookup_insert; cbn; set_solver|now rewrite lookup_insert_ne by congruence]. }
      split; [|split; [intros tn U k' HU Hk'; apply Ha; cbn in HU; eauto|exact IH3]].
      intros tn k' H. destruct (Hk tn k' H) as [[H' _]|(-> & -> & _)]; [now apply Ha, IH1|].
      unfold asked. cbn. rewrite lookup_insert. cbn. set_solver.
    + apply Hsame; try done. intros tn k' H. destruct (Hk tn k' H) as [[H' _]|(-> & -> & [?|?])]; [done|discriminate..].
    + apply Hsame; try done. intros tn k' H. destruct (Hk tn k' H) as [[H' _]|(-> & -> & [?|?])]; [done|discriminate..].
    + set (g' := Memo _ _ _ _ _).
      assert (Ha : forall tn, tn <> tn' -> asked g' tn = asked g tn).
      { intros tn Hne. unfold asked. cbn. now rewrite lookup_insert_ne by congruence. }
      split; [|split].
      * intros tn k' H. destruct (Hk tn k' H) as [[H' Hn]|(-> & -> & _)].
        -- destruct (decide (tn = tn')) as [->|Hne]; [now destruct (Hn eq_refl)|]. rewrite Ha by done. now apply IH1.
        -- unfold asked. cbn. rewrite lookup_insert. cbn. set_solver.
      * intros tn U k' HU Hk'. cbn in HU. apply lookup_delete_Some in HU as [Hne HU]. rewrite Ha by congruence. eauto.
      * intros tn Hp. cbn in *. apply lookup_insert_None in Hp as [Hp Hne]. rewrite lookup_delete_ne by congruence. auto.
    + apply Hsame; try done. intros tn k' H. destruct (Hk tn k' H) as [[H' _]|(-> & -> & [?|?])]; [done|discriminate..].
  - destruct (b_commit _ _ _ _ _ _) as [[b1 o1] r] eqn:Eb.
    destruct (call_opt (b1, o1, r) (CUser _) ord down) as [b' os] eqn:Eo. injection E as <- <-. cbn [with_broker n_b fst] in *.
    assert (F : fewer (n_b n) b') by (eapply call_opt_fewer; [eapply commit_fewer, Eb|exact Eo]).
    cbn [note]. destruct (commit_check (n_b n) tn' u) as [e|t] eqn:Ec; [now apply Hsame|]. set (g' := Memo _ _ _ _ _).
    split; [intros tn k H; apply (IH1 tn k), F, H|]. split.
    + intros tn U k HU Hk. cbn in HU. apply lookup_insert_Some in HU as [[<- <-]|[_ HU]]; [|apply (IH2 tn U k HU Hk)].
      apply (IH1 tn' k). destruct (commit_check_ok _ _ _ _ Ec) as (Et & _ & Hc). destruct Hk as [x Hk]. destruct (Hc k x Hk) as (i & s & A1 & A2). exists t, i, s. done.
    + intros tn Hp. cbn in *. apply lookup_insert_None in Hp as [Hp Hne]. rewrite lookup_insert_ne by congruence. auto.
  - destruct (b_rollback _ _ _ _ _) as [[b1 o1] r] eqn:Eb.
    destruct (call_opt (b1, o1, r) (CUser _) ord down) as [b' os] eqn:Eo. injection E as <- <-. cbn [with_broker n_b fst] in *.
    assert (F : fewer (n_b n) b') by (eapply call_opt_fewer; [eapply rollback_fewer, Eb|exact Eo]).
    cbn [note]. destruct (broker_state n tn') as [[]|]; try (now apply Hsame).
    split; [intros tn k H; apply (IH1 tn k), F, H|]. split; [exact IH2|].
    intros tn Hp. cbn in *. apply lookup_insert_None in Hp as [Hp Hne]. auto.
  - destruct (b_finish _ _ _ _ _) as [[b1 o1] r] eqn:Eb.
    destruct (call_opt (b1, o1, r) (CUser _) ord down) as [b' os] eqn:Eo. injection E as <- <-. cbn [with_broker n_b fst] in *.
    apply Hsame; try done. eapply call_opt_fewer; [eapply finish_fewer, Eb|exact Eo].
  - injection E as <- <-. apply Hsame; try done. apply fewer_refl.
  - assert (Hb : n_b n' = n_b n).
    { destruct (n_req n i) as [|[q c] r]; [discriminate|]. destruct (ParsecShardModel.step _ _) as [[s' ev]| | |]; try discriminate. now injection E as <- <-. }
    destruct (note_shard loc n g i cs) as (E1 & E2 & E3 & _). apply Hsame; try done. now apply fewer_same; rewrite Hb.
  - destruct (n_rsp n i) as [|[c p] r] eqn:Er; [discriminate|]. destruct (handle _ _ _ _ _ _ _) as [b' os] eqn:Eh. injection E as <- <-.
    apply handle_fewer in Eh. cbn [n_b fst] in *.
    destruct (note_answer loc n g i ord down (calls os)) as [[-> _]|[-> _]]; now apply Hsame.
  - destruct (ParsecShardModel.step _ _) as [[s' ev]| | |]; try discriminate. injection E as <- <-. apply Hsame; try done. now apply fewer_same.
  - injection E as <- <-. split; [|split; [exact IH2|]].
    + intros tn k (t & i & s & H & _). cbn in H. now rewrite lookup_empty in H.
    + intros tn Hp. cbn in *. rewrite lookup_fmap in Hp. destruct (g_ph g !! tn) eqn:Hg; [discriminate|auto].
Qed.
Lemma covered n g tn U k : reaches n g -> g_upd g !! tn = Some U -> is_Some (U !! k) -> loc k ∈ asked g tn.
Proof. intros R. apply (covered_inv n g R). Qed.
End Final.
