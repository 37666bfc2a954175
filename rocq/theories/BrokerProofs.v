(** The invariant of the broker's system and what follows from it. *)
From stdpp Require Import base option list gmap fin_maps fin_sets.
From Coq Require Import NArith Lia.
From Verif Require Import Base ParsecShardModel ParsecShardSpec ParsecShardProofs ParsecShardSteps ParsecShardRuns
  ParsecShardFinal BrokerModel BrokerSpec BrokerShard BrokerInv BrokerStage BrokerHandle BrokerNet BrokerExec
  BrokerRecover.
Open Scope N_scope.

Section Global.
Context (loc : key -> N) (nsh : N) (self : N) (own : ticket_no -> bool).
Context (Hloc : forall k, loc k < nsh).

Definition nvw (n : net) (g : memo) (t : ticket_no) : view :=
  vw (n_b n) (n_sh n) (n_req n) (n_rsp n) g t.

Record core (st : bool) (n : net) (g : memo) : Prop := {
  i_shard : forall i, inv (n_sh n i);
  i_tag : forall i t x, s_tk (n_sh n i) !! t = Some x -> (t_broker x = self <-> own t = true);
  i_req : forall i q c, (q, c) ∈ n_req n i ->
      fits q c /\ i < nsh /\ (forall t, breq_tn q = Some t -> own t = true);
  i_rsp : forall i x, x ∈ n_rsp n i ->
      cont_ok x.1 /\ i < nsh /\ (forall t, cont_tn x.1 = Some t -> own t = true);
  i_wait : forall rid c, n_wait n !! rid = Some c ->
      exists cid tn k, c = KLock cid tn k /\ own tn = true;
  i_tk : forall t, is_Some (b_tk (n_b n) !! t) -> own t = true;
  i_asked : forall t i, i ∈ asked g t -> i < nsh;
  i_ph : forall t, is_Some (g_ph g !! t) -> own t = true;
  i_t : forall t, own t = true -> tinv loc nsh st (nvw n g t)
}.

Lemma core_locks st n g : core st n g -> locks_wait (n_wait n).
Proof. intros C rid c H. destruct (i_wait _ _ _ C rid c H) as (cid & tn & k & -> & _). eauto. Qed.

(** What a shard reported. *)
Definition snap (s : shard) (m : gmap ticket_no ticket_state) : Prop := forall t,
  match m !! t with
  | None => own t = true -> status_of s t = Absent
  | Some x => own t = true /\
      match x with
      | Begun | Wounded => status_of s t = Active
      | Prepared => exists u, status_of s t = Ready u
      | Committed => status_of s t = Applied
      end
  end.

Definition collect1 (n : net) (i : N) : Prop :=
  (n_req n i = [(QGet, KGet)] /\ n_rsp n i = [] /\ b_rec (n_b n) !! i = None) \/
  (exists m, n_req n i = [] /\ n_rsp n i = [(KGet, PTickets m)] /\ b_rec (n_b n) !! i = None /\ snap (n_sh n i) m) \/
  (n_req n i = [] /\ n_rsp n i = [] /\ b_rec (n_b n) !! i = None) \/
  (exists m, n_req n i = [] /\ n_rsp n i = [] /\ b_rec (n_b n) !! i = Some m /\ snap (n_sh n i) m /\ i < nsh).

Record collecting (n : net) (g : memo) : Prop := {
  k_tk : b_tk (n_b n) = ∅;
  k_wait : n_wait n = ∅;
  k_ph : forall t p, g_ph g !! t = Some p -> p = Orphan;
  k_one : forall i, collect1 n i
}.

Record settled (n : net) : Prop := {
  s_req : forall i q c, (q, c) ∈ n_req n i -> q <> QGet;
  s_rsp : forall i x, x ∈ n_rsp n i -> x.1 <> KGet
}.

Definition stage (st : bool) (n : net) (g : memo) : Prop :=
  match g_mode g with
  | Fresh => st = false /\ collecting n g /\ forall i, n_req n i = [] /\ n_rsp n i = [] /\ b_rec (n_b n) !! i = None
  | Recovering => (st = false /\ collecting n g) \/ (st = true /\ settled n)
  | Open => st = true /\ settled n
  end.

Definition Inv (n : net) (g : memo) : Prop := exists st, core st n g /\ stage st n g.

(** ** A step of the broker on one ticket *)

Record same_memo (g g' : memo) (t : ticket_no) : Prop := {
  e_ph : g_ph g' !! t = g_ph g !! t;
  e_up : g_upd g' !! t = g_upd g !! t;
  e_as : asked g' t = asked g t;
  e_dn : forall i, g_done g' !! (t, i) = g_done g !! (t, i)
}.
Lemma same_refl g t : same_memo g g t.
Proof. done. Qed.

Lemma vw_frame st b b' s req req' rsp rsp' g g' t :
  b_tk b' !! t = b_tk b !! t -> (forall i, reqs_of t (req' i) = reqs_of t (req i)) ->
  (forall i, rsps_of t (rsp' i) = rsps_of t (rsp i)) -> same_memo g g' t ->
  tinv loc nsh st (vw b s req rsp g t) -> tinv loc nsh st (vw b' s req' rsp' g' t).
Proof.
  intros E1 E2 E3 [M1 M2 M3 M4]. apply tinv_ext; cbn; try congruence.
  intros i. now rewrite E1, E2, E3, M3, M4.
Qed.

Lemma core_acts st n g tn b' os g' rsp' :
  core st n g ->
  (forall t, t <> tn -> b_tk b' !! t = b_tk (n_b n) !! t) ->
  (forall i q c, OSend i q c ∈ os -> breq_tn q = Some tn /\ fits q c /\ i < nsh) ->
  (own tn = false -> b_tk b' !! tn = None /\ quiet os) ->
  (forall i x, x ∈ rsp' i -> x ∈ n_rsp n i) ->
  (forall t, t <> tn -> forall i, rsps_of t (rsp' i) = rsps_of t (n_rsp n i)) ->
  (forall t, t <> tn -> same_memo g g' t) ->
  (forall i, i ∈ asked g' tn -> i < nsh) -> (is_Some (g_ph g' !! tn) -> own tn = true) ->
  (own tn = true -> tinv loc nsh st (vw b' (n_sh n) (post (n_req n) os) rsp' g' tn)) ->
  core st (Net b' (n_sh n) (post (n_req n) os) rsp' (n_wait n) (n_next n)) g'.
Proof.
  intros [C1 C2 C3 C4 C5 C6 C7 C8 C9] Hf Hs Hn Hr1 Hr2 Hg Ha Hp Ht.
  constructor; cbn [n_b n_sh n_req n_rsp n_wait n_next]; auto.
  - intros i q c Hin. apply post_in in Hin as [Hin|Hin]; [eauto|]. cbn in Hin.
    pose proof (Hs i q c Hin) as (H1 & H2 & H3). split; [done|]. split; [done|].
    intros t. rewrite H1. intros [= <-]. destruct (own tn) eqn:Eo; [done|].
    exfalso. destruct (Hn eq_refl) as [_ Hq]. now apply Hq in Hin.
  - intros t. destruct (decide (t = tn)) as [->|Hne].
    + intros Hso. destruct (own tn) eqn:Eo; [done|]. destruct (Hn eq_refl) as [Hno _]. rewrite Hno in Hso.
      now apply is_Some_None in Hso.
    + rewrite Hf by done. auto.
  - intros t i. destruct (decide (t = tn)) as [->|Hne]; [apply Ha|].
    rewrite (e_as _ _ _ (Hg t Hne)). apply C7.
  - intros t. destruct (decide (t = tn)) as [->|Hne]; [apply Hp|]. rewrite (e_ph _ _ _ (Hg t Hne)). apply C8.
  - intros t Ho. destruct (decide (t = tn)) as [->|Hne]; [now apply Ht|]. unfold nvw. cbn.
    eapply vw_frame; [apply Hf, Hne| |apply Hr2, Hne|apply Hg, Hne|apply C9, Ho].
    intros i. rewrite post_reqs. rewrite sent_none; [now rewrite app_nil_r|].
    intros j q c Hin. left. apply Hs in Hin as (-> & _). congruence.
Qed.

(** A method of the broker, called by a client. *)
Lemma core_api st n g tn b' os g' :
  core st n g -> acts nsh tn (n_b n) b' os -> (forall t, t <> tn -> same_memo g g' t) ->
  (forall i, i ∈ asked g' tn -> i < nsh) -> (is_Some (g_ph g' !! tn) -> own tn = true) ->
  (own tn = true -> tinv loc nsh st (vw b' (n_sh n) (post (n_req n) os) (n_rsp n) g' tn)) ->
  core st (with_broker n (b', os)) g'.
Proof.
  intros C A Hg Ha Hp Ht. unfold with_broker. cbn [fst snd]. apply (core_acts st n g tn); auto.
  - apply (a_frame _ _ _ _ _ A).
  - intros i q c Hin. apply (a_send _ _ _ _ _ A) in Hin. tauto.
  - intros Ho. apply (a_none _ _ _ _ _ A). destruct (b_tk (n_b n) !! tn) eqn:E; [|done].
    rewrite (i_tk _ _ _ C tn) in Ho by eauto. discriminate.
Qed.

Lemma settled_post n b' os rsp' w k : settled n -> (forall i q c, OSend i q c ∈ os -> q <> QGet) ->
  (forall i x, x ∈ rsp' i -> x ∈ n_rsp n i) ->
  settled (Net b' (n_sh n) (post (n_req n) os) rsp' w k).
Proof.
  intros [S1 S2] H Hr. constructor; cbn [n_req n_rsp].
  - intros i q c Hin. apply post_in in Hin as [Hin|Hin]; [eauto|]. eapply H, Hin.
  - intros i x Hx. eapply S2. eauto.
Qed.
Lemma settled_acts n tn b b' os rsp' w k : settled n -> acts nsh tn b b' os ->
  (forall i x, x ∈ rsp' i -> x ∈ n_rsp n i) ->
  settled (Net b' (n_sh n) (post (n_req n) os) rsp' w k).
Proof.
  intros S A. apply settled_post; [done|]. intros i q c Hin. apply (a_send _ _ _ _ _ A) in Hin as (H & _).
  intros ->. discriminate.
Qed.

Lemma stage_open st n g : g_mode g = Open -> stage st n g -> st = true /\ settled n.
Proof. unfold stage. intros ->. done. Qed.

Lemma vw_note st b' s req rsp g' t os (v : view) :
  w_ph v = g_ph g' !! t -> w_up v = g_upd g' !! t ->
  (forall i, w_c v i = Cell (status_of (s i) t) (reqs_of t (req i)) (rsps_of t (rsp i)) (g_done g' !! (t, i))
                       (c_sh (w_c v i)) (bool_decide (i ∈ asked g' t))) ->
  tinv loc nsh st (bmv v (b_tk b' !! t) (sent t os)) ->
  tinv loc nsh st (vw b' s (post req os) rsp g' t).
Proof.
  intros E1 E2 E3. apply tinv_ext; [done|cbn; congruence|cbn; congruence|].
  intros i. rewrite bmv_cell, E3. cbn. unfold cmv. cbn. now rewrite post_reqs.
Qed.

Lemma memo_same_upd g tn p u a m :
  forall t, t <> tn -> same_memo g (Memo (match p with Some p => <[tn := p]> (g_ph g) | None => g_ph g end)
     (match a with Some a => <[tn := a]> (g_asked g) | None => g_asked g end)
     (match u with Some (Some u) => <[tn := u]> (g_upd g) | Some None => delete tn (g_upd g) | None => g_upd g end)
     (g_done g) m) t.
Proof.
  intros t Ht. constructor; cbn; unfold asked; cbn.
  - destruct p; [now rewrite lookup_insert_ne by congruence|done].
  - destruct u as [[u|]|]; [now rewrite lookup_insert_ne by congruence|now rewrite lookup_delete_ne by congruence|done].
  - destruct a; [now rewrite lookup_insert_ne by congruence|done].
  - done.
Qed.

(** Begin. *)
Lemma inv_begin n g cid tn : Inv n g -> g_mode g = Open -> own tn = true -> g_ph g !! tn = None ->
  Inv (with_broker n (b_begin (n_b n) cid tn)) (note loc n g (ABegin cid tn) [(Client cid, RTicket tn)]).
Proof.
  intros (st & C & S) Hm Ho Hp. pose proof (i_t _ _ _ C tn Ho) as [Hb Ht].
  cbn [w_ph nvw vw] in Ht. rewrite Hp in Ht.
  assert (Hn : b_tk (n_b n) !! tn = None).
  { destruct (b_tk (n_b n) !! tn) eqn:E; [|done]. cbn in Ht. rewrite E in Ht. done. }
  cbn [w_bs nvw vw] in Ht. rewrite Hn in Ht. cbn in Ht.
  destruct (stage_open _ _ _ Hm S) as [-> Hs].
  exists true. split.
  - unfold with_broker. apply (core_acts true n g tn); auto.
    + intros t Hne. cbn. rewrite Hn. now rewrite lookup_insert_ne by congruence.
    + intros i q c Hin. cbn in Hin. now apply elem_of_list_singleton in Hin.
    + congruence.
    + intros t Hne. apply (memo_same_upd g tn (Some Work) None (Some ∅)). done.
    + intros i. cbn. unfold asked. cbn. rewrite lookup_insert. cbn. set_solver.
    + intros _. eapply (vw_note true _ _ _ _ _ tn _ (View None (Some Work) (g_upd g !! tn)
        (fun j => cell_as (w_c (nvw n g tn) j) false))).
      * cbn. now rewrite lookup_insert.
      * done.
      * intros i. cbn. rewrite Hn. unfold cell_as, asked. cbn. rewrite lookup_insert. done.
      * assert (Eb : b_tk (fst (b_begin (n_b n) cid tn)) !! tn = Some btk0).
        { cbn. rewrite Hn. apply lookup_insert. }
        rewrite Eb. eapply bmv_ext; [|apply (begin_tinv loc nsh true (View None None (g_upd g !! tn) (w_c (nvw n g tn))))].
        -- intros i. done.
        -- intros i. apply Ht.
        -- done.
  - unfold stage, with_broker. cbn [g_mode note]. rewrite Hm. split; [done|]. apply settled_post; auto.
    intros i q c Hin. cbn in Hin. now apply elem_of_list_singleton in Hin.
Qed.

Lemma inv_open n g tn b' os g' :
  Inv n g -> g_mode g = Open -> g_mode g' = Open -> acts nsh tn (n_b n) b' os ->
  (forall t, t <> tn -> same_memo g g' t) -> (forall i, i ∈ asked g' tn -> i < nsh) ->
  (is_Some (g_ph g' !! tn) -> own tn = true) ->
  (own tn = true -> tinv loc nsh true (nvw n g tn) ->
     tinv loc nsh true (vw b' (n_sh n) (post (n_req n) os) (n_rsp n) g' tn)) ->
  Inv (with_broker n (b', os)) g'.
Proof.
  intros (st & C & S) Hm Hm' A Hg Ha Hp Ht. destruct (stage_open _ _ _ Hm S) as [-> Hs]. exists true. split.
  - apply (core_api true n g tn); auto. intros Ho. apply Ht; [done|]. apply (i_t _ _ _ C tn Ho).
  - unfold stage. rewrite Hm'. split; [done|]. unfold with_broker. eapply settled_acts; eauto.
Qed.

Lemma inv_lock n g cid tn k m up cs : Inv n g -> allowed nsh self own n g (ALock cid tn k m up) ->
  Inv (with_broker n (b_lock loc (n_b n) cid tn k m up)) (note loc n g (ALock cid tn k m up) cs).
Proof.
  intros I (Hm & Ho & Hw). destruct (b_lock loc (n_b n) cid tn k m up) as [b' os] eqn:E.
  pose proof (lock_acts loc nsh _ _ _ _ _ _ _ _ (Hloc k) E) as A.
  pose proof I as (st & C & _).
  assert (Hown : is_Some (b_tk (n_b n) !! tn) -> own tn = true) by apply (i_tk _ _ _ C).
  assert (Hask : forall i, i ∈ asked g tn -> i < nsh) by apply (i_asked _ _ _ C).
  assert (Hph : is_Some (g_ph g !! tn) -> own tn = true) by apply (i_ph _ _ _ C). clear C.
  apply (inv_open n g tn); auto using same_refl; cbn [note]; unfold broker_state in *.
  - destruct (b_tk (n_b n) !! tn) as [t|]; [|done]. cbn. now destruct (bt_state t).
  - intros t Ht. destruct (b_tk (n_b n) !! tn) as [x|]; [|done]. cbn. destruct (bt_state x); try done.
    + apply (memo_same_upd g tn None None (Some _)). done.
    + apply (memo_same_upd g tn (Some _) (Some None) (Some _)). done.
  - destruct (b_tk (n_b n) !! tn) as [x|]; [|done]. cbn. destruct (bt_state x); try done.
    + intros i. unfold asked at 1. cbn. rewrite lookup_insert. cbn. intros Hi.
      apply elem_of_union in Hi as [Hi|Hi%elem_of_singleton]; [auto|]. subst. apply Hloc.
    + intros i. unfold asked at 1. cbn. rewrite lookup_insert. cbn. intros Hi%elem_of_singleton. subst. apply Hloc.
  - destruct (b_tk (n_b n) !! tn) as [x|]; [|done]. cbn. destruct (bt_state x); try done. intros _. apply Hown. eauto.
  - intros Ht T.
    assert (T' : tinv loc nsh true (bmv (noted_lock (nvw n g tn) (loc k)) (b_tk b' !! tn) (sent tn os))).
    { eapply (lock_tinv loc nsh true (nvw n g tn)); [apply Hloc|apply vw_has|exact E| |exact T].
      cbn. destruct Hw as [Hw|Hw]; [auto|right]. split; [exact Hw|done]. }
    eapply vw_note; [| | |exact T'].
    + unfold noted_lock. cbn. destruct (b_tk (n_b n) !! tn) as [x|]; [|done]. cbn. destruct (bt_state x); try done.
      cbn. now rewrite lookup_insert.
    + unfold noted_lock. cbn. destruct (b_tk (n_b n) !! tn) as [x|]; [|done]. cbn. destruct (bt_state x); try done.
      cbn. now rewrite lookup_delete.
    + intros i. unfold noted_lock. cbn [nvw vw w_bs]. destruct (b_tk (n_b n) !! tn) as [x|]; [|done].
      cbn. destruct (bt_state x); try done; unfold cell_as; cbn; f_equal; unfold asked; cbn;
        rewrite lookup_insert; cbn.
      * destruct (bool_decide (i ∈ _)) eqn:E1 at 1; cbn; symmetry.
        -- apply bool_decide_eq_true in E1. apply bool_decide_eq_true. now apply elem_of_union_l.
        -- apply bool_decide_eq_false in E1. apply bool_decide_ext. rewrite elem_of_union, elem_of_singleton.
           unfold asked in E1. tauto.
      * apply bool_decide_ext. now rewrite elem_of_singleton.
Qed.

Lemma inv_commit n g cid tn u ord down cs : Inv n g -> allowed nsh self own n g (ACommit cid tn u ord down) ->
  Inv (with_broker n (call_opt (b_commit (n_b n) tn u (CUser cid) ord down) (CUser cid) ord down))
    (note loc n g (ACommit cid tn u ord down) cs).
Proof.
  intros I (Hm & Ho & Hord & Hw).
  destruct (b_commit (n_b n) tn u (CUser cid) ord down) as [[b1 o1] r] eqn:E.
  destruct (call_opt (b1, o1, r) (CUser cid) ord down) as [b' os] eqn:Eo.
  assert (A : acts nsh tn (n_b n) b' os).
  { eapply call_opt_acts; [exact Hord| |eapply commit_acts; eauto|exact Eo]; done. }
  pose proof I as (st & C & _).
  assert (Hown : is_Some (b_tk (n_b n) !! tn) -> own tn = true) by apply (i_tk _ _ _ C).
  assert (Hask : forall i, i ∈ asked g tn -> i < nsh) by apply (i_asked _ _ _ C).
  assert (Hph : is_Some (g_ph g !! tn) -> own tn = true) by apply (i_ph _ _ _ C). clear C.
  cbn [note]. destruct (commit_check (n_b n) tn u) as [e|t] eqn:Ec.
  - apply (inv_open n g tn); auto using same_refl. intros Ht T.
    unfold b_commit in E. rewrite Ec in E. injection E as <- <- <-.
    eapply (vw_note true _ _ _ _ g tn _ (nvw n g tn)); [done|done|done|].
    eapply call_opt_tinv; [exact Hord| | |exact Eo]; [done|]. apply bmv_same; [apply vw_has|done|done].
  - assert (Hso : own tn = true).
    { apply Hown. apply commit_check_ok in Ec as (-> & _). eauto. }
    apply (inv_open n g tn); auto using same_refl.
    + intros x Hx. apply (memo_same_upd g tn (Some Com) (Some (Some u)) None). done.
    + intros _ T. eapply (vw_note true _ _ _ _ _ tn _ (View (w_bs (nvw n g tn)) (Some Com) (Some u) (w_c (nvw n g tn)))).
      * cbn. now rewrite lookup_insert.
      * cbn. now rewrite lookup_insert.
      * done.
      * eapply call_opt_tinv; [exact Hord| | |exact Eo]; [done|].
        eapply commit_tinv; [apply Hord|apply vw_has|exact Ec|exact E| |exact T].
        destruct Hw as [[e He]|Hw]; [congruence|exact Hw].
Qed.

Lemma inv_rollback n g cid tn ord down cs : Inv n g -> allowed nsh self own n g (ARollback cid tn ord down) ->
  Inv (with_broker n (call_opt (b_rollback (n_b n) tn (CUser cid) ord down) (CUser cid) ord down))
    (note loc n g (ARollback cid tn ord down) cs).
Proof.
  intros I (Hm & Ho & Hord).
  destruct (b_rollback (n_b n) tn (CUser cid) ord down) as [[b1 o1] r] eqn:E.
  destruct (call_opt (b1, o1, r) (CUser cid) ord down) as [b' os] eqn:Eo.
  assert (A : acts nsh tn (n_b n) b' os).
  { eapply call_opt_acts; [exact Hord| |eapply rollback_acts; eauto|exact Eo]; done. }
  pose proof I as (st & C & _).
  assert (Hown : is_Some (b_tk (n_b n) !! tn) -> own tn = true) by apply (i_tk _ _ _ C).
  assert (Hask : forall i, i ∈ asked g tn -> i < nsh) by apply (i_asked _ _ _ C).
  assert (Hph : is_Some (g_ph g !! tn) -> own tn = true) by apply (i_ph _ _ _ C). clear C.
  cbn [note]. unfold broker_state.
  apply (inv_open n g tn); auto using same_refl.
  - destruct (b_tk (n_b n) !! tn) as [t|]; [|done]. cbn. now destruct (bt_state t).
  - intros t Ht. destruct (b_tk (n_b n) !! tn) as [x|]; [|done]. cbn. destruct (bt_state x); try done.
    apply (memo_same_upd g tn (Some _) None None). done.
  - destruct (b_tk (n_b n) !! tn) as [x|]; [|done]. cbn. destruct (bt_state x); done.
  - destruct (b_tk (n_b n) !! tn) as [x|]; [|done]. cbn. destruct (bt_state x); try done. intros _. apply Hown. eauto.
  - intros Ht T.
    pose proof (rollback_tinv loc nsh true (nvw n g tn) (n_b n) tn (CUser cid) ord down b1 o1 r) as R.
    cbn zeta in R. revert R.
    assert (Ew : w_bs (nvw n g tn) = bt_state <$> b_tk (n_b n) !! tn) by done. rewrite Ew.
    intros R. specialize (R Hord (vw_has _ _ _ _ _ _) E Ho T).
    eapply vw_note; [| | |eapply call_opt_tinv; [exact Hord| |exact R|exact Eo]; done].
    + destruct (b_tk (n_b n) !! tn) as [x|]; [|done]. cbn. destruct (bt_state x); try done. cbn. now rewrite lookup_insert.
    + destruct (b_tk (n_b n) !! tn) as [x|]; [|done]. cbn. destruct (bt_state x); done.
    + intros i. destruct (b_tk (n_b n) !! tn) as [x|]; [|done]. cbn. destruct (bt_state x); done.
Qed.

Lemma inv_finish n g cid tn ord down cs : Inv n g -> allowed nsh self own n g (AFinish cid tn ord down) ->
  Inv (with_broker n (call_opt (b_finish (n_b n) tn (CUser cid) ord down) (CUser cid) ord down))
    (note loc n g (AFinish cid tn ord down) cs).
Proof.
  intros I (Hm & Ho & Hord).
  destruct (b_finish (n_b n) tn (CUser cid) ord down) as [[b1 o1] r] eqn:E.
  destruct (call_opt (b1, o1, r) (CUser cid) ord down) as [b' os] eqn:Eo.
  assert (A : acts nsh tn (n_b n) b' os).
  { eapply call_opt_acts; [exact Hord| |eapply finish_acts; eauto|exact Eo]; done. }
  pose proof I as (st & C & _).
  cbn [note]. apply (inv_open n g tn); auto using same_refl.
  - apply (i_asked _ _ _ C).
  - apply (i_ph _ _ _ C).
  - intros Ht T. eapply (vw_note true _ _ _ _ g tn _ (nvw n g tn)); [done|done|done|].
    eapply call_opt_tinv; [exact Hord| | |exact Eo]; [done|].
    eapply fin_tinv; [apply Hord|apply vw_has|exact E|exact T].
Qed.

(** ** Asking for the tickets *)

Lemma ask_send l down i q c : OSend i q c ∈ ask_tickets l down -> i ∈ l /\ q = QGet /\ c = KGet.
Proof.
  induction l as [|j l IH]; cbn [ask_tickets]; [intros H; now apply elem_of_nil in H|].
  case_bool_decide; [intros H0; now apply elem_of_nil in H0|].
  intros [H0|H0]%elem_of_cons; [injection H0 as -> -> ->; split; [left|done]|].
  destruct (IH H0) as (A & B). split; [now right|done].
Qed.
Lemma ask_post l down : forall req i, base.NoDup l ->
  post req (ask_tickets l down) i = req i \/
  (i ∈ l /\ post req (ask_tickets l down) i = req i ++ [(QGet, KGet)]).
Proof.
  induction l as [|j l IH]; intros req i Hnd; cbn [ask_tickets post]; [auto|].
  apply NoDup_cons in Hnd as [Hj Hnd]. case_bool_decide; cbn [post]; [auto|].
  destruct (decide (i = j)) as [->|Hne].
  - right. split; [left|]. destruct (IH (upd req j (req j ++ [(QGet, KGet)])) j Hnd) as [->|[A _]]; [|done].
    now rewrite upd_eq.
  - destruct (IH (upd req j (req j ++ [(QGet, KGet)])) i Hnd) as [->|[A ->]]; rewrite upd_ne by done; [auto|].
    right. split; [now right|done].
Qed.
Lemma shards_ok i : i ∈ shards nsh <-> i < nsh.
Proof.
  unfold shards. rewrite elem_of_list_fmap. split.
  - intros (x & -> & Hx). apply elem_of_list_In, in_seq in Hx. lia.
  - intros H. exists (N.to_nat i). split; [lia|]. apply elem_of_list_In, in_seq. lia.
Qed.
Lemma shards_nodup : base.NoDup (shards nsh).
Proof. unfold shards. apply NoDup_fmap; [intros x y H; lia|]. apply NoDup_ListNoDup, seq_NoDup. Qed.

Lemma inv_recover n g down cs : Inv n g -> allowed nsh self own n g (ARecover down) ->
  Inv (with_broker n (n_b n, b_recover nsh (n_b n) down)) (note loc n g (ARecover down) cs).
Proof.
  intros (st & C & S) Hm. cbn in Hm. unfold stage in S. rewrite Hm in S. destruct S as (-> & K & Hq).
  unfold b_recover. rewrite bool_decide_eq_true_2 by apply (k_tk _ _ K).
  assert (Hp : forall i, post (n_req n) (ask_tickets (shards nsh) down) i = [] \/
    (i < nsh /\ post (n_req n) (ask_tickets (shards nsh) down) i = [(QGet, KGet)])).
  { intros i. destruct (ask_post (shards nsh) down (n_req n) i shards_nodup) as [->|[A ->]];
      destruct (Hq i) as (-> & _); [auto|]. right. split; [now apply shards_ok|done]. }
  exists false. split.
  - destruct C as [C1 C2 C3 C4 C5 C6 C7 C8 C9]. constructor; auto; unfold with_broker; cbn [n_req fst snd n_sh n_rsp n_wait n_b].
    + intros i q c Hin. destruct (Hp i) as [E|[Hi E]]; rewrite E in Hin; [now apply elem_of_nil in Hin|].
      apply elem_of_list_singleton in Hin. injection Hin as -> ->. done.
    + intros t Ho. unfold nvw. cbn. eapply vw_frame; [done| |done|done|apply C9, Ho].
      intros i. rewrite post_reqs. rewrite sent_none; [now rewrite app_nil_r|].
      intros j q c Hin. apply ask_send in Hin as (_ & -> & _). now left.
  - unfold stage. cbn [note g_mode]. left. split; [done|]. destruct K as [K1 K2 K3 K4].
    constructor; auto. intros i. unfold with_broker. cbn. destruct (Hq i) as (Q1 & Q2 & Q3).
    unfold collect1. cbn. destruct (Hp i) as [E|[Hi E]]; rewrite E.
    + right; right; left. done.
    + left. done.
Qed.

(** ** A shard executes a request *)

Lemma answers_in w c ev x : x ∈ answers w c ev -> (exists rid, w !! rid = Some x.1) \/ c = Some x.1.
Proof.
  intros Hx. apply elem_of_list_omap in Hx as (e & He & Ex). destruct e as [rid a|r|m].
  - destruct (w !! rid) as [c'|] eqn:Ew; [|discriminate]. injection Ex as <-. left. now exists rid.
  - destruct c as [c'|]; [|discriminate]. injection Ex as <-. now right.
  - destruct c as [c'|]; [|discriminate]. injection Ex as <-. now right.
Qed.

Lemma note_done n g i q c r cs t j : n_req n i = (q, c) :: r ->
  g_done (note loc n g (AShard i) cs) !! (t, j) =
  if decide (j = i) then done_after q (n_sh n i) t (g_done g !! (t, j)) else g_done g !! (t, j).
Proof.
  intros E. cbn [note]. rewrite E. destruct q as [| |t0| | |]; try (destruct (decide (j = i)); done).
  cbn [done_after]. destruct (s_tk (n_sh n i) !! t0) as [x|] eqn:Ex.
  - destruct (bool_decide (t_state x = Prepared)) eqn:Eb; cbn [g_done].
    + destruct (decide (j = i)) as [->|Hj].
      * destruct (decide (t0 = t)) as [->|Ht].
        -- rewrite lookup_insert, Ex, Eb. done.
        -- rewrite lookup_insert_ne by congruence. done.
      * rewrite lookup_insert_ne by congruence. done.
    + destruct (decide (j = i)); [|done]. destruct (decide (t0 = t)) as [->|Ht]; [|done]. now rewrite Ex, Eb.
  - destruct (decide (j = i)); [|done]. destruct (decide (t0 = t)) as [->|Ht]; [|done]. now rewrite Ex.
Qed.
Lemma note_shard n g i cs : let g' := note loc n g (AShard i) cs in
  g_ph g' = g_ph g /\ g_asked g' = g_asked g /\ g_upd g' = g_upd g /\ g_mode g' = g_mode g.
Proof.
  cbn. destruct (n_req n i) as [|[q c] r]; [done|]. destruct q; try done.
  destruct (s_tk _ !! _) as [x|]; [|done]. now case_bool_decide.
Qed.

Lemma get_snap s m : (forall t x, s_tk s !! t = Some x -> (t_broker x = self <-> own t = true)) ->
  m = t_state <$> filter (fun p : ticket_no * ticket => t_broker p.2 = self) (s_tk s) -> snap s m.
Proof.
  intros Ht -> t. rewrite lookup_fmap.
  destruct (filter _ (s_tk s) !! t) as [x|] eqn:E; cbn.
  - apply map_filter_lookup_Some in E as [E Hb]. cbn in Hb. split; [now apply (Ht t x)|].
    unfold status_of, tstatus. rewrite E. destruct (t_state x); eauto.
  - intros Ho. unfold status_of. destruct (s_tk s !! t) as [x|] eqn:Ex; [|done]. exfalso.
    rewrite map_filter_lookup_None in E. destruct E as [E|E]; [congruence|].
    apply (E x Ex). cbn. now apply (Ht t x).
Qed.

Lemma snap_status s s' m : (forall t, own t = true -> status_of s' t = status_of s t) -> snap s m -> snap s' m.
Proof.
  intros H Hs t. specialize (Hs t). destruct (m !! t) as [x|].
  - destruct Hs as [Ho Hs]. split; [done|]. now rewrite H.
  - intros Ho. rewrite H by done. auto.
Qed.

Lemma inv_shard n g i q c r s' ev cs :
  Inv n g -> n_req n i = (q, c) :: r ->
  let rid := 2 * n_next n in
  let wait := match q with QLock _ _ _ _ => <[rid := c]> (n_wait n) | _ => n_wait n end in
  step (n_sh n i) (to_op self rid q) = Done (s', ev) ->
  Inv (Net (n_b n) (upd (n_sh n) i s') (upd (n_req n) i r)
         (upd (n_rsp n) i (n_rsp n i ++ answers wait (Some c) ev)) wait (n_next n + 1))
    (note loc n g (AShard i) cs).
Proof.
  intros (st & C & S) Eq rid wait E. set (g' := note loc n g (AShard i) cs).
  destruct (note_shard n g i cs) as (G1 & G2 & G3 & G4). fold g' in G1, G2, G3, G4.
  destruct (i_req _ _ _ C i q c) as (Hfit & Hi & Hown); [rewrite Eq; left|].
  assert (Hwait : forall rid c, wait !! rid = Some c -> exists cid tn k, c = KLock cid tn k /\ own tn = true).
  { intros rid0 c0. unfold wait. destruct q; try apply (i_wait _ _ _ C).
    intros [[_ <-]|[_ H]]%lookup_insert_Some; [|now apply (i_wait _ _ _ C rid0)].
    destruct Hfit as [_ Hfit]. destruct c; try done. subst. eauto 10. }
  assert (Hlw : locks_wait wait).
  { intros rid0 c0 H. destruct (Hwait rid0 c0 H) as (cid & tn & k & -> & _). eauto. }
  assert (Hreq : forall j x, x ∈ upd (n_req n) i r j -> x ∈ n_req n j).
  { intros j x. destruct (decide (j = i)) as [->|Hj]; [rewrite upd_eq, Eq; now right|now rewrite upd_ne]. }
  assert (Hrsp : forall j x, x ∈ upd (n_rsp n) i (n_rsp n i ++ answers wait (Some c) ev) j ->
     x ∈ n_rsp n j \/ (j = i /\ x ∈ answers wait (Some c) ev)).
  { intros j x. destruct (decide (j = i)) as [->|Hj]; [|rewrite upd_ne by done; auto].
    rewrite upd_eq, elem_of_app. intros [H|H]; auto. }
  assert (Hinv : inv s') by (eapply step_not_fatal; [apply (i_shard _ _ _ C i)|exact E]).
  exists st. split.
  - constructor; cbn [n_b n_sh n_req n_rsp n_wait n_next].
    + intros j. destruct (decide (j = i)) as [->|Hj]; [now rewrite upd_eq|]. rewrite upd_ne by done. apply (i_shard _ _ _ C).
    + intros j t x. destruct (decide (j = i)) as [->|Hj]; [|rewrite upd_ne by done; apply (i_tag _ _ _ C)].
      rewrite upd_eq. intros Hx.
      assert (Hq : forall rid0 b k m f, to_op self rid q = OTryLock rid0 t b k m f -> b = self /\ own t = true).
      { intros rid0 b k m f. destruct q; cbn; intros H; try discriminate. injection H as <- <- <- <- <- <-.
        split; [done|]. now apply Hown. }
      destruct (step_brokers _ _ _ _ _ _ (i_shard _ _ _ C i) E Hx)
        as [(y & Hy & [->|(r0 & b & k & m & f & Eop & ->)])|(r0 & b & k & m & f & _ & Eop & ->)].
      * eapply (i_tag _ _ _ C); eauto.
      * apply Hq in Eop as [-> ->]. done.
      * apply Hq in Eop as [-> ->]. done.
    + intros j q0 c0 Hin. apply Hreq in Hin. eapply (i_req _ _ _ C); eauto.
    + intros j x Hx. apply Hrsp in Hx as [Hx|[-> Hx]]; [now apply (i_rsp _ _ _ C)|].
      split; [|split; [done|]].
      * eapply answers_ok; [exact Hlw| |exact Hx]. intros c' [= <-]. apply Hfit.
      * intros t Ht. apply answers_in in Hx as [[rid0 Hx]|[= ->]].
        -- apply Hwait in Hx as (cid & tn & k & Ex & Ho). rewrite Ex in Ht. cbn in Ht. now injection Ht as <-.
        -- apply Hown. rewrite <- (fits_tn _ _ Hfit). exact Ht.
    + exact Hwait.
    + apply (i_tk _ _ _ C).
    + intros t j. unfold asked. rewrite G2. apply (i_asked _ _ _ C).
    + intros t. rewrite G1. apply (i_ph _ _ _ C).
    + intros t Ho. pose proof (i_t _ _ _ C t Ho) as T.
      pose proof (shard_exec self (n_sh n i) rid q c s' ev wait t r (rsps_of t (n_rsp n i)) (g_done g !! (t, i))
        (b_tk (n_b n) !! t ≫= (fun x => bt_sh x !! i)) (bool_decide (i ∈ asked g t)) (i_shard _ _ _ C i) E Hfit Hlw) as X.
      rewrite <- Eq in X. apply (exec_tinv loc nsh st (nvw n g t) i) in X; [|exact T].
      revert X. apply tinv_ext; unfold nvw; cbn [n_b n_sh n_req n_rsp vw w_bs w_ph w_up set_cell]; try congruence.
      intros j. destruct (decide (j = i)) as [->|Hj].
      * cbn [w_c set_cell]. rewrite N.eqb_refl. unfold vw. cbn [w_c]. rewrite !upd_eq, rsps_of_app. unfold asked. rewrite G2.
        unfold g'. rewrite (note_done _ _ _ _ _ _ _ _ _ Eq), decide_True by done. done.
      * cbn [w_c set_cell]. rewrite (proj2 (N.eqb_neq j i)) by done. unfold vw. cbn [w_c]. rewrite !upd_ne by done. unfold asked. rewrite G2.
        unfold g'. rewrite (note_done _ _ _ _ _ _ _ _ _ Eq), decide_False by done. done.
  - unfold stage in *. rewrite G4.
    assert (Hset : settled n -> settled (Net (n_b n) (upd (n_sh n) i s') (upd (n_req n) i r)
         (upd (n_rsp n) i (n_rsp n i ++ answers wait (Some c) ev)) wait (n_next n + 1))).
    { intros [S1 S2]. constructor; cbn [n_req n_rsp].
      - intros j q0 c0 Hin. apply Hreq in Hin. eauto.
      - intros j x Hx. apply Hrsp in Hx as [Hx|[-> Hx]]; [eauto|]. intros Hk.
        pose proof (answers_get wait (Some c) ev x Hlw Hx Hk) as [= ->].
        apply (S1 i q KGet); [rewrite Eq; left|]. destruct Hfit as [_ Hfit]. now destruct q. }
    assert (Hcol : collecting n g -> collecting (Net (n_b n) (upd (n_sh n) i s') (upd (n_req n) i r)
         (upd (n_rsp n) i (n_rsp n i ++ answers wait (Some c) ev)) wait (n_next n + 1)) g').
    { intros [K1 K2 K3 K4]. destruct (K4 i) as [(A1 & A2 & A3)|[(m & A1 & _)|[(A1 & _)|(m & A1 & _)]]];
        [|rewrite Eq in A1; discriminate..].
      rewrite Eq in A1. injection A1 as -> -> ->. unfold wait in *. clear wait. cbn [to_op] in E.
      apply get_status in E as [-> ->].
      constructor; cbn [n_b n_wait]; auto; [intros t p; rewrite G1; apply K3|].
      intros j. unfold collect1. cbn [n_req n_rsp n_b n_sh]. destruct (decide (j = i)) as [->|Hj].
      - right; left. eexists. rewrite !upd_eq. split; [done|]. split; [rewrite A2; done|]. split; [done|].
        eapply get_snap; [|done]. apply (i_tag _ _ _ C).
      - rewrite !upd_ne by done. apply K4. }
    destruct (g_mode g).
    + destruct S as (_ & _ & Hq). destruct (Hq i) as [Hn _]. rewrite Eq in Hn. discriminate.
    + destruct S as [[-> S]|[-> S]]; auto.
    + destruct S as [-> S]. auto.
Qed.

Lemma answers_none ev : answers ∅ None ev = [].
Proof. induction ev as [|[] ev IH]; cbn; auto. Qed.

Lemma inv_other n g i o s' ev cs :
  Inv n g -> allowed nsh self own n g (AOther i o) -> step (n_sh n i) o = Done (s', ev) ->
  Inv (Net (n_b n) (upd (n_sh n) i s') (n_req n)
         (upd (n_rsp n) i (n_rsp n i ++ answers (n_wait n) None ev)) (n_wait n) (n_next n))
    (note loc n g (AOther i o) cs).
Proof.
  intros (st & C & S) [Hi Ho] E. cbn [note].
  pose proof (core_locks _ _ _ C) as Hlw.
  assert (Hop : forall t, own t = true -> op_tn o <> Some t).
  { intros t Ht. destruct o; cbn in Ho |- *; intros H; try discriminate; injection H as ->; first [congruence | destruct Ho; congruence]. }
  assert (Hrsp : forall j x, x ∈ upd (n_rsp n) i (n_rsp n i ++ answers (n_wait n) None ev) j ->
     x ∈ n_rsp n j \/ (j = i /\ x ∈ answers (n_wait n) None ev)).
  { intros j x. destruct (decide (j = i)) as [->|Hj]; [|rewrite upd_ne by done; auto].
    rewrite upd_eq, elem_of_app. intros [H|H]; auto. }
  assert (Hst : forall t, own t = true -> status_of s' t = status_of (n_sh n i) t).
  { intros t Ht. eapply other_status; [apply (i_shard _ _ _ C i)|exact E|now apply Hop]. }
  exists st. split.
  - constructor; cbn [n_b n_sh n_req n_rsp n_wait n_next].
    + intros j. destruct (decide (j = i)) as [->|Hj]; [rewrite upd_eq|rewrite upd_ne by done; apply (i_shard _ _ _ C)].
      eapply step_not_fatal; [apply (i_shard _ _ _ C i)|exact E].
    + intros j t x. destruct (decide (j = i)) as [->|Hj]; [|rewrite upd_ne by done; apply (i_tag _ _ _ C)].
      rewrite upd_eq. intros Hx.
      destruct (step_brokers _ _ _ _ _ _ (i_shard _ _ _ C i) E Hx)
        as [(y & Hy & [->|(r0 & b & k & m & f & -> & ->)])|(r0 & b & k & m & f & _ & -> & ->)].
      * eapply (i_tag _ _ _ C); eauto.
      * destruct Ho as (Ho1 & Ho2 & _). split; [done|congruence].
      * destruct Ho as (Ho1 & Ho2 & _). split; [done|congruence].
    + apply (i_req _ _ _ C).
    + intros j x Hx. apply Hrsp in Hx as [Hx|[-> Hx]]; [now apply (i_rsp _ _ _ C)|].
      split; [|split; [done|]].
      * eapply answers_ok; [exact Hlw| |exact Hx]. done.
      * intros t Ht. apply answers_in in Hx as [[rid0 Hx]|[=]].
        apply (i_wait _ _ _ C) in Hx as (cid & tn & k & Ex & Hown). rewrite Ex in Ht. cbn in Ht. now injection Ht as <-.
    + apply (i_wait _ _ _ C).
    + apply (i_tk _ _ _ C).
    + apply (i_asked _ _ _ C).
    + apply (i_ph _ _ _ C).
    + intros t Ht. pose proof (i_t _ _ _ C t Ht) as T.
      pose proof (other_exec (n_sh n i) o s' ev (n_wait n) t (reqs_of t (n_req n i)) (rsps_of t (n_rsp n i)) (g_done g !! (t, i))
        (b_tk (n_b n) !! t ≫= (fun x => bt_sh x !! i)) (bool_decide (i ∈ asked g t)) (i_shard _ _ _ C i) E (Hop t Ht) Hlw) as X.
      apply (exec_tinv loc nsh st (nvw n g t) i) in X; [|exact T].
      revert X. apply tinv_ext; try done.
      intros j. unfold nvw, vw, set_cell. cbn [n_b n_sh n_req n_rsp w_c]. destruct (decide (j = i)) as [->|Hj].
      * rewrite N.eqb_refl. rewrite !upd_eq, rsps_of_app. done.
      * rewrite (proj2 (N.eqb_neq j i)) by done. rewrite !upd_ne by done. done.
  - unfold stage in *.
    assert (Hset : settled n -> settled (Net (n_b n) (upd (n_sh n) i s') (n_req n)
         (upd (n_rsp n) i (n_rsp n i ++ answers (n_wait n) None ev)) (n_wait n) (n_next n))).
    { intros [S1 S2]. constructor; cbn [n_req n_rsp]; [exact S1|].
      intros j x Hx. apply Hrsp in Hx as [Hx|[-> Hx]]; [eauto|]. intros Hk.
      pose proof (answers_get (n_wait n) None ev x Hlw Hx Hk). discriminate. }
    assert (Hone : n_wait n = ∅ -> forall j, upd (n_rsp n) i (n_rsp n i ++ answers (n_wait n) None ev) j = n_rsp n j).
    { intros Hw j. rewrite Hw, answers_none, app_nil_r. destruct (decide (j = i)) as [->|]; [now rewrite upd_eq|now rewrite upd_ne]. }
    assert (Hcol : collecting n g -> collecting (Net (n_b n) (upd (n_sh n) i s') (n_req n)
         (upd (n_rsp n) i (n_rsp n i ++ answers (n_wait n) None ev)) (n_wait n) (n_next n)) g).
    { intros [K1 K2 K3 K4]. constructor; auto. intros j. unfold collect1. cbn [n_req n_rsp n_b n_sh].
      rewrite (Hone K2). specialize (K4 j). unfold collect1 in K4.
      assert (Hsn : forall m, snap (n_sh n j) m -> snap (upd (n_sh n) i s' j) m).
      { intros m. destruct (decide (j = i)) as [->|]; [rewrite upd_eq; now apply snap_status|now rewrite upd_ne]. }
      destruct K4 as [A|[(m & A1 & A2 & A3 & A4)|[A|(m & A1 & A2 & A3 & A4 & A5)]]]; eauto 10. }
    destruct (g_mode g).
    + destruct S as (-> & K & Hq). split; [done|]. split; [now apply Hcol|]. intros j. cbn [n_req n_rsp n_b].
      rewrite (Hone (k_wait _ _ K)). apply Hq.
    + destruct S as [[-> S]|[-> S]]; auto.
    + destruct S as [-> S]. auto.
Qed.

(** ** A crash *)

Definition crashed (v : view) : view :=
  View None ((fun _ => Orphan) <$> w_ph v) (w_up v)
    (fun i => let c := w_c v i in Cell (c_st c) [] [] (c_dn c) None (c_as c)).

Lemma crash_tinv st v : tinv loc nsh st v -> tinv loc nsh false (crashed v).
Proof.
  intros [Hb H]. split.
  { intros i. destruct (Hb i) as (A & B & D). split; [exact A|]. split; [|exact D]. intros q Hq. now apply elem_of_nil in Hq. }
  cbn [crashed w_bs w_ph].
  assert (Hgone : gone loc v -> gone loc (crashed v)).
  { intros [A B]. split; [|exact B]. intros i. destruct (A i) as [A1 _]. split; [exact A1|]. cbn. intros q Hq. now apply elem_of_nil in Hq. }
  assert (Ho1 : (forall i, c_st (w_c v i) <> Applied /\ c_dn (w_c v i) = None) -> orph loc (crashed v)).
  { intros A. split; [|left; exact A]. intros i. split; [done|]. intros x Hx. now apply elem_of_nil in Hx. }
  assert (Ho2 : forall U, w_up v = Some U -> (forall i, let c := w_c v i in
     (c_st c = Absent /\ (forall x, c_dn c = Some x -> x = part loc U i) /\
        (c_as c = true -> forall j, c_as (w_c v j) = true -> c_dn (w_c v j) <> None)) \/
     (c_st c = Ready (part loc U i) /\ c_dn c = None) \/
     (c_st c = Applied /\ c_dn c = Some (part loc U i))) -> orph loc (crashed v)).
  { intros U HU A. split; [|right; exists U; split; [exact HU|exact A]]. intros i. split; [done|]. intros x Hx. now apply elem_of_nil in Hx. }
  assert (Hpre : forall U, w_up v = Some U -> (forall i, pre loc U i (w_c v i)) -> orph loc (crashed v)).
  { intros U HU A. apply (Ho2 U HU). intros i. cbn. destruct (A i) as [(s & _ & [B|B] & _)|((B & _) & D & F & _)]; auto.
    left. split; [done|]. split; [congruence|]. congruence. }
  assert (Hcmt : forall U, w_up v = Some U -> (forall i, cmt loc U i (w_c v i)) -> orph loc (crashed v)).
  { intros U HU A. apply (Ho2 U HU).
    assert (Hall : forall j, c_as (w_c v j) = true -> c_dn (w_c v j) <> None).
    { intros j Hj. destruct (A j) as [(s & _ & D & _)|(_ & D & _)]; [congruence|auto]. }
    intros i. cbn. destruct (A i) as [(s & _ & D & [B|[B _]] & _)|((B & _) & _ & D & _)]; auto.
    left. split; [done|]. split; [|auto]. intros x. rewrite D. now intros [= ->]. }
  assert (Hroll : forall b, rollmode nsh b v -> orph loc (crashed v)).
  { intros b [[_ [R _]]|[_ R]]; apply Ho1; intros i.
    - destruct (R i). auto.
    - destruct (R i) as [(A & _) B]. split; [congruence|done]. }
  destruct (w_ph v) as [p|]; cbn.
  - destruct (w_bs v) as [b|].
    + left. split; [done|]. destruct p.
      * destruct H as [_ H]. apply Ho1. intros i. destruct (H i). auto.
      * destruct H as (U & HU & [[_ H]|[[_ H]|[_ H]]]).
        -- apply Ho1. intros i. destruct (H i). auto.
        -- eauto.
        -- eauto.
      * eauto.
      * destruct H as [H|(U & HU & [[_ H]|[_ H]])]; eauto.
    + destruct p; try (right; auto; fail). destruct H as [[-> [O1 O2]]|H]; [left|right; auto].
      split; [done|]. split; [|exact O2]. intros i. split; [done|]. intros x Hx. now apply elem_of_nil in Hx.
  - destruct (w_bs v) as [b|]; [done|]. intros i. destruct (H i) as (A & _ & _ & B & D). cbn.
    split; [done|]. split; [done|]. split; [intros x Hx; now apply elem_of_nil in Hx|done].
Qed.

Lemma inv_crash n g cs : Inv n g ->
  Inv (Net broker0 (n_sh n) (fun _ => []) (fun _ => []) ∅ (n_next n)) (note loc n g ACrash cs).
Proof.
  intros (st & C & S). exists false. split.
  - constructor; cbn [n_b n_sh n_req n_rsp n_wait n_next note].
    + apply (i_shard _ _ _ C).
    + apply (i_tag _ _ _ C).
    + intros i q c H. now apply elem_of_nil in H.
    + intros i x H. now apply elem_of_nil in H.
    + intros rid c. rewrite lookup_empty. discriminate.
    + intros t. cbn. rewrite lookup_empty. now intros [x ?].
    + intros t i. apply (i_asked _ _ _ C).
    + intros t. cbn. rewrite lookup_fmap, fmap_is_Some. apply (i_ph _ _ _ C).
    + intros t Ho. pose proof (crash_tinv _ _ (i_t _ _ _ C t Ho)) as T. revert T.
      apply tinv_ext; unfold nvw, vw, crashed; cbn [n_b n_sh n_req n_rsp w_bs w_ph w_up w_c c_st c_dn c_as g_ph g_upd g_done].
      * cbn. now rewrite lookup_empty.
      * now rewrite lookup_fmap.
      * done.
      * intros i. cbn. rewrite lookup_empty. done.
  - unfold stage. cbn. split; [done|]. split; [|done]. constructor; cbn; auto.
    + intros t p. rewrite lookup_fmap. destruct (g_ph g !! t); cbn; [now intros [= <-]|discriminate].
    + intros i. right; right; left. done.
Qed.

(** ** The broker handles an answer *)

Lemma core_mode st n g m : core st n g -> core st n (Memo (g_ph g) (g_asked g) (g_upd g) (g_done g) m).
Proof. intros [C1 C2 C3 C4 C5 C6 C7 C8 C9]. constructor; auto. Qed.

Lemma rok_calls os : (Recovery, ROk) ∈ calls os <-> rok os.
Proof.
  unfold calls, rok. rewrite elem_of_list_omap. split.
  - intros ([i q c|w r] & H & E); [discriminate|]. injection E as -> ->. done.
  - intros H. eexists. split; [exact H|done].
Qed.
Lemma note_answer n g i ord down cs :
  (note loc n g (AAnswer i ord down) cs = g /\ (Recovery, ROk) ∉ cs) \/
  (note loc n g (AAnswer i ord down) cs = Memo (g_ph g) (g_asked g) (g_upd g) (g_done g) Open /\ (Recovery, ROk) ∈ cs).
Proof.
  cbn. destruct (existsb _ cs) eqn:E.
  - right. split; [done|]. apply existsb_exists in E as ([w r] & Hin & E). destruct w, r; try discriminate.
    now apply elem_of_list_In.
  - left. split; [done|]. intros H. apply elem_of_list_In in H.
    assert (existsb (fun c : caller * result => match c with (Recovery, ROk) => true | _ => false end) cs = true).
    { apply existsb_exists. eauto. }
    congruence.
Qed.

(** An answer for a ticket. *)
Lemma handle_ok st n g i c p r ord down tn b' os :
  core st n g -> an_order nsh ord -> n_rsp n i = (c, p) :: r -> cont_tn c = Some tn ->
  handle nsh (n_b n) i c p ord down = (b', os) ->
  acts nsh tn (n_b n) b' os /\
  tinv loc nsh st (bmv (popv (nvw n g tn) i (rsps_of tn r)) (b_tk b' !! tn) (sent tn os)) /\
  (rok os -> b_tk b' = ∅).
Proof.
  intros C Hord Er Hc E. destruct (i_rsp _ _ _ C i (c, p)) as (Hcok & Hi & Hown); [rewrite Er; left|].
  cbn [fst] in Hcok, Hown. specialize (Hown tn Hc).
  pose proof (i_t _ _ _ C tn Hown) as T.
  assert (HQ : c_Q (w_c (nvw n g tn) i) = (c, p) :: rsps_of tn r).
  { unfold nvw, vw. cbn [w_c c_Q]. rewrite Er. unfold rsps_of at 1. cbn. now rewrite bool_decide_eq_true_2. }
  assert (Hv : vhas (nvw n g tn) (b_tk (n_b n) !! tn)) by apply vw_has.
  pose proof (popv_has _ i (rsps_of tn r) _ Hv) as Hv'.
  pose proof (pop_tinv _ _ _ _ _ _ _ HQ T) as T'. fold (popv (nvw n g tn) i (rsps_of tn r)) in T'.
  assert (Hsame : (n_b n, []) = (b', os) -> acts nsh tn (n_b n) b' os /\
     tinv loc nsh st (bmv (popv (nvw n g tn) i (rsps_of tn r)) (b_tk b' !! tn) (sent tn os)) /\ (rok os -> b_tk b' = ∅)).
  { intros [= <- <-]. split; [apply acts_refl, quiet_nil|]. split; [now apply bmv_same|].
    intros H. now apply elem_of_nil in H. }
  destruct c as [cid t k|cb t|cb t|cb t|cb t|]; cbn in Hc; try discriminate; injection Hc as ->;
    destruct p as [a|res|m]; cbn [handle] in E; try (now apply Hsame); cbn in Hcok.
  - split; [eapply hlock_acts; eauto|]. split; [eapply hlock_tinv; eauto|].
    intros H. unfold h_lock in E. exfalso.
    repeat match type of E with context [match ?x with _ => _ end] => destruct x eqn:? end;
      injection E as <- <-; apply elem_of_list_singleton in H; discriminate.
  - destruct (h_prepare _ _ _ _ _ _ _) as [[b1 o1] r1] eqn:Eh. split; [|split].
    + eapply call_opt_acts; [exact Hord|exact Hcok|eapply hprepare_acts; eauto|exact E].
    + eapply call_opt_tinv; [exact Hord|exact Hcok| |exact E]. eapply hprepare_tinv; eauto. apply Hord.
    + intros H. eapply call_opt_rok; [eapply hprepare_mute; eauto|exact E|exact H].
  - destruct (h_commit _ _ _ _) as [[b1 o1] r1] eqn:Eh. split; [|split].
    + eapply call_opt_acts; [exact Hord|exact Hcok|eapply hcommit_acts; eauto|exact E].
    + eapply call_opt_tinv; [exact Hord|exact Hcok| |exact E]. eapply hcommit_tinv; eauto.
    + intros H. eapply call_opt_rok; [eapply hcommit_mute; eauto|exact E|exact H].
  - destruct (h_rollback _ _ _ _) as [[b1 o1] r1] eqn:Eh. split; [|split].
    + eapply call_opt_acts; [exact Hord|exact Hcok|eapply hrollback_acts; eauto|exact E].
    + eapply call_opt_tinv; [exact Hord|exact Hcok| |exact E]. eapply hrollback_tinv; eauto.
    + intros H. eapply call_opt_rok; [eapply hrollback_mute; eauto|exact E|exact H].
  - destruct (h_finish _ _ _ _) as [[b1 o1] r1] eqn:Eh. split; [|split].
    + eapply call_opt_acts; [exact Hord|exact Hcok|eapply hfinish_acts; eauto|exact E].
    + eapply call_opt_tinv; [exact Hord|exact Hcok| |exact E]. eapply hfinish_tinv; eauto.
    + intros H. eapply call_opt_rok; [eapply hfinish_mute; eauto|exact E|exact H].
Qed.

Lemma handle_core st n g i c p r ord down tn b' os :
  core st n g -> an_order nsh ord -> n_rsp n i = (c, p) :: r -> cont_tn c = Some tn ->
  handle nsh (n_b n) i c p ord down = (b', os) ->
  core st (Net b' (n_sh n) (post (n_req n) os) (upd (n_rsp n) i r) (n_wait n) (n_next n)) g.
Proof.
  intros C Hord Er Hc E. destruct (handle_ok st n g i c p r ord down tn b' os C Hord Er Hc E) as (A & T & _).
  apply (core_acts st n g tn); auto using same_refl.
  - apply (a_frame _ _ _ _ _ A).
  - intros j q c0 Hin. apply (a_send _ _ _ _ _ A) in Hin. tauto.
  - intros Ho. apply (a_none _ _ _ _ _ A). destruct (b_tk (n_b n) !! tn) eqn:Eb; [|done].
    rewrite (i_tk _ _ _ C tn) in Ho by eauto. discriminate.
  - intros j x. destruct (decide (j = i)) as [->|Hj]; [rewrite upd_eq, Er; now right|now rewrite upd_ne].
  - intros t Ht j. destruct (decide (j = i)) as [->|Hj]; [|now rewrite upd_ne]. rewrite upd_eq, Er.
    unfold rsps_of at 2. cbn. rewrite bool_decide_eq_false_2 by congruence. done.
  - apply (i_asked _ _ _ C).
  - apply (i_ph _ _ _ C).
  - intros _. eapply (vw_note st _ _ _ _ g tn _ (popv (nvw n g tn) i (rsps_of tn r))); [done|done| |exact T].
    intros j. unfold popv. destruct (decide (j = i)) as [->|Hj].
    + rewrite set_cell_eq. rewrite upd_eq. done.
    + rewrite set_cell_ne by done. rewrite upd_ne by done. done.
Qed.

(** ** Recovery *)

Lemma recover_fold (v : ticket_no -> view) ord down l : an_order nsh ord -> forall b o b' os,
  base.NoDup l ->
  (forall t, t ∈ l -> own t = true /\ exists x, b_tk b !! t = Some x /\ found loc nsh (v t) x /\ forall i, sent t o i = []) ->
  (forall t, t ∉ l -> own t = true -> tinv loc nsh true (bmv (v t) (b_tk b !! t) (sent t o))) ->
  (forall i q c, OSend i q c ∈ o -> exists t, breq_tn q = Some t /\ own t = true /\ fits q c /\ i < nsh) ->
  (forall t, is_Some (b_tk b !! t) -> own t = true) ->
  (rok o -> b_tk b = ∅) ->
  fold_left (recover_one ord down) l (b, o) = (b', os) ->
  (forall t, own t = true -> tinv loc nsh true (bmv (v t) (b_tk b' !! t) (sent t os))) /\
  (forall i q c, OSend i q c ∈ os -> exists t, breq_tn q = Some t /\ own t = true /\ fits q c /\ i < nsh) /\
  (forall t, is_Some (b_tk b' !! t) -> own t = true) /\
  (rok os -> b_tk b' = ∅).
Proof.
  intros Hord. induction l as [|tn l IH]; intros b o b' os Hnd Hin Hout Hs Ho Hr E; cbn [fold_left] in E.
  - injection E as <- <-. split; [|auto]. intros t Ht. apply Hout; [|done]. intros H. now apply elem_of_nil in H.
  - apply NoDup_cons in Hnd as [Hn Hnd].
    destruct (recover_one ord down (b, o) tn) as [b1 os1] eqn:E1.
    destruct (Hin tn) as (Hown & x & Ex & Hf & Hsent); [left|].
    destruct (recover_one_ok loc nsh (v tn) b o tn x ord down b1 os1 Hord Ex Hf E1) as (o1 & -> & A & T & R).
    assert (Hso : forall t, t <> tn -> forall i, sent t o1 i = []).
    { intros t Ht i. apply sent_none. intros j q c Hq. left. apply (a_send _ _ _ _ _ A) in Hq as (-> & _). congruence. }
    apply (IH b1 (o ++ o1) b' os Hnd); auto.
    + intros t Ht. assert (t <> tn) by congruence. destruct (Hin t) as (Ht1 & y & Ey & Hfy & Hsy); [now right|].
      split; [done|]. exists y. rewrite (a_frame _ _ _ _ _ A) by done. split; [done|]. split; [done|].
      intros i. rewrite sent_app, Hsy, Hso by done. done.
    + intros t Ht Hto. destruct (decide (t = tn)) as [->|Hne].
      * eapply bmv_ext; [|exact T]. intros i. now rewrite sent_app, Hsent.
      * rewrite (a_frame _ _ _ _ _ A) by done. eapply bmv_ext; [|apply Hout; [|exact Hto]].
        -- intros i. now rewrite sent_app, Hso, app_nil_r by done.
        -- intros [|]%elem_of_cons; done.
    + intros i q c [H|H]%elem_of_app; [eauto|]. apply (a_send _ _ _ _ _ A) in H as (H1 & H2 & H3). eauto 10.
    + intros t. destruct (decide (t = tn)) as [->|Hne]; [done|]. rewrite (a_frame _ _ _ _ _ A) by done. apply Ho.
    + intros [H|H]%elem_of_app; [|now apply R]. rewrite (Hr H) in Ex. now rewrite lookup_empty in Ex.
Qed.

Lemma get_core n g i m ord down b' os :
  core false n g -> collecting n g -> an_order nsh ord -> n_rsp n i = [(KGet, PTickets m)] ->
  h_get nsh (n_b n) i m ord down = (b', os) ->
  let n' := Net b' (n_sh n) (post (n_req n) os) (upd (n_rsp n) i []) (n_wait n) (n_next n) in
  (core false n' g /\ collecting n' g /\ ~ rok os) \/
  (core true n' g /\ settled n' /\ (rok os -> b_tk b' = ∅)).
Proof.
  intros C K Hord Er E n'.
  destruct (k_one _ _ K i) as [(_ & A & _)|[(m' & A1 & A2 & A3 & A4)|[(_ & A & _)|(m' & _ & A & _)]]];
    try (rewrite Er in A; discriminate).
  assert (m' = m) as -> by congruence. clear A2.
  assert (Hi : i < nsh).
  { destruct (i_rsp _ _ _ C i (KGet, PTickets m)) as (_ & Hi & _); [rewrite Er; left|done]. }
  assert (Hrsps : forall t j, rsps_of t (upd (n_rsp n) i [] j) = rsps_of t (n_rsp n j)).
  { intros t j. destruct (decide (j = i)) as [->|]; [rewrite upd_eq, Er; done|now rewrite upd_ne]. }
  assert (Hrsub : forall j x, x ∈ upd (n_rsp n) i [] j -> x ∈ n_rsp n j).
  { intros j x. destruct (decide (j = i)) as [->|]; [rewrite upd_eq; intros H; now apply elem_of_nil in H|now rewrite upd_ne]. }
  unfold h_get in E. rewrite A3 in E. set (rc := <[i := m]> (b_rec (n_b n))) in *.
  assert (Hrc : forall j mj, rc !! j = Some mj -> j < nsh /\ snap (n_sh n j) mj).
  { intros j mj. unfold rc. intros [[<- <-]|[Hne Hj]]%lookup_insert_Some; [done|].
    destruct (k_one _ _ K j) as [(_ & _ & H)|[(m' & _ & _ & H & _)|[(_ & _ & H)|(m' & _ & _ & H & Hs & Hl)]]];
      try congruence. assert (m' = mj) as -> by congruence. done. }
  destruct (N.of_nat (size rc) =? nsh) eqn:Esz; cbn [negb] in E.
  2: { injection E as <- <-. left. split; [|split].
       - destruct C as [C1 C2 C3 C4 C5 C6 C7 C8 C9]. constructor; auto.
         intros t Ho. unfold nvw. cbn. eapply vw_frame; [| | | |apply C9, Ho]; auto using same_refl.
       - destruct K as [K1 K2 K3 K4]. constructor; auto. intros j. unfold n', collect1.
         cbn [n_req n_rsp n_b n_sh post b_rec]. unfold rc. destruct (decide (j = i)) as [->|Hj].
         + right; right; right. exists m. rewrite upd_eq, lookup_insert. done.
         + rewrite upd_ne by done. rewrite lookup_insert_ne by congruence. apply K4.
       - intros H. now apply elem_of_nil in H. }
  apply N.eqb_eq in Esz. right.
  assert (Hfull : forall j, j < nsh -> exists mj, rc !! j = Some mj).
  { intros j Hj. destruct (rc !! j) as [mj|] eqn:Ej; [eauto|]. exfalso.
    assert (Hle : (size ({[j]} ∪ dom rc) <= size (list_to_set (shards nsh) : gset N))%nat).
    { apply subseteq_size. intros x. rewrite elem_of_union, elem_of_singleton, elem_of_dom, elem_of_list_to_set, shards_ok.
      intros [->|[mj Hx]]; [done|]. now apply Hrc in Hx as [? _]. }
    rewrite size_union in Hle.
    2: { intros x Hx Hy. apply elem_of_singleton in Hx as ->. apply elem_of_dom in Hy as [y Hy]. congruence. }
    rewrite size_singleton, size_dom, size_list_to_set in Hle by apply shards_nodup.
    unfold shards in Hle. rewrite fmap_length, seq_length in Hle. lia. }
  assert (Hreq : forall j, n_req n j = []).
  { intros j. destruct (k_one _ _ K j) as [(H & _ & H2)|[(m' & H & _)|[(H & _)|(m' & H & _)]]]; try done. exfalso.
    destruct (i_req _ _ _ C j QGet KGet) as (_ & Hj & _); [rewrite H; left|].
    destruct (Hfull j Hj) as (mj & Hmj). unfold rc in Hmj. apply lookup_insert_Some in Hmj as [[<- _]|[_ Hmj]]; congruence. }
  assert (Hrsp : forall j, upd (n_rsp n) i [] j = []).
  { intros j. destruct (decide (j = i)) as [->|Hji]; [now rewrite upd_eq|]. rewrite upd_ne by done.
    destruct (k_one _ _ K j) as [(_ & H & _)|[(m' & _ & H & H2 & _)|[(_ & H & _)|(m' & _ & H & _)]]]; try done. exfalso.
    destruct (i_rsp _ _ _ C j (KGet, PTickets m')) as (_ & Hj & _); [rewrite H; left|].
    destruct (Hfull j Hj) as (mj & Hmj). unfold rc in Hmj. apply lookup_insert_Some in Hmj as [[<- _]|[_ Hmj]]; congruence. }
  assert (Hset : (forall j q c, OSend j q c ∈ os -> q <> QGet) -> settled n').
  { intros Hq. constructor; unfold n'; cbn [n_req n_rsp].
    - intros j q c Hin. apply post_in in Hin as [Hin|Hin]; [rewrite Hreq in Hin; now apply elem_of_nil in Hin|eapply Hq, Hin].
    - intros j x. rewrite Hrsp. intros H. now apply elem_of_nil in H. }
  rewrite (k_tk _ _ K) in E. pose proof (merge_ok rc) as M. set (tk := merge ∅ rc) in *.
  (* a ticket as it was *)
  assert (Hold : forall t, own t = true ->
     (forall j, base (w_c (nvw n g t) j)) /\
     ((g_ph g !! t = None /\ never (nvw n g t)) \/ (g_ph g !! t = Some Orphan /\ (orph loc (nvw n g t) \/ gone loc (nvw n g t))))).
  { intros t Ho. destruct (i_t _ _ _ C t Ho) as [Hb H]. split; [done|]. cbn [w_bs w_ph nvw vw] in H.
    rewrite (k_tk _ _ K), lookup_empty in H. cbn in H.
    destruct (g_ph g !! t) as [ph|] eqn:Eph; [|auto]. rewrite (k_ph _ _ K t ph Eph) in *. right. split; [done|].
    destruct H as [[_ H]|H]; auto. }
  assert (Hout : forall t j, own t = true -> ~ j < nsh -> status_of (n_sh n j) t = Absent).
  { intros t j Ho Hj. destruct (Hold t Ho) as [Hb _]. destruct (Hb j) as (B1 & _). cbn in B1.
    destruct (status_of (n_sh n j) t); [done|exfalso; apply Hj..];
      apply (i_asked _ _ _ C t); eapply bool_decide_eq_true; apply B1; discriminate. }
  assert (Habs : forall t, own t = true -> tk !! t = None -> forall j, status_of (n_sh n j) t = Absent).
  { intros t Ho Ht j. destruct (decide (j < nsh)) as [Hj|Hj]; [|now apply Hout].
    destruct (Hfull j Hj) as (mj & Hmj). destruct (Hrc j mj Hmj) as [_ Hs]. specialize (Hs t).
    rewrite (merged_none tk _ t M) in Ht. specialize (Ht j). rewrite Hmj in Ht. cbn in Ht. rewrite Ht in Hs. auto. }
  set (b1 := Broker tk (b_high (n_b n)) ∅) in *.
  set (v := fun t => vw b1 (n_sh n) (n_req n) (upd (n_rsp n) i []) g t).
  assert (Hcells : forall t j, c_st (w_c (v t) j) = c_st (w_c (nvw n g t) j) /\ c_R (w_c (v t) j) = [] /\
     c_Q (w_c (v t) j) = [] /\ c_dn (w_c (v t) j) = c_dn (w_c (nvw n g t) j) /\ c_as (w_c (v t) j) = c_as (w_c (nvw n g t) j)).
  { intros t j. unfold v, vw. cbn. rewrite Hreq, Hrsp. done. }
  assert (Horph : forall t, orph loc (nvw n g t) -> orph loc (v t)).
  { intros t [O1 O2]. split.
    - intros j. destruct (Hcells t j) as (_ & -> & -> & _). split; [done|]. intros x H. now apply elem_of_nil in H.
    - exact O2. }
  assert (Hgn : forall t, gone loc (nvw n g t) -> gone loc (v t)).
  { intros t [O1 O2]. split; [|exact O2]. intros j. destruct (Hcells t j) as (-> & -> & _). split; [apply O1|].
    intros q H. now apply elem_of_nil in H. }
  assert (Hbase : forall t, own t = true -> forall j, base (w_c (v t) j)).
  { intros t Ho j. destruct (Hold t Ho) as [Hb _]. destruct (Hb j) as (B1 & B2 & B3). destruct (Hcells t j) as (E1 & E2 & E3 & E4 & E5).
    split; [|split]; rewrite ?E1, ?E2, ?E4, ?E5; try assumption. intros q H. now apply elem_of_nil in H. }
  assert (Hnv : forall t, never (nvw n g t) -> never (v t)).
  { intros t H j. cbn zeta. destruct (H j) as (H1 & H2 & H3 & H4 & H5). destruct (Hcells t j) as (-> & -> & -> & -> & ->).
    split; [done|]. split; [done|]. split; [intros x Hx; now apply elem_of_nil in Hx|done]. }
  assert (Hmiss : forall t, own t = true -> tk !! t = None -> tinv loc nsh true (v t)).
  { intros t Ho Ht. split; [now apply Hbase|]. unfold v at 1 2. cbn [w_bs w_ph vw b_tk b1]. rewrite Ht. cbn.
    destruct (Hold t Ho) as [_ [[-> H]|[-> H]]].
    - now apply Hnv.
    - right. destruct H as [H|H]; [|now apply Hgn]. apply orph_gone; [now apply Horph|].
      intros j. destruct (Hcells t j) as (-> & _). now apply (Habs t Ho Ht). }
  assert (Hfound : forall t x, tk !! t = Some x -> own t = true /\ found loc nsh (v t) x).
  { intros t x Hx. destruct (M t) as [M1 M2]. destruct (M2 x Hx) as [M3 M4].
    assert (Hsome : forall j s, bt_sh x !! j = Some s -> j < nsh /\ own t = true /\ ss_keys s = ∅ /\ found_as s (status_of (n_sh n j) t)).
    { intros j s Hj. specialize (M1 j). rewrite Hx in M1. cbn in M1. rewrite Hj in M1.
      destruct (rc !! j) as [mj|] eqn:Ej; [|discriminate]. cbn in M1. destruct (Hrc j mj Ej) as [Hjn Hs].
      specialize (Hs t). destruct (mj !! t) as [y|]; [|discriminate]. cbn in M1. injection M1 as ->.
      destruct Hs as [Ho Hs]. split; [done|]. split; [done|]. split; [done|]. unfold found_as. cbn. now destruct y. }
    destruct (map_choose _ M4) as (j0 & s0 & Hj0). destruct (Hsome j0 s0 Hj0) as (_ & Ho & _ & Hf0).
    assert (Hnab : status_of (n_sh n j0) t <> Absent).
    { intros Ha. rewrite Ha in Hf0. unfold found_as in Hf0. destruct (ss_state s0); try done. now destruct Hf0. }
    split; [done|]. destruct (Hold t Ho) as [Hb H].
    destruct H as [[_ H]|[Hph H]]; [exfalso; apply Hnab; apply (H j0)|].
    destruct H as [H|[H _]]; [|exfalso; apply Hnab; apply (H j0)].
    constructor.
    - now apply Hbase.
    - exact Hph.
    - now apply Horph.
    - intros j. unfold v, vw. cbn. now rewrite Hx.
    - exact M4.
    - intros j Hj. change (status_of (n_sh n j) t = Absent). destruct (decide (j < nsh)) as [Hjn|Hjn]; [|now apply Hout].
      specialize (M1 j). rewrite Hx in M1. cbn in M1. rewrite Hj in M1. destruct (Hfull j Hjn) as (mj & Hmj).
      rewrite Hmj in M1. cbn in M1. destruct (Hrc j mj Hmj) as [_ Hs]. specialize (Hs t).
      destruct (mj !! t); [discriminate|]. auto.
    - intros j s Hj. destruct (Hsome j s Hj) as (H1 & _ & H2 & H3). done. }
  assert (Hcore : (forall t, own t = true -> tinv loc nsh true (bmv (v t) (b_tk b' !! t) (sent t os))) ->
     (forall j q c, OSend j q c ∈ os -> exists t, breq_tn q = Some t /\ own t = true /\ fits q c /\ j < nsh) ->
     (forall t, is_Some (b_tk b' !! t) -> own t = true) -> core true n' g).
  { intros HT HS HO. destruct C as [C1 C2 C3 C4 C5 C6 C7 C8 C9]. constructor; auto; unfold n'; cbn [n_req n_rsp n_b n_sh].
    - intros j q c Hin. apply post_in in Hin as [Hin|Hin]; [rewrite Hreq in Hin; now apply elem_of_nil in Hin|].
      destruct (HS _ _ _ Hin) as (t & Ht & Ho & Hf & Hj). cbn in *. split; [done|]. split; [done|]. intros t'. congruence.
    - intros t Ho. unfold nvw. cbn. eapply (vw_note true _ _ _ _ g t _ (v t)); [done|done|done|]. now apply HT. }
  assert (Hsend : (forall j q c, OSend j q c ∈ os -> exists t, breq_tn q = Some t /\ own t = true /\ fits q c /\ j < nsh) ->
     settled n').
  { intros H. apply Hset. intros j q c Hin. apply H in Hin as (t & Ht & _). intros ->. discriminate. }
  case_bool_decide as Hte.
  - injection E as <- <-.
    assert (HS : forall j q c, OSend j q c ∈ [OCall Recovery ROk] -> exists t, breq_tn q = Some t /\ own t = true /\ fits q c /\ j < nsh).
    { intros j q c H. now apply elem_of_list_singleton in H. }
    split; [|split; [now apply Hsend|intros _; exact Hte]]. apply Hcore; [|exact HS|].
    + intros t Ho. apply bmv_same; [| |apply Hmiss; [done|]].
      * unfold v. apply (vw_has (Broker tk (b_high (n_b n)) rc)).
      * done.
      * rewrite Hte. apply lookup_empty.
    + cbn. rewrite Hte. intros t. rewrite lookup_empty. now intros [y ?].
  - destruct (recover_fold v ord down (map_to_list tk).*1 Hord b1 [] b' os) as (R1 & R2 & R3 & R4).
    + apply NoDup_fst_map_to_list.
    + intros t Ht. apply elem_of_list_fmap in Ht as ([t' x] & -> & Hx). apply elem_of_map_to_list in Hx.
      cbn [fst]. destruct (Hfound t' x Hx) as [Ho Hf]. split; [done|]. exists x. done.
    + intros t Ht Ho. apply bmv_same; [apply vw_has|done|]. apply Hmiss; [done|].
      destruct (tk !! t) as [x|] eqn:Ex; [|done]. exfalso. apply Ht. apply elem_of_list_fmap. exists (t, x).
      split; [done|]. now apply elem_of_map_to_list.
    + intros j q c H. now apply elem_of_nil in H.
    + intros t [x Hx]. now apply (Hfound t x).
    + intros H. now apply elem_of_nil in H.
    + exact E.
    + split; [now apply Hcore|]. split; [now apply Hsend|exact R4].
Qed.

Lemma inv_answer n g i c p r ord down :
  Inv n g -> an_order nsh ord -> n_rsp n i = (c, p) :: r ->
  let x := handle nsh (n_b n) i c p ord down in
  let n' := Net x.1 (n_sh n) (post (n_req n) x.2) (upd (n_rsp n) i r) (n_wait n) (n_next n) in
  let g' := note loc n g (AAnswer i ord down) (calls x.2) in
  Inv n' g' /\ (rok x.2 -> core true n' g' /\ b_tk x.1 = ∅).
Proof.
  intros (st & C & S) Hord Er x n' g'. unfold n', g', x. clear n' g' x.
  destruct (handle nsh (n_b n) i c p ord down) as [b' os] eqn:E. cbn [fst snd].
  set (n' := Net b' (n_sh n) (post (n_req n) os) (upd (n_rsp n) i r) (n_wait n) (n_next n)).
  (* a settled system *)
  assert (Hsettled : core true n g -> settled n -> g_mode g <> Fresh ->
     core true n' g /\ settled n' /\ (rok os -> b_tk b' = ∅)).
  { intros C' [S1 S2] _. destruct (cont_tn c) as [tn|] eqn:Hc.
    - destruct (handle_ok true n g i c p r ord down tn b' os C' Hord Er Hc E) as (A & T & R).
      split; [eapply handle_core; eauto|]. split; [|done]. eapply settled_acts; [|exact A|].
      + now constructor.
      + intros j y. destruct (decide (j = i)) as [->|Hj]; [rewrite upd_eq, Er; now right|now rewrite upd_ne].
    - exfalso. apply (S2 i (c, p)); [rewrite Er; left|]. now destruct c. }
  assert (Hfin : core true n' g /\ settled n' /\ (rok os -> b_tk b' = ∅) -> g_mode g <> Fresh ->
     Inv n' (note loc n g (AAnswer i ord down) (calls os)) /\
     (rok os -> core true n' (note loc n g (AAnswer i ord down) (calls os)) /\ b_tk b' = ∅)).
  { intros (C' & S' & R') Hm. destruct (note_answer n g i ord down (calls os)) as [[-> Hn]|[-> Hn]].
    - split; [|intros Hr; now apply rok_calls in Hr]. exists true. split; [done|]. unfold stage.
      destruct (g_mode g); auto. done.
    - split; [|intros Hr; split; [now apply core_mode|now apply R']]. exists true. split; [now apply core_mode|].
      unfold stage. cbn. done. }
  unfold stage in S. destruct (g_mode g) eqn:Em.
  - destruct S as (_ & _ & Hq). destruct (Hq i) as (_ & Hn & _). rewrite Er in Hn. discriminate.
  - destruct S as [[-> K]|[-> S]]; [|apply Hfin; [apply Hsettled|]; done].
    destruct (k_one _ _ K i) as [(_ & A & _)|[(m' & A1 & A2 & A3 & A4)|[(_ & A & _)|(m' & _ & A & _)]]];
      try (rewrite Er in A; discriminate).
    rewrite Er in A2. injection A2 as -> -> ->. cbn [handle] in E.
    destruct (get_core n g i m' ord down b' os C K Hord Er E) as [(C' & K' & Hnr)|H]; [|now apply Hfin].
    destruct (note_answer n g i ord down (calls os)) as [[-> Hn]|[-> Hn]]; [|exfalso; now apply Hnr, rok_calls].
    split; [|intros Hr; now apply Hnr in Hr]. exists false. split; [done|]. unfold stage. rewrite Em. left. done.
  - destruct S as [-> S]. apply Hfin; [apply Hsettled|]; done.
Qed.

(** ** Every execution *)

Lemma inv_init : Inv net0 memo0.
Proof.
  exists false. split.
  - constructor; cbn.
    + intros i. apply (started_inv ∅ ∅). split; [intros a b x y k H; rewrite lookup_empty in H; discriminate|].
      unfold recover, shard0. cbn [s_tk s_st]. rewrite bool_decide_eq_true_2 by done. cbn [negb andb].
      rewrite map_to_list_empty, fmap_empty, (left_id_L ∅ (∪)). done.
    + intros i t x. rewrite lookup_empty. discriminate.
    + intros i q c H. now apply elem_of_nil in H.
    + intros i x H. now apply elem_of_nil in H.
    + intros rid c. rewrite lookup_empty. discriminate.
    + intros t. rewrite lookup_empty. now intros [x ?].
    + intros t i. unfold asked. cbn. rewrite lookup_empty. set_solver.
    + intros t. rewrite lookup_empty. now intros [x ?].
    + intros t _. split.
      * intros i. unfold base. cbn. rewrite lookup_empty. split; [done|]. split; [|done].
        intros q H. now apply elem_of_nil in H.
      * cbn. rewrite !lookup_empty. cbn. intros i. cbn. rewrite lookup_empty. split; [done|]. split; [done|].
        split; [intros x H; now apply elem_of_nil in H|]. split; [done|]. unfold asked. cbn. rewrite lookup_empty.
        apply bool_decide_eq_false_2. set_solver.
  - unfold stage. cbn. split; [done|]. split; [|done]. constructor; cbn; auto.
    + intros t p. rewrite lookup_empty. discriminate.
    + intros i. right; right; left. done.
Qed.

Lemma inv_step n g a n' cs :
  Inv n g -> allowed nsh self own n g a -> n_step loc nsh self n a = Some (n', cs) -> Inv n' (note loc n g a cs).
Proof.
  intros I Ha E. destruct a; cbn [n_step] in E.
  - injection E as <- <-. destruct Ha as (H1 & H2 & H3). now apply inv_begin.
  - injection E as <- <-. now apply inv_lock.
  - injection E as <- <-. now apply inv_commit.
  - injection E as <- <-. now apply inv_rollback.
  - injection E as <- <-. now apply inv_finish.
  - injection E as <- <-. now apply inv_recover.
  - destruct (n_req n i) as [|[q c] r] eqn:Eq; [discriminate|].
    destruct (step (n_sh n i) _) as [[s' ev]| | |] eqn:Es; try discriminate. injection E as <- <-.
    now apply inv_shard.
  - destruct (n_rsp n i) as [|[c p] r] eqn:Er; [discriminate|]. injection E as <- <-.
    now apply (inv_answer n g i c p r ord down I Ha Er).
  - destruct (step (n_sh n i) o) as [[s' ev]| | |] eqn:Es; try discriminate. injection E as <- <-.
    now apply inv_other.
  - injection E as <- <-. now apply inv_crash.
Qed.

Lemma inv_reaches n g : reaches loc nsh self own n g -> Inv n g.
Proof. induction 1 as [|n g a n' cs R IH A E]; [apply inv_init|eapply inv_step; eauto]. Qed.
End Global.
