(** Executions of the PArSEC shard: recovery establishes the invariant, every request
    keeps it, and it relates the shard to the client's view. *)
From stdpp Require Import base option list gmap fin_maps fin_sets relations sorting.
From Coq Require Import NArith Lia.
From Verif Require Import Base ParsecShardModel ParsecShardSpec ParsecShardProofs ParsecShardSteps.
Open Scope N_scope.

(** ** Recovery *)

Definition rec_ticket (r : rticket) : ticket :=
  Ticket (if r_committed r then Committed else Prepared)
    (if r_committed r then ∅ else (fun _ => Write) <$> r_update r)
    ∅ (r_update r) (r_broker r) None.

Lemma recover_writers tn ks s :
  s_tk (fold_left (recover_writer tn) ks s) = s_tk s /\
  forall k, el (fold_left (recover_writer tn) ks s) k =
    Elem (e_val (el s k)) (if decide (k ∈ ks) then Some tn else e_writer (el s k))
      (e_readers (el s k)) (e_queue (el s k)).
Proof.
  revert s. induction ks as [|k r IH]; intros s; cbn [fold_left].
  - split; [done|]. intros k. rewrite decide_False by set_solver. now destruct (el s k).
  - destruct (IH (recover_writer tn s k)) as [A B]. split; [exact A|].
    intros k'. rewrite B. unfold recover_writer. rewrite el_set_el.
    destruct (decide (k' = k)) as [->|Hn].
    + cbn. rewrite (decide_True _ _ (elem_of_list_here k r)). now destruct (decide (k ∈ r)).
    + destruct (decide (k' ∈ r)) as [Hr|Hr].
      * now rewrite decide_True by (now right).
      * rewrite decide_False; [done|]. rewrite elem_of_cons. tauto.
Qed.

Lemma recover_fold l : forall s,
  NoDup (l.*1) -> (forall tn, tn ∈ l.*1 -> s_tk s !! tn = None) ->
  (forall tn, s_tk (fold_left recover_ticket l s) !! tn =
     match list_to_map (M:=gmap ticket_no rticket) l !! tn with
     | Some r => Some (rec_ticket r)
     | None => s_tk s !! tn
     end) /\
  (forall k, exists w, el (fold_left recover_ticket l s) k =
       Elem (e_val (el s k)) w (e_readers (el s k)) (e_queue (el s k)) /\
     ((exists tn r, (tn, r) ∈ l /\ r_committed r = false /\ is_Some (r_update r !! k) /\ w = Some tn) \/
      ((forall tn r, (tn, r) ∈ l -> r_committed r = false -> ~ is_Some (r_update r !! k)) /\
       w = e_writer (el s k)))).
Proof.
  induction l as [|[tn r] l IH]; intros s Hnd Hfresh; cbn [fold_left].
  - split.
    + intros tn. cbn. now rewrite lookup_empty.
    + intros k. exists (e_writer (el s k)). split; [now destruct (el s k)|].
      right. split; [|done]. intros tn r H. now apply elem_of_nil in H.
  - cbn in Hnd. apply NoDup_cons in Hnd as [Htn Hnd].
    set (s1 := recover_ticket s (tn, r)).
    assert (Htk1 : s_tk s1 = <[tn := rec_ticket r]> (s_tk s)).
    { unfold s1, recover_ticket. cbn.
      destruct (r_committed r) eqn:Ec.
      - rewrite Hfresh by left. unfold rec_ticket. now rewrite Ec.
      - destruct (recover_writers tn (elements (dom (r_update r))) s) as [A _].
        rewrite A, Hfresh by left. unfold rec_ticket. now rewrite Ec. }
    assert (Hel1 : forall k, el s1 k = Elem (e_val (el s k))
        (if decide (r_committed r = false /\ is_Some (r_update r !! k)) then Some tn else e_writer (el s k))
        (e_readers (el s k)) (e_queue (el s k))).
    { intros k. unfold s1, recover_ticket. cbn. unfold el at 1. cbn.
      destruct (r_committed r) eqn:Ec.
      - rewrite decide_False by (intros [[=] _]). fold (el s k). now destruct (el s k).
      - destruct (recover_writers tn (elements (dom (r_update r))) s) as [_ B].
        specialize (B k). unfold el at 1 in B. rewrite B. f_equal.
        destruct (decide (k ∈ elements (dom (r_update r)))) as [Hk|Hk].
        + rewrite decide_True; [done|]. split; [done|]. now apply elem_of_dom, elem_of_elements.
        + rewrite decide_False; [done|]. intros [_ C]. apply Hk.
          now apply elem_of_elements, elem_of_dom. }
    clearbody s1. destruct (IH s1 Hnd) as [A B].
    { intros a Ha. rewrite Htk1, lookup_insert_ne by congruence. apply Hfresh. now right. }
    split.
    + intros a. rewrite A. cbn [list_to_map]. cbn. destruct (decide (a = tn)) as [->|Hn].
      * rewrite not_elem_of_list_to_map_1 by exact Htn.
        now rewrite Htk1, !lookup_insert.
      * rewrite lookup_insert_ne by congruence.
        destruct (list_to_map l !! a); [done|]. now rewrite Htk1, lookup_insert_ne by congruence.
    + intros k. destruct (B k) as (w & Ew & Hw). exists w. rewrite Hel1 in Ew. cbn in Ew.
      split; [exact Ew|]. destruct Hw as [(a & ra & Ha & Hr)|[Hno ->]].
      * left. exists a, ra. split; [now right|exact Hr].
      * rewrite Hel1. cbn. destruct (decide (r_committed r = false /\ is_Some (r_update r !! k))) as [[Hc Hu]|Hd].
        -- left. exists tn, r. split; [left|auto].
        -- right. split; [|done]. intros a ra [[= -> ->]|Ha]%elem_of_cons Hc Hu; [tauto|].
           apply (Hno a ra Ha Hc Hu).
Qed.

Lemma started_spec state ts s :
  started state ts s ->
  (forall tn, s_tk s !! tn = rec_ticket <$> ts !! tn) /\
  (forall k, e_val (el s k) = lookup_store state k /\ e_readers (el s k) = ∅ /\ e_queue (el s k) = [] /\
     forall tn, e_writer (el s k) = Some tn <->
       exists r, ts !! tn = Some r /\ r_committed r = false /\ is_Some (r_update r !! k)).
Proof.
  intros [Hd E]. unfold recover in E. cbn in E.
  rewrite (bool_decide_eq_true_2 (∅ = ∅)) in E by done. cbn in E. injection E as <-.
  set (s0 := Shard _ ∅).
  assert (Hel0 : forall k, el s0 k = Elem (lookup_store state k) None ∅ []).
  { intros k. unfold el, s0, lookup_store. cbn.
    rewrite map_empty_union, lookup_fmap. now destruct (state !! k). }
  destruct (recover_fold (map_to_list ts) s0) as [A B].
  { apply NoDup_fst_map_to_list. }
  { intros tn _. apply lookup_empty. }
  split.
  - intros tn. rewrite A, list_to_map_to_list. destruct (ts !! tn); [done|]. apply lookup_empty.
  - intros k. destruct (B k) as (w & Ew & Hw). rewrite Ew, Hel0. cbn.
    split; [done|]. split; [done|]. split; [done|]. intros tn.
    destruct Hw as [(a & ra & Ha & Hc & Hu & ->)|[Hno ->]].
    + apply elem_of_map_to_list in Ha. split.
      * intros [= <-]. eauto.
      * intros (r & Hr & Hc' & Hu'). destruct (decide (a = tn)) as [->|Hn]; [done|].
        exfalso. apply (Hd a tn ra r k); assumption.
    + rewrite Hel0. cbn. split; [discriminate|]. intros (r & Hr & Hc & Hu).
      exfalso. apply (Hno tn r); [|exact Hc|exact Hu]. now apply elem_of_map_to_list.
Qed.

Lemma started_inv state ts s : started state ts s -> inv s.
Proof.
  intros H. destruct (started_spec state ts s H) as [Htk Hel].
  assert (Hq : forall k, e_queue (el s k) = []) by (intros; apply Hel).
  assert (Hh : forall tn k m, held s tn k = Some m <-> m = Write /\
             exists r, ts !! tn = Some r /\ r_committed r = false /\ is_Some (r_update r !! k)).
  { intros tn k m. unfold held. rewrite Htk. destruct (ts !! tn) as [r|]; cbn.
    - destruct (r_committed r) eqn:Ec.
      + rewrite lookup_empty. split; [discriminate|]. intros (_ & r' & [= <-] & C & _). congruence.
      + rewrite lookup_fmap. destruct (r_update r !! k) as [v|] eqn:Ev; cbn.
        * split; [intros [= <-]; split; eauto|now intros [-> _]].
        * split; [discriminate|]. intros (_ & r' & [= <-] & _ & C). rewrite Ev in C. destruct C; discriminate.
    - split; [discriminate|]. intros (_ & r' & [=] & _). }
  constructor.
  - intros k tn. destruct (Hel k) as (_ & _ & _ & ->). rewrite Hh. tauto.
  - intros k tn. destruct (Hel k) as (_ & -> & _). rewrite Hh. split; [set_solver|intros [[=] _]].
  - intros k tn. unfold qtns. rewrite Hq. cbn. unfold queued. rewrite Htk.
    split; [intros C; now apply elem_of_nil in C|].
    intros (t & Ht & C). destruct (ts !! tn); [|discriminate]. injection Ht as <-. cbn in C. set_solver.
  - intros k. unfold qtns. rewrite Hq. constructor.
  - intros k. destruct (Hel k) as (_ & -> & _). now right.
  - intros tn t. rewrite Htk. destruct (ts !! tn); [|discriminate]. now intros [= <-].
  - intros tn t. rewrite Htk. destruct (ts !! tn) as [r|]; [|discriminate]. intros [= <-]. cbn.
    destruct (r_committed r); [done|]. intros [|]; discriminate.
  - intros k x h m Hx. rewrite Hq in Hx. now apply elem_of_nil in Hx.
  - intros k x m Hx. rewrite Hq in Hx. now apply elem_of_nil in Hx.
  - intros k x q _ Hx. rewrite Hq in Hx. discriminate.
  - intros tn t k v _. rewrite Htk. destruct (ts !! tn) as [r|]; [|discriminate]. intros [= <-]. cbn.
    destruct (r_committed r); [discriminate|]. intros _ Hv. rewrite lookup_fmap, Hv. done.
Qed.

Lemma run_inv os : forall s s' tr, inv s -> run s os = Done (s', tr) -> inv s'.
Proof.
  induction os as [|o r IH]; intros s s' tr H; cbn [run].
  - now intros [= <- <-].
  - destruct (step_inv s o H) as [(s1 & ev & -> & H1)|[-> _]]; [|discriminate].
    cbn [bind]. destruct (run s1 r) as [[s2 tr2]| | |] eqn:E; try discriminate.
    cbn. intros [= <- <-]. eapply IH; eassumption.
Qed.

Lemma reachable_inv s : reachable s -> inv s.
Proof.
  intros (state & ts & os & tr & s0 & H0 & Hr). eapply run_inv; [|exact Hr].
  eapply started_inv; exact H0.
Qed.

(** ** Requests and answers *)

Definition pend (s : shard) (rid : N) : Prop := exists k x, x ∈ e_queue (el s k) /\ q_rid x = rid.

Lemma moves_pend s s' ev :
  moves s s' ev -> rid_inj s ->
  rid_inj s' /\ NoDup (ev_rids ev) /\
  (forall rid, rid ∈ ev_rids ev \/ pend s' rid <-> pend s rid) /\
  (forall rid, rid ∈ ev_rids ev -> ~ pend s' rid).
Proof.
  intros H Hi. split; [eapply moves_inj; eassumption|]. split; [now apply (m_nodup _ _ _ H)|].
  split.
  - intros rid. split.
    + intros [[a Ha]%elem_of_ev_rids|(k & x & Hx & E)].
      * destruct (m_ev _ _ _ H _ Ha) as (k & x & b & Hx & _ & [= -> _]). exists k, x. auto.
      * exists k, x. split; [|exact E]. apply (m_sub _ _ _ H), Hx.
    + intros (k & x & Hx & E). destruct (m_out _ _ _ H k x Hx) as [Hx'|[a Ha]].
      * right. exists k, x. auto.
      * left. apply elem_of_ev_rids. exists a. now rewrite <- E.
  - intros rid [a Ha]%elem_of_ev_rids (k & x & Hx & E).
    destruct (m_ev _ _ _ H _ Ha) as (k' & x' & b & Hx' & Hn & [= E' _]).
    destruct (Hi k k' x x') as [-> ->]; [apply (m_sub _ _ _ H), Hx|exact Hx'|congruence|contradiction].
Qed.

Lemma enqueue_queue s rid tn b k m t :
  inv s -> s_tk s !! tn = Some t -> k ∉ t_queued t ->
  forall k' x, x ∈ e_queue (el (enqueue s rid tn b k m t) k') <->
    (k' = k /\ x = QEnt tn m rid) \/ x ∈ e_queue (el s k').
Proof.
  intros H Ht Hkq k' x.
  unfold enqueue. rewrite el_set_tk, el_set_el. destruct (decide (k' = k)) as [->|Hn].
  - cbn [e_queue]. rewrite elem_of_emplace; [| apply (i_sorted _ _ _ _ H) |].
    + split; [intros [|]; auto|intros [[_ ?]|?]; auto].
    + cbn. intros C. apply (i_q _ _ _ _ H) in C as (t' & Ht' & C). congruence.
  - tauto.
Qed.

Definition op_fresh (s : shard) (o : op) : Prop := forall rid, rid ∈ op_rids o -> ~ pend s rid.

Lemma pend_set_tk s tn t rid : pend (set_tk s tn t) rid <-> pend s rid.
Proof. reflexivity. Qed.

Lemma ev_rids_reply ev r : ev_rids (ev ++ [EReply r]) = ev_rids ev.
Proof. rewrite ev_rids_app. cbn. apply app_nil_r. Qed.

Lemma step_answers s o s' ev :
  inv s -> rid_inj s -> op_fresh s o -> step s o = Done (s', ev) ->
  rid_inj s' /\ NoDup (ev_rids ev) /\
  (forall rid, rid ∈ ev_rids ev \/ pend s' rid <-> pend s rid \/ rid ∈ op_rids o) /\
  (forall rid, rid ∈ ev_rids ev -> ~ pend s' rid).
Proof.
  intros H Hi Hf E.
  assert (Hsame : forall r, ev = [EReply r] -> (forall k, e_queue (el s' k) = e_queue (el s k)) ->
     op_rids o = [] ->
    rid_inj s' /\ NoDup (ev_rids ev) /\
    (forall rid, rid ∈ ev_rids ev \/ pend s' rid <-> pend s rid \/ rid ∈ op_rids o) /\
    (forall rid, rid ∈ ev_rids ev -> ~ pend s' rid)).
  { intros r -> Hq Ho. rewrite Ho. cbn. split; [|split; [constructor|]].
    - intros k k' x x'. rewrite !Hq. apply Hi.
    - unfold pend. setoid_rewrite Hq. split; [|intros rid C; now apply elem_of_nil in C].
      intros rid. rewrite elem_of_nil. tauto. }
  destruct o as [rid tn b k m first|tn b upd|tn|tn|tn|b]; cbn [step] in E.
  - pose proof (try_lock_outcome s rid tn b k m first H) as Ho. rewrite E in Ho.
    inversion Ho as [|Hn|t e d Ht Hc|f s0 t s1 ev1 Ht0 Hst Hs0 Hh Hk H0 H1 Hs]; subst.
    + cbn. split; [exact Hi|]. split; [apply NoDup_singleton|]. split.
      * intros r. tauto.
      * intros r Hr. rewrite elem_of_list_singleton in Hr. subst r. apply Hf. left.
    + cbn. split; [exact Hi|]. split; [apply NoDup_singleton|]. split.
      * intros r. tauto.
      * intros r Hr. rewrite elem_of_list_singleton in Hr. subst r. apply Hf. left.
    + assert (Hq0 : forall k, el s0 k = el s k).
      { destruct Hs0 as [[_ ->]|(_ & _ & _ & ->)]; reflexivity. }
      pose proof (enqueue_queue s0 rid tn b k m t H0 Ht0 Hk) as Hq.
      assert (Hi2 : rid_inj (enqueue s0 rid tn b k m t)).
      { intros k1 k2 x1 x2 Hx1 Hx2 Er. apply Hq in Hx1, Hx2. rewrite Hq0 in Hx1, Hx2.
        destruct Hx1 as [[-> ->]|Hx1], Hx2 as [[-> ->]|Hx2]; auto.
        - exfalso. apply (Hf rid); [left|]. exists k2, x2. auto.
        - exfalso. apply (Hf rid); [left|]. exists k1, x1. auto. }
      destruct (moves_pend _ _ _ (v_moves _ _ _ _ Hs) Hi2) as (A & B & C & D).
      split; [exact A|]. split; [exact B|]. split; [|exact D].
      intros r. rewrite C. cbn. rewrite elem_of_list_singleton. unfold pend. setoid_rewrite Hq.
      setoid_rewrite Hq0. split.
      * intros (k' & x & [[-> ->]|Hx] & Er); [now right|left; eauto].
      * intros [(k' & x & Hx & Er)| ->]; [eauto|]. exists k, (QEnt tn m rid). auto.
  - pose proof (prepare_outcome_ok s tn upd H) as Ho. rewrite E in Ho.
    inversion Ho; subst; (eapply Hsame; [reflexivity|reflexivity|reflexivity]).
  - pose proof (commit_outcome_ok s tn H) as Ho. rewrite E in Ho.
    inversion Ho as [|t s1 s2 ev1 Ht Hst Htk Hel H1 H2 Ht2 Hs]; subst.
    + eapply Hsame; reflexivity.
    + assert (Hi1 : rid_inj s1).
      { intros k k' x x'. rewrite !Hel. apply Hi. }
      destruct (moves_pend _ _ _ (v_moves _ _ _ _ Hs) Hi1) as (A & B & C & D).
      rewrite ev_rids_reply.
      split; [exact A|]. split; [exact B|]. split; [|exact D].
      intros r. rewrite C. cbn. rewrite elem_of_nil. unfold pend. setoid_rewrite Hel. cbn. tauto.
  - pose proof (rollback_outcome_ok s tn H) as Ho. rewrite E in Ho.
    inversion Ho as [|t s1 ev1 Ht Hi1 Hs Hh]; subst.
    + eapply Hsame; reflexivity.
    + destruct (moves_pend _ _ _ (v_moves _ _ _ _ Hs) Hi) as (A & B & C & D).
      rewrite ev_rids_reply.
      split; [exact A|]. split; [exact B|]. split; [|exact D].
      intros r. change (pend (Shard (s_st s1) (delete tn (s_tk s1))) r) with (pend s1 r).
      rewrite C. cbn. rewrite elem_of_nil. tauto.
  - pose proof (finish_outcome_ok s tn H) as Ho. rewrite E in Ho.
    inversion Ho; subst; (eapply Hsame; [reflexivity|reflexivity|reflexivity]).
  - unfold get_tickets in E. injection E as <- <-. cbn.
    split; [exact Hi|]. split; [constructor|]. split.
    + intros r. rewrite elem_of_nil. tauto.
    + intros r C. now apply elem_of_nil in C.
Qed.

Lemma run_answers os : forall s s' tr,
  inv s -> rid_inj s -> (forall rid, rid ∈ issued os -> ~ pend s rid) -> NoDup (issued os) ->
  run s os = Done (s', tr) ->
  rid_inj s' /\ NoDup (answered tr) /\
  (forall rid, rid ∈ answered tr \/ pend s' rid <-> pend s rid \/ rid ∈ issued os) /\
  (forall rid, rid ∈ answered tr -> ~ pend s' rid).
Proof.
  induction os as [|o r IH]; intros s s' tr H Hi Hf Hnd; cbn [run].
  - intros [= <- <-]. cbn. split; [exact Hi|]. split; [constructor|]. split.
    + intros rid. rewrite elem_of_nil. tauto.
    + intros rid C. now apply elem_of_nil in C.
  - destruct (step s o) as [[s1 ev]| | |] eqn:E; try discriminate. cbn [bind].
    destruct (run s1 r) as [[s2 tr2]| | |] eqn:E2; try discriminate. cbn [bind]. intros [= <- <-].
    assert (Hiss : issued (o :: r) = op_rids o ++ issued r) by reflexivity.
    rewrite Hiss in Hf, Hnd. rewrite Hiss. apply NoDup_app in Hnd as (_ & Hdis & Hnd).
    destruct (step_answers s o s1 ev H Hi) as (A & B & C & D).
    { intros rid Hr. apply Hf. apply elem_of_app. now left. }
    { exact E. }
    assert (H1 : inv s1).
    { destruct (step_inv s o H) as [(x & y & Ex & Hx)|[Ex _]]; rewrite Ex in E; [|discriminate].
      now injection E as <- <-. }
    destruct (IH s1 s2 tr2 H1 A) as (A2 & B2 & C2 & D2); [|exact Hnd|exact E2|].
    { intros rid Hr Hp. assert (Hs1 : pend s rid \/ rid ∈ op_rids o) by (apply C; now right).
      destruct Hs1 as [Hs1|Hs1].
      - apply (Hf rid); [|exact Hs1]. apply elem_of_app. now right.
      - now apply (Hdis rid). }
    assert (Hans : answered ((o, ev) :: tr2) = ev_rids ev ++ answered tr2) by reflexivity.
    rewrite Hans. split; [exact A2|]. split; [|split].
    + apply NoDup_app. split; [exact B|]. split; [|exact B2].
      intros rid Hr Hr2. assert (Hp : pend s1 rid \/ rid ∈ issued r) by (apply C2; now left).
      destruct Hp as [Hp|Hp]; [now apply (D rid)|].
      assert (Hs : pend s rid \/ rid ∈ op_rids o) by (apply C; now left).
      destruct Hs as [Hs|Hs]; [|now apply (Hdis rid)].
      apply (Hf rid); [|exact Hs]. apply elem_of_app. now right.
    + intros rid. rewrite !elem_of_app. specialize (C rid). specialize (C2 rid). tauto.
    + intros rid. rewrite elem_of_app. intros [Hr|Hr] Hp; [|now apply (D2 rid)].
      assert (Hq : pend s1 rid \/ rid ∈ issued r) by (apply C2; now right).
      destruct Hq as [Hq|Hq]; [now apply (D rid)|].
      assert (Hs : pend s rid \/ rid ∈ op_rids o) by (apply C; now left).
      destruct Hs as [Hs|Hs]; [|now apply (Hdis rid)].
      apply (Hf rid); [|exact Hs]. apply elem_of_app. now right.
Qed.

(** ** The client's view *)

Record vinv (z : option ticket_no) (s : shard) (v : view) : Prop := {
  w_store : forall k, lookup_store (v_store v) k = e_val (el s k);
  w_req : forall k x, x ∈ e_queue (el s k) -> v_req v !! q_rid x = Some (q_tn x, k);
  w_got : forall tn k b, v_got v !! (tn, k) = Some b ->
      exists t, s_tk s !! tn = Some t /\
        (t_state t = Wounded \/ (is_Some (t_held t !! k) /\ b = e_val (el s k)));
  w_upd : forall tn t, z <> Some tn -> s_tk s !! tn = Some t -> t_state t = Prepared ->
      v_upd v !! tn = Some (t_update t)
}.

Lemma see_grants evs : forall v,
  v_req (fold_left see_grant evs v) = v_req v /\
  v_upd (fold_left see_grant evs v) = v_upd v /\
  v_store (fold_left see_grant evs v) = v_store v /\
  forall p b, v_got (fold_left see_grant evs v) !! p = Some b ->
    v_got v !! p = Some b \/ exists rid, ELock rid (Granted b) ∈ evs /\ v_req v !! rid = Some p.
Proof.
  induction evs as [|e r IH]; intros v; cbn [fold_left]; [auto|].
  destruct (IH (see_grant v e)) as (A & B & C & D).
  assert (Hr : v_req (see_grant v e) = v_req v).
  { destruct e as [rid [x|x]| |]; try reflexivity. cbn. now destruct (v_req v !! rid). }
  assert (Hu : v_upd (see_grant v e) = v_upd v).
  { destruct e as [rid [x|x]| |]; try reflexivity. cbn. now destruct (v_req v !! rid). }
  assert (Hs : v_store (see_grant v e) = v_store v).
  { destruct e as [rid [x|x]| |]; try reflexivity. cbn. now destruct (v_req v !! rid). }
  split; [congruence|]. split; [congruence|]. split; [congruence|].
  intros p b Hp. destruct (D p b Hp) as [Hg|(rid & He & Hq)].
  - destruct e as [rid [x|x]| |]; try (now left). cbn in Hg.
    destruct (v_req v !! rid) as [p'|] eqn:Eq; [|now left]. cbn in Hg.
    destruct (decide (p = p')) as [->|Hn].
    + rewrite lookup_insert in Hg. injection Hg as ->. right. exists rid. split; [left|done].
    + rewrite lookup_insert_ne in Hg by congruence. now left.
  - right. exists rid. split; [now right|congruence].
Qed.

Lemma fold_see_app evs evs' v :
  fold_left see_grant (evs ++ evs') v = fold_left see_grant evs' (fold_left see_grant evs v).
Proof. apply fold_left_app. Qed.

Lemma served_view P z s s' ev v :
  served P s s' ev -> vinv z s v ->
  (forall a t t', s_tk s !! a = Some t -> s_tk s' !! a = Some t' -> P a t t' ->
     (z = Some a \/ t_state t' <> Prepared) /\
     (t_state t' = Wounded \/ forall k, v_got v !! (a, k) = None)) ->
  vinv z s' (fold_left see_grant ev v).
Proof.
  intros Hs Hv HP. destruct (see_grants ev v) as (A & B & C & D). constructor.
  - intros k. rewrite C, (m_val _ _ _ (v_moves _ _ _ _ Hs)). apply (w_store _ _ _ Hv).
  - intros k x Hx. rewrite A. apply (w_req _ _ _ Hv), (m_sub _ _ _ (v_moves _ _ _ _ Hs)), Hx.
  - intros tn k b Hg. rewrite (m_val _ _ _ (v_moves _ _ _ _ Hs)).
    destruct (D _ _ Hg) as [Ho|(rid & He & Hq)].
    + destruct (w_got _ _ _ Hv tn k b Ho) as (t & Ht & Hc).
      destruct (v_tk _ _ _ _ Hs tn t Ht) as (t' & Ht' & Hk). exists t'. split; [done|].
      destruct Hk as [Hk|Hk].
      * destruct Hk as (Est & _ & _ & _ & Hh & _). rewrite Est.
        destruct Hc as [|[Hc ->]]; [now left|right]. auto.
      * destruct (HP tn t t' Ht Ht' Hk) as [_ [|Hno]]; [now left|]. rewrite Hno in Ho. discriminate.
    + destruct (v_grant _ _ _ _ Hs rid b He) as (k' & x & Hx & Er & Hval & Hh).
      pose proof (w_req _ _ _ Hv k' x Hx) as Hreq. rewrite Er, Hq in Hreq. injection Hreq as -> ->.
      destruct Hh as [m Hh]. apply held_holds in Hh as (t & Ht & Hh). exists t. split; [done|].
      right. split; [eauto|exact Hval].
  - intros tn t' Hz Ht' Hp. rewrite B.
    destruct (s_tk s !! tn) as [t|] eqn:Et.
    + destruct (v_tk _ _ _ _ Hs tn t Et) as (t2 & Ht2 & Hk). assert (t2 = t') as -> by congruence.
      destruct Hk as [(Est & Eu & _)|Hk].
      * rewrite Eu. apply (w_upd _ _ _ Hv tn t Hz Et). congruence.
      * destruct (HP tn t t' Et Ht' Hk) as [[|] _]; contradiction.
    + rewrite (v_none _ _ _ _ Hs tn Et) in Ht'. discriminate.
Qed.

Lemma lock_exclusive s k a b m :
  inv s -> held s a k = Some Write -> held s b k = Some m -> a = b.
Proof.
  intros H Ha Hb. apply (i_wr _ _ _ _ H) in Ha. destruct m.
  - apply (i_rd _ _ _ _ H) in Hb. destruct (i_excl _ _ _ _ H k) as [E|E]; [congruence|].
    rewrite E in Hb. set_solver.
  - apply (i_wr _ _ _ _ H) in Hb. congruence.
Qed.

Lemma succeeded_app ev : succeeded (ev ++ [EReply None]) = true.
Proof. unfold succeeded. rewrite existsb_app. cbn. apply orb_true_r. Qed.

Lemma forget_got tn v a k b :
  v_got (forget tn v) !! (a, k) = Some b <-> v_got v !! (a, k) = Some b /\ a <> tn.
Proof. unfold forget. cbn. rewrite map_filter_lookup_Some. cbn. tauto. Qed.

Lemma step_view s o s' ev v :
  inv s -> op_fresh s o -> vinv None s v -> step s o = Done (s', ev) -> vinv None s' (see v (o, ev)).
Proof.
  intros H Hf Hv E. unfold see. cbn [fst snd].
  destruct o as [rid tn b k m first|tn b upd|tn|tn|tn|b]; cbn [step] in E; cbn [see_op].
  - pose proof (try_lock_outcome s rid tn b k m first H) as Ho. rewrite E in Ho.
    set (v1 := View (<[rid := (tn, k)]> (v_req v)) (v_got v) (v_upd v) (v_store v)).
    assert (Hv1 : vinv None s v1).
    { destruct Hv. constructor; try assumption. intros k' x Hx. cbn.
      rewrite lookup_insert_ne; [now apply w_req0|]. intros ->. apply (Hf (q_rid x)); [left|].
      exists k', x. auto. }
    inversion Ho as [|Hn|t e d Ht Hc|f s0 t s1 ev1 Ht0 Hst Hs0 Hh Hk H0 H1 Hs]; subst.
    + exact Hv1.
    + exact Hv1.
    + eapply served_view; [exact Hs| |].
      * assert (Hv0 : vinv None s0 v1).
        { destruct Hs0 as [[_ ->]|(_ & Hn & -> & ->)]; [exact Hv1|].
          destruct Hv1. constructor; try assumption.
          - intros a k' x Hx. destruct (w_got0 a k' x Hx) as (t & Ht & Hc). exists t.
            split; [|exact Hc]. cbn. rewrite lookup_insert_ne; [done|]. congruence.
          - intros a t Hz. cbn. destruct (decide (a = tn)) as [->|Hne].
            + rewrite lookup_insert. now intros [= <-].
            + rewrite lookup_insert_ne by congruence. now apply w_upd0. }
        pose proof (enqueue_queue s0 rid tn b k m t H0 Ht0 Hk) as Hq.
        constructor.
        -- intros k'. rewrite (w_store _ _ _ Hv0). unfold enqueue. rewrite el_set_tk, el_set_el.
           now destruct (decide (k' = k)) as [->|].
        -- intros k' x [[-> ->]|Hx]%Hq; [apply lookup_insert|apply (w_req _ _ _ Hv0 _ _ Hx)].
        -- intros a k' x Hx. destruct (w_got _ _ _ Hv0 a k' x Hx) as (ta & Hta & Hc).
           assert (Hval : e_val (el (enqueue s0 rid tn b k m t) k') = e_val (el s0 k')).
           { unfold enqueue. rewrite el_set_tk, el_set_el. now destruct (decide (k' = k)) as [->|]. }
           rewrite Hval. unfold enqueue. cbn. destruct (decide (a = tn)) as [->|Hne].
           ++ rewrite lookup_insert. eexists. split; [done|]. assert (ta = t) as -> by congruence. exact Hc.
           ++ rewrite lookup_insert_ne by congruence. eauto.
        -- intros a ta Hz. unfold enqueue. cbn. destruct (decide (a = tn)) as [->|Hne].
           ++ rewrite lookup_insert. intros [= <-]. cbn. congruence.
           ++ rewrite lookup_insert_ne by congruence. now apply (w_upd _ _ _ Hv0).
      * intros a ta ta' _ _ (A & B & _). split; [right; congruence|now left].
  - pose proof (prepare_outcome_ok s tn upd H) as Ho. rewrite E in Ho.
    inversion Ho as [e d|t Ht Hst Hq Hh s1 Hi]; subst.
    + exact Hv.
    + cbn. destruct Hv. constructor; cbn; try assumption.
      * intros a k x Hx. destruct (w_got0 a k x Hx) as (ta & Hta & Hc).
        destruct (decide (a = tn)) as [->|Hne].
        -- rewrite lookup_insert. assert (ta = t) as -> by congruence. eexists. split; [done|].
           destruct Hc as [C|C]; [congruence|]. right. exact C.
        -- rewrite lookup_insert_ne by congruence. eauto.
      * intros a ta Hz. destruct (decide (a = tn)) as [->|Hne].
        -- rewrite !lookup_insert. now intros [= <-].
        -- rewrite !lookup_insert_ne by congruence. now apply w_upd0.
  - pose proof (commit_outcome_ok s tn H) as Ho. rewrite E in Ho.
    inversion Ho as [|t s1 s2 ev1 Ht Hst Htk Hel H1 H2 Ht2 Hs]; subst.
    + exact Hv.
    + rewrite succeeded_app, fold_see_app. cbn [fold_left see_grant].
      set (v1 := forget tn _).
      assert (Hu : v_upd v !! tn = Some (t_update t)).
      { apply (w_upd _ _ _ Hv); [discriminate|exact Ht|exact Hst]. }
      assert (Hv1 : vinv (Some tn) s1 v1).
      { constructor.
        - intros k. rewrite Hel. cbn. rewrite <- (w_store _ _ _ Hv k). unfold lookup_store.
          unfold v1, forget. cbn [v_store]. rewrite Hu. cbn [default].
          destruct (t_update t !! k) as [y|] eqn:Ey.
          + now rewrite (lookup_union_Some_l _ _ _ _ Ey).
          + now rewrite (lookup_union_r _ _ _ Ey).
        - intros k x. rewrite Hel. cbn. apply (w_req _ _ _ Hv).
        - intros a k b [Hb Hne]%forget_got. cbn in Hb.
          destruct (w_got _ _ _ Hv a k b Hb) as (ta & Hta & Hc). rewrite Htk.
          exists ta. split; [done|]. destruct Hc as [|[Hc ->]]; [now left|right].
          split; [exact Hc|]. rewrite Hel. cbn.
          destruct (t_update t !! k) as [x|] eqn:Eu; [|done]. exfalso.
          pose proof (i_upd _ _ _ _ H tn t k x) as Hw. destruct Hc as [ma Hma]. apply Hne. symmetry.
          apply (lock_exclusive s k tn a ma H).
          + rewrite (held_lookup _ _ _ _ Ht). apply Hw; [discriminate|exact Ht|exact Hst|exact Eu].
          + rewrite (held_lookup _ _ _ _ Hta). exact Hma.
        - intros a ta Hz. rewrite Htk. intros Hta Hp. unfold v1, forget. cbn.
          rewrite lookup_delete_ne by congruence. now apply (w_upd _ _ _ Hv). }
      pose proof (served_view _ (Some tn) s1 s' ev1 v1 Hs Hv1) as Hf2.
      assert (Hv2 : vinv (Some tn) s' (fold_left see_grant ev1 v1)).
      { apply Hf2. intros a ta ta' _ _ ->. split; [now left|]. right.
        intros k. destruct (v_got v1 !! (tn, k)) eqn:Eg; [|done].
        apply forget_got in Eg as [_ C]. contradiction. }
      destruct Hv2. constructor; try assumption.
      intros a ta _ Hta Hp. destruct (decide (a = tn)) as [->|Hne].
      * destruct Ht2 as (t2 & E2 & C). congruence.
      * apply w_upd0; [congruence|exact Hta|exact Hp].
  - pose proof (rollback_outcome_ok s tn H) as Ho. rewrite E in Ho.
    inversion Ho as [|t s1 ev1 Ht Hi1 Hs Hh]; subst.
    + exact Hv.
    + rewrite succeeded_app, fold_see_app. cbn [fold_left see_grant].
      assert (Hv1 : vinv (Some tn) s (forget tn v)).
      { destruct Hv. constructor; try assumption.
        - intros a k b [Hb Hne]%forget_got. now apply w_got0.
        - intros a ta Hz Hta Hp. unfold forget. cbn. rewrite lookup_delete_ne by congruence.
          apply w_upd0; [discriminate|exact Hta|exact Hp]. }
      assert (Hv2 : vinv (Some tn) s1 (fold_left see_grant ev1 (forget tn v))).
      { eapply served_view; [exact Hs|exact Hv1|]. intros a ta ta' _ _ ->. split; [now left|]. right.
        intros k. destruct (v_got (forget tn v) !! (tn, k)) eqn:Eg; [|done].
        apply forget_got in Eg as [_ C]. contradiction. }
      destruct Hv2. constructor; try assumption.
      * intros a k b Hb. destruct (w_got0 a k b Hb) as (ta & Hta & Hc). cbn.
        destruct (decide (a = tn)) as [->|Hne].
        -- exfalso. destruct (see_grants ev1 (forget tn v)) as (_ & _ & _ & D).
           destruct (D _ _ Hb) as [Hg|(rid & He & Hq)].
           ++ apply forget_got in Hg as [_ C]. contradiction.
           ++ destruct (v_grant _ _ _ _ Hs rid b He) as (k' & x & Hx & Er & Hval & Hh').
              pose proof (w_req _ _ _ Hv1 k' x Hx) as Hreq. rewrite Er, Hq in Hreq.
              injection Hreq as -> ->. rewrite Hh in Hh'. destruct Hh'; discriminate.
        -- rewrite lookup_delete_ne by congruence. eauto.
      * intros a ta _. cbn. destruct (decide (a = tn)) as [->|Hne].
        -- rewrite lookup_delete. discriminate.
        -- rewrite lookup_delete_ne by congruence. apply w_upd0. congruence.
  - pose proof (finish_outcome_ok s tn H) as Ho. rewrite E in Ho.
    inversion Ho as [|t Ht Hst Hi]; subst; cbn.
    + exact Hv.
    + destruct Hv. constructor; try assumption.
      * intros a k b Hb. destruct (w_got0 a k b Hb) as (ta & Hta & Hc). cbn.
        destruct (decide (a = tn)) as [->|Hne].
        -- exfalso. assert (ta = t) as -> by congruence. destruct Hc as [C|[C _]]; [congruence|].
           rewrite (i_nolock _ _ _ _ H _ _ Ht) in C by now right. rewrite lookup_empty in C. destruct C; discriminate.
        -- rewrite lookup_delete_ne by congruence. eauto.
      * intros a ta _. cbn. destruct (decide (a = tn)) as [->|Hne].
        -- rewrite lookup_delete. discriminate.
        -- rewrite lookup_delete_ne by congruence. apply w_upd0. congruence.
  - unfold get_tickets in E. injection E as <- <-. exact Hv.
Qed.

Lemma run_view os : forall s s' tr v,
  inv s -> rid_inj s -> (forall rid, rid ∈ issued os -> ~ pend s rid) -> NoDup (issued os) ->
  vinv None s v -> run s os = Done (s', tr) -> vinv None s' (view_of v tr).
Proof.
  induction os as [|o r IH]; intros s s' tr v H Hi Hf Hnd Hv; cbn [run].
  - now intros [= <- <-].
  - destruct (step s o) as [[s1 ev]| | |] eqn:E; try discriminate. cbn [bind].
    destruct (run s1 r) as [[s2 tr2]| | |] eqn:E2; try discriminate. cbn [bind]. intros [= <- <-].
    assert (Hiss : issued (o :: r) = op_rids o ++ issued r) by reflexivity.
    rewrite Hiss in Hf, Hnd. apply NoDup_app in Hnd as (_ & Hdis & Hnd).
    assert (Hfo : op_fresh s o).
    { intros rid Hr. apply Hf. apply elem_of_app. now left. }
    destruct (step_answers s o s1 ev H Hi Hfo E) as (A & B & C & D).
    assert (H1 : inv s1).
    { destruct (step_inv s o H) as [(x & y & Ex & Hx)|[Ex _]]; rewrite Ex in E; [|discriminate].
      now injection E as <- <-. }
    cbn [view_of fold_left]. eapply (IH s1); [exact H1|exact A| |exact Hnd| |exact E2].
    + intros rid Hr Hp. assert (Hs1 : pend s rid \/ rid ∈ op_rids o) by (apply C; now right).
      destruct Hs1 as [Hs1|Hs1].
      * apply (Hf rid); [|exact Hs1]. apply elem_of_app. now right.
      * now apply (Hdis rid).
    + now apply (step_view s o).
Qed.

Lemma started_view state ts s : started state ts s -> vinv None s (view0 state ts).
Proof.
  intros H. destruct (started_spec state ts s H) as [Htk Hel]. constructor.
  - intros k. symmetry. apply Hel.
  - intros k x Hx. destruct (Hel k) as (_ & _ & E & _). rewrite E in Hx. now apply elem_of_nil in Hx.
  - intros tn k b C. cbn in C. rewrite lookup_empty in C. discriminate.
  - intros tn t _. rewrite Htk. destruct (ts !! tn) as [r|] eqn:Er; [|discriminate].
    intros [= <-]. cbn. destruct (r_committed r) eqn:Ec; [discriminate|]. intros _.
    rewrite lookup_fmap_Some. exists r. split; [done|]. apply map_filter_lookup_Some. auto.
Qed.

Lemma started_queues state ts s : started state ts s -> rid_inj s /\ forall rid, ~ pend s rid.
Proof.
  intros H. destruct (started_spec state ts s H) as [Htk Hel]. split.
  - intros k k' x x' Hx. destruct (Hel k) as (_ & _ & E & _). rewrite E in Hx. now apply elem_of_nil in Hx.
  - intros rid (k & x & Hx & _). destruct (Hel k) as (_ & _ & E & _). rewrite E in Hx. now apply elem_of_nil in Hx.
Qed.
