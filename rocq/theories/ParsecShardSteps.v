(** What a step does to values, queues and tickets, and the preservation of the
    invariant by whole requests. *)
From stdpp Require Import base option list gmap fin_maps fin_sets relations sorting.
From Coq Require Import NArith Lia.
From Verif Require Import Base ParsecShardModel ParsecShardSpec ParsecShardProofs.
Open Scope N_scope.

Definition rid_inj (s : shard) : Prop :=
  forall k k' x x', x ∈ e_queue (el s k) -> x' ∈ e_queue (el s k') ->
    q_rid x = q_rid x' -> k = k' /\ x = x'.

(** Waiting requests only leave the queues, and leave them exactly by being
    answered; values stay. *)
Record moves (s s' : shard) (ev : list event) : Prop := {
  m_val : forall k, e_val (el s' k) = e_val (el s k);
  m_sub : forall k x, x ∈ e_queue (el s' k) -> x ∈ e_queue (el s k);
  m_ev : forall e, e ∈ ev -> exists k x a,
      x ∈ e_queue (el s k) /\ x ∉ e_queue (el s' k) /\ e = ELock (q_rid x) a;
  m_out : forall k x, x ∈ e_queue (el s k) ->
      x ∈ e_queue (el s' k) \/ exists a, ELock (q_rid x) a ∈ ev;
  m_nodup : rid_inj s -> NoDup (ev_rids ev)
}.

Lemma moves_refl s : moves s s [].
Proof.
  constructor; [done|done| |auto|constructor].
  intros e H. now apply elem_of_nil in H.
Qed.

Lemma moves_inj s s' ev : moves s s' ev -> rid_inj s -> rid_inj s'.
Proof.
  intros H Hi k k' x x' Hx Hx'. apply Hi; eapply m_sub; eassumption.
Qed.

Lemma elem_of_ev_rids rid ev : rid ∈ ev_rids ev <-> exists a, ELock rid a ∈ ev.
Proof.
  unfold ev_rids. rewrite elem_of_list_omap. split.
  - intros (e & He & E). destruct e as [r a| |]; try discriminate. injection E as ->. eauto.
  - intros (a & H). eexists. split; [exact H|reflexivity].
Qed.

Lemma ev_rids_app a b : ev_rids (a ++ b) = ev_rids a ++ ev_rids b.
Proof. apply omap_app. Qed.

Lemma moves_trans s s1 s2 ev1 ev2 :
  moves s s1 ev1 -> moves s1 s2 ev2 -> moves s s2 (ev1 ++ ev2).
Proof.
  intros H1 H2. constructor.
  - intros k. now rewrite (m_val _ _ _ H2), (m_val _ _ _ H1).
  - intros k x Hx. apply (m_sub _ _ _ H1), (m_sub _ _ _ H2), Hx.
  - intros e [He|He]%elem_of_app.
    + destruct (m_ev _ _ _ H1 e He) as (k & x & a & Hx & Hn & ->).
      exists k, x, a. split; [done|]. split; [|done]. intros C. apply Hn, (m_sub _ _ _ H2), C.
    + destruct (m_ev _ _ _ H2 e He) as (k & x & a & Hx & Hn & ->).
      exists k, x, a. split; [|done]. apply (m_sub _ _ _ H1), Hx.
  - intros k x Hx. destruct (m_out _ _ _ H1 k x Hx) as [Hx1|[a Ha]].
    + destruct (m_out _ _ _ H2 k x Hx1) as [Hx2|[a Ha]]; [now left|].
      right. exists a. apply elem_of_app. now right.
    + right. exists a. apply elem_of_app. now left.
  - intros Hi. rewrite ev_rids_app. apply NoDup_app.
    split; [apply (m_nodup _ _ _ H1 Hi)|].
    split; [|apply (m_nodup _ _ _ H2), (moves_inj _ _ _ H1 Hi)].
    intros rid [a Ha]%elem_of_ev_rids [b Hb]%elem_of_ev_rids.
    destruct (m_ev _ _ _ H1 _ Ha) as (k & x & a' & Hx & Hn & [= -> ->]).
    destruct (m_ev _ _ _ H2 _ Hb) as (k' & x' & b' & Hx' & Hn' & [= E ->]).
    destruct (Hi k k' x x' Hx (m_sub _ _ _ H1 _ _ Hx') E) as [<- <-]. contradiction.
Qed.

(** ** Granting *)

(** Tickets keep their state and locks (a read lock may become a write lock), and a
    grant tells the value of the key to a ticket that now holds its lock. *)
Definition keeps (t t' : ticket) : Prop :=
  t_state t' = t_state t /\ t_update t' = t_update t /\ t_broker t' = t_broker t /\
  t_details t' = t_details t /\ (forall k, is_Some (t_held t !! k) -> is_Some (t_held t' !! k)) /\
  t_queued t' ⊆ t_queued t /\ (t_queued t = ∅ -> t' = t).

Lemma keeps_refl t : keeps t t.
Proof. repeat (split; [done|]). done. Qed.
Lemma keeps_trans t t1 t2 : keeps t t1 -> keeps t1 t2 -> keeps t t2.
Proof.
  intros (A & B & C & D & E & F & G) (A' & B' & C' & D' & E' & F' & G').
  split; [congruence|]. split; [congruence|]. split; [congruence|]. split; [congruence|].
  split; [auto|]. split; [set_solver|]. intros Ht. specialize (G Ht). subst t1. auto.
Qed.

Record acquires (s s' : shard) (ev : list event) : Prop := {
  c_moves : moves s s' ev;
  c_tk : forall tn, option_Forall2 keeps (s_tk s !! tn) (s_tk s' !! tn);
  c_ev : forall e, e ∈ ev -> exists k x, x ∈ e_queue (el s k) /\
      e = ELock (q_rid x) (Granted (e_val (el s k))) /\ is_Some (held s' (q_tn x) k)
}.

Lemma acquires_refl s : acquires s s [].
Proof.
  constructor; [apply moves_refl| |].
  - intros tn. destruct (s_tk s !! tn); constructor. apply keeps_refl.
  - intros e H. now apply elem_of_nil in H.
Qed.

Lemma keeps_held s s' tn k :
  option_Forall2 keeps (s_tk s !! tn) (s_tk s' !! tn) ->
  is_Some (held s tn k) -> is_Some (held s' tn k).
Proof.
  unfold held. intros H. destruct H as [t t' (_ & _ & _ & _ & H & _)|]; cbn; [apply H|done].
Qed.

Lemma acquires_trans s s1 s2 ev1 ev2 :
  acquires s s1 ev1 -> acquires s1 s2 ev2 -> acquires s s2 (ev1 ++ ev2).
Proof.
  intros H1 H2. constructor.
  - eapply moves_trans; [apply (c_moves _ _ _ H1)|apply (c_moves _ _ _ H2)].
  - intros tn. pose proof (c_tk _ _ _ H1 tn) as A. pose proof (c_tk _ _ _ H2 tn) as B.
    destruct A as [t t1 A|].
    + inversion B as [? t2 B' |]; subst. constructor. eapply keeps_trans; eassumption.
    + inversion B; subst. constructor.
  - intros e [He|He]%elem_of_app.
    + destruct (c_ev _ _ _ H1 e He) as (k & x & Hx & -> & Hh).
      exists k, x. split; [done|]. split; [done|].
      eapply keeps_held; [apply (c_tk _ _ _ H2)|exact Hh].
    + destruct (c_ev _ _ _ H2 e He) as (k & x & Hx & -> & Hh).
      exists k, x. split; [apply (m_sub _ _ _ (c_moves _ _ _ H1)), Hx|].
      split; [|done]. now rewrite (m_val _ _ _ (c_moves _ _ _ H1)).
Qed.

Lemma grant_acquires K ex z s k x q wr rd :
  sinv K ex z s -> e_queue (el s k) = x :: q ->
  acquires s (grant s k x q wr rd) [ELock (q_rid x) (Granted (e_val (el s k)))].
Proof.
  intros H Eq.
  assert (Hxin : x ∈ e_queue (el s k)) by (rewrite Eq; left).
  destruct (proj1 (i_q _ _ _ _ H k (q_tn x)) (qtns_mem _ _ _ Hxin)) as (t & Ht & Hkq).
  assert (Hsrt := i_sorted _ _ _ _ H k). unfold qtns in Hsrt. rewrite Eq in Hsrt. cbn in Hsrt.
  apply StronglySorted_inv in Hsrt as [Hsrt Hlt]. rewrite Forall_forall in Hlt.
  assert (Hx' : ~ x ∈ q).
  { intros C. specialize (Hlt (q_tn x)). assert (q_tn x < q_tn x); [|lia].
    apply Hlt, elem_of_list_fmap. eauto. }
  assert (Hel : forall k', el (grant s k x q wr rd) k' = if decide (k' = k)
                 then Elem (e_val (el s k)) wr rd q else el s k').
  { intros k'. unfold grant. rewrite el_set_tk, el_set_el. reflexivity. }
  constructor; [constructor| |].
  - intros k'. rewrite Hel. destruct (decide (k' = k)) as [->|]; reflexivity.
  - intros k' y. rewrite Hel. destruct (decide (k' = k)) as [->|]; [|done].
    cbn. rewrite Eq. now right.
  - intros e He. apply elem_of_list_singleton in He as ->.
    exists k, x, (Granted (e_val (el s k))). split; [done|]. split; [|done].
    rewrite Hel, decide_True by done. exact Hx'.
  - intros k' y Hy. rewrite Hel. destruct (decide (k' = k)) as [->|]; [|now left].
    cbn. rewrite Eq in Hy. apply elem_of_cons in Hy as [->|Hy]; [|now left].
    right. eexists. left.
  - intros _. cbn. apply NoDup_singleton.
  - intros tn. unfold grant. cbn. rewrite (tkt_lookup _ _ _ Ht).
    destruct (decide (tn = q_tn x)) as [->|Hn].
    + rewrite lookup_insert, Ht. constructor. repeat (split; [reflexivity|]). cbn.
      split; [|split; [set_solver|set_solver]].
      intros k' Hk'. destruct (decide (k' = k)) as [->|Hk].
      * rewrite lookup_insert. eauto.
      * now rewrite lookup_insert_ne by congruence.
    + rewrite lookup_insert_ne by congruence.
      destruct (s_tk s !! tn); constructor. apply keeps_refl.
  - intros e He. apply elem_of_list_singleton in He as ->.
    exists k, x. split; [done|]. split; [done|].
    unfold held, grant. cbn. rewrite lookup_insert. cbn. rewrite lookup_insert. eauto.
Qed.

Lemma acquire_lock_inv K ex z s k s' ev b :
  sinv K ex z s -> k ∈ K -> acquire_lock s k = (s', ev, b) ->
  acquires s s' ev /\
  (if b then sinv K ex z s' /\ length (e_queue (el s k)) = S (length (e_queue (el s' k)))
   else sinv (K ∖ {[k]}) ex z s').
Proof.
  intros H HK E.
  destruct (acquire_cases s k) as [[E' Hb]|(x & q & Eq & Ew & Hc)].
  - rewrite E' in E. injection E as <- <- <-. split; [apply acquires_refl|].
    destruct H. constructor; try assumption.
    intros k' x q Hk' Eq. destruct (decide (k' = k)) as [->|Hn].
    + now apply (Hb x q).
    + apply (i_head k' x q); [set_solver|exact Eq].
  - destruct Hc as [(Em & E')|(Em & Hr & E')]; rewrite E' in E; injection E as <- <- <-.
    + split; [now apply (grant_acquires K ex z)|].
      split.
      * pose proof (grant_inv K ex z s k x q None (e_readers (el s k) ∪ {[q_tn x]}) H HK Eq) as G.
        rewrite Em in G. apply G. split; [done|]. left. auto.
      * unfold grant. rewrite el_set_tk, el_set_el, decide_True by done. cbn. now rewrite Eq.
    + split; [now apply (grant_acquires K ex z)|].
      pose proof (grant_inv K ex z s k x q (Some (q_tn x)) ∅ H HK Eq) as G.
      rewrite Em in G. apply G. split; [done|]. right. auto.
Qed.

Lemma acquire_key_inv K ex z k fuel s :
  sinv K ex z s -> k ∈ K -> (length (e_queue (el s k)) < fuel)%nat ->
  exists s' ev, acquire_key fuel s k = Done (s', ev) /\ acquires s s' ev /\
    sinv (K ∖ {[k]}) ex z s'.
Proof.
  revert s. induction fuel as [|f IH]; intros s H HK Hf; [lia|].
  cbn [acquire_key]. destruct (acquire_lock s k) as [[s1 ev1] b] eqn:E.
  destruct (acquire_lock_inv K ex z s k s1 ev1 b H HK E) as [Ha Hb].
  destruct b.
  - destruct Hb as [H1 Hl]. destruct (IH s1 H1 HK) as (s2 & ev2 & -> & Ha2 & H2); [lia|].
    exists s2, (ev1 ++ ev2). cbn. split; [done|]. split; [|exact H2].
    eapply acquires_trans; eassumption.
  - exists s1, ev1. auto.
Qed.

Lemma acquire_locks_inv ex z ks : forall K s,
  sinv K ex z s -> (forall k, k ∈ ks -> k ∈ K) -> NoDup ks ->
  exists s' ev, acquire_locks s ks = Done (s', ev) /\ acquires s s' ev /\
    sinv (K ∖ list_to_set ks) ex z s'.
Proof.
  induction ks as [|k r IH]; intros K s H Hin Hnd.
  - exists s, []. split; [done|]. split; [apply acquires_refl|].
    cbn. rewrite difference_empty_L. exact H.
  - apply NoDup_cons in Hnd as [Hk Hnd]. cbn [acquire_locks].
    destruct (acquire_key_inv K ex z k (S (length (e_queue (el s k)))) s H)
      as (s1 & ev1 & -> & Ha1 & H1); [apply Hin; left|lia|].
    cbn [bind].
    destruct (IH (K ∖ {[k]}) s1 H1) as (s2 & ev2 & -> & Ha2 & H2); [|exact Hnd|].
    { intros k' Hk'. apply elem_of_difference. split; [apply Hin; now right|].
      rewrite elem_of_singleton. congruence. }
    exists s2, (ev1 ++ ev2). cbn [bind]. split; [done|]. split; [eapply acquires_trans; eassumption|].
    cbn. now rewrite <- difference_difference_L.
Qed.

Lemma acquire_set_inv ex z (ks : gset key) K s :
  sinv K ex z s -> K ⊆ ks ->
  exists s' ev, acquire_locks s (elements ks) = Done (s', ev) /\ acquires s s' ev /\
    sinv ∅ ex z s'.
Proof.
  intros H Hs.
  destruct (acquire_locks_inv ex z (elements ks) ks s) as (s' & ev & E & Ha & Hi).
  - eapply sinv_weaken; eassumption.
  - intros k. now rewrite elem_of_elements.
  - apply NoDup_elements.
  - exists s', ev. split; [exact E|]. split; [exact Ha|].
    eapply sinv_weaken; [|exact Hi]. rewrite list_to_set_elements_L. set_solver.
Qed.

(** ** Releasing *)

Lemma release_moves K ex z s tn t d s' ev :
  sinv K ex z s -> s_tk s !! tn = Some t ->
  (forall k, el s' k = rel_elem tn (el s k)) ->
  Forall2 (fun k e => exists x, x ∈ e_queue (el s k) /\ q_tn x = tn /\
                        e = ELock (q_rid x) (Refused (ErWounded, d)))
    (elements (t_queued t)) ev ->
  moves s s' ev /\ (forall e, e ∈ ev -> exists rid, e = ELock rid (Refused (ErWounded, d))).
Proof.
  intros H Ht Hel Hev.
  assert (Hin : forall k x, x ∈ e_queue (el s' k) <-> x ∈ e_queue (el s k) /\ q_tn x <> tn).
  { intros k x. rewrite Hel. cbn. rewrite elem_of_list_filter. tauto. }
  split; [constructor|].
  - intros k. now rewrite Hel.
  - intros k x Hx. now apply Hin in Hx.
  - intros e He. apply elem_of_list_lookup in He as [i Hi].
    destruct (Forall2_lookup_r _ _ _ _ _ Hev Hi) as (k & _ & x & Hx & Hxt & ->).
    exists k, x, (Refused (ErWounded, d)). split; [done|]. split; [|done].
    rewrite Hin. tauto.
  - intros k x Hx. destruct (decide (q_tn x = tn)) as [E|E].
    + right. exists (Refused (ErWounded, d)).
      assert (Hk : k ∈ elements (t_queued t)).
      { apply elem_of_elements. assert (queued s tn k) as (t' & Ht' & Hk).
        { apply (i_q _ _ _ _ H). rewrite <- E. now apply qtns_mem. }
        congruence. }
      apply elem_of_list_lookup in Hk as [i Hi].
      destruct (Forall2_lookup_l _ _ _ _ _ Hev Hi) as (e & He & y & Hy & Hyt & ->).
      assert (y = x) as ->.
      { apply (queue_unique _ _ _ (i_sorted _ _ _ _ H k) Hy Hx). congruence. }
      apply elem_of_list_lookup. eauto.
    + left. now apply Hin.
  - intros Hi. clear Hin. pose proof (NoDup_elements (t_queued t)) as Hnd.
    revert Hnd Hev. generalize (elements (t_queued t)). intros ks Hnd Hev.
    induction Hev as [|k e ks ev (x & Hx & Hxt & ->) Hev IH]; [constructor|].
    apply NoDup_cons in Hnd as [Hk Hnd]. cbn. apply NoDup_cons. split; [|auto].
    intros [a Ha]%elem_of_ev_rids. apply elem_of_list_lookup in Ha as [i Hi'].
    destruct (Forall2_lookup_r _ _ _ _ _ Hev Hi') as (k' & Hk' & x' & Hx' & Hxt' & [= E ->]).
    destruct (Hi k k' x x' Hx Hx' E) as [-> ->].
    apply Hk. apply elem_of_list_lookup. eauto.
  - intros e He. apply elem_of_list_lookup in He as [i Hi].
    destruct (Forall2_lookup_r _ _ _ _ _ Hev Hi) as (k & _ & x & Hx & Hxt & ->). eauto.
Qed.

(** ** Wounding *)

Definition wounds (s s' : shard) (ev : list event) : Prop :=
  moves s s' ev /\
  (forall e, e ∈ ev -> exists rid d, e = ELock rid (Refused (ErWounded, d))).

Lemma wound_loop_inv ex z k tn bs : forall K s,
  sinv K ex z s -> z = None ->
  (forall b, b ∈ bs -> is_Some (s_tk s !! b)) ->
  (forall b, b ∈ bs -> b <> tn) ->
  exists s' ev ks, wound_loop s k bs tn = Done (s', ev, ks) /\
    sinv (K ∪ ks) ex z s' /\ wounds s s' ev /\
    (forall a t, s_tk s !! a = Some t -> exists t', s_tk s' !! a = Some t' /\
        (t' = t \/ (t_state t <> Prepared /\ t_state t' = Wounded /\ a ∈ bs))) /\
    (forall a, s_tk s !! a = None -> s_tk s' !! a = None) /\
    (forall b t', b ∈ bs -> s_tk s' !! b = Some t' -> t_state t' = Prepared \/ t_state t' = Wounded).
Proof.
  induction bs as [|b r IH]; intros K s H Hz Hex Hne; cbn [wound_loop].
  - exists s, [], ∅. split; [done|]. split; [now rewrite union_empty_r_L|].
    split; [split; [apply moves_refl|intros e He; now apply elem_of_nil in He]|].
    split; [eauto|]. split; [done|]. intros b t' Hb. now apply elem_of_nil in Hb.
  - destruct (Hex b) as [t Ht]; [left|].
    rewrite (tkt_lookup _ _ _ Ht).
    destruct (decide (t_state t = Prepared)) as [Ep|Ep].
    + rewrite Ep. assert (set_tk s b t = s) as ->.
      { unfold set_tk. rewrite insert_id by exact Ht. now destruct s. }
      destruct (IH K s H Hz) as (s' & ev & ks & -> & Hi & Hw & Htk & Hnone & Hb);
        [intros b' Hb'; apply Hex; now right|intros b' Hb'; apply Hne; now right|].
      exists s', ev, ks. split; [done|]. split; [done|]. split; [done|].
      split; [|split; [done|]].
      * intros a ta Ha. destruct (Htk a ta Ha) as (t' & Ht' & Hc). exists t'. split; [done|].
        destruct Hc as [|(A & B & C)]; [now left|right]. split; [done|]. split; [done|now right].
      * intros b' t' [->|Hb']%elem_of_cons Ht'; [|eauto].
        destruct (Htk b t Ht) as (t2 & Ht2 & [->|(C & _)]); [|congruence].
        left. congruence.
    + assert (Hstep : exists s1 ev1, release_locks (set_tk s b (Ticket Wounded (t_held t)
                 (t_queued t) (t_update t) (t_broker t) (Some (tn, k)))) b
               = Done (s1, ev1, t_queued t ∪ dom (t_held t)) /\
          s_tk s1 = <[b := Ticket Wounded ∅ ∅ (t_update t) (t_broker t) (Some (tn, k))]> (s_tk s) /\
          sinv (K ∪ (t_queued t ∪ dom (t_held t))) ex z s1 /\ wounds s s1 ev1).
      { destruct (release_locks_spec K ex z s b t H Ht Wounded (Some (tn, k)))
          as (s1 & ev1 & E & Etk & Eel & Eev).
        exists s1, ev1. split; [exact E|]. split; [exact Etk|]. split.
        - eapply release_inv; [exact H|exact Ht|exact Etk|exact Eel|left; discriminate].
        - destruct (release_moves K ex z s b t _ s1 ev1 H Ht Eel Eev) as [Hm Hr].
          split; [exact Hm|]. intros e He. destruct (Hr e He) as [rid ->]. eauto. }
      destruct Hstep as (s1 & ev1 & E1 & Etk & H1 & Hw1).
      destruct (IH _ s1 H1 Hz) as (s' & ev & ks & E2 & Hi & Hw & Htk & Hnone & Hb).
      { intros b' Hb'. rewrite Etk. destruct (decide (b' = b)) as [->|Hn].
        - rewrite lookup_insert. eauto.
        - rewrite lookup_insert_ne by congruence. apply Hex. now right. }
      { intros b' Hb'. apply Hne. now right. }
      exists s', (ev1 ++ ev), ((t_queued t ∪ dom (t_held t)) ∪ ks).
      split.
      { destruct (t_state t); try congruence; rewrite E1; cbn [bind]; rewrite E2; reflexivity. }
      split; [now rewrite (union_assoc_L K)|].
      split.
      { destruct Hw1 as [A B], Hw as [C D]. split; [eapply moves_trans; eassumption|].
        intros e [He|He]%elem_of_app; auto. }
      split; [|split].
      * intros a ta Ha. destruct (decide (a = b)) as [->|Hn].
        -- assert (ta = t) as -> by congruence.
           destruct (Htk b (Ticket Wounded ∅ ∅ (t_update t) (t_broker t) (Some (tn, k))))
             as (t' & Ht' & Hc); [rewrite Etk; apply lookup_insert|].
           exists t'. split; [done|]. right. split; [done|]. split; [|left].
           destruct Hc as [->|(_ & C & _)]; [done|exact C].
        -- destruct (Htk a ta) as (t' & Ht' & Hc); [now rewrite Etk, lookup_insert_ne by congruence|].
           exists t'. split; [done|].
           destruct Hc as [|(A & B & C)]; [now left|right]. split; [done|]. split; [done|now right].
      * intros a Ha. apply Hnone. rewrite Etk, lookup_insert_ne; [done|]. congruence.
      * intros b' t' [->|Hb']%elem_of_cons Ht'; [|eauto].
        destruct (Htk b (Ticket Wounded ∅ ∅ (t_update t) (t_broker t) (Some (tn, k))))
          as (t2 & Ht2 & Hc); [rewrite Etk; apply lookup_insert|].
        right. assert (t' = t2) as -> by congruence.
        destruct Hc as [->|(_ & C & _)]; [done|exact C].
Qed.

(** ** Whole requests *)

Definition inv (s : shard) : Prop := sinv ∅ None None s.

(** From [s] to [s'] requests are answered, tickets keep their locks or change as
    [P] says, and grants tell the value of the key. *)
Record served (P : ticket_no -> ticket -> ticket -> Prop) (s s' : shard) (ev : list event) : Prop := {
  v_moves : moves s s' ev;
  v_tk : forall a t, s_tk s !! a = Some t ->
      exists t', s_tk s' !! a = Some t' /\ (keeps t t' \/ P a t t');
  v_none : forall a, s_tk s !! a = None -> s_tk s' !! a = None;
  v_grant : forall rid v, ELock rid (Granted v) ∈ ev -> exists k x,
      x ∈ e_queue (el s k) /\ q_rid x = rid /\ v = e_val (el s k) /\
      is_Some (held s' (q_tn x) k);
  v_lock : forall e, e ∈ ev -> exists rid a, e = ELock rid a
}.

Lemma moves_perm s s' ev ev' : ev ≡ₚ ev' -> moves s s' ev -> moves s s' ev'.
Proof.
  intros E H. constructor.
  - apply (m_val _ _ _ H).
  - apply (m_sub _ _ _ H).
  - intros e He. rewrite <- E in He. apply (m_ev _ _ _ H e He).
  - intros k x Hx. destruct (m_out _ _ _ H k x Hx) as [|[a Ha]]; [now left|].
    right. exists a. now rewrite <- E.
  - intros Hi. assert (ev_rids ev' ≡ₚ ev_rids ev) as -> by (unfold ev_rids; now rewrite E).
    apply (m_nodup _ _ _ H Hi).
Qed.

(** [wound_tickets] after a request of [tn] was queued on [k]. *)
Lemma wound_tickets_inv s k tn bs :
  sinv {[k]} (Some (tn, k)) None s ->
  (forall b, b ∈ bs -> is_Some (s_tk s !! b)) ->
  (forall b, b ∈ bs -> tn < b) ->
  (forall b t, b ∈ bs -> s_tk s !! b = Some t -> t_state t <> Committed) ->
  (forall x h m, x ∈ e_queue (el s k) -> q_tn x = tn -> held s h k = Some m ->
     conflict m (q_mode x) -> h ∈ bs \/ h < tn \/ h = tn) ->
  exists s' ev, wound_tickets s k bs tn = Done (s', ev) /\ inv s' /\
    served (fun a t t' => t_state t <> Prepared /\ t_state t' = Wounded /\ tn < a /\ t_state t <> Committed) s s' ev.
Proof.
  intros H Hex Hlt Hnc Hcov. unfold wound_tickets.
  destruct (wound_loop_inv (Some (tn, k)) None k tn bs {[k]} s H eq_refl Hex)
    as (s1 & ev1 & ks & E1 & H1 & [Hm1 Hr1] & Htk1 & Hn1 & Hb1).
  { intros b Hb. specialize (Hlt b Hb). lia. }
  rewrite E1. cbn [bind].
  assert (H1' : sinv ({[k]} ∪ ks) None None s1).
  { pose proof H1 as H1c. destruct H1c. constructor; try assumption.
    intros k' x h m Hx Hh Hc _.
    destruct (decide (q_tn x = tn /\ k' = k)) as [[Ext ->]|Hno].
    - assert (Hh0 : held s h k = Some m).
      { unfold held in Hh |- *. destruct (s_tk s1 !! h) as [t1|] eqn:Et1; [|discriminate].
        cbn in Hh. destruct (s_tk s !! h) as [t|] eqn:Et.
        - destruct (Htk1 h t Et) as (t' & Ht' & Hc'). assert (t' = t1) as -> by congruence.
          destruct Hc' as [->|(_ & C & _)]; [exact Hh|].
          rewrite (i_nolock h t1 Et1) in Hh by now left. rewrite lookup_empty in Hh. discriminate.
        - rewrite (Hn1 h Et) in Et1. discriminate. }
      destruct (Hcov x h m) as [Hhb|Hhb].
      + apply (m_sub _ _ _ Hm1), Hx.
      + exact Ext.
      + exact Hh0.
      + exact Hc.
      + apply held_holds in Hh as (t1 & Et1 & Hh).
        destruct (Hb1 h t1 Hhb Et1) as [Hp|Hw].
        * left. exists t1. auto.
        * rewrite (i_nolock h t1 Et1) in Hh by now left. rewrite lookup_empty in Hh. discriminate.
      + right. rewrite Ext. exact Hhb.
    - apply (i_order k' x h m Hx Hh Hc). intros C. apply Hno. split; congruence. }
  destruct (acquire_set_inv None None (ks ∪ {[k]}) _ s1 H1') as (s2 & ev2 & E2 & Ha & H2);
    [set_solver|].
  rewrite E2. cbn [bind]. exists s2, (ev1 ++ ev2). split; [done|]. split; [exact H2|].
  constructor.
  - eapply moves_trans; [exact Hm1|apply (c_moves _ _ _ Ha)].
  - intros a t Ht. destruct (Htk1 a t Ht) as (t1 & Ht1 & Hc).
    pose proof (c_tk _ _ _ Ha a) as Hk. rewrite Ht1 in Hk.
    inversion Hk as [? t2 Hk' E3 E4|]; subst. exists t2. split; [done|].
    destruct Hc as [->|(A & B & C)]; [now left|right].
    split; [exact A|]. split; [|split; [now apply Hlt|exact (Hnc _ _ C Ht)]].
    destruct Hk' as (-> & _). exact B.
  - intros a Ha'. specialize (Hn1 a Ha'). pose proof (c_tk _ _ _ Ha a) as Hk.
    rewrite Hn1 in Hk. now inversion Hk.
  - intros rid v [He|He]%elem_of_app.
    + destruct (Hr1 _ He) as (r & d & [=]).
    + destruct (c_ev _ _ _ Ha _ He) as (k' & x & Hx & [= -> ->] & Hh).
      exists k', x. split; [apply (m_sub _ _ _ Hm1), Hx|]. split; [done|].
      split; [apply (m_val _ _ _ Hm1)|exact Hh].
  - intros e [He|He]%elem_of_app.
    + destruct (Hr1 _ He) as (r & d & ->). eauto.
    + destruct (c_ev _ _ _ Ha _ He) as (k' & x & Hx & -> & Hh). eauto.
Qed.

(** The state after a request is queued, before anything is wounded or granted. *)
Definition enqueue (s : shard) (rid : N) (tn : ticket_no) (broker : N) (k : key)
    (m : lock_type) (t : ticket) : shard :=
  set_tk (set_el s k (Elem (e_val (el s k)) (e_writer (el s k)) (e_readers (el s k))
                        (q_emplace (e_queue (el s k)) (QEnt tn m rid)))) tn
    (Ticket (t_state t) (t_held t) (t_queued t ∪ {[k]}) (t_update t) broker (t_details t)).

Lemma enqueue_inv s rid tn b k m t :
  inv s -> s_tk s !! tn = Some t -> t_state t = Begun ->
  (match t_held t !! k with Some h => lt_ge h m | None => false end) = false ->
  k ∉ t_queued t ->
  sinv {[k]} (Some (tn, k)) None (enqueue s rid tn b k m t) /\
  (forall k' x, x ∈ e_queue (el (enqueue s rid tn b k m t) k') <->
     (k' = k /\ x = QEnt tn m rid) \/ x ∈ e_queue (el s k')).
Proof.
  intros H Ht Hst Hheld Hkq. set (s' := enqueue s rid tn b k m t).
  assert (Hnq : ~ q_tn (QEnt tn m rid) ∈ q_tn <$> e_queue (el s k)).
  { cbn. intros C. apply (i_q _ _ _ _ H) in C as (t' & Ht' & C). congruence. }
  assert (Hsrt : forall k, StronglySorted N.lt (q_tn <$> e_queue (el s k))) by apply (i_sorted _ _ _ _ H).
  assert (Hel : forall k', el s' k' = if decide (k' = k)
     then Elem (e_val (el s k)) (e_writer (el s k)) (e_readers (el s k))
            (q_emplace (e_queue (el s k)) (QEnt tn m rid)) else el s k').
  { intros k'. unfold s', enqueue. now rewrite el_set_tk, el_set_el. }
  assert (Hw : forall k', e_writer (el s' k') = e_writer (el s k')).
  { intros k'. rewrite Hel. now destruct (decide (k' = k)) as [->|]. }
  assert (Hr : forall k', e_readers (el s' k') = e_readers (el s k')).
  { intros k'. rewrite Hel. now destruct (decide (k' = k)) as [->|]. }
  assert (Hq : forall k' x, x ∈ e_queue (el s' k') <->
     (k' = k /\ x = QEnt tn m rid) \/ x ∈ e_queue (el s k')).
  { intros k' x. rewrite Hel. destruct (decide (k' = k)) as [->|Hn].
    - cbn [e_queue]. rewrite elem_of_emplace; [|apply Hsrt|exact Hnq].
      split; [intros [|]; auto|intros [[_ ?]|?]; auto].
    - tauto. }
  assert (Hh : forall a k', held s' a k' = held s a k').
  { intros a k'. unfold s', enqueue. rewrite held_set_tk, held_set_el.
    destruct (decide (a = tn)) as [->|]; [|done]. cbn. now rewrite (held_lookup _ _ _ _ Ht). }
  assert (Hp : forall a st, in_state s a st -> in_state s' a st).
  { intros a st Ha. unfold s', enqueue. rewrite in_state_set_tk.
    destruct (decide (a = tn)) as [->|]; [|exact Ha].
    destruct Ha as (t' & Ht' & E). cbn. congruence. }
  split; [|exact Hq]. constructor.
  - intros k' a. rewrite Hw, Hh. apply (i_wr _ _ _ _ H).
  - intros k' a. rewrite Hr, Hh. apply (i_rd _ _ _ _ H).
  - intros k' a. unfold qtns. rewrite elem_of_list_fmap. setoid_rewrite Hq.
    unfold s', enqueue. rewrite queued_set_tk. cbn [t_queued].
    destruct (decide (a = tn)) as [->|Hn].
    + rewrite elem_of_union, elem_of_singleton. split.
      * intros (y & Ey & [[-> ->]|Hy]); [now right|left].
        assert (queued s tn k') as (t' & Ht' & Hk'); [|congruence].
        apply (i_q _ _ _ _ H). rewrite Ey. now apply qtns_mem.
      * intros [Hk'| ->].
        -- assert (queued s tn k') as Hqd by (exists t; auto).
           apply (i_q _ _ _ _ H), elem_of_list_fmap in Hqd as (y & Ey & Hy). exists y. auto.
        -- exists (QEnt tn m rid). split; [done|]. now left.
    + rewrite queued_set_el, <- (i_q _ _ _ _ H k' a). unfold qtns.
      rewrite elem_of_list_fmap. split.
      * intros (y & Ey & [[-> ->]|Hy]); [cbn in Ey; congruence|eauto].
      * intros (y & Ey & Hy). eauto.
  - intros k'. unfold qtns. rewrite Hel. destruct (decide (k' = k)) as [->|]; [|apply Hsrt].
    cbn [e_queue]. apply sorted_emplace; [apply Hsrt|exact Hnq].
  - intros k'. rewrite Hw, Hr. apply (i_excl _ _ _ _ H).
  - intros a t'. unfold s', enqueue. cbn. destruct (decide (a = tn)) as [->|].
    + rewrite lookup_insert. intros [= <-]. cbn. rewrite Hst. congruence.
    + rewrite lookup_insert_ne by congruence. apply (i_idle _ _ _ _ H).
  - intros a t'. unfold s', enqueue. cbn. destruct (decide (a = tn)) as [->|].
    + rewrite lookup_insert. intros [= <-]. cbn. rewrite Hst. intros [|]; discriminate.
    + rewrite lookup_insert_ne by congruence. apply (i_nolock _ _ _ _ H).
  - intros k' x h mh Hx Hm Hc Hex. rewrite Hh in Hm.
    apply Hq in Hx as [[-> ->]|Hx]; [now elim Hex|].
    destruct (i_order _ _ _ _ H k' x h mh Hx Hm Hc) as [|]; [discriminate|left; auto|now right].
  - intros k' x mh Hx Hm. rewrite Hh in Hm.
    apply Hq in Hx as [[-> ->]|Hx].
    + cbn in *. rewrite (held_lookup _ _ _ _ Ht) in Hm. rewrite Hm in Hheld.
      destruct mh, m; try discriminate. auto.
    + apply (i_up _ _ _ _ H k' x mh Hx Hm).
  - intros k' x q Hk' Eq. assert (k' <> k) by set_solver.
    rewrite Hel, decide_False in Eq |- * by done.
    apply (i_head _ _ _ _ H k' x q); [set_solver|exact Eq].
  - intros a t' k' v Hz. unfold s', enqueue. cbn. destruct (decide (a = tn)) as [->|].
    + rewrite lookup_insert. intros [= <-]. cbn. congruence.
    + rewrite lookup_insert_ne by congruence. apply (i_upd _ _ _ _ H); exact Hz.
Qed.

Lemma inv_new s tn b : inv s -> s_tk s !! tn = None ->
  inv (set_tk s tn (Ticket Begun ∅ ∅ ∅ b None)).
Proof.
  intros H Hn. set (s' := set_tk _ _ _).
  assert (Hh : forall a k, held s' a k = held s a k).
  { intros a k. unfold s'. rewrite held_set_tk. destruct (decide (a = tn)) as [->|]; [|done].
    cbn. unfold held. rewrite Hn. apply lookup_empty. }
  constructor.
  - intros k a. rewrite Hh. apply (i_wr _ _ _ _ H).
  - intros k a. rewrite Hh. apply (i_rd _ _ _ _ H).
  - intros k a. unfold s' at 2. rewrite queued_set_tk. cbn. change (qtns s' k) with (qtns s k).
    rewrite (i_q _ _ _ _ H). destruct (decide (a = tn)) as [->|]; [|done].
    unfold queued. rewrite Hn. split; [intros (t & [=] & _)|set_solver].
  - apply (i_sorted _ _ _ _ H).
  - apply (i_excl _ _ _ _ H).
  - intros a t. unfold s'. cbn. destruct (decide (a = tn)) as [->|].
    + rewrite lookup_insert. now intros [= <-].
    + rewrite lookup_insert_ne by congruence. apply (i_idle _ _ _ _ H).
  - intros a t. unfold s'. cbn. destruct (decide (a = tn)) as [->|].
    + rewrite lookup_insert. now intros [= <-].
    + rewrite lookup_insert_ne by congruence. apply (i_nolock _ _ _ _ H).
  - intros k x h m Hx Hm Hc Hex. rewrite Hh in Hm.
    destruct (i_order _ _ _ _ H k x h m Hx Hm Hc Hex) as [Hp|]; [left|now right].
    unfold s'. rewrite in_state_set_tk. destruct (decide (h = tn)) as [->|]; [|exact Hp].
    destruct Hp as (t & Ht & _). congruence.
  - intros k x m Hx Hm. rewrite Hh in Hm. apply (i_up _ _ _ _ H k x m Hx Hm).
  - apply (i_head _ _ _ _ H).
  - intros a t k v Hz. unfold s'. cbn. destruct (decide (a = tn)) as [->|].
    + rewrite lookup_insert. intros [= <-]. cbn. congruence.
    + rewrite lookup_insert_ne by congruence. apply (i_upd _ _ _ _ H); exact Hz.
Qed.

(** The ticket a lock request belongs to: the existing one, or a new one. *)
Definition ticket_of (s : shard) (tn : ticket_no) : ticket := default ticket0 (s_tk s !! tn).

Lemma waiting_on_in tn m e b :
  b ∈ get_waiting_on tn m e <->
  tn < b /\ ((m = Write /\ b ∈ e_readers e) \/ e_writer e = Some b).
Proof.
  unfold get_waiting_on. rewrite elem_of_app. split.
  - intros [H|H].
    + destruct m; [now apply elem_of_nil in H|].
      apply elem_of_list_In, filter_In in H as [H L]. apply N.ltb_lt in L.
      apply elem_of_list_In, elem_of_elements in H. auto.
    + destruct (e_writer e) as [w|]; [|now apply elem_of_nil in H].
      destruct (N.ltb_spec tn w); [|now apply elem_of_nil in H].
      apply elem_of_list_singleton in H as ->. auto.
  - intros [L [[-> H]|H]].
    + left. apply elem_of_list_In, filter_In. split; [|now apply N.ltb_lt].
      now apply elem_of_list_In, elem_of_elements.
    + right. rewrite H. apply N.ltb_lt in L. rewrite L. now apply elem_of_list_singleton.
Qed.

Lemma enqueue_go s rid tn b k m t :
  inv s -> s_tk s !! tn = Some t -> t_state t = Begun ->
  (match t_held t !! k with Some h => lt_ge h m | None => false end) = false ->
  k ∉ t_queued t ->
  exists s' ev, wound_tickets (enqueue s rid tn b k m t) k (get_waiting_on tn m (el s k)) tn
      = Done (s', ev) /\ inv s' /\
    served (fun a t t' => t_state t <> Prepared /\ t_state t' = Wounded /\ tn < a /\ t_state t <> Committed)
      (enqueue s rid tn b k m t) s' ev.
Proof.
  intros H Ht Hst Hheld Hkq.
  destruct (enqueue_inv s rid tn b k m t H Ht Hst Hheld Hkq) as [Hi Hq].
  assert (Hh : forall a k', held (enqueue s rid tn b k m t) a k' = held s a k').
  { intros a k'. unfold enqueue. rewrite held_set_tk, held_set_el.
    destruct (decide (a = tn)) as [->|]; [|done]. cbn. now rewrite (held_lookup _ _ _ _ Ht). }
  apply wound_tickets_inv; [exact Hi| | | |].
  - intros a [_ Ha]%waiting_on_in.
    assert (Hs : is_Some (held s a k)).
    { destruct Ha as [[_ Ha]|Ha].
      - apply (i_rd _ _ _ _ H) in Ha. eauto.
      - apply (i_wr _ _ _ _ H) in Ha. eauto. }
    rewrite <- Hh in Hs. unfold held in Hs.
    destruct (s_tk (enqueue s rid tn b k m t) !! a); [eauto|]. destruct Hs; discriminate.
  - intros a [L _]%waiting_on_in. exact L.
  - intros a ta [_ Ha]%waiting_on_in Hta Hc.
    assert (Hs : is_Some (held s a k)).
    { destruct Ha as [[_ Ha]|Ha].
      - apply (i_rd _ _ _ _ H) in Ha. eauto.
      - apply (i_wr _ _ _ _ H) in Ha. eauto. }
    rewrite <- Hh, (held_lookup _ _ _ _ Hta) in Hs.
    rewrite (i_nolock _ _ _ _ Hi _ _ Hta) in Hs by now right.
    rewrite lookup_empty in Hs. destruct Hs; discriminate.
  - intros x h mh Hx Ext Hm Hc. rewrite Hh in Hm.
    apply Hq in Hx as [[_ ->]|Hx].
    + cbn in Hc. destruct (N.lt_total h tn) as [|[|L]]; [auto..|]. left.
      apply waiting_on_in. split; [exact L|].
      destruct mh.
      * destruct Hc as [C| ->]; [discriminate|]. left. split; [done|].
        apply (i_rd _ _ _ _ H), Hm.
      * right. apply (i_wr _ _ _ _ H), Hm.
    + exfalso. apply Hkq. assert (queued s tn k) as (t' & Ht' & Hk'); [|congruence].
      apply (i_q _ _ _ _ H). rewrite <- Ext. now apply qtns_mem.
Qed.

(** What [try_lock] does. *)
Inductive lock_outcome (s : shard) (rid : N) tn b k m : bool -> res (shard * list event) -> Prop :=
| LO_fatal t : s_tk s !! tn = Some t -> lock_outcome s rid tn b k m true Fatal
| LO_unknown : s_tk s !! tn = None ->
    lock_outcome s rid tn b k m false (Done (s, [ELock rid (Refused (ErUnknownTicket, None))]))
| LO_refused t e d : s_tk s !! tn = Some t ->
    (t_state t <> Begun \/
     (exists h, t_held t !! k = Some h /\ lt_ge h m = true) \/ k ∈ t_queued t) ->
    lock_outcome s rid tn b k m false (Done (s, [ELock rid (Refused (e, d))]))
| LO_queued first s0 t s' ev : s_tk s0 !! tn = Some t -> t_state t = Begun ->
    (first = false /\ s0 = s \/ first = true /\ s_tk s !! tn = None /\ t = ticket0 /\ s0 = set_tk s tn t) ->
    (forall h, t_held t !! k = Some h -> h = Read /\ m = Write) -> k ∉ t_queued t ->
    inv s0 -> inv s' ->
    served (fun a t t' => t_state t <> Prepared /\ t_state t' = Wounded /\ tn < a /\ t_state t <> Committed)
      (enqueue s0 rid tn b k m t) s' ev ->
    lock_outcome s rid tn b k m first (Done (s', ev)).

Lemma try_lock_outcome s rid tn b k m first :
  inv s -> lock_outcome s rid tn b k m first (try_lock s rid tn b k m first).
Proof.
  intros H. unfold try_lock. destruct (s_tk s !! tn) as [t|] eqn:Et.
  - destruct first; [now apply (LO_fatal _ _ _ _ _ _ t)|].
    destruct (t_state t) eqn:Est; try (apply (LO_refused _ _ _ _ _ _ t); [exact Et|left; congruence]).
    destruct (match t_held t !! k with Some h => lt_ge h m | None => false end) eqn:Eh.
    + apply (LO_refused _ _ _ _ _ _ t); [exact Et|right; left].
      destruct (t_held t !! k) as [h|]; [eauto|discriminate].
    + case_bool_decide as Hq; [apply (LO_refused _ _ _ _ _ _ t); [exact Et|now right; right]|].
      destruct (enqueue_go s rid tn b k m t H Et Est Eh Hq) as (s' & ev & E & Hi & Hs).
      unfold enqueue in E. rewrite Est in E. rewrite E.
      apply (LO_queued _ _ _ _ _ _ false s t s' ev); try assumption; [now left|].
      intros h Hk. rewrite Hk in Eh. now destruct h, m.
  - destruct first; [|now apply LO_unknown]. cbn.
    assert (H0 : inv (set_tk s tn ticket0)) by now apply inv_new.
    assert (Et0 : s_tk (set_tk s tn ticket0) !! tn = Some ticket0) by apply lookup_insert.
    case_bool_decide as Hq; [set_solver|].
    destruct (enqueue_go (set_tk s tn ticket0) rid tn b k m ticket0 H0 Et0) as (s' & ev & E & Hi & Hs);
      [done|cbn; reflexivity|exact Hq|].
    unfold enqueue in E. cbn [t_state t_held t_queued t_update t_details ticket0] in E.
    cbn [t_queued ticket0]. rewrite E.
    apply (LO_queued _ _ _ _ _ _ true (set_tk s tn ticket0) ticket0 s' ev); try assumption; [reflexivity|..].
    + right. auto.
    + cbn. intros h. rewrite lookup_empty. discriminate.
Qed.

Lemma check_update_none held ks :
  check_update held ks = None <-> forall k, k ∈ ks -> held !! k = Some Write.
Proof.
  induction ks as [|k r IH]; cbn.
  - split; [|done]. intros _ k Hk. now apply elem_of_nil in Hk.
  - destruct (held !! k) as [[]|] eqn:E.
    + split; [discriminate|]. intros H. specialize (H k). rewrite E in H. discriminate H. left.
    + rewrite IH. split.
      * intros H k' [->|Hk]%elem_of_cons; auto.
      * intros H k' Hk. apply H. now right.
    + split; [discriminate|]. intros H. specialize (H k). rewrite E in H. discriminate H. left.
Qed.

Inductive prepare_outcome (s : shard) tn upd : res (shard * list event) -> Prop :=
| PO_refused e d : prepare_outcome s tn upd (Done (s, [EReply (Some (e, d))]))
| PO_prepared t : s_tk s !! tn = Some t -> t_state t = Begun -> t_queued t = ∅ ->
    (forall k, is_Some (upd !! k) -> t_held t !! k = Some Write) ->
    let s' := set_tk s tn (Ticket Prepared (t_held t) ∅ upd (t_broker t) (t_details t)) in
    inv s' -> prepare_outcome s tn upd (Done (s', [EReply None])).

Lemma prepare_outcome_ok s tn upd : inv s -> prepare_outcome s tn upd (prepare s tn upd).
Proof.
  intros H. unfold prepare. destruct (s_tk s !! tn) as [t|] eqn:Et; [|constructor].
  destruct (t_state t) eqn:Est; try constructor.
  case_bool_decide as Hq; [|constructor]. cbn [negb].
  destruct (check_update (t_held t) (elements (dom upd))) eqn:Ec; [constructor|].
  rewrite Hq. apply PO_prepared; try assumption.
  - intros k Hk. apply (proj1 (check_update_none _ _) Ec). now apply elem_of_elements, elem_of_dom.
  - set (s' := set_tk _ _ _).
    assert (Hh : forall a k, held s' a k = held s a k).
    { intros a k. unfold s'. rewrite held_set_tk. destruct (decide (a = tn)) as [->|]; [|done].
      cbn. now rewrite (held_lookup _ _ _ _ Et). }
    constructor.
    + intros k a. rewrite Hh. apply (i_wr _ _ _ _ H).
    + intros k a. rewrite Hh. apply (i_rd _ _ _ _ H).
    + intros k a. unfold s' at 2. rewrite queued_set_tk. cbn. change (qtns s' k) with (qtns s k).
      rewrite (i_q _ _ _ _ H). destruct (decide (a = tn)) as [->|]; [|done].
      unfold queued. rewrite Et, <- Hq. split; [intros (t' & [= <-] & C); exact C|eauto].
    + apply (i_sorted _ _ _ _ H).
    + apply (i_excl _ _ _ _ H).
    + intros a t'. unfold s'. cbn. destruct (decide (a = tn)) as [->|].
      * rewrite lookup_insert. now intros [= <-].
      * rewrite lookup_insert_ne by congruence. apply (i_idle _ _ _ _ H).
    + intros a t'. unfold s'. cbn. destruct (decide (a = tn)) as [->|].
      * rewrite lookup_insert. intros [= <-]. cbn. intros [|]; discriminate.
      * rewrite lookup_insert_ne by congruence. apply (i_nolock _ _ _ _ H).
    + intros k x h m Hx Hm Hc Hex. rewrite Hh in Hm.
      destruct (i_order _ _ _ _ H k x h m Hx Hm Hc Hex) as [Hp|]; [left|now right].
      unfold s'. rewrite in_state_set_tk. destruct (decide (h = tn)) as [->|]; [done|exact Hp].
    + intros k x m Hx Hm. rewrite Hh in Hm. apply (i_up _ _ _ _ H k x m Hx Hm).
    + apply (i_head _ _ _ _ H).
    + intros a t' k v Hz. unfold s'. cbn. destruct (decide (a = tn)) as [->|].
      * rewrite lookup_insert. intros [= <-] _. cbn. intros E.
        apply (proj1 (check_update_none _ _) Ec), elem_of_elements, elem_of_dom. eauto.
      * rewrite lookup_insert_ne by congruence. apply (i_upd _ _ _ _ H); exact Hz.
Qed.

(** ** Dismissing a ticket that holds nothing *)

Lemma dismiss_inv s tn t tk' :
  sinv ∅ None (Some tn) s -> s_tk s !! tn = Some t -> t_held t = ∅ -> t_queued t = ∅ ->
  (forall a, a <> tn -> tk' !! a = s_tk s !! a) ->
  (forall t', tk' !! tn = Some t' -> t_held t' = ∅ /\ t_queued t' = ∅ /\ t_state t' <> Prepared) ->
  inv (Shard (s_st s) tk').
Proof.
  intros H Et Eh Eq Ho Hn. set (s' := Shard _ _).
  assert (Hh : forall a k, held s' a k = held s a k).
  { intros a k. unfold held, s'. cbn. destruct (decide (a = tn)) as [->|Hne].
    - rewrite Et. cbn. rewrite Eh, lookup_empty.
      destruct (tk' !! tn) as [t'|] eqn:E; [|done]. cbn.
      destruct (Hn _ eq_refl) as (-> & _). apply lookup_empty.
    - now rewrite Ho. }
  constructor.
  - intros k a. rewrite Hh. apply (i_wr _ _ _ _ H).
  - intros k a. rewrite Hh. apply (i_rd _ _ _ _ H).
  - intros k a. change (qtns s' k) with (qtns s k). rewrite (i_q _ _ _ _ H).
    unfold queued, s'. cbn. destruct (decide (a = tn)) as [->|Hne]; [|now rewrite Ho].
    rewrite Et. split.
    + intros (t' & [= <-] & C). set_solver.
    + intros (t' & E & C). destruct (Hn _ E) as (_ & E2 & _). set_solver.
  - apply (i_sorted _ _ _ _ H).
  - apply (i_excl _ _ _ _ H).
  - intros a t'. unfold s'. cbn. destruct (decide (a = tn)) as [->|Hne].
    + intros E _. now apply Hn.
    + rewrite Ho by done. apply (i_idle _ _ _ _ H).
  - intros a t'. unfold s'. cbn. destruct (decide (a = tn)) as [->|Hne].
    + intros E _. now apply Hn.
    + rewrite Ho by done. apply (i_nolock _ _ _ _ H).
  - intros k x h m Hx Hm Hc Hex. rewrite Hh in Hm.
    destruct (i_order _ _ _ _ H k x h m Hx Hm Hc Hex) as [Hp|]; [left|now right].
    destruct (decide (h = tn)) as [->|Hne].
    + rewrite (held_lookup _ _ _ _ Et), Eh, lookup_empty in Hm. discriminate.
    + unfold in_state, s'. cbn. rewrite Ho by done. exact Hp.
  - intros k x m Hx Hm. rewrite Hh in Hm. apply (i_up _ _ _ _ H k x m Hx Hm).
  - apply (i_head _ _ _ _ H).
  - intros a t' k v _. unfold s'. cbn. destruct (decide (a = tn)) as [->|Hne].
    + intros E C. now apply Hn in E as (_ & _ & E).
    + rewrite Ho by done. apply (i_upd _ _ _ _ H). congruence.
Qed.

(** Releasing and handing on: the common part of commit and rollback. *)
Lemma release_acquire s tn t :
  inv s -> s_tk s !! tn = Some t ->
  exists s1 wounded ks s2 ev,
    release_locks s tn = Done (s1, wounded, ks) /\
    acquire_locks s1 (elements ks) = Done (s2, ev) /\
    sinv ∅ None (Some tn) s2 /\
    s_tk s2 !! tn = Some (Ticket (t_state t) ∅ ∅ (t_update t) (t_broker t) (t_details t)) /\
    (t_queued t = ∅ -> wounded = []) /\
    served (fun a _ _ => a = tn) s s2 (ev ++ wounded).
Proof.
  intros H Et.
  assert (Hz : sinv ∅ None (Some tn) s).
  { destruct H. constructor; try assumption.
    intros a t' k v _. apply i_upd. discriminate. }
  destruct (release_locks_spec ∅ None (Some tn) s tn t Hz Et (t_state t) (t_details t))
    as (s1 & w & E1 & Htk1 & Hel1 & Hev1).
  assert (set_tk s tn (Ticket (t_state t) (t_held t) (t_queued t) (t_update t) (t_broker t) (t_details t)) = s) as Es.
  { unfold set_tk. rewrite insert_id; [now destruct s|]. rewrite Et. now destruct t. }
  rewrite Es in E1.
  pose proof (release_inv ∅ None (Some tn) s tn t _ _ s1 Hz Et Htk1 Hel1 (or_intror eq_refl)) as H1.
  destruct (release_moves ∅ None (Some tn) s tn t _ s1 w Hz Et Hel1 Hev1) as [Hm Hr].
  destruct (acquire_set_inv None (Some tn) (t_queued t ∪ dom (t_held t)) _ s1 H1)
    as (s2 & ev & E2 & Ha & H2); [set_solver|].
  exists s1, w, (t_queued t ∪ dom (t_held t)), s2, ev.
  split; [exact E1|]. split; [exact E2|]. split; [exact H2|].
  assert (Et1 : s_tk s1 !! tn = Some (Ticket (t_state t) ∅ ∅ (t_update t) (t_broker t) (t_details t)))
    by (rewrite Htk1; apply lookup_insert).
  split.
  { pose proof (c_tk _ _ _ Ha tn) as Hk. rewrite Et1 in Hk. inversion Hk as [? t2 Hk'|]; subst.
    destruct Hk' as (_ & _ & _ & _ & _ & _ & Hk'). f_equal. now apply Hk'. }
  split.
  { intros Eq. rewrite Eq, elements_empty in Hev1. now inversion Hev1. }
  constructor.
  - apply (moves_perm _ _ (w ++ ev)); [apply Permutation_app_comm|].
    eapply moves_trans; [exact Hm|apply (c_moves _ _ _ Ha)].
  - intros a t' Ha'. pose proof (c_tk _ _ _ Ha a) as Hk.
    destruct (decide (a = tn)) as [->|Hne].
    + rewrite Et1 in Hk. inversion Hk as [? t2 Hk' E3 E4|]; subst. eauto.
    + rewrite Htk1, lookup_insert_ne in Hk by congruence. rewrite Ha' in Hk.
      inversion Hk as [? t2 Hk' E3 E4|]; subst. eauto.
  - intros a Ha'. pose proof (c_tk _ _ _ Ha a) as Hk.
    rewrite Htk1, lookup_insert_ne in Hk by congruence. rewrite Ha' in Hk. now inversion Hk.
  - intros rid v [He|He]%elem_of_app.
    + destruct (c_ev _ _ _ Ha _ He) as (k' & x & Hx & [= -> ->] & Hh).
      exists k', x. split; [apply (m_sub _ _ _ Hm), Hx|]. split; [done|].
      split; [apply (m_val _ _ _ Hm)|exact Hh].
    + destruct (Hr _ He) as (r & [=]).
  - intros e [He|He]%elem_of_app.
    + destruct (c_ev _ _ _ Ha _ He) as (k' & x & Hx & -> & Hh). eauto.
    + destruct (Hr _ He) as (r & ->). eauto.
Qed.

Lemma write_values_spec ws s :
  NoDup (ws.*1) ->
  s_tk (write_values s ws) = s_tk s /\
  forall k, el (write_values s ws) k =
    Elem (default (e_val (el s k)) (list_to_map (M:=gmap key bytes) ws !! k))
      (e_writer (el s k)) (e_readers (el s k)) (e_queue (el s k)).
Proof.
  revert s. induction ws as [|[k v] r IH]; intros s Hnd; cbn [write_values].
  - split; [done|]. intros k. cbn. rewrite lookup_empty. now destruct (el s k).
  - cbn in Hnd. apply NoDup_cons in Hnd as [Hk Hnd].
    destruct (IH (set_el s k (Elem v (e_writer (el s k)) (e_readers (el s k)) (e_queue (el s k)))) Hnd)
      as [Htk Hel].
    split; [exact Htk|]. intros k'. rewrite Hel, el_set_el. cbn [list_to_map].
    destruct (decide (k' = k)) as [->|Hne].
    + rewrite not_elem_of_list_to_map_1 by exact Hk. cbn. now rewrite lookup_insert.
    + cbn. now rewrite lookup_insert_ne by congruence.
Qed.

(** The invariant does not depend on values. *)
Lemma inv_values s s1 :
  inv s -> s_tk s1 = s_tk s ->
  (forall k, e_writer (el s1 k) = e_writer (el s k) /\ e_readers (el s1 k) = e_readers (el s k) /\
             e_queue (el s1 k) = e_queue (el s k)) -> inv s1.
Proof.
  intros H Etk Hel.
  assert (Hh : forall a k, held s1 a k = held s a k) by (intros; unfold held; now rewrite Etk).
  constructor.
  - intros k a. rewrite Hh. destruct (Hel k) as (-> & _). apply (i_wr _ _ _ _ H).
  - intros k a. rewrite Hh. destruct (Hel k) as (_ & -> & _). apply (i_rd _ _ _ _ H).
  - intros k a. unfold qtns, queued. rewrite Etk. destruct (Hel k) as (_ & _ & ->).
    apply (i_q _ _ _ _ H).
  - intros k. unfold qtns. destruct (Hel k) as (_ & _ & ->). apply (i_sorted _ _ _ _ H).
  - intros k. destruct (Hel k) as (-> & -> & _). apply (i_excl _ _ _ _ H).
  - rewrite Etk. apply (i_idle _ _ _ _ H).
  - rewrite Etk. apply (i_nolock _ _ _ _ H).
  - intros k x h m. destruct (Hel k) as (_ & _ & ->). rewrite Hh. unfold in_state. rewrite Etk.
    apply (i_order _ _ _ _ H).
  - intros k x m. destruct (Hel k) as (_ & _ & ->). rewrite Hh. apply (i_up _ _ _ _ H).
  - intros k x q Hk. unfold blocked. destruct (Hel k) as (-> & -> & ->). now apply (i_head _ _ _ _ H).
  - rewrite Etk. apply (i_upd _ _ _ _ H).
Qed.

Inductive commit_outcome (s : shard) tn : res (shard * list event) -> Prop :=
| CO_refused e : ~ in_state s tn Prepared -> commit_outcome s tn (Done (s, [EReply (Some (e, None))]))
| CO_committed t s1 s' ev : s_tk s !! tn = Some t -> t_state t = Prepared ->
    s_tk s1 = s_tk s ->
    (forall k, el s1 k = Elem (default (e_val (el s k)) (t_update t !! k))
        (e_writer (el s k)) (e_readers (el s k)) (e_queue (el s k))) ->
    inv s1 -> inv s' ->
    (exists t', s_tk s' !! tn = Some t' /\ t_state t' = Committed) ->
    served (fun a _ _ => a = tn) s1 s' ev ->
    commit_outcome s tn (Done (s', ev ++ [EReply None])).

Lemma commit_outcome_ok s tn : inv s -> commit_outcome s tn (commit s tn).
Proof.
  intros H. unfold commit. destruct (s_tk s !! tn) as [t|] eqn:Et.
  2: { constructor. intros (t & Ht & _). congruence. }
  destruct (decide (t_state t = Prepared)) as [Est|Est].
  2: { destruct (t_state t) eqn:E; try congruence; constructor; intros (t' & Ht' & E'); congruence. }
  rewrite Est.
  destruct (write_values_spec (map_to_list (t_update t)) s) as [Htk1 Hel1].
  { apply NoDup_fst_map_to_list. }
  set (s1 := write_values s (map_to_list (t_update t))) in *.
  rewrite list_to_map_to_list in Hel1.
  assert (H1 : inv s1).
  { apply (inv_values s); [exact H|exact Htk1|]. intros k. rewrite Hel1. auto. }
  assert (Et1 : s_tk s1 !! tn = Some t) by now rewrite Htk1.
  destruct (release_acquire s1 tn t H1 Et1) as (s2 & w & ks & s3 & ev & E2 & E3 & H3 & Et3 & Hw & Hs).
  rewrite E2. cbn [bind].
  assert (w = []) as -> by (apply Hw, (i_idle _ _ _ _ H _ _ Et); congruence).
  rewrite E3. cbn [bind]. rewrite (tkt_lookup _ _ _ Et3). cbn [t_held t_queued t_update t_broker t_details].
  rewrite app_nil_r in Hs.
  apply (CO_committed s tn t s1); try assumption.
  - apply (dismiss_inv s3 tn _ _ H3 Et3); [done|done| |].
    + intros a Ha. now rewrite lookup_insert_ne by congruence.
    + intros t'. rewrite lookup_insert. intros [= <-]. cbn. done.
  - eexists. cbn. rewrite lookup_insert. split; reflexivity.
  - destruct Hs as [A B C D E]. constructor; [destruct A; constructor; assumption| | | |exact E].
    + intros a t' Ha. destruct (B a t' Ha) as (t2 & Ht2 & Hc).
      destruct (decide (a = tn)) as [->|Hne].
      * cbn. rewrite lookup_insert. eauto.
      * cbn. rewrite lookup_insert_ne by congruence. eauto.
    + intros a Ha. cbn. rewrite lookup_insert_ne; [auto|]. congruence.
    + intros rid v He. destruct (D rid v He) as (k & x & Hx & Hr & Hv & Hh).
      exists k, x. split; [done|]. split; [done|]. split; [done|].
      rewrite held_set_tk. destruct (decide (q_tn x = tn)) as [Ex|]; [|exact Hh].
      rewrite Ex, (held_lookup _ _ _ _ Et3) in Hh. cbn in Hh. rewrite lookup_empty in Hh.
      destruct Hh; discriminate.
Qed.

Inductive rollback_outcome (s : shard) tn : res (shard * list event) -> Prop :=
| RO_refused : s_tk s !! tn = None ->
    rollback_outcome s tn (Done (s, [EReply (Some (ErUnknownTicket, None))]))
| RO_done t s2 ev : s_tk s !! tn = Some t ->
    inv (Shard (s_st s2) (delete tn (s_tk s2))) ->
    served (fun a _ _ => a = tn) s s2 ev ->
    (forall k, held s2 tn k = None) ->
    rollback_outcome s tn (Done (Shard (s_st s2) (delete tn (s_tk s2)), ev ++ [EReply None])).

Lemma rollback_outcome_ok s tn : inv s -> rollback_outcome s tn (rollback s tn).
Proof.
  intros H. unfold rollback. destruct (s_tk s !! tn) as [t|] eqn:Et; [|now constructor].
  destruct (release_acquire s tn t H Et) as (s2 & w & ks & s3 & ev & E2 & E3 & H3 & Et3 & Hw & Hs).
  rewrite E2. cbn [bind]. rewrite E3. cbn [bind]. rewrite app_assoc.
  apply (RO_done s tn t); [exact Et| |exact Hs|].
  - apply (dismiss_inv s3 tn _ _ H3 Et3); [done|done| |].
    + intros a Ha. now rewrite lookup_delete_ne by congruence.
    + intros t'. rewrite lookup_delete. discriminate.
  - intros k. rewrite (held_lookup _ _ _ _ Et3). apply lookup_empty.
Qed.

Inductive finish_outcome (s : shard) tn : res (shard * list event) -> Prop :=
| FO_refused e : finish_outcome s tn (Done (s, [EReply (Some (e, None))]))
| FO_done t : s_tk s !! tn = Some t -> t_state t = Committed ->
    inv (Shard (s_st s) (delete tn (s_tk s))) ->
    finish_outcome s tn (Done (Shard (s_st s) (delete tn (s_tk s)), [EReply None])).

Lemma finish_outcome_ok s tn : inv s -> finish_outcome s tn (finish s tn).
Proof.
  intros H. unfold finish. destruct (s_tk s !! tn) as [t|] eqn:Et; [|constructor].
  destruct (t_state t) eqn:Est; try constructor.
  apply (FO_done s tn t); [exact Et|exact Est|].
  assert (Hz : sinv ∅ None (Some tn) s).
  { destruct H. constructor; try assumption.
    intros a t' k v _. apply i_upd. discriminate. }
  apply (dismiss_inv s tn t _ Hz Et).
  - apply (i_nolock _ _ _ _ H _ _ Et). now right.
  - apply (i_idle _ _ _ _ H _ _ Et). congruence.
  - intros a Ha. now rewrite lookup_delete_ne by congruence.
  - intros t'. rewrite lookup_delete. discriminate.
Qed.

(** Every request keeps the invariant and ends properly, except a first lock request
    of a ticket the shard already has. *)
Theorem step_inv s o :
  inv s ->
  (exists s' ev, step s o = Done (s', ev) /\ inv s') \/
  (step s o = Fatal /\ exists rid tn b k m t, o = OTryLock rid tn b k m true /\ s_tk s !! tn = Some t).
Proof.
  intros H. destruct o as [rid tn b k m first|tn b upd|tn|tn|tn|b]; cbn [step].
  - destruct (try_lock_outcome s rid tn b k m first H) as [t Ht| |t e d|first s0 t s' ev].
    + right. split; [done|]. eauto 10.
    + left. eauto.
    + left. eauto.
    + left. eauto.
  - left. destruct (prepare_outcome_ok s tn upd H); eauto.
  - left. destruct (commit_outcome_ok s tn H); eauto.
  - left. destruct (rollback_outcome_ok s tn H); eauto.
  - left. destruct (finish_outcome_ok s tn H); eauto.
  - left. unfold get_tickets. eauto.
Qed.
