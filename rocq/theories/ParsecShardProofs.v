(** The inductive invariant of the PArSEC shard and its preservation by the helpers
    of the model. *)
From stdpp Require Import base option list gmap fin_maps fin_sets relations sorting.
From Coq Require Import NArith Lia.
From Verif Require Import Base ParsecShardModel ParsecShardSpec.
Open Scope N_scope.

Definition held (s : shard) (tn : ticket_no) (k : key) : option lock_type :=
  t ← s_tk s !! tn; t_held t !! k.
Definition queued (s : shard) (tn : ticket_no) (k : key) : Prop :=
  exists t, s_tk s !! tn = Some t /\ k ∈ t_queued t.
Definition qtns (s : shard) (k : key) : list ticket_no := q_tn <$> e_queue (el s k).

Lemma held_holds s tn k m : held s tn k = Some m <-> holds s tn k m.
Proof.
  unfold held, holds. destruct (s_tk s !! tn) as [t|]; cbn; split.
  - intros H. eauto.
  - intros (t' & [= <-] & H). exact H.
  - discriminate.
  - intros (t' & [=] & _).
Qed.

Definition blocked (e : elem) (x : qent) : Prop :=
  match q_mode x with
  | Read => e_writer e <> None
  | Write => e_writer e <> None \/ exists r, r ∈ e_readers e /\ r <> q_tn x
  end.

(** [K]: the keys whose queues may hold a grantable request (being processed);
    [ex]: a ticket and key whose request is not yet ordered against the holders;
    [z]: a ticket that has released its locks and is about to leave. *)
Record sinv (K : gset key) (ex : option (ticket_no * key)) (z : option ticket_no)
    (s : shard) : Prop := {
  i_wr : forall k tn, e_writer (el s k) = Some tn <-> held s tn k = Some Write;
  i_rd : forall k tn, tn ∈ e_readers (el s k) <-> held s tn k = Some Read;
  i_q : forall k tn, tn ∈ qtns s k <-> queued s tn k;
  i_sorted : forall k, StronglySorted N.lt (qtns s k);
  i_excl : forall k, e_writer (el s k) = None \/ e_readers (el s k) = ∅;
  i_idle : forall tn t, s_tk s !! tn = Some t -> t_state t <> Begun -> t_queued t = ∅;
  i_nolock : forall tn t, s_tk s !! tn = Some t ->
      t_state t = Wounded \/ t_state t = Committed -> t_held t = ∅;
  i_order : forall k x h m, x ∈ e_queue (el s k) -> held s h k = Some m ->
      conflict m (q_mode x) -> ex <> Some (q_tn x, k) ->
      in_state s h Prepared \/ h < q_tn x \/ h = q_tn x;
  i_up : forall k x m, x ∈ e_queue (el s k) -> held s (q_tn x) k = Some m ->
      m = Read /\ q_mode x = Write;
  i_head : forall k x q, k ∉ K -> e_queue (el s k) = x :: q -> blocked (el s k) x;
  i_upd : forall tn t k v, z <> Some tn -> s_tk s !! tn = Some t -> t_state t = Prepared ->
      t_update t !! k = Some v -> t_held t !! k = Some Write
}.

Lemma sinv_weaken K K' ex z s : K ⊆ K' -> sinv K ex z s -> sinv K' ex z s.
Proof.
  intros HK H. destruct H. constructor; try assumption.
  intros k x q Hn. apply i_head0. set_solver.
Qed.

Lemma sinv_ex K ex z s : sinv K None z s -> sinv K ex z s.
Proof.
  intros H. destruct H. constructor; try assumption.
  intros k x h m Hx Hh Hc _. apply (i_order0 k x h m); [done..|discriminate].
Qed.

(** ** Projections of updates *)

Lemma el_set_el s k e k' : el (set_el s k e) k' = if decide (k' = k) then e else el s k'.
Proof.
  unfold el, set_el. cbn. destruct (decide (k' = k)) as [->|Hn].
  - now rewrite lookup_insert.
  - now rewrite lookup_insert_ne by congruence.
Qed.
Lemma el_set_tk s tn t k : el (set_tk s tn t) k = el s k.
Proof. reflexivity. Qed.
Lemma tk_set_el s k e : s_tk (set_el s k e) = s_tk s.
Proof. reflexivity. Qed.
Lemma tk_set_tk s tn t : s_tk (set_tk s tn t) = <[tn := t]> (s_tk s).
Proof. reflexivity. Qed.

Lemma held_lookup s tn k t : s_tk s !! tn = Some t -> held s tn k = t_held t !! k.
Proof. unfold held. now intros ->. Qed.

Lemma held_set_tk s tn t tn' k :
  held (set_tk s tn t) tn' k = if decide (tn' = tn) then t_held t !! k else held s tn' k.
Proof.
  unfold held. cbn. destruct (decide (tn' = tn)) as [->|Hn].
  - now rewrite lookup_insert.
  - now rewrite lookup_insert_ne by congruence.
Qed.
Lemma held_set_el s k e tn k' : held (set_el s k e) tn k' = held s tn k'.
Proof. reflexivity. Qed.
Lemma queued_set_el s k e tn k' : queued (set_el s k e) tn k' <-> queued s tn k'.
Proof. reflexivity. Qed.
Lemma queued_set_tk s tn t tn' k :
  queued (set_tk s tn t) tn' k <-> if decide (tn' = tn) then k ∈ t_queued t else queued s tn' k.
Proof.
  unfold queued. cbn. destruct (decide (tn' = tn)) as [->|Hn].
  - rewrite lookup_insert. split.
    + intros (t' & [= <-] & H). exact H.
    + eauto.
  - now rewrite lookup_insert_ne by congruence.
Qed.
Lemma in_state_set_el s k e tn x : in_state (set_el s k e) tn x <-> in_state s tn x.
Proof. reflexivity. Qed.
Lemma in_state_set_tk s tn t tn' x :
  in_state (set_tk s tn t) tn' x <-> if decide (tn' = tn) then t_state t = x else in_state s tn' x.
Proof.
  unfold in_state. cbn. destruct (decide (tn' = tn)) as [->|Hn].
  - rewrite lookup_insert. split.
    + intros (t' & [= <-] & H). exact H.
    + eauto.
  - now rewrite lookup_insert_ne by congruence.
Qed.

(** ** The queue *)

Lemma q_extract_some (q : list qent) tn x q' :
  StronglySorted N.lt (q_tn <$> q) -> q_extract q tn = (Some x, q') ->
  x ∈ q /\ q_tn x = tn /\ q' = filter (fun y => q_tn y <> tn) q.
Proof.
  revert x q'. induction q as [|y r IH]; intros x q' Hs; cbn [q_extract]; [discriminate|].
  cbn in Hs. apply StronglySorted_inv in Hs as [Hs Hy].
  destruct (N.eqb_spec (q_tn y) tn) as [E|E].
  - intros [= <- <-]. split; [left|]. split; [exact E|].
    rewrite filter_cons_False by (intros C; apply C; exact E).
    symmetry. clear IH Hs. induction r as [|z r IH]; [reflexivity|].
    cbn in Hy. apply Forall_cons in Hy as [Hz Hr].
    rewrite filter_cons_True by lia. f_equal. apply IH. exact Hr.
  - destruct (q_extract r tn) as [o r'] eqn:ER. intros [= -> <-].
    destruct (IH x r' Hs eq_refl) as (Hin & Ht & ->).
    split; [right; exact Hin|]. split; [exact Ht|].
    now rewrite filter_cons_True.
Qed.

Lemma q_extract_is (q : list qent) tn :
  tn ∈ q_tn <$> q -> exists x q', q_extract q tn = (Some x, q').
Proof.
  induction q as [|y r IH]; cbn; [intros H; now apply elem_of_nil in H|].
  destruct (N.eqb_spec (q_tn y) tn) as [E|E]; [eauto|].
  intros [H|H]%elem_of_cons; [congruence|].
  destruct (IH H) as (x & q' & ->). eauto.
Qed.

Lemma filter_tn_id (q : list qent) tn : ~ tn ∈ q_tn <$> q -> filter (fun y => q_tn y <> tn) q = q.
Proof.
  induction q as [|y r IH]; [reflexivity|]. cbn [fmap list_fmap]. intros H.
  rewrite filter_cons_True.
  - f_equal. apply IH. intros C. apply H. now right.
  - intros <-. apply H. left.
Qed.

Lemma elem_of_emplace (q : list qent) x y :
  StronglySorted N.lt (q_tn <$> q) -> ~ q_tn x ∈ q_tn <$> q ->
  y ∈ q_emplace q x <-> y = x \/ y ∈ q.
Proof.
  induction q as [|z r IH]; intros Hs Hn; cbn.
  - rewrite elem_of_list_singleton. split; [tauto|]. intros [|H]; [done|].
    now apply elem_of_nil in H.
  - cbn in Hs, Hn. apply StronglySorted_inv in Hs as [Hs _].
    apply not_elem_of_cons in Hn as [Hz Hn].
    destruct (N.ltb_spec (q_tn x) (q_tn z)).
    + rewrite !elem_of_cons. tauto.
    + destruct (N.eqb_spec (q_tn x) (q_tn z)); [congruence|].
      rewrite !elem_of_cons, (IH Hs Hn). tauto.
Qed.

Lemma sorted_emplace (q : list qent) x :
  StronglySorted N.lt (q_tn <$> q) -> ~ q_tn x ∈ q_tn <$> q ->
  StronglySorted N.lt (q_tn <$> q_emplace q x).
Proof.
  induction q as [|z r IH]; intros Hs Hn; cbn.
  - constructor; [constructor|]. constructor.
  - cbn in Hs, Hn. pose proof Hs as Hs0. apply StronglySorted_inv in Hs as [Hs Hz].
    apply not_elem_of_cons in Hn as [Hne Hn].
    destruct (N.ltb_spec (q_tn x) (q_tn z)) as [L|L].
    + cbn. constructor; [exact Hs0|]. constructor; [exact L|].
      eapply Forall_impl; [exact Hz|]. cbn. intros a Ha. lia.
    + destruct (N.eqb_spec (q_tn x) (q_tn z)); [congruence|]. cbn.
      constructor; [apply IH; assumption|].
      apply Forall_forall. intros a [y [-> Hy]]%elem_of_list_fmap.
      apply elem_of_emplace in Hy as [->|Hy]; [lia| |exact Hs|exact Hn].
      rewrite Forall_forall in Hz. apply Hz. apply elem_of_list_fmap. eauto.
Qed.

Lemma sorted_filter (q : list qent) tn :
  StronglySorted N.lt (q_tn <$> q) ->
  StronglySorted N.lt (q_tn <$> filter (fun y => q_tn y <> tn) q).
Proof.
  induction q as [|z r IH]; intros Hs; [constructor|].
  cbn in Hs. apply StronglySorted_inv in Hs as [Hs Hz].
  destruct (decide (q_tn z <> tn)).
  - rewrite filter_cons_True by assumption. cbn. constructor; [auto|].
    apply Forall_forall. intros a [y [-> Hy]]%elem_of_list_fmap.
    apply elem_of_list_filter in Hy as [_ Hy].
    rewrite Forall_forall in Hz. apply Hz. apply elem_of_list_fmap. eauto.
  - rewrite filter_cons_False by assumption. auto.
Qed.

Lemma queue_unique (q : list qent) x y :
  StronglySorted N.lt (q_tn <$> q) -> x ∈ q -> y ∈ q -> q_tn x = q_tn y -> x = y.
Proof.
  induction q as [|z r IH]; intros Hs Hx Hy E; [now apply elem_of_nil in Hx|].
  cbn in Hs. apply StronglySorted_inv in Hs as [Hs Hz]. rewrite Forall_forall in Hz.
  apply elem_of_cons in Hx as [->|Hx]; apply elem_of_cons in Hy as [->|Hy];
    [done| | |auto].
  - specialize (Hz (q_tn y)). rewrite E in Hz.
    assert (q_tn y < q_tn y) by (apply Hz, elem_of_list_fmap; eauto). lia.
  - specialize (Hz (q_tn x)). rewrite <- E in Hz.
    assert (q_tn x < q_tn x) by (apply Hz, elem_of_list_fmap; eauto). lia.
Qed.

(** ** release_locks *)

(** What releasing a ticket does to every element. *)
Definition rel_elem (tn : ticket_no) (e : elem) : elem :=
  Elem (e_val e) (if decide (e_writer e = Some tn) then None else e_writer e)
    (e_readers e ∖ {[tn]}) (filter (fun y => q_tn y <> tn) (e_queue e)).

Lemma release_queued_spec tn d ks s0 s :
  NoDup ks ->
  (forall k, k ∈ ks -> e_queue (el s k) = e_queue (el s0 k)) ->
  (forall k, StronglySorted N.lt (qtns s k)) ->
  (forall k, k ∈ ks -> tn ∈ qtns s k) ->
  exists s' ev, release_queued s tn d ks = Done (s', ev) /\
    s_tk s' = s_tk s /\
    (forall k, el s' k = if decide (k ∈ ks)
       then Elem (e_val (el s k)) (e_writer (el s k)) (e_readers (el s k))
              (filter (fun y => q_tn y <> tn) (e_queue (el s k)))
       else el s k) /\
    Forall2 (fun k e => exists x, x ∈ e_queue (el s0 k) /\ q_tn x = tn /\
                          e = ELock (q_rid x) (Refused (ErWounded, d))) ks ev.
Proof.
  revert s. induction ks as [|k r IH]; intros s Hnd H0 Hs Hin.
  - exists s, []. split; [reflexivity|]. split; [reflexivity|]. split; [|constructor].
    intros k. now rewrite decide_False by set_solver.
  - apply NoDup_cons in Hnd as [Hk Hnd]. cbn [release_queued].
    destruct (q_extract_is (e_queue (el s k)) tn) as (x & q' & E).
    { apply Hin. left. }
    rewrite E. destruct (q_extract_some _ _ _ _ (Hs k) E) as (Hx & Htn & ->).
    set (s1 := set_el s k _).
    destruct (IH s1) as (s' & ev & Er & Htk & Hel & Hev); [exact Hnd| | | |].
    + intros k' Hk'. unfold s1. rewrite el_set_el, decide_False by congruence.
      apply H0. now right.
    + intros k'. unfold qtns, s1. rewrite el_set_el.
      destruct (decide (k' = k)); cbn [e_queue]; [apply sorted_filter|]; apply Hs.
    + intros k' Hk'. unfold qtns, s1. rewrite el_set_el, decide_False by congruence.
      apply Hin. now right.
    + exists s', (ELock (q_rid x) (Refused (ErWounded, d)) :: ev).
      rewrite Er. cbn [bind]. split; [reflexivity|]. split; [exact Htk|]. split.
      * intros k'. rewrite Hel. unfold s1. rewrite el_set_el.
        destruct (decide (k' = k)) as [->|Hne].
        -- rewrite decide_False by exact Hk. now rewrite decide_True by left.
        -- destruct (decide (k' ∈ r)).
           ++ now rewrite decide_True by (now right).
           ++ rewrite decide_False; [reflexivity|]. rewrite elem_of_cons. tauto.
      * constructor; [|exact Hev]. exists x. rewrite <- H0 by left. auto.
Qed.

Lemma release_held_spec tn ls s :
  NoDup (ls.*1) ->
  s_tk (release_held s tn ls) = s_tk s /\
  (forall k, el (release_held s tn ls) k =
     match list_to_map (M:=gmap key lock_type) ls !! k with
     | Some Read => Elem (e_val (el s k)) (e_writer (el s k)) (e_readers (el s k) ∖ {[tn]})
                      (e_queue (el s k))
     | Some Write => Elem (e_val (el s k)) None (e_readers (el s k)) (e_queue (el s k))
     | None => el s k
     end).
Proof.
  revert s. induction ls as [|[k m] r IH]; intros s Hnd; cbn [release_held].
  - split; [reflexivity|]. intros k. cbn. now rewrite lookup_empty.
  - cbn in Hnd. apply NoDup_cons in Hnd as [Hk Hnd].
    destruct (IH (set_el s k match m with
        | Read => Elem (e_val (el s k)) (e_writer (el s k)) (e_readers (el s k) ∖ {[tn]}) (e_queue (el s k))
        | Write => Elem (e_val (el s k)) None (e_readers (el s k)) (e_queue (el s k))
        end) Hnd) as [Htk Hel].
    split; [exact Htk|]. intros k'. rewrite Hel, el_set_el. cbn [list_to_map].
    destruct (decide (k' = k)) as [->|Hne].
    + rewrite not_elem_of_list_to_map_1 by exact Hk. cbn.
      rewrite lookup_insert. now destruct m.
    + cbn. now rewrite lookup_insert_ne by congruence.
Qed.

Lemma tkt_lookup s tn t : s_tk s !! tn = Some t -> tkt s tn = t.
Proof. unfold tkt. now intros ->. Qed.

(** Needs only the part of the invariant that ties elements and tickets together. *)
Lemma release_locks_spec K ex z s tn t :
  sinv K ex z s -> s_tk s !! tn = Some t ->
  forall st d, let t1 := Ticket st (t_held t) (t_queued t) (t_update t) (t_broker t) d in
  exists s' ev, release_locks (set_tk s tn t1) tn = Done (s', ev, t_queued t ∪ dom (t_held t)) /\
    s_tk s' = <[tn := Ticket st ∅ ∅ (t_update t) (t_broker t) d]> (s_tk s) /\
    (forall k, el s' k = rel_elem tn (el s k)) /\
    Forall2 (fun k e => exists x, x ∈ e_queue (el s k) /\ q_tn x = tn /\
                          e = ELock (q_rid x) (Refused (ErWounded, d)))
      (elements (t_queued t)) ev.
Proof.
  intros H Ht st d t1. unfold release_locks.
  assert (tkt (set_tk s tn t1) tn = t1) as ->.
  { apply tkt_lookup. cbn. apply lookup_insert. }
  cbn [t_details t_queued t_held t_state t_update t_broker t1].
  destruct (release_queued_spec tn d (elements (t_queued t)) s (set_tk s tn t1))
    as (s1 & ev & -> & Htk1 & Hel1 & Hev).
  - apply NoDup_elements.
  - reflexivity.
  - intros k. apply (i_sorted _ _ _ _ H).
  - intros k Hk. apply elem_of_elements in Hk. apply (i_q _ _ _ _ H). exists t. auto.
  - cbn [bind].
    destruct (release_held_spec tn (map_to_list (t_held t)) s1) as [Htk2 Hel2].
    { apply NoDup_fst_map_to_list. }
    eexists _, ev. split; [reflexivity|]. split; [|split; [|exact Hev]].
    + cbn. rewrite Htk2, Htk1. cbn. now rewrite insert_insert.
    + intros k. rewrite el_set_tk, Hel2, list_to_map_to_list, Hel1.
      change (el (set_tk s tn t1) k) with (el s k).
      pose proof (i_wr _ _ _ _ H k tn) as Hw. pose proof (i_rd _ _ _ _ H k tn) as Hr.
      pose proof (i_q _ _ _ _ H k tn) as Hq.
      rewrite (held_lookup _ _ _ _ Ht) in Hw, Hr.
      assert (Hqf : (if decide (k ∈ elements (t_queued t))
                then Elem (e_val (el s k)) (e_writer (el s k)) (e_readers (el s k))
                       (filter (fun y => q_tn y <> tn) (e_queue (el s k)))
                else el s k)
              = Elem (e_val (el s k)) (e_writer (el s k)) (e_readers (el s k))
                       (filter (fun y => q_tn y <> tn) (e_queue (el s k)))).
      { destruct (decide (k ∈ elements (t_queued t))) as [|Hn]; [reflexivity|].
        rewrite filter_tn_id; [now destruct (el s k)|].
        intros C. apply Hn, elem_of_elements. apply Hq in C as (t' & Ht' & Hk).
        congruence. }
      rewrite Hqf. unfold rel_elem. cbn [e_val e_writer e_readers e_queue].
      destruct (t_held t !! k) as [[]|] eqn:Eh.
      * rewrite decide_False; [reflexivity|]. intros C. apply Hw in C. discriminate.
      * rewrite decide_True by (now apply Hw).
        assert (e_readers (el s k) ∖ {[tn]} = e_readers (el s k)) as ->; [|reflexivity].
        apply set_eq. intros r. rewrite elem_of_difference, elem_of_singleton.
        split; [tauto|]. intros C. split; [exact C|]. intros ->. apply Hr in C. discriminate.
      * rewrite decide_False by (intros C; apply Hw in C; discriminate).
        assert (e_readers (el s k) ∖ {[tn]} = e_readers (el s k)) as ->; [|reflexivity].
        apply set_eq. intros r. rewrite elem_of_difference, elem_of_singleton.
        split; [tauto|]. intros C. split; [exact C|]. intros ->. apply Hr in C. discriminate.
Qed.

Lemma held_rel s s' tn t' k tn' :
  s_tk s' = <[tn := t']> (s_tk s) -> t_held t' = ∅ ->
  held s' tn' k = if decide (tn' = tn) then None else held s tn' k.
Proof.
  intros E Eh. unfold held. rewrite E. destruct (decide (tn' = tn)) as [->|Hn].
  - rewrite lookup_insert. cbn. rewrite Eh. apply lookup_empty.
  - now rewrite lookup_insert_ne by congruence.
Qed.

Lemma qtns_rel s s' tn k :
  el s' k = rel_elem tn (el s k) ->
  forall a, a ∈ qtns s' k <-> a ∈ qtns s k /\ a <> tn.
Proof.
  intros E a. unfold qtns. rewrite E. cbn. rewrite !elem_of_list_fmap. split.
  - intros (y & -> & [Hy Hin]%elem_of_list_filter). eauto.
  - intros [(y & -> & Hin) Hne]. exists y. split; [done|]. now apply elem_of_list_filter.
Qed.

(** Releasing a ticket's locks keeps the invariant, except that the requests queued
    on the keys it held or waited on may now be grantable. *)
Lemma release_inv K ex z s tn t st d s' :
  sinv K ex z s -> s_tk s !! tn = Some t ->
  s_tk s' = <[tn := Ticket st ∅ ∅ (t_update t) (t_broker t) d]> (s_tk s) ->
  (forall k, el s' k = rel_elem tn (el s k)) ->
  st <> Prepared \/ z = Some tn ->
  sinv (K ∪ (t_queued t ∪ dom (t_held t))) ex z s'.
Proof.
  intros H Ht Etk Eel Hst.
  assert (Hh : forall tn' k, held s' tn' k = if decide (tn' = tn) then None else held s tn' k)
    by (intros; eapply held_rel; [exact Etk|reflexivity]).
  assert (Hin : forall k x, x ∈ e_queue (el s' k) <-> x ∈ e_queue (el s k) /\ q_tn x <> tn).
  { intros k x. rewrite Eel. cbn. rewrite elem_of_list_filter. tauto. }
  constructor.
  - intros k tn'. rewrite Eel, Hh. cbn. destruct (decide (tn' = tn)) as [->|Hn].
    + destruct (decide _) as [E|E]; [split; discriminate|]. split; [congruence|discriminate].
    + rewrite <- (i_wr _ _ _ _ H). destruct (decide _) as [E|E]; [|reflexivity].
      split; [discriminate|]. intros E'. congruence.
  - intros k tn'. rewrite Eel, Hh. cbn. rewrite elem_of_difference, elem_of_singleton.
    destruct (decide (tn' = tn)) as [->|Hn]; [split; [tauto|discriminate]|].
    rewrite (i_rd _ _ _ _ H). tauto.
  - intros k tn'. rewrite (qtns_rel _ _ _ _ (Eel k)), (i_q _ _ _ _ H).
    unfold queued. rewrite Etk. destruct (decide (tn' = tn)) as [->|Hn].
    + rewrite lookup_insert. split; [tauto|]. intros (t' & [= <-] & C). cbn in C. set_solver.
    + rewrite lookup_insert_ne by congruence. tauto.
  - intros k. unfold qtns. rewrite Eel. cbn. apply sorted_filter, (i_sorted _ _ _ _ H).
  - intros k. rewrite Eel. cbn. destruct (decide _); [now left|].
    destruct (i_excl _ _ _ _ H k) as [E|E]; [now left|right]. rewrite E. set_solver.
  - intros tn' t'. rewrite Etk. destruct (decide (tn' = tn)) as [->|Hn].
    + rewrite lookup_insert. now intros [= <-].
    + rewrite lookup_insert_ne by congruence. apply (i_idle _ _ _ _ H).
  - intros tn' t'. rewrite Etk. destruct (decide (tn' = tn)) as [->|Hn].
    + rewrite lookup_insert. now intros [= <-].
    + rewrite lookup_insert_ne by congruence. apply (i_nolock _ _ _ _ H).
  - intros k x h m [Hx Hxt]%Hin Hm Hc Hex. rewrite Hh in Hm.
    destruct (decide (h = tn)) as [|Hn]; [discriminate|].
    destruct (i_order _ _ _ _ H k x h m Hx Hm Hc Hex) as [Hp|Hp]; [left|now right].
    destruct Hp as (t' & Ht' & Hp). exists t'. rewrite Etk, lookup_insert_ne by congruence. auto.
  - intros k x m [Hx Hxt]%Hin Hm. rewrite Hh in Hm. rewrite decide_False in Hm by exact Hxt.
    apply (i_up _ _ _ _ H k x m Hx Hm).
  - intros k x q Hk Hq.
    assert (Hk1 : k ∉ K) by set_solver.
    assert (Hnq : ~ k ∈ t_queued t) by set_solver.
    assert (Hnh : t_held t !! k = None) by (apply not_elem_of_dom; set_solver).
    assert (Hf : filter (fun y => q_tn y <> tn) (e_queue (el s k)) = e_queue (el s k)).
    { apply filter_tn_id. intros C. apply (i_q _ _ _ _ H) in C as (t' & Ht' & C). congruence. }
    rewrite Eel in Hq. cbn in Hq. rewrite Hf in Hq.
    pose proof (i_head _ _ _ _ H k x q Hk1 Hq) as Hb. rewrite Eel.
    unfold blocked in *. cbn.
    assert (Hw : e_writer (el s k) <> Some tn).
    { rewrite (i_wr _ _ _ _ H), (held_lookup _ _ _ _ Ht), Hnh. discriminate. }
    assert (Hr : ~ tn ∈ e_readers (el s k)).
    { rewrite (i_rd _ _ _ _ H), (held_lookup _ _ _ _ Ht), Hnh. discriminate. }
    rewrite decide_False by exact Hw.
    destruct (q_mode x); [exact Hb|]. destruct Hb as [Hb|(r & Hin' & Hne)]; [now left|right].
    exists r. split; [|exact Hne]. apply elem_of_difference. split; [exact Hin'|].
    rewrite elem_of_singleton. congruence.
  - intros tn' t' k v Hz. rewrite Etk. destruct (decide (tn' = tn)) as [->|Hn].
    + rewrite lookup_insert. intros [= <-]. cbn. intros ->. destruct Hst; congruence.
    + rewrite lookup_insert_ne by congruence. apply (i_upd _ _ _ _ H); exact Hz.
Qed.

(** ** acquire_lock *)

Lemma readers_only (X : gset ticket_no) tn :
  (1 <? size X)%nat = false -> ((size X =? 1)%nat = true -> X = {[tn]}) ->
  forall r, r ∈ X -> r = tn.
Proof.
  intros H1 H2 r Hr.
  destruct (Nat.eqb_spec (size X) 1) as [E|E].
  - rewrite (H2 eq_refl) in Hr. set_solver.
  - apply Nat.ltb_ge in H1. assert (size X = 0%nat) as Hz by lia.
    apply size_empty_inv in Hz. set_solver.
Qed.

Lemma size_gt_1 (X : gset ticket_no) tn :
  (1 < size X)%nat -> exists r, r ∈ X /\ r <> tn.
Proof.
  intros H. destruct (decide (set_Exists (fun r => r <> tn) X)) as [(r & Hr & Hn)|Hn]; [eauto|].
  exfalso. assert (X ⊆ {[tn]}) as Hsub.
  { intros r Hr. destruct (decide (r = tn)) as [->|Hne]; [set_solver|].
    exfalso. apply Hn. exists r. auto. }
  apply subseteq_size in Hsub. rewrite size_singleton in Hsub. lia.
Qed.

Lemma size_1 (X : gset ticket_no) tn :
  size X = 1%nat -> X <> {[tn]} -> exists r, r ∈ X /\ r <> tn.
Proof.
  intros H Hne. apply size_1_elem_of in H as [y Hy].
  exists y. assert (X = {[y]}) as -> by (apply set_eq; set_solver).
  split; [set_solver|]. intros ->. now apply Hne.
Qed.

(** The state after granting the first request [x] of [k]'s queue. *)
Definition grant (s : shard) (k : key) (x : qent) (q' : list qent)
    (wr : option ticket_no) (rd : gset ticket_no) : shard :=
  let t := tkt s (q_tn x) in
  set_tk (set_el s k (Elem (e_val (el s k)) wr rd q')) (q_tn x)
    (Ticket (t_state t) (<[k := q_mode x]> (t_held t)) (t_queued t ∖ {[k]})
       (t_update t) (t_broker t) (t_details t)).

Lemma acquire_cases s k :
  (acquire_lock s k = (s, [], false) /\
     forall x q, e_queue (el s k) = x :: q -> blocked (el s k) x) \/
  (exists x q, e_queue (el s k) = x :: q /\ e_writer (el s k) = None /\
     ((q_mode x = Read /\
       acquire_lock s k = (grant s k x q None (e_readers (el s k) ∪ {[q_tn x]}),
         [ELock (q_rid x) (Granted (e_val (el s k)))], true)) \/
      (q_mode x = Write /\ (forall r, r ∈ e_readers (el s k) -> r = q_tn x) /\
       acquire_lock s k = (grant s k x q (Some (q_tn x)) ∅,
         [ELock (q_rid x) (Granted (e_val (el s k)))], false)))).
Proof.
  unfold acquire_lock, grant. destruct (e_queue (el s k)) as [|x q] eqn:Eq.
  { left. split; [reflexivity|discriminate]. }
  destruct (q_mode x) eqn:Em.
  - destruct (e_writer (el s k)) as [w|] eqn:Ew.
    + left. split; [reflexivity|]. intros x' q' [= <- <-]. unfold blocked. rewrite Em, Ew. done.
    + right. exists x, q. split; [done|]. split; [done|]. left. split; [exact Em|]. now rewrite Em.
  - destruct (e_writer (el s k)) as [w|] eqn:Ew.
    + left. split; [reflexivity|]. intros x' q' [= <- <-]. unfold blocked. rewrite Em, Ew. now left.
    + destruct (1 <? size (e_readers (el s k)))%nat eqn:E1.
      * left. split; [reflexivity|]. intros x' q' [= <- <-]. unfold blocked. rewrite Em. right.
        apply size_gt_1. now apply Nat.ltb_lt.
      * destruct (size (e_readers (el s k)) =? 1)%nat eqn:E2.
        -- destruct (bool_decide (e_readers (el s k) = {[q_tn x]})) eqn:E3.
           ++ right. exists x, q. split; [done|]. split; [done|]. right. split; [done|].
              apply bool_decide_eq_true in E3. split; [rewrite E3; set_solver|now rewrite Em].
           ++ left. split; [reflexivity|]. intros x' q' [= <- <-]. unfold blocked. rewrite Em. right.
              apply bool_decide_eq_false in E3. apply size_1; [now apply Nat.eqb_eq|exact E3].
        -- right. exists x, q. split; [done|]. split; [done|]. right. split; [done|].
           apply Nat.ltb_ge in E1. apply Nat.eqb_neq in E2.
           assert (size (e_readers (el s k)) = 0%nat) as Hz by lia.
           apply size_empty_inv, leibniz_equiv in Hz. rewrite Hz. split; [set_solver|now rewrite Em].
Qed.

Lemma qtns_mem s k x : x ∈ e_queue (el s k) -> q_tn x ∈ qtns s k.
Proof. intros H. apply elem_of_list_fmap. eauto. Qed.

(** A grantable head: what [acquire_lock] found. *)
Definition grantable (e : elem) (x : qent) (wr : option ticket_no) (rd : gset ticket_no) : Prop :=
  e_writer e = None /\
  ((q_mode x = Read /\ wr = None /\ rd = e_readers e ∪ {[q_tn x]}) \/
   (q_mode x = Write /\ wr = Some (q_tn x) /\ rd = ∅ /\
    forall r, r ∈ e_readers e -> r = q_tn x)).

Lemma grant_inv K ex z s k x q wr rd :
  sinv K ex z s -> k ∈ K -> e_queue (el s k) = x :: q -> grantable (el s k) x wr rd ->
  sinv (match q_mode x with Read => K | Write => K ∖ {[k]} end) ex z (grant s k x q wr rd).
Proof.
  intros H HK Eq [Ew Hg].
  assert (Hxin : x ∈ e_queue (el s k)) by (rewrite Eq; left).
  destruct (proj1 (i_q _ _ _ _ H k (q_tn x)) (qtns_mem _ _ _ Hxin)) as (t & Ht & Hkq).
  assert (Hst : t_state t = Begun).
  { destruct (decide (t_state t = Begun)) as [E|E]; [exact E|].
    pose proof (i_idle _ _ _ _ H _ _ Ht E). set_solver. }
  assert (Hsrt := i_sorted _ _ _ _ H k). unfold qtns in Hsrt. rewrite Eq in Hsrt. cbn in Hsrt.
  apply StronglySorted_inv in Hsrt as [Hsrt Hlt]. rewrite Forall_forall in Hlt.
  assert (Hlt' : forall y, y ∈ q -> q_tn x < q_tn y).
  { intros y Hy. apply Hlt, elem_of_list_fmap. eauto. }
  set (s' := grant s k x q wr rd).
  assert (Hel : forall k', el s' k' = if decide (k' = k)
                 then Elem (e_val (el s k)) wr rd q else el s k').
  { intros k'. unfold s', grant. rewrite el_set_tk, el_set_el. reflexivity. }
  assert (Htk : s_tk s' = <[q_tn x := Ticket (t_state t) (<[k := q_mode x]> (t_held t))
                   (t_queued t ∖ {[k]}) (t_update t) (t_broker t) (t_details t)]> (s_tk s)).
  { unfold s', grant. cbn. now rewrite (tkt_lookup _ _ _ Ht). }
  assert (Hh : forall tn k', held s' tn k' =
             if decide (tn = q_tn x /\ k' = k) then Some (q_mode x) else held s tn k').
  { intros tn k'. unfold held. rewrite Htk. destruct (decide (tn = q_tn x)) as [->|Hn].
    - rewrite lookup_insert. cbn. rewrite Ht. cbn. destruct (decide (k' = k)) as [->|Hk].
      + rewrite lookup_insert. now rewrite decide_True by auto.
      + rewrite lookup_insert_ne by congruence. rewrite decide_False by tauto. reflexivity.
    - rewrite lookup_insert_ne by congruence. now rewrite decide_False by tauto. }
  assert (Hq' : forall k' y, y ∈ e_queue (el s' k') <-> y ∈ e_queue (el s k') /\ ~ (k' = k /\ y = x)).
  { intros k' y. rewrite Hel. destruct (decide (k' = k)) as [->|Hk]; [|tauto].
    cbn. rewrite Eq, elem_of_cons. split.
    - intros Hy. split; [now right|]. intros [_ ->]. specialize (Hlt' _ Hy). lia.
    - intros [[->|Hy] Hn]; [tauto|exact Hy]. }
  assert (Hp : forall tn st, in_state s tn st -> in_state s' tn st).
  { intros tn st (t' & Ht' & E). unfold in_state. rewrite Htk.
    destruct (decide (tn = q_tn x)) as [->|Hn].
    - rewrite lookup_insert. eexists. split; [reflexivity|]. cbn. congruence.
    - rewrite lookup_insert_ne by congruence. eauto. }
  assert (Hnw : forall tn, held s tn k <> Some Write).
  { intros tn C. apply (i_wr _ _ _ _ H) in C. congruence. }
  constructor.
  - intros k' tn. rewrite Hel, Hh. destruct (decide (k' = k)) as [->|Hk].
    + cbn. destruct (decide (tn = q_tn x)) as [->|Hn].
      * rewrite decide_True by auto. destruct Hg as [(-> & -> & _)|(-> & -> & _)]; [|easy].
        split; discriminate.
      * rewrite decide_False by tauto. split.
        -- intros E. destruct Hg as [(_ & -> & _)|(_ & -> & _)]; congruence.
        -- intros C. now apply Hnw in C.
    + rewrite decide_False by tauto. apply (i_wr _ _ _ _ H).
  - intros k' tn. rewrite Hel, Hh. destruct (decide (k' = k)) as [->|Hk].
    + cbn. destruct (decide (tn = q_tn x)) as [->|Hn].
      * rewrite decide_True by auto.
        destruct Hg as [(-> & _ & ->)|(-> & _ & -> & _)]; [set_solver|]. split; [set_solver|discriminate].
      * rewrite decide_False by tauto. rewrite <- (i_rd _ _ _ _ H).
        destruct Hg as [(_ & _ & ->)|(_ & _ & -> & Hr)]; [set_solver|].
        split; [set_solver|]. intros C. apply Hr in C. contradiction.
    + rewrite decide_False by tauto. apply (i_rd _ _ _ _ H).
  - intros k' tn. unfold queued. rewrite Htk. unfold qtns.
    rewrite elem_of_list_fmap. setoid_rewrite Hq'.
    destruct (decide (tn = q_tn x)) as [->|Hn].
    + rewrite lookup_insert. split.
      * intros (y & Ey & Hy & Hny). eexists. split; [reflexivity|]. cbn.
        assert (k' <> k).
        { intros ->. apply Hny. split; [done|].
          apply (queue_unique _ _ _ (i_sorted _ _ _ _ H k) Hy Hxin). congruence. }
        assert (queued s (q_tn x) k') as (t' & Ht' & Hk').
        { apply (i_q _ _ _ _ H). rewrite Ey. now apply qtns_mem. }
        assert (t' = t) as -> by congruence. set_solver.
      * intros (t' & [= <-] & Hk'). cbn in Hk'.
        assert (Hk2 : k' <> k) by set_solver.
        assert (queued s (q_tn x) k') as Hqd by (exists t; set_solver).
        apply (i_q _ _ _ _ H), elem_of_list_fmap in Hqd as (y & Ey & Hy).
        exists y. split; [done|]. split; [done|]. tauto.
    + rewrite lookup_insert_ne by congruence. rewrite <- (i_q _ _ _ _ H k' tn). unfold qtns.
      rewrite elem_of_list_fmap. split.
      * intros (y & Ey & Hy & _). eauto.
      * intros (y & Ey & Hy). exists y. split; [done|]. split; [done|]. intros [_ ->]. congruence.
  - intros k'. unfold qtns. rewrite Hel. destruct (decide (k' = k)); [exact Hsrt|apply (i_sorted _ _ _ _ H)].
  - intros k'. rewrite Hel. destruct (decide (k' = k)); [|apply (i_excl _ _ _ _ H)].
    cbn. destruct Hg as [(_ & -> & _)|(_ & _ & -> & _)]; auto.
  - intros tn t'. rewrite Htk. destruct (decide (tn = q_tn x)) as [->|Hn].
    + rewrite lookup_insert. intros [= <-]. cbn. rewrite Hst. congruence.
    + rewrite lookup_insert_ne by congruence. apply (i_idle _ _ _ _ H).
  - intros tn t'. rewrite Htk. destruct (decide (tn = q_tn x)) as [->|Hn].
    + rewrite lookup_insert. intros [= <-]. cbn. rewrite Hst. intros [|]; discriminate.
    + rewrite lookup_insert_ne by congruence. apply (i_nolock _ _ _ _ H).
  - intros k' y h m [Hy Hny]%Hq' Hm Hc Hex. rewrite Hh in Hm.
    destruct (decide (h = q_tn x /\ k' = k)) as [[-> ->]|Hn].
    + right. left. apply Hlt'. rewrite Eq in Hy. apply elem_of_cons in Hy as [->|Hy]; [tauto|exact Hy].
    + destruct (i_order _ _ _ _ H k' y h m Hy Hm Hc Hex) as [Hpp|Hpp]; [left; auto|now right].
  - intros k' y m [Hy Hny]%Hq' Hm. rewrite Hh in Hm.
    destruct (decide (q_tn y = q_tn x /\ k' = k)) as [[Ey ->]|Hn].
    + exfalso. apply Hny. split; [done|]. apply (queue_unique _ _ _ (i_sorted _ _ _ _ H k) Hy Hxin Ey).
    + apply (i_up _ _ _ _ H k' y m Hy Hm).
  - intros k' y q0 Hk' Eq'. rewrite Hel in Eq' |- *.
    destruct (decide (k' = k)) as [->|Hk].
    + destruct Hg as [(Em & _ & _)|(Em & -> & -> & _)]; rewrite Em in Hk'; [contradiction|].
      unfold blocked. cbn. destruct (q_mode y); [discriminate|left; discriminate].
    + apply (i_head _ _ _ _ H k' y q0); [|exact Eq']. destruct (q_mode x); set_solver.
  - intros tn t' k' v Hz. rewrite Htk. destruct (decide (tn = q_tn x)) as [->|Hn].
    + rewrite lookup_insert. intros [= <-]. cbn. congruence.
    + rewrite lookup_insert_ne by congruence. apply (i_upd _ _ _ _ H); exact Hz.
Qed.
