(** Proofs about the RPC client. *)
From stdpp Require Import base option list gmap fin_maps.
From Coq Require Import NArith Lia.
From Verif Require Import Base RpcModel RpcSpec.
Open Scope N_scope.

(** ** Growth *)

Definition grow (s s' : client) : Prop :=
  (forall c x, r_calls s !! c = Some x -> exists x', r_calls s' !! c = Some x' /\
     c_id x' = c_id x /\ c_payload x' = c_payload x /\ c_kind x' = c_kind x /\
     (c_sent x = true -> c_sent x' = true)) /\
  r_requests s ⊆ r_requests s' /\ r_answers s ⊆ r_answers s'.

Lemma own_answer_mono s s' c r : grow s s' -> own_answer s c r -> own_answer s' c r.
Proof.
  intros (A & B & C) (x & X & S1 & S2 & S3). destruct (A c x X) as (x' & X' & E1 & E2 & _ & E4).
  exists x'. rewrite E1, E2. repeat split; auto.
Qed.

Lemma grow_same s s' : r_calls s' = r_calls s -> r_requests s' = r_requests s ->
  r_answers s' = r_answers s -> grow s s'.
Proof. intros E1 E2 E3. split; rewrite ?E1, ?E2, ?E3; eauto 10. Qed.

(** ** Counting completions *)

Definition count (c : nat) (es : list event) : nat := length (List.filter (of_call c) es).

Lemma count_app c es e : count c (es ++ [e]) = (count c es + if of_call c e then 1 else 0)%nat.
Proof.
  unfold count. rewrite List.filter_app, app_length. cbn. destruct (of_call c e); done.
Qed.

Lemma future_none c es : count c es = O -> future_value c es = None.
Proof.
  unfold count. induction es as [|e es IH]; [done|].
  cbn. destruct e as [c' v|c' r]; cbn; case_bool_decide; cbn; try done; auto.
Qed.

Lemma future_app_some c es e v : future_value c es = Some v -> future_value c (es ++ [e]) = Some v.
Proof.
  induction es as [|e' es IH]; [done|]. cbn. destruct e'; cbn; try case_bool_decide; auto.
Qed.

Lemma future_app_new c es v : count c es = O -> future_value c (es ++ [Fulfilled c v]) = Some v.
Proof.
  unfold count. induction es as [|e' es IH]; cbn.
  - intros _. by rewrite bool_decide_eq_true_2.
  - destruct e'; cbn; case_bool_decide; cbn; try done; auto.
Qed.

Lemma future_in c es v : future_value c es = Some v -> Fulfilled c v ∈ es.
Proof.
  induction es as [|e' es IH]; [done|]. cbn. destruct e' as [c' v'|]; cbn.
  - case_bool_decide as D; [intros [= ->]; subst; left|right; auto].
  - right. auto.
Qed.

Lemma not_fulfilled c es : count c es = O -> existsb (is_fulfilled c) es = false.
Proof.
  unfold count. induction es as [|e' es IH]; [done|]. cbn.
  destruct e'; cbn; case_bool_decide; cbn; try done; auto.
Qed.

(** ** The invariant *)

Definition unsent_phase (p : phase) : Prop :=
  p = Started \/ p = Registered \/ p = Failing \/ p = Returned (RBool false).

Definition kind_phase (k : kind) (p : phase) : Prop :=
  match p with
  | Waiting | TimedOut | Returned (RValue _) => exists t, k = Blocking t
  | Returned (RBool _) => k = Callback
  | _ => True
  end.

Definition event_ok (s : client) (e : event) : Prop :=
  match e with
  | Fulfilled c v =>
      (exists x t, r_calls s !! c = Some x /\ c_kind x = Blocking t) /\
      match v with Some r => own_answer s c r | None => True end
  | Called c r =>
      (exists x, r_calls s !! c = Some x /\ c_kind x = Callback) /\ own_answer s c r
  end.

Record Inv (s : client) : Prop := {
  i_counter : r_counter s = wrap64 (N.of_nat (length (r_calls s)));
  i_id : forall c x, r_calls s !! c = Some x -> c_id x = N.of_nat c;
  i_phase : forall c x, r_calls s !! c = Some x -> kind_phase (c_kind x) (c_phase x);
  i_sent : forall c x, r_calls s !! c = Some x -> unsent_phase (c_phase x) -> c_sent x = false;
  i_started : forall c x, r_calls s !! c = Some x -> c_phase x = Started ->
    count c (r_events s) = O /\ r_pending s !! c_id x = None;
  i_pending : forall id c, r_pending s !! id = Some c -> exists x, r_calls s !! c = Some x /\
    c_id x = id /\ count c (r_events s) = O /\ c_phase x <> Started;
  i_handler : forall c r, r_handler s = Some (c, r) -> own_answer s c r /\
    count c (r_events s) = O /\ r_pending s !! N.of_nat c = None;
  i_events : forall e, e ∈ r_events s -> event_ok s e;
  i_once : forall c, (count c (r_events s) <= 1)%nat;
  i_requests : forall id p, (id, p) ∈ r_requests s -> exists c x, r_calls s !! c = Some x /\
    c_id x = id /\ c_payload x = p /\ c_sent x = true;
  i_answers : forall id p r, (id, p, r) ∈ r_answers s -> (id, p) ∈ r_requests s;
  i_value : forall c x b, r_calls s !! c = Some x -> c_phase x = Returned (RValue (Some b)) ->
    own_answer s c (Some b);
  i_waiting : forall c x, r_calls s !! c = Some x -> c_phase x = Waiting ->
    r_pending s !! c_id x = Some c \/ (exists r, r_handler s = Some (c, r)) \/
    exists v, future_value c (r_events s) = Some v;
  i_registered : forall c x, r_calls s !! c = Some x -> c_phase x = Registered ->
    r_closed s = false -> r_pending s !! c_id x = Some c;
  i_closed : r_closed s = true -> r_handler s = None
}.

Lemma inv_init : Inv client_init.
Proof.
  constructor; cbn; try done; try (intros; set_solver).
  intros; lia.
Qed.

(** A call in a phase before its request is out has no answers. *)
Lemma unsent_no_answer s c x r : Inv s -> r_calls s !! c = Some x -> unsent_phase (c_phase x) ->
  ~ own_answer s c r.
Proof.
  intros I X U (x' & X' & S & _). rewrite X in X'. inversion X'; subst x'.
  rewrite (i_sent s I c x X U) in S. discriminate.
Qed.

Lemma lookup_with_phase (l : list call) c p c' x :
  alter (fun y => with_phase y p) c l !! c' = Some x ->
  exists y, l !! c' = Some y /\ (x = y /\ c' <> c \/ x = with_phase y p /\ c' = c).
Proof.
  destruct (decide (c = c')) as [<-|N].
  - rewrite list_lookup_alter. intros (y & -> & ->)%fmap_Some_1. eauto.
  - rewrite list_lookup_alter_ne by done. eauto.
Qed.

Lemma grow_phase s c p : grow s (set_phase s c p).
Proof.
  split; [|done]. intros c' x X. cbn. destruct (decide (c = c')) as [<-|N].
  - rewrite list_lookup_alter, X. cbn. eexists. split; [done|]. done.
  - rewrite list_lookup_alter_ne by done. eauto 10.
Qed.

Lemma grow_trans s1 s2 s3 : grow s1 s2 -> grow s2 s3 -> grow s1 s3.
Proof.
  intros (A & B & C) (A' & B' & C'). split; [|split; set_solver].
  intros c x X. destruct (A c x X) as (y & Y & E1 & E2 & E3 & E4).
  destruct (A' c y Y) as (z & Z & F1 & F2 & F3 & F4). exists z.
  repeat split; try done; try congruence. auto.
Qed.

Lemma event_mono s s' e : grow s s' -> event_ok s e -> event_ok s' e.
Proof.
  intros G. destruct e as [c v|c r]; cbn.
  - intros ((x & t & X & K) & V). split.
    + destruct (proj1 G c x X) as (y & Y & _ & _ & E & _). exists y, t. split; congruence.
    + destruct v; [by eapply own_answer_mono|done].
  - intros ((x & X & K) & V). split.
    + destruct (proj1 G c x X) as (y & Y & _ & _ & E & _). exists y. split; congruence.
    + by eapply own_answer_mono.
Qed.

Ltac old I :=
  first [exact (i_counter _ I) | exact (i_id _ I) | exact (i_phase _ I) | exact (i_sent _ I)
        |exact (i_started _ I) | exact (i_pending _ I) | exact (i_handler _ I) | exact (i_once _ I)
        |exact (i_requests _ I) | exact (i_answers _ I) | exact (i_waiting _ I) | exact (i_registered _ I)
        |exact (i_closed _ I)].

Ltac fields :=
  cbn [r_counter r_calls r_pending r_handler r_requests r_answers r_events r_closed set_phase
       set_calls set_pending set_handler add_request add_answer add_event set_closed].

(** Setting the phase of one call. *)
Lemma inv_set_phase s c x p : Inv s -> r_calls s !! c = Some x ->
  kind_phase (c_kind x) p ->
  (unsent_phase p -> unsent_phase (c_phase x)) ->
  p <> Started ->
  (forall b, p = Returned (RValue (Some b)) -> own_answer s c (Some b)) ->
  (p = Waiting -> c_phase x = Waiting) ->
  p <> Registered ->
  Inv (set_phase s c p).
Proof.
  intros I X K U NS V W NR. pose proof (grow_phase s c p) as G.
  constructor; fields.
  - rewrite alter_length. apply I.
  - intros c' y Y. apply lookup_with_phase in Y as (z & Z & [[-> _]|[-> ->]]); cbn; eapply I; eauto.
  - intros c' y Y. apply lookup_with_phase in Y as (z & Z & [[-> _]|[-> ->]]); cbn.
    + eapply I; eauto.
    + congruence.
  - intros c' y Y. apply lookup_with_phase in Y as (z & Z & [[-> _]|[-> ->]]); cbn.
    + eapply I; eauto.
    + intros U'. eapply I; eauto. rewrite X in Z. inversion Z; subst. auto.
  - intros c' y Y. apply lookup_with_phase in Y as (z & Z & [[-> _]|[-> ->]]); cbn.
    + intros S. exact (i_started s I c' z Z S).
    + intros S. congruence.
  - intros id c' H. destruct (i_pending s I id c' H) as (y & Y & E1 & E2 & E3).
    destruct (decide (c = c')) as [<-|N].
    + exists (with_phase y p). rewrite list_lookup_alter, Y. cbn. done.
    + exists y. rewrite list_lookup_alter_ne by done. done.
  - intros c' r H. destruct (i_handler s I c' r H) as (A & B & C). split; [|done].
    by eapply own_answer_mono.
  - intros e E. eapply event_mono; [exact G|]. by apply I.
  - apply I.
  - intros id q H. destruct (i_requests s I id q H) as (c' & y & Y & E1 & E2 & E3).
    destruct (proj1 G c' y Y) as (z & Z & F1 & F2 & _ & F4). exists c', z.
    repeat split; try done; try congruence. auto.
  - apply I.
  - intros c' y b Y. apply lookup_with_phase in Y as (z & Z & [[-> _]|[-> ->]]); cbn.
    + intros H. eapply own_answer_mono; [exact G|]. exact (i_value s I c' z b Z H).
    + intros ->. eapply own_answer_mono; [exact G|]. eauto.
  - intros c' y Y. apply lookup_with_phase in Y as (z & Z & [[-> _]|[-> ->]]); cbn.
    + intros H. exact (i_waiting s I c' z Z H).
    + intros H. eapply (i_waiting s I); [exact Z|]. rewrite X in Z. inversion Z; subst z. auto.
  - intros c' y Y. apply lookup_with_phase in Y as (z & Z & [[-> _]|[-> ->]]); cbn.
    + exact (i_registered s I c' z Z).
    + congruence.
  - apply I.
Qed.

(** Taking an entry out of the map, for a call that does not wait for it any more or is
    taken over by the handler. *)
Lemma inv_complete s s1 c x h v : Inv s -> r_calls s !! c = Some x ->
  count c (r_events s) = O ->
  c_phase x <> Started ->
  (c_phase x = Registered -> r_closed s = true) ->
  s1 = set_handler (set_pending s (delete (N.of_nat c) (r_pending s))) h ->
  (h = r_handler s /\ (forall r, r_handler s <> Some (c, r)) \/
   h = None /\ forall c' r, r_handler s = Some (c', r) -> c' = c) ->
  match v with Some r => own_answer s c r | None => True end ->
  exists s', complete s1 c v = Next s' /\ Inv s'.
Proof.
  intros I X C0 NS NR -> HH V. unfold complete. cbn [r_calls set_handler set_pending]. rewrite X.
  set (s1 := set_handler _ h).
  assert (G1 : grow s s1) by by apply grow_same.
  assert (I1 : (forall t, c_kind x = Blocking t -> False) -> Inv s1).
  { intros NB. unfold s1; constructor; fields; try old I.
    - intros c' y Y P. destruct (i_started s I c' y Y P) as (A & B). split; [done|].
      rewrite lookup_delete_None. auto.
    - intros id c' [D H]%lookup_delete_Some. exact (i_pending s I id c' H).
    - intros c' r H. destruct HH as [[-> HH]|[-> HH]]; [|discriminate].
      destruct (i_handler s I c' r H) as (A & B & C). split; [by eapply own_answer_mono|].
      split; [done|]. rewrite lookup_delete_None. auto.
    - intros e E. eapply event_mono; [exact G1|]. by apply I.
    - intros c' y b Y P. eapply own_answer_mono; [exact G1|]. exact (i_value s I c' y b Y P).
    - intros c' y Y P. assert (c' <> c) by (intros ->; rewrite X in Y; inversion Y; subst y;
        pose proof (i_phase s I c x X) as K; rewrite P in K; destruct K as [t K]; eauto).
      destruct (i_waiting s I c' y Y P) as [W|[[r W]|W]]; [left|right; left|auto].
      + rewrite lookup_delete_ne; [done|]. rewrite (i_id s I c' y Y). lia.
      + destruct HH as [[-> HH]|[-> HH]]; [eauto|]. apply HH in W. done.
    - intros c' y Y P CL. rewrite lookup_delete_ne; [exact (i_registered s I c' y Y P CL)|].
      rewrite (i_id s I c' y Y). intros ?. assert (c' = c) as -> by lia.
      rewrite X in Y. inversion Y; subst y. rewrite (NR P) in CL. discriminate.
    - intros CL. pose proof (i_closed s I CL). destruct HH as [[-> _]|[-> _]]; done. }
  assert (I2 : forall e, of_call c e = true -> (forall c', c' <> c -> of_call c' e = false) ->
     event_ok s e ->
     (c_phase x = Waiting -> exists w, future_value c (r_events s ++ [e]) = Some w) ->
     Inv (add_event s1 e)).
  { intros e E1 E2 E3 E4.
    assert (G2 : grow s (add_event s1 e)) by by apply grow_same.
    unfold s1; constructor; fields; try old I.
    - intros c' y Y P. assert (c' <> c) by congruence.
      destruct (i_started s I c' y Y P) as (A & B). rewrite count_app, (E2 c') by done. split; [lia|].
      rewrite lookup_delete_None. auto.
    - intros id c' [D H]%lookup_delete_Some. destruct (i_pending s I id c' H) as (y & Y & F1 & F2 & F3).
      exists y. split; [done|]. split; [done|]. split; [|done]. rewrite count_app, (E2 c'); [lia|].
      intros ->. rewrite (i_id s I c y Y) in F1. done.
    - intros c' r H. destruct HH as [[-> HH]|[-> HH]]; [|discriminate].
      assert (N : c' <> c) by (intros ->; by apply HH in H).
      destruct (i_handler s I c' r H) as (A & B & C). split; [by eapply own_answer_mono|].
      rewrite count_app, (E2 c' N). split; [lia|]. rewrite lookup_delete_None. auto.
    - intros e' [E|E]%elem_of_app.
      + eapply event_mono; [exact G2|]. by apply I.
      + apply elem_of_list_singleton in E as ->. by eapply event_mono.
    - intros c'. rewrite count_app. destruct (decide (c' = c)) as [->|N].
      + rewrite E1, C0. lia.
      + rewrite (E2 c' N). pose proof (i_once s I c'). lia.
    - intros c' y b Y P. eapply own_answer_mono; [exact G2|]. exact (i_value s I c' y b Y P).
    - intros c' y Y P. destruct (decide (c' = c)) as [->|N].
      + right. right. apply E4. congruence.
      + destruct (i_waiting s I c' y Y P) as [W|[[r W]|[w W]]]; [left|right; left|right; right].
        * rewrite lookup_delete_ne; [done|]. rewrite (i_id s I c' y Y). lia.
        * destruct HH as [[-> HH]|[-> HH]]; [eauto|]. apply HH in W. done.
        * exists w. by apply future_app_some.
    - intros c' y Y P CL. rewrite lookup_delete_ne; [exact (i_registered s I c' y Y P CL)|].
      rewrite (i_id s I c' y Y). intros ?. assert (c' = c) as -> by lia.
      rewrite X in Y. inversion Y; subst y. rewrite (NR P) in CL. discriminate.
    - intros CL. pose proof (i_closed s I CL). destruct HH as [[-> _]|[-> _]]; done. }
  destruct (c_kind x) as [t|] eqn:KX.
  - rewrite (not_fulfilled c (r_events s1) C0). eexists. split; [reflexivity|]. apply I2.
    + cbn. by apply bool_decide_eq_true.
    + intros c' N. cbn. by apply bool_decide_eq_false.
    + cbn. split; [eauto|done].
    + intros _. exists v. by apply future_app_new.
  - destruct v as [r|]; eexists; (split; [reflexivity|]).
    + apply I2.
      * cbn. by apply bool_decide_eq_true.
      * intros c' N. cbn. by apply bool_decide_eq_false.
      * cbn. split; [eauto|done].
      * intros P. pose proof (i_phase s I c x X) as K. rewrite P, KX in K. destruct K. discriminate.
    + apply I1. done.
Qed.

Lemma set_handler_same s : set_handler s (r_handler s) = s.
Proof. by destruct s. Qed.

Lemma with_pending s p h : set_handler (set_pending s p) h = set_pending (set_handler s h) p.
Proof. done. Qed.

(** The thread of a call completes it. *)
Lemma inv_own s c x : Inv s -> r_calls s !! c = Some x -> c_phase x <> Started ->
  c_phase x <> Registered ->
  exists s', set_response_own s (c_id x) None = Next s' /\ Inv s' /\
    r_calls s' = r_calls s /\
    (forall c' r, own_answer s c' r -> own_answer s' c' r).
Proof.
  intros I X NS NR. unfold set_response_own. destruct (r_pending s !! c_id x) as [c'|] eqn:P.
  - destruct (i_pending s I _ _ P) as (y & Y & E & C0 & NS').
    assert (c' = c) as ->.
    { rewrite (i_id s I c' y Y), (i_id s I c x X) in E. lia. }
    destruct (inv_complete s (set_pending s (delete (c_id x) (r_pending s))) c x (r_handler s) None)
      as (s' & E' & I'); try done.
    { rewrite (i_id s I c x X), with_pending, set_handler_same. done. }
    { left. split; [done|]. intros r H. destruct (i_handler s I c r H) as (_ & _ & H').
      rewrite (i_id s I c x X) in P. congruence. }
    exists s'. split; [done|]. split; [done|].
    unfold complete in E'. cbn [r_calls set_pending] in E'. rewrite X in E'.
    destruct (c_kind x).
    + destruct (existsb _ _); [discriminate|]. inversion E'; subst s'. split; [done|].
      intros ? ?. apply own_answer_mono. by apply grow_same.
    + inversion E'; subst s'. split; [done|]. intros ? ?. apply own_answer_mono. by apply grow_same.
  - exists s. done.
Qed.

Lemma complete_calls s c v s' : complete s c v = Next s' ->
  r_calls s' = r_calls s /\ r_pending s' = r_pending s /\ r_handler s' = r_handler s /\
  r_closed s' = r_closed s.
Proof.
  unfold complete. destruct (r_calls s !! c) as [x|]; [|discriminate].
  destruct (c_kind x).
  - destruct (existsb _ _); [discriminate|]. intros [= <-]. done.
  - destruct v; intros [= <-]; done.
Qed.

(** The destructor's loop: as if each entry was taken out of the map when completed. *)
Lemma inv_complete_all (l : list (N * nat)) : forall s, Inv s -> r_closed s = true ->
  base.NoDup l.*1 -> (forall id c, (id, c) ∈ l -> r_pending s !! id = Some c) ->
  (forall id c, r_pending s !! id = Some c -> (id, c) ∈ l) ->
  exists s', complete_all s l.*2 = Next s' /\ Inv (set_pending s' ∅) /\ r_closed s' = true.
Proof.
  assert (G : forall l s p, Inv (set_pending s p) -> r_closed s = true ->
    base.NoDup l.*1 -> (forall id c, (id, c) ∈ l <-> p !! id = Some c) ->
    exists s', complete_all s l.*2 = Next s' /\ Inv (set_pending s' ∅) /\ r_closed s' = true).
  { clear l. induction l as [|[id c] l IH]; intros s p I CL N E;
      pose proof (i_closed _ I CL) as H; cbn [r_handler set_pending] in H.
    - exists s. split; [done|]. split; [|done].
      assert (p = ∅) as ->; [|done]. apply map_empty. intros i. destruct (p !! i) eqn:P; [|done].
      apply E in P. set_solver.
    - cbn [fmap list_fmap snd complete_all].
      assert (P : p !! id = Some c) by (apply E; left).
      destruct (i_pending _ I id c P) as (x & X & IDX & C0 & NS).
      cbn [r_calls r_events set_pending] in X, C0.
      assert (IDN : N.of_nat c = id) by (rewrite <- IDX; symmetry; exact (i_id _ I c x X)).
      destruct (inv_complete (set_pending s p)
                  (set_pending s (delete id p)) c x None None) as (s' & E' & I'); try done.
      { rewrite IDN. cbn. destruct s; cbn in *. rewrite H. done. }
      { right. split; [done|]. cbn. rewrite H. discriminate. }
      (* completing does not look at the map *)
      assert (exists s2, complete s c None = Next s2 /\ s' = set_pending s2 (delete id p)
                /\ r_closed s2 = true) as (s2 & E2 & -> & H2).
      { unfold complete in E' |- *. cbn [r_calls set_pending r_events] in E'. rewrite X in *.
        destruct (c_kind x).
        - destruct (existsb _ _); [discriminate|]. inversion E'; subst. eauto.
        - inversion E'; subst. eauto. }
      rewrite E2. apply (IH s2 (delete id p)); [done|done| |].
      + cbn in N. by apply NoDup_cons in N as [_ N].
      + cbn in N. apply NoDup_cons in N as [N1 N2]. intros i d. rewrite lookup_delete_Some. split.
        * intros D. split; [|apply E; by right].
          intros <-. apply N1. apply elem_of_list_fmap. by exists (id, d).
        * intros [D1 D2]. apply E in D2. apply elem_of_cons in D2 as [[= -> ->]|]; done. }
  intros s I H N E1 E2. apply (G l s (r_pending s)); [by destruct s|done|done|].
  intros id c. split; auto.
Qed.

Lemma step_inv s o : Inv s ->
  (forall k p, o = RStart k p -> N.of_nat (length (r_calls s)) < two64) ->
  match rpc_step s o with Next s' => Inv s' | Disabled => True | Broken => False end.
Proof.
  intros I B. unfold rpc_step.
  destruct (r_closed s && is_open_op o) eqn:CL; [done|].
  assert (OPEN : is_open_op o = true -> r_closed s = false).
  { intros E. rewrite E, andb_true_r in CL. done. }
  clear CL.
  destruct o as [k p|c|c ok|c|c|c|c|i r|j| |].
  - (* start *)
    specialize (B k p eq_refl). cbn in OPEN. specialize (OPEN eq_refl).
    set (s' := Client _ _ _ _ _ _ _ _).
    assert (OLD : forall c x, r_calls s' !! c = Some x ->
       r_calls s !! c = Some x \/ c = length (r_calls s) /\ x = Call k (r_counter s) p Started false).
    { intros c x X. unfold s' in X. cbn in X. apply lookup_app_Some in X as [X|[L X]]; [eauto|].
      destruct (c - length (r_calls s))%nat as [|n] eqn:D; [|by destruct n].
      inversion X; subst x. right. split; [lia|done]. }
    assert (NEW : forall c x, r_calls s !! c = Some x -> r_calls s' !! c = Some x).
    { intros c x X. unfold s'. cbn. by apply lookup_app_l_Some. }
    assert (G : grow s s').
    { split; [|done]. intros c x X. exists x. rewrite (NEW c x X). done. }
    assert (NC : r_counter s = N.of_nat (length (r_calls s))).
    { rewrite (i_counter s I). unfold wrap64. by rewrite N.mod_small. }
    assert (NOEV : count (length (r_calls s)) (r_events s) = O).
    { destruct (count (length (r_calls s)) (r_events s)) as [|n] eqn:CN; [done|]. exfalso.
      unfold count in CN. destruct (List.filter _ _) as [|e es] eqn:F; [discriminate|].
      assert (IN : In e (e :: es)) by by left. rewrite <- F in IN.
      apply filter_In in IN as [IN OF]. apply elem_of_list_In in IN.
      pose proof (i_events s I e IN) as EO. destruct e as [c' v|c' r]; cbn in OF, EO;
        apply bool_decide_eq_true in OF as ->.
      - destruct EO as [(x & t & X & _) _]. apply lookup_lt_Some in X. lia.
      - destruct EO as [(x & X & _) _]. apply lookup_lt_Some in X. lia. }
    constructor.
    + unfold s'. cbn. rewrite app_length, (i_counter s I). cbn. unfold add64, wrap64.
      rewrite N.add_mod_idemp_l by done. f_equal. lia.
    + intros c x X. destruct (OLD c x X) as [X'|[-> ->]]; [exact (i_id s I c x X')|]. done.
    + intros c x X. destruct (OLD c x X) as [X'|[-> ->]]; [exact (i_phase s I c x X')|done].
    + intros c x X. destruct (OLD c x X) as [X'|[-> ->]]; [exact (i_sent s I c x X')|done].
    + intros c x X PH. destruct (OLD c x X) as [X'|[-> ->]]; [exact (i_started s I c x X' PH)|].
      split; [done|]. cbn. destruct (r_pending s !! r_counter s) as [d|] eqn:P; [|done].
      destruct (i_pending s I _ _ P) as (y & Y & E & _). rewrite (i_id s I d y Y), NC in E.
      apply lookup_lt_Some in Y. lia.
    + intros id c H. destruct (i_pending s I id c H) as (x & X & E). exists x.
      split; [by apply NEW|done].
    + intros c r H. destruct (i_handler s I c r H) as (A1 & A2 & A3).
      split; [by eapply own_answer_mono|done].
    + intros e E. eapply event_mono; [exact G|]. by apply I.
    + apply (i_once s I).
    + intros id q H. destruct (i_requests s I id q H) as (c & x & X & E). exists c, x.
      split; [by apply NEW|done].
    + apply (i_answers s I).
    + intros c x b X PH. destruct (OLD c x X) as [X'|[-> ->]]; [|discriminate].
      eapply own_answer_mono; [exact G|]. exact (i_value s I c x b X' PH).
    + intros c x X PH. destruct (OLD c x X) as [X'|[-> ->]]; [|discriminate]. exact (i_waiting s I c x X' PH).
    + intros c x X PH. destruct (OLD c x X) as [X'|[-> ->]]; [|discriminate]. exact (i_registered s I c x X' PH).
    + apply (i_closed s I).
  - (* register *)
    destruct (r_calls s !! c) as [x|] eqn:X; [|done].
    destruct (c_phase x) eqn:PH; try done.
    destruct (i_started s I c x X PH) as (C0 & PN). rewrite PN.
    specialize (OPEN eq_refl).
    set (s' := set_phase _ c Registered).
    assert (G : grow s s').
    { eapply grow_trans; [|apply grow_phase]. by apply grow_same. }
    assert (OLD : forall d y, r_calls s' !! d = Some y -> exists z, r_calls s !! d = Some z /\
              (y = z /\ d <> c \/ y = with_phase x Registered /\ d = c /\ z = x)).
    { intros d y Y. unfold s' in Y. cbn in Y. apply lookup_with_phase in Y as (z & Z & [[-> N]|[-> ->]]).
      - eauto.
      - exists z. split; [done|]. right. rewrite X in Z. by inversion Z. }
    constructor.
    + unfold s'. cbn. rewrite alter_length. apply I.
    + intros d y Y. destruct (OLD d y Y) as (z & Z & [[-> N]|(-> & -> & ->)]); cbn; by apply (i_id s I).
    + intros d y Y. destruct (OLD d y Y) as (z & Z & [[-> N]|(-> & -> & ->)]); [|done].
      by apply (i_phase s I d).
    + intros d y Y U. destruct (OLD d y Y) as (z & Z & [[-> N]|(-> & -> & ->)]).
      * by apply (i_sent s I d).
      * cbn. apply (i_sent s I c x X). left. done.
    + intros d y Y PD. destruct (OLD d y Y) as (z & Z & [[-> N]|(-> & -> & ->)]); [|discriminate].
      destruct (i_started s I d z Z PD) as (A1 & A2). split; [done|]. cbn.
      rewrite lookup_insert_ne; [done|]. rewrite (i_id s I c x X), (i_id s I d z Z). lia.
    + intros id d H. cbn in H. destruct (decide (d = c)) as [->|N].
      * exists (with_phase x Registered). unfold s'. cbn. rewrite list_lookup_alter, X.
        split; [done|]. split; [|done]. cbn.
        apply lookup_insert_Some in H as [[<- _]|[N H]]; [done|].
        destruct (i_pending s I id c H) as (y & Y & E & _). rewrite X in Y. by inversion Y; subst y.
      * apply lookup_insert_Some in H as [[<- H]|[N' H]]; [done|].
        destruct (i_pending s I id d H) as (y & Y & E & A). exists y. split; [|done].
        unfold s'. cbn. by rewrite list_lookup_alter_ne.
    + intros d r H. destruct (i_handler s I d r H) as (A1 & A2 & A3).
      split; [by eapply own_answer_mono|]. split; [done|]. cbn.
      rewrite lookup_insert_ne; [done|]. rewrite (i_id s I c x X). intros E.
      assert (d = c) as -> by lia.
      apply (unsent_no_answer s c x r I X); [left; done|done].
    + intros e E. eapply event_mono; [exact G|]. by apply I.
    + apply (i_once s I).
    + intros id q H. destruct (i_requests s I id q H) as (d & y & Y & E1 & E2 & E3).
      destruct (proj1 G d y Y) as (z & Z & F1 & F2 & _ & F4). exists d, z.
      repeat split; try done; try congruence. auto.
    + apply (i_answers s I).
    + intros d y b Y PD. destruct (OLD d y Y) as (z & Z & [[-> N]|(-> & -> & ->)]); [|discriminate].
      eapply own_answer_mono; [exact G|]. exact (i_value s I d z b Z PD).
    + intros d y Y PD. destruct (OLD d y Y) as (z & Z & [[-> N]|(-> & -> & ->)]); [|discriminate].
      destruct (i_waiting s I d z Z PD) as [W|W]; [left|right; done]. cbn.
      rewrite lookup_insert_ne; [done|]. rewrite (i_id s I c x X), (i_id s I d z Z). lia.
    + intros d y Y PD CLD. destruct (OLD d y Y) as (z & Z & [[-> N]|(-> & -> & ->)]).
      * cbn. rewrite lookup_insert_ne; [exact (i_registered s I d z Z PD OPEN)|].
        rewrite (i_id s I c x X), (i_id s I d z Z). lia.
      * cbn. apply lookup_insert.
    + cbn. congruence.
  - (* send *)
    destruct (r_calls s !! c) as [x|] eqn:X; [|done].
    destruct (c_phase x) eqn:PH; try done. specialize (OPEN eq_refl).
    destruct ok.
    + set (p' := match c_kind x with Blocking _ => Waiting | Callback => Returned (RBool true) end).
      set (s' := add_request _ _).
      assert (LC : (c < length (r_calls s))%nat) by by eapply lookup_lt_Some.
      assert (G : grow s s').
      { split; [|split; [cbn; set_solver|done]]. intros d y Y. unfold s'. cbn.
        destruct (decide (d = c)) as [->|N].
        - rewrite list_lookup_insert by done. rewrite X in Y. inversion Y; subst y.
          eexists. split; [done|]. done.
        - rewrite list_lookup_insert_ne by done. eauto 10. }
      assert (OLD : forall d y, r_calls s' !! d = Some y -> exists z, r_calls s !! d = Some z /\
                (y = z /\ d <> c \/ y = with_sent x p' /\ d = c /\ z = x)).
      { intros d y Y. unfold s' in Y. cbn in Y. destruct (decide (d = c)) as [->|N].
        - rewrite list_lookup_insert in Y by done. inversion Y; subst y. eauto 10.
        - rewrite list_lookup_insert_ne in Y by done. eauto. }
      (* the entry is still in the map: no answer can have come *)
      constructor.
      * unfold s'. cbn. rewrite insert_length. apply I.
      * intros d y Y. destruct (OLD d y Y) as (z & Z & [[-> N]|(-> & -> & ->)]); cbn; by apply (i_id s I).
      * intros d y Y. destruct (OLD d y Y) as (z & Z & [[-> N]|(-> & -> & ->)]); [by apply (i_phase s I d)|].
        cbn. unfold p'. destruct (c_kind x); cbn; eauto.
      * intros d y Y U. destruct (OLD d y Y) as (z & Z & [[-> N]|(-> & -> & ->)]); [by apply (i_sent s I d)|].
        cbn in U. unfold p' in U. destruct (c_kind x);
          destruct U as [U|[U|[U|U]]]; discriminate.
      * intros d y Y PD. destruct (OLD d y Y) as (z & Z & [[-> N]|(-> & -> & ->)]).
        -- exact (i_started s I d z Z PD).
        -- cbn in PD. unfold p' in PD. destruct (c_kind x); discriminate.
      * intros id d H. destruct (i_pending s I id d H) as (y & Y & E & A & N).
        destruct (decide (d = c)) as [->|ND].
        -- exists (with_sent x p'). unfold s'. cbn. rewrite list_lookup_insert by done.
           rewrite X in Y. inversion Y; subst y. split; [done|]. split; [done|]. split; [done|].
           unfold p'. destruct (c_kind x); done.
        -- exists y. unfold s'. cbn. rewrite list_lookup_insert_ne by done. done.
      * intros d r H. destruct (i_handler s I d r H) as (A1 & A2 & A3).
        split; [by eapply own_answer_mono|done].
      * intros e E. eapply event_mono; [exact G|]. by apply I.
      * apply (i_once s I).
      * intros id q H. unfold s' in H. cbn in H. apply elem_of_app in H as [H|H].
        -- destruct (i_requests s I id q H) as (d & y & Y & E1 & E2 & E3).
           destruct (proj1 G d y Y) as (z & Z & F1 & F2 & _ & F4). exists d, z.
           repeat split; try done; try congruence. auto.
        -- apply elem_of_list_singleton in H. inversion H; subst id q.
           exists c, (with_sent x p'). unfold s'. cbn. rewrite list_lookup_insert by done. done.
      * intros id q r H. unfold s' in H |- *. cbn in H |- *. apply elem_of_app. left.
        exact (i_answers s I id q r H).
      * intros d y b Y PD. destruct (OLD d y Y) as (z & Z & [[-> N]|(-> & -> & ->)]).
        -- eapply own_answer_mono; [exact G|]. exact (i_value s I d z b Z PD).
        -- cbn in PD. unfold p' in PD. destruct (c_kind x); discriminate.
      * intros d y Y PD. destruct (OLD d y Y) as (z & Z & [[-> N]|(-> & -> & ->)]).
        -- exact (i_waiting s I d z Z PD).
        -- left. exact (i_registered s I c x X PH OPEN).
      * intros d y Y PD CLD. destruct (OLD d y Y) as (z & Z & [[-> N]|(-> & -> & ->)]).
        -- exact (i_registered s I d z Z PD OPEN).
        -- cbn in PD. unfold p' in PD. destruct (c_kind x); discriminate.
      * cbn. congruence.
    + apply (inv_set_phase s c x); try done.
      intros _. rewrite PH. right. by left.
  - (* clean up after a failed send *)
    destruct (r_calls s !! c) as [x|] eqn:X; [|done].
    destruct (c_phase x) eqn:PH; try done. destruct (c_kind x) as [t|] eqn:K.
    + destruct (inv_own s c x I X) as (s1 & E1 & I1 & C1 & _); [congruence|congruence|].
      rewrite E1. cbn [then_phase]. apply (inv_set_phase s1 c x); try done.
      * by rewrite C1.
      * rewrite K. cbn. eauto.
      * intros [U|[U|[U|U]]]; discriminate.
    + specialize (OPEN eq_refl).
      set (s1 := set_pending s (delete (c_id x) (r_pending s))).
      assert (I1 : Inv s1).
      { assert (G : grow s s1) by by apply grow_same.
        constructor; unfold s1; fields; try old I.
        - intros d y Y PD. destruct (i_started s I d y Y PD) as (A & B'). split; [done|].
          rewrite lookup_delete_None. auto.
        - intros id d [D H]%lookup_delete_Some. exact (i_pending s I id d H).
        - intros d r H. destruct (i_handler s I d r H) as (A1 & A2 & A3).
          split; [by eapply own_answer_mono|]. split; [done|]. rewrite lookup_delete_None. auto.
        - intros e E. eapply event_mono; [exact G|]. by apply I.
        - intros d y b Y PD. eapply own_answer_mono; [exact G|]. exact (i_value s I d y b Y PD).
        - intros d y Y PD. destruct (i_waiting s I d y Y PD) as [W|W]; [left|auto].
          rewrite lookup_delete_ne; [done|]. rewrite (i_id s I d y Y), (i_id s I c x X).
          intros ?. assert (d = c) as -> by lia. congruence.
        - intros d y Y PD CLD. rewrite lookup_delete_ne; [exact (i_registered s I d y Y PD CLD)|].
          rewrite (i_id s I d y Y), (i_id s I c x X).
          intros ?. assert (d = c) as -> by lia. congruence. }
      apply (inv_set_phase s1 c x); try done.
      * intros _. rewrite PH. right. right. by left.
  - (* timeout *)
    destruct (r_calls s !! c) as [x|] eqn:X; [|done].
    destruct (c_phase x) eqn:PH; try done. destruct (c_kind x) as [[|]|] eqn:K; try done.
    destruct (future_value _ _); [done|].
    apply (inv_set_phase s c x); try done.
    + rewrite K. cbn. eauto.
    + intros [U|[U|[U|U]]]; discriminate.
  - (* timed out *)
    destruct (r_calls s !! c) as [x|] eqn:X; [|done].
    destruct (c_phase x) eqn:PH; try done.
    destruct (inv_own s c x I X) as (s1 & E1 & I1 & C1 & _); [congruence|congruence|].
    rewrite E1. cbn [then_phase]. apply (inv_set_phase s1 c x); try done.
    + by rewrite C1.
    + pose proof (i_phase s I c x X) as K. rewrite PH in K. exact K.
    + intros [U|[U|[U|U]]]; discriminate.
  - (* get *)
    destruct (r_calls s !! c) as [x|] eqn:X; [|done].
    destruct (c_phase x) eqn:PH; try done.
    destruct (future_value c (r_events s)) as [v|] eqn:F; [|done].
    apply (inv_set_phase s c x); try done.
    + pose proof (i_phase s I c x X) as K. rewrite PH in K. exact K.
    + intros [U|[U|[U|U]]]; discriminate.
    + intros b [= E]. apply future_in in F. apply (i_events s I) in F. cbn in F.
      destruct v as [r|]; [|discriminate]. destruct F as [_ F]. cbn in E. subst r. done.
  - (* serve *)
    destruct (r_requests s !! i) as [[id p]|] eqn:R; [|done].
    set (s' := add_answer s _).
    assert (G : grow s s').
    { split; [|split; [done|cbn; set_solver]]. intros c x X. exists x. done. }
    constructor; unfold s'; fields; try old I.
    + intros c r' H. destruct (i_handler s I c r' H) as (A1 & A2). split; [|done].
      by eapply own_answer_mono.
    + intros e E. eapply event_mono; [exact G|]. by apply I.
    + intros id' p' r' [H|H]%elem_of_app; [exact (i_answers s I _ _ _ H)|].
      apply elem_of_list_singleton in H. inversion H; subst. by eapply elem_of_list_lookup_2.
    + intros c x b X PH. eapply own_answer_mono; [exact G|]. exact (i_value s I c x b X PH).
  - (* receive *)
    destruct (r_handler s) as [|] eqn:H; [done|].
    destruct (r_answers s !! j) as [[[id p] r]|] eqn:A; [|done].
    destruct (r_pending s !! id) as [c|] eqn:P; [|done].
    specialize (OPEN eq_refl).
    destruct (i_pending s I id c P) as (x & X & IDX & C0 & NS).
    assert (ANS : own_answer s c r).
    { apply elem_of_list_lookup_2 in A. pose proof (i_answers s I _ _ _ A) as Q.
      destruct (i_requests s I _ _ Q) as (d & y & Y & E1 & E2 & E3).
      assert (d = c) as ->.
      { rewrite (i_id s I d y Y) in E1. rewrite (i_id s I c x X) in IDX. lia. }
      exists y. rewrite E1, E2. done. }
    set (s' := set_handler _ _).
    assert (G : grow s s') by by apply grow_same.
    constructor; unfold s'; fields; try old I.
    + intros d y Y PD. destruct (i_started s I d y Y PD) as (A1 & A2). split; [done|].
      rewrite lookup_delete_None. auto.
    + intros id' d [D H']%lookup_delete_Some. exact (i_pending s I id' d H').
    + intros d r' [= <- <-]. split; [by eapply own_answer_mono|]. split; [done|].
      rewrite lookup_delete_None. left. rewrite <- IDX. exact (i_id s I c x X).
    + intros e E. eapply event_mono; [exact G|]. by apply I.
    + intros d y b Y PD. eapply own_answer_mono; [exact G|]. exact (i_value s I d y b Y PD).
    + intros d y Y PD. destruct (decide (d = c)) as [->|N]; [right; left; eauto|].
      destruct (i_waiting s I d y Y PD) as [W|[[r' W]|W]]; [left|congruence|auto].
      rewrite lookup_delete_ne; [done|]. rewrite (i_id s I d y Y), <- IDX, (i_id s I c x X). lia.
    + intros d y Y PD CLD. rewrite lookup_delete_ne; [exact (i_registered s I d y Y PD CLD)|].
      rewrite (i_id s I d y Y), <- IDX, (i_id s I c x X). intros ?. assert (d = c) as -> by lia.
      apply (unsent_no_answer s c y r I Y); [right; left; done|done].
    + congruence.
  - (* complete *)
    destruct (r_handler s) as [[c r]|] eqn:H; [|done].
    destruct (i_handler s I c r H) as (A1 & A2 & A3).
    destruct A1 as (x & X & S1 & S2 & S3).
    destruct (inv_complete s (set_handler s None) c x None (Some r)) as (s' & E & I'); try done.
    + intros PH. rewrite (i_sent s I c x X) in S1; [discriminate|]. by left.
    + intros PH. rewrite (i_sent s I c x X) in S1; [discriminate|]. right. by left.
    + rewrite delete_notin by done. by destruct s.
    + right. split; [done|]. intros c' r' E'. congruence.
    + by exists x.
    + rewrite E. done.
  - (* close *)
    destruct (r_handler s) as [|] eqn:H; [done|].
    assert (CP : forall l s1 s2 b, complete_all s1 l = s2 ->
      complete_all (Client (r_counter s1) (r_calls s1) (r_pending s1) (r_handler s1) (r_requests s1)
                      (r_answers s1) (r_events s1) b) l
      = match s2 with Next t => Next (Client (r_counter t) (r_calls t) (r_pending t) (r_handler t)
                                        (r_requests t) (r_answers t) (r_events t) b)
        | z => z end).
    { induction l as [|c l IH]; intros s1 s2 b E; [by subst s2|].
      cbn [complete_all] in E |- *. unfold complete in E |- *. cbn [r_calls r_events] in E |- *.
      destruct (r_calls s1 !! c) as [x|]; [|by subst s2].
      destruct (c_kind x).
      - destruct (existsb _ _); [by subst s2|]. exact (IH _ _ b E).
      - exact (IH _ _ b E). }
    assert (IC : Inv (set_closed s)).
    { assert (G : grow s (set_closed s)) by by apply grow_same.
      constructor; fields; try old I.
      - intros e E. eapply event_mono; [exact G|]. by apply I.
      - intros c x b X PH. eapply own_answer_mono; [exact G|]. exact (i_value s I c x b X PH).
      - intros; discriminate.
      - done. }
    destruct (inv_complete_all (map_to_list (r_pending s)) (set_closed s) IC eq_refl)
      as (s' & E & I' & CL').
    { apply NoDup_fst_map_to_list. }
    { intros id c. by rewrite elem_of_map_to_list. }
    { intros id c. cbn. by rewrite elem_of_map_to_list. }
    pose proof (CP ((map_to_list (r_pending s)).*2) s _ true eq_refl) as E2. unfold set_closed in E. rewrite E in E2.
    destruct (complete_all s _) as [t| |]; try discriminate.
    inversion E2; subst s'. exact I'.
Qed.

Lemma run_inv l : forall s, Inv s -> N.of_nat (length (r_calls s) + starts l) <= two64 ->
  match rpc_run s l with Next s' => Inv s' | Disabled => True | Broken => False end.
Proof.
  induction l as [|o l IH]; intros s I B; [done|].
  cbn [rpc_run]. pose proof (step_inv s o I) as H.
  assert (B' : forall k p, o = RStart k p -> N.of_nat (length (r_calls s)) < two64).
  { intros k p ->. cbn in B. lia. }
  specialize (H B'). destruct (rpc_step s o) as [s1| |] eqn:E; try done.
  apply IH; [done|].
  assert (L : (length (r_calls s1) + starts l <= length (r_calls s) + starts (o :: l))%nat); [|lia].
  assert (CA : forall l s0 s2, complete_all s0 l = Next s2 -> r_calls s2 = r_calls s0).
  { clear. induction l as [|c l IH]; intros s0 s2 E; [by inversion E|].
    cbn in E. destruct (complete s0 c None) as [s1| |] eqn:C; try discriminate.
    rewrite (IH _ _ E). by apply complete_calls in C as (-> & _). }
  assert (SO : forall s0 id v s2, set_response_own s0 id v = Next s2 -> r_calls s2 = r_calls s0).
  { clear. intros s0 id v s2. unfold set_response_own. destruct (_ !! id); [|by intros [= <-]].
    intros C. apply complete_calls in C as (-> & _). done. }
  clear H B' IH B I. unfold rpc_step in E.
  destruct (_ && _); [discriminate|].
  destruct o; cbn [starts].
  - inversion E; subst. cbn. rewrite app_length. cbn. lia.
  - destruct (r_calls s !! c) as [x|]; [|discriminate]. destruct (c_phase x); try discriminate.
    destruct (_ !! _); [discriminate|]. inversion E; subst. cbn. rewrite alter_length. lia.
  - destruct (r_calls s !! c) as [x|]; [|discriminate]. destruct (c_phase x); try discriminate.
    destruct ok; inversion E; subst; cbn; rewrite ?alter_length, ?insert_length; lia.
  - destruct (r_calls s !! c) as [x|]; [|discriminate]. destruct (c_phase x), (c_kind x); try discriminate.
    + destruct (set_response_own s (c_id x) None) as [s2| |] eqn:R; try discriminate.
      inversion E; subst. apply SO in R. cbn. rewrite alter_length, R. lia.
    + inversion E; subst; cbn; rewrite ?alter_length; lia.
  - destruct (r_calls s !! c) as [x|]; [|discriminate].
    destruct (c_phase x), (c_kind x) as [[|]|], (future_value c (r_events s)); try discriminate.
    inversion E; subst; cbn; rewrite ?alter_length; lia.
  - destruct (r_calls s !! c) as [x|]; [|discriminate]. destruct (c_phase x); try discriminate.
    destruct (set_response_own s (c_id x) None) as [s2| |] eqn:R; try discriminate.
    inversion E; subst. apply SO in R. cbn. rewrite alter_length, R. lia.
  - destruct (r_calls s !! c) as [x|]; [|discriminate].
    destruct (c_phase x), (future_value c (r_events s)); try discriminate.
    inversion E; subst; cbn; rewrite ?alter_length; lia.
  - destruct (_ !! _) as [[??]|]; inversion E; subst. cbn. lia.
  - destruct (r_handler s), (r_answers s !! j) as [[[??]?]|]; try discriminate.
    destruct (_ !! _); inversion E; subst; cbn; lia.
  - destruct (r_handler s) as [[??]|]; [|discriminate]. apply complete_calls in E as (-> & _). cbn. lia.
  - destruct (r_handler s); [discriminate|]. destruct (complete_all _ _) as [s2| |] eqn:C; try discriminate.
    inversion E; subst. apply CA in C. cbn. rewrite C. lia.
Qed.

(** ** After the destructor nothing is pending *)

Lemma complete_pending s c v s' : complete s c v = Next s' -> r_pending s' = r_pending s.
Proof. intros C. by apply complete_calls in C as (_ & -> & _). Qed.

Lemma closed_step s o s' : rpc_step s o = Next s' ->
  (r_closed s = true -> r_pending s = ∅) -> (r_closed s' = true -> r_pending s' = ∅).
Proof.
  intros E H. unfold rpc_step in E. destruct (r_closed s && is_open_op o) eqn:CL; [discriminate|].
  assert (SO : forall s0 id v s2, set_response_own s0 id v = Next s2 -> r_closed s2 = r_closed s0).
  { clear. intros s0 id v s2. unfold set_response_own. destruct (_ !! id); [|by intros [= <-]].
    intros C. apply complete_calls in C as (_ & _ & _ & ->). done. }
  destruct o; cbn [is_open_op] in CL; rewrite ?andb_true_r in CL.
  - inversion E; subst. cbn. congruence.
  - destruct (r_calls s !! c) as [x|]; [|discriminate]. destruct (c_phase x); try discriminate.
    destruct (_ !! _); [discriminate|]. inversion E; subst. cbn. congruence.
  - destruct (r_calls s !! c) as [x|]; [|discriminate]. destruct (c_phase x); try discriminate.
    destruct ok; inversion E; subst; cbn; congruence.
  - destruct (r_calls s !! c) as [x|]; [|discriminate]. destruct (c_phase x), (c_kind x); try discriminate.
    + destruct (set_response_own s (c_id x) None) as [s2| |] eqn:R; try discriminate.
      inversion E; subst. apply SO in R. cbn. congruence.
    + inversion E; subst; cbn; congruence.
  - destruct (r_calls s !! c) as [x|]; [|discriminate].
    destruct (c_phase x), (c_kind x) as [[|]|], (future_value c (r_events s)); try discriminate.
    inversion E; subst; cbn; congruence.
  - destruct (r_calls s !! c) as [x|]; [|discriminate]. destruct (c_phase x); try discriminate.
    destruct (set_response_own s (c_id x) None) as [s2| |] eqn:R; try discriminate.
    inversion E; subst. apply SO in R. cbn. congruence.
  - destruct (r_calls s !! c) as [x|]; [|discriminate].
    destruct (c_phase x), (future_value c (r_events s)); try discriminate.
    inversion E; subst; cbn; auto.
  - destruct (_ !! _) as [[??]|]; inversion E; subst. cbn. auto.
  - destruct (r_handler s), (r_answers s !! j) as [[[??]?]|]; try discriminate.
    destruct (_ !! _); inversion E; subst; cbn; congruence.
  - destruct (r_handler s) as [[??]|]; [|discriminate]. apply complete_calls in E as (_ & _ & _ & ->).
    cbn. congruence.
  - destruct (r_handler s); [discriminate|]. destruct (complete_all _ _) as [s2| |] eqn:C; try discriminate.
    inversion E; subst. done.
Qed.

Lemma closed_run l : forall s s', rpc_run s l = Next s' ->
  (r_closed s = true -> r_pending s = ∅) -> (r_closed s' = true -> r_pending s' = ∅).
Proof.
  induction l as [|o l IH]; intros s s' E H; [by inversion E; subst|].
  cbn in E. destruct (rpc_step s o) as [s1| |] eqn:E1; try discriminate.
  eapply IH; [exact E|]. by eapply closed_step.
Qed.

(** ** The properties *)

Lemma reach_inv l s : N.of_nat (starts l) <= two64 -> rpc_run client_init l = Next s -> Inv s.
Proof.
  intros B E. pose proof (run_inv l client_init inv_init B) as H. rewrite E in H. exact H.
Qed.

Lemma never_broken l : N.of_nat (starts l) <= two64 -> rpc_run client_init l <> Broken.
Proof.
  intros B E. pose proof (run_inv l client_init inv_init B) as H. rewrite E in H. exact H.
Qed.

Lemma at_most_once l s c : N.of_nat (starts l) <= two64 -> rpc_run client_init l = Next s ->
  (completions c s <= 1)%nat.
Proof. intros B E. exact (i_once s (reach_inv l s B E) c). Qed.

Lemma own_only l s c r : N.of_nat (starts l) <= two64 -> rpc_run client_init l = Next s ->
  Fulfilled c (Some r) ∈ r_events s \/ Called c r ∈ r_events s -> own_answer s c r.
Proof.
  intros B E [H|H]; pose proof (i_events s (reach_inv l s B E) _ H) as [_ O]; exact O.
Qed.

Lemma own_returned l s c x b : N.of_nat (starts l) <= two64 -> rpc_run client_init l = Next s ->
  r_calls s !! c = Some x -> c_phase x = Returned (RValue (Some b)) -> own_answer s c (Some b).
Proof. intros B E X P. exact (i_value s (reach_inv l s B E) c x b X P). Qed.

Lemma ids_distinct l s c d x y : N.of_nat (starts l) <= two64 -> rpc_run client_init l = Next s ->
  r_calls s !! c = Some x -> r_calls s !! d = Some y -> c_id x = c_id y -> c = d.
Proof.
  intros B E X Y H. pose proof (reach_inv l s B E) as I.
  rewrite (i_id s I c x X), (i_id s I d y Y) in H. lia.
Qed.

Lemma count_pos c es : count c es <> O -> exists e, e ∈ es /\ of_call c e = true.
Proof.
  unfold count. destruct (List.filter (of_call c) es) as [|e r] eqn:F; [done|]. intros _.
  assert (IN : In e (e :: r)) by by left. rewrite <- F in IN.
  apply filter_In in IN as [IN O]. exists e. split; [by apply elem_of_list_In|done].
Qed.

Lemma failed_never_called l s c x : N.of_nat (starts l) <= two64 ->
  rpc_run client_init l = Next s -> r_calls s !! c = Some x ->
  c_phase x = Returned (RBool false) -> completions c s = O.
Proof.
  intros B E X P. pose proof (reach_inv l s B E) as I.
  destruct (decide (completions c s = O)) as [|N]; [done|]. exfalso.
  apply count_pos in N as (e & EI & OC).
  pose proof (i_phase s I c x X) as K. rewrite P in K. cbn in K.
  pose proof (i_events s I e EI) as EO. destruct e as [c' v|c' r]; cbn in OC;
    apply bool_decide_eq_true in OC as ->; cbn in EO.
  - destruct EO as [(y & t & Y & KY) _]. congruence.
  - destruct EO as [_ O]. apply (unsent_no_answer s c x r I X); [|done].
    rewrite P. right. right. by right.
Qed.

Lemma closed_no_wait l s c : N.of_nat (starts l) <= two64 -> rpc_run client_init l = Next s ->
  r_closed s = true -> ~ waits s c.
Proof.
  intros B E CL (x & X & P & F). pose proof (reach_inv l s B E) as I.
  destruct (i_waiting s I c x X P) as [W|[[r W]|[v W]]].
  - rewrite (closed_run l _ _ E) in W; [by rewrite lookup_empty in W|done|done].
  - rewrite (i_closed s I CL) in W. discriminate.
  - congruence.
Qed.

Lemma answer_completes l s c x j p r : N.of_nat (starts l) <= two64 ->
  rpc_run client_init l = Next s -> r_closed s = false -> r_handler s = None ->
  r_calls s !! c = Some x -> waits s c -> r_answers s !! j = Some (c_id x, p, r) ->
  exists s', rpc_run s [RReceive j; RComplete] = Next s' /\
    future_value c (r_events s') = Some (Some r).
Proof.
  intros B E CL H X (x' & X' & P & F) A. rewrite X in X'. inversion X'; subst x'; clear X'.
  pose proof (reach_inv l s B E) as I.
  destruct (i_waiting s I c x X P) as [W|[[r' W]|[v W]]]; [|congruence|congruence].
  destruct (i_pending s I _ _ W) as (y & Y & _ & C0 & _).
  pose proof (i_phase s I c x X) as K. rewrite P in K. destruct K as [t K].
  cbn [rpc_run]. unfold rpc_step at 1. rewrite CL, H, A, W. cbn [andb].
  unfold rpc_step. cbn [r_closed set_handler set_pending r_handler]. rewrite CL. cbn [andb].
  unfold complete. cbn [r_calls set_handler set_pending r_events]. rewrite X, K.
  rewrite (not_fulfilled c _ C0). eexists. split; [reflexivity|]. by apply future_app_new.
Qed.

(** ** Cases *)

Definition sample : list rop :=
  [RStart (Blocking true) [1]; RStart Callback [2]; RRegister 1%nat; RSend 1%nat true; RRegister 0%nat;
   RSend 0%nat true; RServe 0%nat (Some [20]); RServe 1%nat (Some [10]); RReceive 1%nat; RTimeout 0%nat;
   RComplete; RTimedOut 0%nat; RReceive 0%nat; RComplete; RReceive 0%nat;
   RStart (Blocking false) [3]; RRegister 2%nat; RSend 2%nat true; RServe 2%nat (Some [30]);
   RReceive 2%nat; RComplete; RGet 2%nat].

Definition run_state (l : list rop) : client :=
  match rpc_run client_init l with Next s => s | _ => client_init end.

Lemma sample_case : exists s, rpc_run client_init sample = Next s /\
  r_events s = [Fulfilled 0 (Some (Some [10])); Called 1 (Some [20]); Fulfilled 2 (Some (Some [30]))] /\
  map c_phase (r_calls s) = [Returned (RValue None); Returned (RBool true); Returned (RValue (Some [30]))].
Proof. exists (run_state sample). vm_compute. auto. Qed.

Lemma close_case : exists l s, N.of_nat (starts l) <= two64 /\ rpc_run client_init l = Next s /\
  r_closed s = true /\ map c_phase (r_calls s) = [Returned (RBool true)] /\ completions 0 s = O.
Proof.
  exists [RStart Callback [1]; RRegister 0%nat; RSend 0%nat true; RClose].
  eexists. split; [vm_compute; discriminate|]. split; [vm_compute; reflexivity|]. vm_compute. auto.
Qed.

Lemma close_blocking_case : exists s,
  rpc_run client_init [RStart (Blocking false) [1]; RRegister 0%nat; RSend 0%nat true; RClose; RGet 0%nat]
    = Next s /\ map c_phase (r_calls s) = [Returned (RValue None)].
Proof. eexists. split; vm_compute; reflexivity. Qed.

Lemma failed_case : exists s,
  rpc_run client_init [RStart Callback [1]; RRegister 0%nat; RSend 0%nat false; RCleanup 0%nat] = Next s /\
  map c_phase (r_calls s) = [Returned (RBool false)].
Proof. eexists. split; vm_compute; reflexivity. Qed.
