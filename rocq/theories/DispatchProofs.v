(** Proofs about the connection manager's queues (C72). *)
From stdpp Require Import base option list.
From Coq Require Import NArith Lia.
From Verif Require Import Base DispatchModel DispatchSpec.
Open Scope N_scope.

(** * handle_messages *)

Definition of_id (id : N) (l : list message) : list message :=
  List.filter (fun m => N.eqb (m_peer_id m) id) l.

Definition firsts (l : list message) : list message :=
  match l with [] => [] | m :: _ => [m] end.

Lemma collect_spec qs ms qs' d : collect qs = (ms, qs', d) ->
  ms = concat (map firsts qs) /\ qs' = map (@List.tl message) qs /\
  (d = false -> Forall (fun l => l = []) qs').
Proof.
  revert ms qs' d. induction qs as [|q r IH]; intros ms qs' d E; cbn [collect] in E.
  - injection E as <- <- <-. repeat split; easy.
  - destruct (collect r) as [[ms1 r1] d1] eqn:C. destruct (IH ms1 r1 d1 eq_refl) as (-> & -> & H).
    destruct q as [|m q].
    + injection E as <- <- <-. split_and!; try easy. intros D. constructor; [easy|exact (H D)].
    + injection E as <- <- <-. split_and!; try easy. intros D.
      destruct q as [|m' q]; [|discriminate D]. constructor; [easy|exact (H D)].
Qed.

Lemma of_id_app id a b : of_id id (a ++ b) = of_id id a ++ of_id id b.
Proof. unfold of_id. now rewrite List.filter_app. Qed.

Lemma of_id_other id l : Forall (fun m => m_peer_id m <> id) l -> of_id id l = [].
Proof.
  induction 1 as [|m l H F IH]; [easy|]. unfold of_id. cbn [List.filter].
  destruct (m_peer_id m =? id) eqn:E; [apply N.eqb_eq in E; easy|]. exact IH.
Qed.
Lemma of_id_same id l : Forall (fun m => m_peer_id m = id) l -> of_id id l = l.
Proof.
  induction 1 as [|m l H F IH]; [easy|]. unfold of_id. cbn [List.filter].
  rewrite H, N.eqb_refl. f_equal. exact IH.
Qed.

Lemma firsts_other id l : Forall (fun m => m_peer_id m <> id) l -> of_id id (firsts l) = [].
Proof.
  intros F. destruct l as [|m l]; [easy|]. apply Forall_cons in F as [F _].
  apply of_id_other. now constructor.
Qed.
Lemma firsts_same id l : Forall (fun m => m_peer_id m = id) l -> of_id id (firsts l) = firsts l.
Proof.
  intros F. destruct l as [|m l]; [easy|]. apply Forall_cons in F as [F _].
  apply of_id_same. now constructor.
Qed.

Lemma concat_firsts_none id qs :
  (forall q l, qs !! q = Some l -> Forall (fun m => m_peer_id m <> id) l) ->
  of_id id (concat (map firsts qs)) = [].
Proof.
  induction qs as [|l r IH]; intros H; [easy|]. cbn [map concat]. rewrite of_id_app.
  rewrite firsts_other; [|exact (H O l eq_refl)]. cbn [app]. apply IH.
  intros q l' L. exact (H (S q) l' L).
Qed.

Lemma concat_firsts id qs q l : qs !! q = Some l -> Forall (fun m => m_peer_id m = id) l ->
  (forall q' l', q' <> q -> qs !! q' = Some l' -> Forall (fun m => m_peer_id m <> id) l') ->
  of_id id (concat (map firsts qs)) = firsts l.
Proof.
  revert q. induction qs as [|x r IH]; intros q L F H; [easy|]. cbn [map concat].
  rewrite of_id_app. destruct q as [|q].
  - injection L as ->. rewrite concat_firsts_none.
    + rewrite app_nil_r. now apply firsts_same.
    + intros q' l' L'. apply (H (S q') l'); [lia|exact L'].
  - rewrite firsts_other; [|apply (H O x); [lia|easy]]. cbn [app].
    apply (IH q L F). intros q' l' N L'. apply (H (S q') l'); [lia|exact L'].
Qed.

(** * The invariant *)

Definition add_id (x : adding) : N :=
  match x with AddId i | AddQueue i _ | AddPeer i _ | AddRefused i _ => i end.
Definition add_queue (x : adding) : option nat :=
  match x with AddId _ => None | AddQueue _ q | AddPeer _ q | AddRefused _ q => Some q end.

Record inv (s : manager) : Prop := {
  i_next : g_next s = wrap64 (N.of_nat (length (g_adds s)));
  i_ids : forall a x, g_adds s !! a = Some x -> add_id x = N.of_nat a;
  i_queue : forall a x q, g_adds s !! a = Some x -> add_queue x = Some q ->
    (q < length (g_queues s))%nat;
  i_distinct : forall a b x y q, g_adds s !! a = Some x -> g_adds s !! b = Some y ->
    add_queue x = Some q -> add_queue y = Some q -> a = b;
  i_peer : forall a id q, g_adds s !! a = Some (AddPeer id q) ->
    exists l, g_queues s !! q = Some l /\ Forall (fun m => m_peer_id m = id) l /\
      received_from s a = taken_of s id ++ map m_pkt l;
  i_none : forall a, (forall id q, g_adds s !! a <> Some (AddPeer id q)) ->
    received_from s a = [] /\ taken_of s (N.of_nat a) = [];
  i_owner : forall q l, g_queues s !! q = Some l -> l <> [] ->
    exists a id, g_adds s !! a = Some (AddPeer id q);
  i_flag : g_data s = false -> Forall (fun l => l = []) (g_queues s);
  i_checked : forall t, g_handlers s !! t = Some HChecked -> g_mutex s = Some t /\ g_data s = false;
  i_mutex : forall t, g_mutex s = Some t -> g_handlers s !! t = Some HChecked;
  i_alive : g_running s = true -> forall t, g_handlers s !! t <> Some HDone;
  i_woken : g_running s = true -> g_data s = true -> g_handlers s <> [] ->
    (0 < g_notify s)%nat \/ exists t h, g_handlers s !! t = Some h /\ awake h = true;
  i_thread : forall t, by_thread t (g_taken s) = by_thread t (g_handled s) ++ in_work s t;
  i_peers : forall id a, (id, a) ∈ g_peers s -> exists q, g_adds s !! a = Some (AddPeer id q);
  i_taken : forall t m, (t, m) ∈ g_taken s -> exists a q,
    g_adds s !! a = Some (AddPeer (m_peer_id m) q) /\ m_pkt m ∈ received_from s a;
  i_closing : (0 < g_closing s)%nat -> g_running s = false;
  i_answers : forall m b a, (m, b, Some a) ∈ g_answers s ->
    peer_id_of s a = Some (m_peer_id m) /\ m_pkt m ∈ received_from s a
}.

Lemma init_inv n : inv (manager_init n).
Proof.
  unfold manager_init. split; cbn; try easy.
  - intros t H. apply lookup_replicate in H as [H _]. easy.
  - intros _ t H. apply lookup_replicate in H as [H _]. easy.
  - intros t. unfold in_work, by_thread. cbn. destruct (replicate n HTop !! t) as [h|] eqn:E; [|easy].
    apply lookup_replicate in E as [-> _]. easy.
Qed.

#[local] Arguments by_thread : simpl never.
#[local] Arguments in_work : simpl never.
#[local] Arguments received_from : simpl never.
#[local] Arguments taken_of : simpl never.
#[local] Arguments peer_id_of : simpl never.

Ltac keep I :=
  first
  [ exact (i_next _ I) | exact (i_ids _ I) | exact (i_queue _ I) | exact (i_distinct _ I)
  | exact (i_peer _ I) | exact (i_none _ I) | exact (i_owner _ I) | exact (i_flag _ I)
  | exact (i_checked _ I) | exact (i_mutex _ I) | exact (i_alive _ I) | exact (i_woken _ I)
  | exact (i_thread _ I) | exact (i_peers _ I) | exact (i_taken _ I) | exact (i_answers _ I)
  | exact (i_closing _ I) ].

(** Replacing a handler thread's state. *)
Lemma lookup_set (l : list handler) t h t' :
  <[t := h]> l !! t' = Some h /\ t' = t /\ (t < length l)%nat \/
  <[t := h]> l !! t' = l !! t' /\ (t' <> t \/ (length l <= t)%nat).
Proof.
  destruct (decide (t' = t)) as [->|N].
  - destruct (decide (t < length l)%nat).
    + left. split; [now apply list_lookup_insert|easy].
    + right. split; [|right; lia]. rewrite list_insert_ge by lia. easy.
  - right. split; [apply list_lookup_insert_ne; congruence|now left].
Qed.

Lemma by_thread_app t a b : by_thread t (a ++ b) = by_thread t a ++ by_thread t b.
Proof. unfold by_thread. now rewrite List.filter_app, map_app. Qed.
Lemma by_thread_same t l : by_thread t (map (pair t) l) = l.
Proof.
  unfold by_thread. induction l as [|m l IH]; [easy|]. cbn [map List.filter fst].
  rewrite Nat.eqb_refl. cbn [map]. now rewrite IH.
Qed.
Lemma by_thread_other t t' l : t' <> t -> by_thread t (map (pair t') l) = [].
Proof.
  intros N. unfold by_thread. induction l as [|m l IH]; [easy|]. cbn [map List.filter fst].
  destruct (Nat.eqb t' t) eqn:E; [apply Nat.eqb_eq in E; easy|exact IH].
Qed.

Lemma taken_of_app l1 s id :
  map (fun x => m_pkt (snd x)) (List.filter (fun x => N.eqb (m_peer_id (snd x)) id) (g_taken s ++ l1))
  = taken_of s id ++
    map (fun x => m_pkt (snd x)) (List.filter (fun x : nat * message => N.eqb (m_peer_id (snd x)) id) l1).
Proof. unfold taken_of. now rewrite List.filter_app, map_app. Qed.

Lemma taken_pairs id (t : nat) l :
  map (fun x => m_pkt (snd x)) (List.filter (fun x : nat * message => N.eqb (m_peer_id (snd x)) id) (map (pair t) l))
  = map m_pkt (of_id id l).
Proof.
  unfold of_id. induction l as [|m l IH]; [easy|]. cbn [map List.filter snd].
  destruct (m_peer_id m =? id); cbn [map snd]; now rewrite IH.
Qed.

Lemma received_app s a x :
  map snd (List.filter (fun x => Nat.eqb (fst x) a) (g_received s ++ [x]))
  = received_from s a ++ (if Nat.eqb (fst x) a then [snd x] else []).
Proof.
  unfold received_from. rewrite List.filter_app, map_app. cbn [List.filter].
  destruct (Nat.eqb (fst x) a); easy.
Qed.

(** A step of a handler thread that changes only its own state, not to or from work. *)
Lemma handler_move s t h h' : inv s -> g_handlers s !! t = Some h ->
  (forall l, h <> HWork l) -> h <> HChecked -> h' = HWait \/ h' = HDone /\ g_running s = false ->
  inv (set_handler s t h').
Proof.
  intros I T NW NC H'. assert (TL : (t < length (g_handlers s))%nat) by now apply lookup_lt_Some in T.
  split; cbn; try keep I.
  - intros t' L. destruct (lookup_set (g_handlers s) t h' t') as [(L1 & -> & _)|(L1 & L2)].
    + rewrite L1 in L. injection L as ->. destruct H' as [H'|[H' _]]; discriminate H'.
    + rewrite L1 in L. exact (i_checked _ I t' L).
  - intros t' M. pose proof (i_mutex _ I t' M) as C.
    destruct (decide (t' = t)) as [->|N]; [rewrite T in C; injection C as ->; easy|].
    rewrite list_lookup_insert_ne by congruence. exact C.
  - intros R t' L. destruct (lookup_set (g_handlers s) t h' t') as [(L1 & -> & _)|(L1 & L2)].
    + rewrite L1 in L. injection L as ->. destruct H' as [H'|[_ H']]; [discriminate H'|congruence].
    + rewrite L1 in L. exact (i_alive _ I R t' L).
  - intros R D NE. destruct H' as [->|[_ H']]; [|congruence]. right. exists t, HWait.
    split; [now apply list_lookup_insert|easy].
  - intros t'. rewrite (i_thread _ I t'). f_equal. unfold in_work. cbn.
    destruct (lookup_set (g_handlers s) t h' t') as [(L1 & -> & _)|(L1 & L2)]; rewrite L1; [|easy].
    rewrite T. destruct H' as [->|[-> _]]; destruct h as [| | | |l|]; try easy; now destruct (NW l).
Qed.

Lemma step_inv s o s' : inv s -> N.of_nat (length (g_adds s')) <= two64 ->
  g_step s o = Some s' -> inv s'.
Proof.
  intros I B E. destruct o as [|a|a|a pkt|who|t|t resp|]; cbn [g_step] in E.
  - (* GAdd *)
    injection E as <-. cbn [g_adds set_next set_adds] in B. rewrite app_length in B. cbn [length] in B.
    assert (NX : g_next s = N.of_nat (length (g_adds s))).
    { rewrite (i_next _ I). unfold wrap64. apply N.mod_small. lia. }
    assert (LK : forall a x, (g_adds s ++ [AddId (g_next s)]) !! a = Some x ->
      g_adds s !! a = Some x \/ a = length (g_adds s) /\ x = AddId (g_next s)).
    { intros a x L. apply lookup_app_Some in L as [L|[L1 L2]]; [now left|right].
      destruct (a - length (g_adds s))%nat as [|k] eqn:K; [|discriminate L2].
      injection L2 as <-. split; [lia|easy]. }
    assert (LP : forall a id q, (g_adds s ++ [AddId (g_next s)]) !! a = Some (AddPeer id q) ->
      g_adds s !! a = Some (AddPeer id q)).
    { intros a id q L. apply LK in L as [L|[_ L]]; [easy|discriminate L]. }
    assert (LQ : forall a x, g_adds s !! a = Some x -> (g_adds s ++ [AddId (g_next s)]) !! a = Some x).
    { intros a x L. now apply lookup_app_l_Some. }
    split; cbn; try keep I.
    + rewrite app_length. cbn. unfold add64. rewrite NX. f_equal. lia.
    + intros a x L. apply LK in L as [L|[-> ->]]; [exact (i_ids _ I a x L)|exact NX].
    + intros a x q L Q. apply LK in L as [L|[-> ->]]; [exact (i_queue _ I a x q L Q)|discriminate Q].
    + intros a b x y q L1 L2 Q1 Q2. apply LK in L1 as [L1|[-> ->]]; [|discriminate Q1].
      apply LK in L2 as [L2|[-> ->]]; [|discriminate Q2]. exact (i_distinct _ I a b x y q L1 L2 Q1 Q2).
    + intros a id q L. apply LP in L. exact (i_peer _ I a id q L).
    + intros a H. apply (i_none _ I a). intros id q L. exact (H id q (LQ _ _ L)).
    + intros q l L NE. destruct (i_owner _ I q l L NE) as (a & id & L1). exists a, id. now apply LQ.
    + intros id a L. destruct (i_peers _ I id a L) as [q L1]. exists q. now apply LQ.
    + intros t m L. destruct (i_taken _ I t m L) as (a & q & L1 & L2). exists a, q. split; [now apply LQ|easy].
    + intros m b a L. destruct (i_answers _ I m b a L) as [L1 L2]. split; [|easy].
      unfold peer_id_of in *. cbn. destruct (g_adds s !! a) as [x|] eqn:X; [|easy].
      now rewrite (LQ _ _ X).
  - (* GQueue *)
    destruct (g_adds s !! a) as [[id|id q|id q|id q]|] eqn:A; try discriminate E.
    destruct (g_mutex s) as [w|] eqn:W; [discriminate E|]. injection E as <-. clear B.
    assert (AL : (a < length (g_adds s))%nat) by now apply lookup_lt_Some in A.
    set (nq := length (g_queues s)) in *.
    assert (LK : forall b x, <[a := AddQueue id nq]> (g_adds s) !! b = Some x ->
      b = a /\ x = AddQueue id nq \/ b <> a /\ g_adds s !! b = Some x).
    { intros b x L. destruct (decide (b = a)) as [->|N].
      - rewrite list_lookup_insert in L by easy. injection L as <-. now left.
      - rewrite list_lookup_insert_ne in L by congruence. now right. }
    assert (LP : forall b i q, <[a := AddQueue id nq]> (g_adds s) !! b = Some (AddPeer i q) ->
      g_adds s !! b = Some (AddPeer i q)).
    { intros b i q L. apply LK in L as [[_ L]|[_ L]]; [discriminate L|easy]. }
    assert (LQ : forall b i q, g_adds s !! b = Some (AddPeer i q) ->
      <[a := AddQueue id nq]> (g_adds s) !! b = Some (AddPeer i q)).
    { intros b i q L. rewrite list_lookup_insert_ne; [easy|]. intros ->. rewrite A in L. discriminate L. }
    assert (QL : forall q l, g_queues s !! q = Some l -> (g_queues s ++ [[]]) !! q = Some l).
    { intros q l L. now apply lookup_app_l_Some. }
    assert (QI : forall q l, (g_queues s ++ [[]]) !! q = Some l -> g_queues s !! q = Some l \/ l = []).
    { intros q l L. apply lookup_app_Some in L as [L|[L1 L2]]; [now left|right].
      destruct (q - length (g_queues s))%nat as [|k]; [|discriminate L2].
      now injection L2 as <-. }
    split; cbn; try keep I.
    + rewrite insert_length. exact (i_next _ I).
    + intros b x L. apply LK in L as [[-> ->]|[_ L]]; [exact (i_ids _ I a _ A)|exact (i_ids _ I b x L)].
    + intros b x q L Q. rewrite app_length. cbn.
      apply LK in L as [[-> ->]|[_ L]]; [injection Q as <-; unfold nq; lia|].
      pose proof (i_queue _ I b x q L Q). lia.
    + intros b c x y q L1 L2 Q1 Q2.
      apply LK in L1 as [[-> ->]|[N1 L1]]; apply LK in L2 as [[-> ->]|[N2 L2]]; try easy.
      * injection Q1 as <-. pose proof (i_queue _ I c y nq L2 Q2). unfold nq in *. lia.
      * injection Q2 as <-. pose proof (i_queue _ I b x nq L1 Q1). unfold nq in *. lia.
      * exact (i_distinct _ I b c x y q L1 L2 Q1 Q2).
    + intros b i q L. apply LP in L. destruct (i_peer _ I b i q L) as (l & L1 & L2 & L3).
      exists l. split_and!; [now apply QL|easy|exact L3].
    + intros b H. apply (i_none _ I b). intros i q L. exact (H i q (LQ _ _ _ L)).
    + intros q l L NE. apply QI in L as [L| ->]; [|easy].
      destruct (i_owner _ I q l L NE) as (b & i & L1). exists b, i. now apply LQ.
    + intros D. apply Forall_app. split; [exact (i_flag _ I D)|]. constructor; [easy|constructor].
    + intros i b L. destruct (i_peers _ I i b L) as [q L1]. exists q. now apply LQ.
    + intros t m L. destruct (i_taken _ I t m L) as (b & q & L1 & L2). exists b, q. split; [now apply LQ|easy].
    + intros m b c L. destruct (i_answers _ I m b c L) as [L1 L2]. split; [|easy].
      unfold peer_id_of in *. cbn. destruct (g_adds s !! c) as [[ | |i q|]|] eqn:X; try discriminate L1.
      now rewrite (LQ _ _ _ X).
  - (* GPeer *)
    destruct (g_adds s !! a) as [[id|id q|id q|id q]|] eqn:A; try discriminate E.
    assert (AL : (a < length (g_adds s))%nat) by now apply lookup_lt_Some in A.
    assert (NP : forall i q', g_adds s !! a <> Some (AddPeer i q')) by (intros; congruence).
    destruct (i_none _ I a NP) as [N1 N2].
    assert (EQ : exists l, g_queues s !! q = Some l /\ l = []).
    { destruct (g_queues s !! q) as [l|] eqn:Q.
      - exists l. split; [easy|]. destruct l as [|m l]; [easy|].
        destruct (i_owner _ I q _ Q ltac:(easy)) as (b & i & L).
        pose proof (i_distinct _ I a b _ _ q A L eq_refl eq_refl) as ->. congruence.
      - apply lookup_ge_None in Q. pose proof (i_queue _ I a _ q A eq_refl). lia. }
    destruct EQ as (l & Q & ->).
    assert (K : forall y, add_id y = id -> add_queue y = Some q ->
      forall b x, <[a := y]> (g_adds s) !! b = Some x ->
      b = a /\ x = y \/ b <> a /\ g_adds s !! b = Some x).
    { intros y _ _ b x L. destruct (decide (b = a)) as [->|N].
      - rewrite list_lookup_insert in L by easy. injection L as <-. now left.
      - rewrite list_lookup_insert_ne in L by congruence. now right. }
    assert (LQ : forall y b i q', g_adds s !! b = Some (AddPeer i q') ->
      <[a := y]> (g_adds s) !! b = Some (AddPeer i q')).
    { intros y b i q' L. rewrite list_lookup_insert_ne; [easy|]. intros ->. now destruct (NP i q'). }
    assert (GOAL : forall y ps, add_id y = id -> add_queue y = Some q ->
      (forall i q', y = AddPeer i q' -> i = id /\ q' = q) ->
      (forall i b, (i, b) ∈ ps -> (i, b) ∈ g_peers s \/ b = a /\ y = AddPeer i q) ->
      inv (set_peers (set_adds s (<[a := y]> (g_adds s))) ps)).
    { intros y ps Y1 Y2 Y3 Y4. specialize (K y Y1 Y2). split; cbn; try keep I.
      - rewrite insert_length. exact (i_next _ I).
      - intros b x L. apply K in L as [[-> ->]|[_ L]].
        + rewrite Y1. exact (i_ids _ I a _ A).
        + exact (i_ids _ I b x L).
      - intros b x q' L Q'. apply K in L as [[-> ->]|[_ L]].
        + rewrite Y2 in Q'. injection Q' as <-. exact (i_queue _ I a _ q A eq_refl).
        + exact (i_queue _ I b x q' L Q').
      - intros b c x z q' L1 L2 Q1 Q2.
        apply K in L1 as [[-> ->]|[M1 L1]]; apply K in L2 as [[-> ->]|[M2 L2]]; try easy.
        + rewrite Y2 in Q1. injection Q1 as <-. exact (i_distinct _ I a c _ z q A L2 eq_refl Q2).
        + rewrite Y2 in Q2. injection Q2 as <-. exact (i_distinct _ I b a x _ q L1 A Q1 eq_refl).
        + exact (i_distinct _ I b c x z q' L1 L2 Q1 Q2).
      - intros b i q' L. apply K in L as [[-> L]|[_ L]].
        + destruct (Y3 i q' (eq_sym L)) as [-> ->]. exists []. split_and!; [easy|constructor|].
          change (received_from s a = taken_of s id ++ []). rewrite N1.
          rewrite <- (i_ids _ I a _ A) in N2. cbn in N2. now rewrite N2.
        + exact (i_peer _ I b i q' L).
      - intros b H. destruct (decide (b = a)) as [->|N]; [exact (i_none _ I a NP)|].
        apply (i_none _ I b). intros i q' L. exact (H i q' (LQ y _ _ _ L)).
      - intros q' l' L NE. destruct (i_owner _ I q' l' L NE) as (b & i & L1). exists b, i. now apply LQ.
      - intros i b L. apply Y4 in L as [L|[-> L]].
        + destruct (i_peers _ I i b L) as [q' L1]. exists q'. now apply LQ.
        + exists q. rewrite <- L. now apply list_lookup_insert.
      - intros t m L. destruct (i_taken _ I t m L) as (b & q' & L1 & L2). exists b, q'. split; [now apply LQ|easy].
      - intros m b c L. destruct (i_answers _ I m b c L) as [L1 L2]. split; [|easy].
        unfold peer_id_of in *. cbn. destruct (g_adds s !! c) as [[ | |i q'|]|] eqn:X; try discriminate L1.
        now rewrite (LQ y _ _ _ X). }
    destruct (g_running s) eqn:R; injection E as <-.
    + apply GOAL; [easy|easy|intros i q' [= -> ->]; easy|].
      intros i b L. apply elem_of_app in L as [L|L]; [now left|right].
      apply elem_of_list_singleton in L. injection L as -> ->. easy.
    + assert (G : inv (set_peers (set_adds s (<[a := AddRefused id q]> (g_adds s))) (g_peers s))).
      { apply GOAL; try easy. intros i b L. now left. }
      exact G.
  - (* GReceive *)
    destruct (g_adds s !! a) as [[id|id q|id q|id q]|] eqn:A; try discriminate E.
    destruct (g_mutex s) as [w|] eqn:W; [discriminate E|].
    destruct (g_closing s <? 2)%nat; [|discriminate E]. injection E as <-. clear B.
    destruct (i_peer _ I a id q A) as (l & Q & F & RT).
    assert (IDA : id = N.of_nat a) by exact (i_ids _ I a _ A).
    assert (QL : forall q', q' <> q ->
      alter (fun l => l ++ [Msg pkt id]) q (g_queues s) !! q' = g_queues s !! q').
    { intros q' N. apply list_lookup_alter_ne; congruence. }
    assert (QS : alter (fun l => l ++ [Msg pkt id]) q (g_queues s) !! q = Some (l ++ [Msg pkt id])).
    { rewrite list_lookup_alter, Q. easy. }
    assert (RN : forall b, b <> a -> received_from (log_received s (a, pkt)) b = received_from s b).
    { intros b N. unfold received_from at 1. cbn. rewrite received_app. cbn.
      destruct (Nat.eqb a b) eqn:X; [apply Nat.eqb_eq in X; congruence|]. now rewrite app_nil_r. }
    assert (RS : received_from (log_received s (a, pkt)) a = received_from s a ++ [pkt]).
    { unfold received_from at 1. cbn. rewrite received_app. cbn. now rewrite Nat.eqb_refl. }
    assert (RI : forall b x, x ∈ received_from s b -> x ∈ received_from (log_received s (a, pkt)) b).
    { intros b x X. destruct (decide (b = a)) as [->|N]; [|now rewrite RN].
      rewrite RS. apply elem_of_app. now left. }
    split; cbn; try keep I.
    + intros b x q' L Q'. rewrite alter_length. exact (i_queue _ I b x q' L Q').
    + intros b i q' L. destruct (decide (b = a)) as [->|N].
      * rewrite A in L. injection L as <- <-. exists (l ++ [Msg pkt id]). split_and!; [exact QS| |].
        -- apply Forall_app. split; [easy|]. constructor; [easy|constructor].
        -- rewrite map_app. cbn [map m_pkt]. rewrite app_assoc.
           change (received_from (log_received s (a, pkt)) a = (taken_of s id ++ map m_pkt l) ++ [pkt]).
           now rewrite RS, RT.
      * destruct (i_peer _ I b i q' L) as (l' & L1 & L2 & L3). exists l'. split_and!; [|easy|].
        -- rewrite QL; [easy|]. intros ->. exact (N (i_distinct _ I b a _ _ q L A eq_refl eq_refl)).
        -- change (received_from (log_received s (a, pkt)) b = taken_of s i ++ map m_pkt l').
           now rewrite RN.
    + intros b H. destruct (decide (b = a)) as [->|N]; [now destruct (H id q)|].
      destruct (i_none _ I b H) as [M1 M2]. split; [|exact M2].
      change (received_from (log_received s (a, pkt)) b = []). now rewrite RN.
    + intros q' l' L NE. destruct (decide (q' = q)) as [->|N].
      * exists a, id. exact A.
      * rewrite QL in L by easy. exact (i_owner _ I q' l' L NE).
    + easy.
    + intros t L. exfalso. pose proof (i_checked _ I t L) as [C _]. congruence.
    + intros _ _ _. left. lia.
    + intros t m L. destruct (i_taken _ I t m L) as (b & q' & L1 & L2). exists b, q'.
      split; [easy|]. now apply RI.
    + intros m b c L. destruct (i_answers _ I m b c L) as [L1 L2]. split; [exact L1|now apply RI].
  - (* GNotify *)
    destruct (g_notify s) as [|n] eqn:NT; [discriminate E|].
    assert (GEN : (g_handlers s <> [] -> exists t h, g_handlers s !! t = Some h /\ awake h = true) ->
                  g_running s = true -> inv (set_notify s n)).
    { intros AW _. split; cbn; try keep I. intros _ _ NE. right. exact (AW NE). }
    destruct (g_handlers s !! who) as [h|] eqn:H.
    + assert (DA : h = HAsleep \/ h <> HAsleep) by (destruct h; (now left) || (now right)); destruct DA as [->|NA].
      * injection E as <-.
        assert (X : inv (set_notify (set_handler s who HWait) n)).
        { pose proof (handler_move s who HAsleep HWait I H ltac:(easy) ltac:(easy) (or_introl eq_refl)) as J.
          split; cbn; try keep J. intros _ _ _. right. exists who, HWait. split; [|easy].
          apply list_lookup_insert. now apply lookup_lt_Some in H. }
        exact X.
      * assert (E' : (if existsb (fun h => match h with HAsleep => true | _ => false end) (g_handlers s)
                      then None else Some (set_notify s n)) = Some s') by (destruct h; try easy; exact E).
        destruct (existsb _ (g_handlers s)) eqn:X; [discriminate E'|]. injection E' as <-.
        split; cbn; try keep I. intros R _ _. right. exists who, h. split; [easy|].
        pose proof (i_alive _ I R who) as AL. rewrite H in AL. destruct h; easy.
    + destruct (existsb _ (g_handlers s)) eqn:X; [discriminate E|]. injection E as <-.
      split; cbn; try keep I. intros R _ NE. right.
      destruct (g_handlers s) as [|h hs] eqn:HS; [easy|]. exists O, h. split; [easy|].
      cbn [existsb] in X. apply orb_false_iff in X as [X _].
      pose proof (i_alive _ I R O) as AL. rewrite HS in AL. cbn in AL. destruct h; easy.
  - (* GSpurious *)
    destruct (g_handlers s !! t) as [h|] eqn:H; [|discriminate E].
    destruct h; try discriminate E. injection E as <-.
    exact (handler_move s t HAsleep HWait I H ltac:(easy) ltac:(easy) (or_introl eq_refl)).
  - (* GHandler *)
    unfold handler_step in E. destruct (g_handlers s !! t) as [h|] eqn:H; [|discriminate E].
    assert (TL : (t < length (g_handlers s))%nat) by now apply lookup_lt_Some in H.
    destruct h as [| | | |[|m r]|]; try discriminate E.
    + injection E as <-. apply (handler_move s t HTop _ I H); try easy.
      destruct (g_running s); [now left|now right].
    + destruct (g_mutex s) as [w|] eqn:W; [discriminate E|].
      destruct (negb (g_running s) || g_data s) eqn:P.
      * destruct (collect (g_queues s)) as [[ms qs] d] eqn:C. injection E as <-.
        destruct (collect_spec _ _ _ _ C) as (MS & QS & FD).
        (* whose packets are collected *)
        assert (OTH : forall a id q q' l', g_adds s !! a = Some (AddPeer id q) -> q' <> q ->
          g_queues s !! q' = Some l' -> Forall (fun m => m_peer_id m <> id) l').
        { intros a id q q' l' A N L. destruct l' as [|m l']; [constructor|].
          destruct (i_owner _ I q' _ L ltac:(easy)) as (b & i & OB).
          destruct (i_peer _ I b i q' OB) as (l2 & L2 & F2 & _).
          rewrite L in L2. injection L2 as <-. eapply Forall_impl; [exact F2|].
          intros x -> ->. pose proof (i_ids _ I a _ A). pose proof (i_ids _ I b _ OB). cbn in *.
          assert (a = b) by lia. subst b. congruence. }
        assert (TK : forall a id q l, g_adds s !! a = Some (AddPeer id q) -> g_queues s !! q = Some l ->
          Forall (fun m => m_peer_id m = id) l -> of_id id ms = firsts l).
        { intros a id q l A L F. rewrite MS. apply (concat_firsts id _ q l L F).
          intros q' l' N L'. exact (OTH a id q q' l' A N L'). }
        assert (TN : forall a, (forall id q, g_adds s !! a <> Some (AddPeer id q)) ->
          of_id (N.of_nat a) ms = []).
        { intros a NP. rewrite MS. apply concat_firsts_none. intros q l L.
          destruct l as [|m l]; [constructor|].
          destruct (i_owner _ I q _ L ltac:(easy)) as (b & i & OB).
          destruct (i_peer _ I b i q OB) as (l2 & L2 & F2 & _).
          rewrite L in L2. injection L2 as <-. eapply Forall_impl; [exact F2|].
          intros x -> X. pose proof (i_ids _ I b _ OB). cbn in *.
          assert (a = b) by lia. subst b. exact (NP _ _ OB). }
        assert (TT : forall id, taken_of (log_taken s (map (pair t) ms)) id = taken_of s id ++ map m_pkt (of_id id ms)).
        { intros id. unfold taken_of at 1. cbn. rewrite taken_of_app. now rewrite taken_pairs. }
        assert (QT : forall q l, qs !! q = Some l -> exists l0, g_queues s !! q = Some l0 /\ l = List.tl l0).
        { intros q l L. rewrite QS, list_lookup_fmap in L.
          destruct (g_queues s !! q) as [l0|]; [|discriminate L]. injection L as <-. now exists l0. }
        split; cbn; try keep I.
        -- intros a x q L Q. rewrite QS, map_length. exact (i_queue _ I a x q L Q).
        -- intros a id q A. destruct (i_peer _ I a id q A) as (l & L1 & L2 & L3).
           exists (List.tl l). split_and!.
           ++ rewrite QS, list_lookup_fmap, L1. easy.
           ++ destruct l; [constructor|]. now apply Forall_cons in L2 as [_ L2].
           ++ change (received_from s a = taken_of (log_taken s (map (pair t) ms)) id ++ map m_pkt (List.tl l)).
              rewrite TT, (TK a id q l A L1 L2), L3. rewrite <- app_assoc. f_equal. now destruct l.
        -- intros a NP. destruct (i_none _ I a NP) as [M1 M2]. split; [exact M1|].
           change (taken_of (log_taken s (map (pair t) ms)) (N.of_nat a) = []).
           now rewrite TT, M2, TN.
        -- intros q l L NE. apply QT in L as (l0 & L & ->).
           apply (i_owner _ I q l0 L). now intros ->.
        -- exact FD.
        -- intros t' L. destruct (lookup_set (g_handlers s) t (HWork ms) t') as [(L1 & -> & _)|(L1 & L2)].
           ++ rewrite L1 in L. discriminate L.
           ++ rewrite L1 in L. exfalso. pose proof (i_checked _ I t' L) as [X _]. congruence.
        -- rewrite W. easy.
        -- intros R t' L. destruct (lookup_set (g_handlers s) t (HWork ms) t') as [(L1 & -> & _)|(L1 & L2)].
           ++ rewrite L1 in L. discriminate L.
           ++ rewrite L1 in L. exact (i_alive _ I R t' L).
        -- intros _ _ _. right. exists t, (HWork ms). split; [now apply list_lookup_insert|easy].
        -- intros t'. rewrite by_thread_app, (i_thread _ I t'), <- app_assoc. f_equal.
           unfold in_work. cbn.
           destruct (lookup_set (g_handlers s) t (HWork ms) t') as [(L1 & -> & _)|(L1 & L2)]; rewrite L1.
           ++ rewrite H. cbn. apply by_thread_same.
           ++ rewrite by_thread_other by (destruct L2; [congruence|lia]). now rewrite app_nil_r.
        -- intros t' m L. apply elem_of_app in L as [L|L]; [exact (i_taken _ I t' m L)|].
           apply elem_of_list_fmap in L as (m' & [= -> ->] & L).
           assert (IN : exists q l, g_queues s !! q = Some l /\ m' ∈ l).
           { rewrite MS in L. clear - L. induction (g_queues s) as [|l r IH]; [now apply elem_of_nil in L|].
             cbn [map concat] in L. apply elem_of_app in L as [L|L].
             - exists O, l. split; [easy|]. destruct l as [|x l]; [now apply elem_of_nil in L|].
               apply elem_of_list_singleton in L as ->. apply elem_of_cons. now left.
             - destruct (IH L) as (q & l' & L1 & L2). now exists (S q), l'. }
           destruct IN as (q & l & L1 & L2).
           destruct (i_owner _ I q l L1) as (a & id & OA); [intros ->; now apply elem_of_nil in L2|].
           destruct (i_peer _ I a id q OA) as (l' & L1' & F' & R').
           rewrite L1 in L1'. injection L1' as <-.
           rewrite Forall_forall in F'. exists a, q. rewrite (F' m' L2). split; [exact OA|].
           change (m_pkt m' ∈ received_from s a). rewrite R'. apply elem_of_app. right.
           apply elem_of_list_fmap. now exists m'.
      * injection E as <-. apply orb_false_iff in P as [P1 P2]. split; cbn; try keep I.
        -- intros t' L. destruct (lookup_set (g_handlers s) t HChecked t') as [(L1 & -> & _)|(L1 & L2)].
           ++ easy.
           ++ rewrite L1 in L. exfalso. pose proof (i_checked _ I t' L) as [X _]. congruence.
        -- intros t' [= <-]. now apply list_lookup_insert.
        -- intros R t' L. destruct (lookup_set (g_handlers s) t HChecked t') as [(L1 & -> & _)|(L1 & L2)].
           ++ rewrite L1 in L. discriminate L.
           ++ rewrite L1 in L. exact (i_alive _ I R t' L).
        -- congruence.
        -- intros t'. rewrite (i_thread _ I t'). f_equal. unfold in_work. cbn.
           destruct (lookup_set (g_handlers s) t HChecked t') as [(L1 & -> & _)|(L1 & L2)]; rewrite L1; [|easy].
           now rewrite H.
    + injection E as <-. destruct (i_checked _ I t H) as [C1 C2]. split; cbn; try keep I.
      * intros t' L. destruct (lookup_set (g_handlers s) t HAsleep t') as [(L1 & -> & _)|(L1 & L2)].
        -- rewrite L1 in L. discriminate L.
        -- rewrite L1 in L. pose proof (i_checked _ I t' L) as [X _]. rewrite C1 in X.
           injection X as <-. destruct L2; [easy|lia].
      * easy.
      * intros R t' L. destruct (lookup_set (g_handlers s) t HAsleep t') as [(L1 & -> & _)|(L1 & L2)].
        -- rewrite L1 in L. discriminate L.
        -- rewrite L1 in L. exact (i_alive _ I R t' L).
      * congruence.
      * intros t'. rewrite (i_thread _ I t'). f_equal. unfold in_work. cbn.
        destruct (lookup_set (g_handlers s) t HAsleep t') as [(L1 & -> & _)|(L1 & L2)]; rewrite L1; [|easy].
        now rewrite H.
    + injection E as <-. split; cbn; try keep I.
      * intros t' L. destruct (lookup_set (g_handlers s) t HTop t') as [(L1 & -> & _)|(L1 & L2)].
        -- rewrite L1 in L. discriminate L.
        -- rewrite L1 in L. exact (i_checked _ I t' L).
      * intros t' M. pose proof (i_mutex _ I t' M) as C.
        rewrite list_lookup_insert_ne; [exact C|]. intros ->. congruence.
      * intros R t' L. destruct (lookup_set (g_handlers s) t HTop t') as [(L1 & -> & _)|(L1 & L2)].
        -- rewrite L1 in L. discriminate L.
        -- rewrite L1 in L. exact (i_alive _ I R t' L).
      * intros _ _ _. right. exists t, HTop. split; [now apply list_lookup_insert|easy].
      * intros t'. rewrite (i_thread _ I t'). f_equal. unfold in_work. cbn.
        destruct (lookup_set (g_handlers s) t HTop t') as [(L1 & -> & _)|(L1 & L2)]; rewrite L1; [|easy].
        now rewrite H.
    + assert (J : inv (set_handler (log_handled s (t, m)) t (HWork r))).
      { split; cbn; try keep I.
        * intros t' L. destruct (lookup_set (g_handlers s) t (HWork r) t') as [(L1 & -> & _)|(L1 & L2)].
          -- rewrite L1 in L. discriminate L.
          -- rewrite L1 in L. exact (i_checked _ I t' L).
        * intros t' M. pose proof (i_mutex _ I t' M) as C.
          rewrite list_lookup_insert_ne; [exact C|]. intros ->. congruence.
        * intros R t' L. destruct (lookup_set (g_handlers s) t (HWork r) t') as [(L1 & -> & _)|(L1 & L2)].
          -- rewrite L1 in L. discriminate L.
          -- rewrite L1 in L. exact (i_alive _ I R t' L).
        * intros _ _ _. right. exists t, (HWork r). split; [now apply list_lookup_insert|easy].
        * intros t'. rewrite (i_thread _ I t'), by_thread_app, <- app_assoc. f_equal.
          unfold in_work. cbn.
          destruct (lookup_set (g_handlers s) t (HWork r) t') as [(L1 & -> & _)|(L1 & L2)]; rewrite L1.
          -- rewrite H. unfold by_thread. cbn. now rewrite Nat.eqb_refl.
          -- pose proof (by_thread_other t' t [m]) as BO. cbn [map] in BO.
             rewrite BO; [easy|]. destruct L2; [congruence|lia]. }
      destruct resp as [b|]; injection E as <-; [|exact J].
      split; cbn; try keep J. intros m' b' a L. apply elem_of_app in L as [L|L].
      * exact (i_answers _ I m' b' a L).
      * apply elem_of_list_singleton in L. injection L as -> -> L.
        assert (FP : (m_peer_id m, a) ∈ g_peers s).
        { clear - L. induction (g_peers s) as [|[i x] p IH]; [discriminate L|]. cbn [find_peer] in L.
          apply elem_of_cons. destruct (i =? m_peer_id m) eqn:X.
          - apply N.eqb_eq in X. injection L as ->. left. now rewrite X.
          - right. exact (IH L). }
        destruct (i_peers _ I _ _ FP) as [q A].
        assert (TKN : (t, m) ∈ g_taken s).
        { pose proof (i_thread _ I t) as TH. unfold in_work in TH. rewrite H in TH.
          assert (X : m ∈ by_thread t (g_taken s)).
          { rewrite TH. apply elem_of_app. right. apply elem_of_cons. now left. }
          unfold by_thread in X. apply elem_of_list_fmap in X as ([t' m'] & -> & X).
          apply elem_of_list_In in X. apply filter_In in X as [X1 X2]. cbn in X2.
          apply Nat.eqb_eq in X2. subst t'. cbn. now apply elem_of_list_In. }
        destruct (i_taken _ I t m TKN) as (a' & q' & A' & RC).
        assert (a' = a).
        { pose proof (i_ids _ I a _ A). pose proof (i_ids _ I a' _ A'). cbn in *. lia. }
        subst a'. split; [|exact RC]. unfold peer_id_of. cbn. now rewrite A.
  - (* GClose *)
    destruct (g_closing s) as [|[|[|[|n]]]] eqn:C; try discriminate E; injection E as <-.
    + split; cbn; try keep I; easy.
    + split; cbn; try keep I; try easy. intros _. apply (i_closing _ I). lia.
    + split; cbn; try keep I.
      * intros id a L. now apply elem_of_nil in L.
      * intros _. apply (i_closing _ I). lia.
    + assert (R : g_running s = false) by (apply (i_closing _ I); lia).
      assert (LK : forall t, map wake (g_handlers s) !! t = wake <$> g_handlers s !! t).
      { intros t. apply list_lookup_fmap. }
      split; cbn; try keep I; try easy.
      * intros t L. rewrite LK in L. destruct (g_handlers s !! t) as [h|] eqn:H; [|discriminate L].
        injection L as L. apply (i_checked _ I t). rewrite H. f_equal. destruct h; easy.
      * intros t M. rewrite LK, (i_mutex _ I t M). easy.
      * congruence.
      * congruence.
      * intros t. rewrite (i_thread _ I t). f_equal. unfold in_work. cbn. rewrite LK.
        destruct (g_handlers s !! t) as [[]|]; easy.
Qed.

Lemma step_adds s o s' : g_step s o = Some s' ->
  length (g_adds s') = (length (g_adds s) + match o with GAdd => 1 | _ => 0 end)%nat.
Proof.
  intros E. destruct o as [|a|a|a pkt|who|t|t resp|]; cbn [g_step] in E.
  - injection E as <-. cbn. now rewrite app_length.
  - destruct (g_adds s !! a) as [[]|]; try discriminate E.
    destruct (g_mutex s); [discriminate E|]. injection E as <-. cbn. rewrite insert_length. lia.
  - destruct (g_adds s !! a) as [[]|]; try discriminate E.
    destruct (g_running s); injection E as <-; cbn; rewrite insert_length; lia.
  - destruct (g_adds s !! a) as [[]|]; try discriminate E.
    destruct (g_mutex s); [discriminate E|]. destruct (g_closing s <? 2)%nat; [|discriminate E].
    injection E as <-. cbn. lia.
  - destruct (g_notify s); [discriminate E|].
    destruct (g_handlers s !! who) as [[]|];
      [..|destruct (existsb _ _); [discriminate E|]; injection E as <-; cbn; lia];
      try (destruct (existsb _ _); [discriminate E|]); injection E as <-; cbn; lia.
  - destruct (g_handlers s !! t) as [[]|]; try discriminate E. injection E as <-. cbn. lia.
  - unfold handler_step in E. destruct (g_handlers s !! t) as [[| | | |[|m r]|]|]; try discriminate E.
    + injection E as <-. cbn. lia.
    + destruct (g_mutex s); [discriminate E|]. destruct (negb (g_running s) || g_data s).
      * destruct (collect (g_queues s)) as [[ms qs] d]. injection E as <-. cbn. lia.
      * injection E as <-. cbn. lia.
    + injection E as <-. cbn. lia.
    + injection E as <-. cbn. lia.
    + destruct resp; injection E as <-; cbn; lia.
  - destruct (g_closing s) as [|[|[|[|n]]]]; try discriminate E; injection E as <-; cbn; lia.
Qed.

Lemma run_adds l s s' : g_run s l = Some s' ->
  length (g_adds s') = (length (g_adds s) + adds l)%nat.
Proof.
  revert s. induction l as [|o r IH]; intros s E; cbn [g_run] in E.
  - injection E as <-. cbn. lia.
  - destruct (g_step s o) as [s1|] eqn:S; [|discriminate E].
    rewrite (IH s1 E), (step_adds _ _ _ S). destruct o; cbn [adds]; lia.
Qed.

Lemma run_inv l s s' : inv s -> N.of_nat (length (g_adds s) + adds l) <= two64 ->
  g_run s l = Some s' -> inv s'.
Proof.
  revert s. induction l as [|o r IH]; intros s I B E; cbn [g_run] in E.
  - injection E as <-. exact I.
  - destruct (g_step s o) as [s1|] eqn:S; [|discriminate E].
    pose proof (step_adds _ _ _ S) as A.
    assert (B1 : N.of_nat (length (g_adds s1) + adds r) <= two64).
    { rewrite A. destruct o; cbn [adds] in B |- *; lia. }
    apply (IH s1); [|exact B1|exact E]. apply (step_inv s o s1 I); [lia|exact S].
Qed.

Lemma reach_inv n l s : N.of_nat (adds l) <= two64 -> g_run (manager_init n) l = Some s -> inv s.
Proof. intros B. apply run_inv; [apply init_inv|exact B]. Qed.

(** * The statements *)

Lemma nothing_lost n l s a id : N.of_nat (adds l) <= two64 ->
  g_run (manager_init n) l = Some s -> peer_id_of s a = Some id ->
  received_from s a = taken_of s id ++ queued s a.
Proof.
  intros B R P. pose proof (reach_inv _ _ _ B R) as I. unfold peer_id_of, queued in *.
  destruct (g_adds s !! a) as [[ | |i q|]|] eqn:A; try discriminate P. injection P as ->.
  destruct (i_peer _ I a id q A) as (l' & L & _ & RT). now rewrite L.
Qed.

Lemma handled_in_order n l s t : N.of_nat (adds l) <= two64 ->
  g_run (manager_init n) l = Some s ->
  by_thread t (g_taken s) = by_thread t (g_handled s) ++ in_work s t.
Proof. intros B R. exact (i_thread _ (reach_inv _ _ _ B R) t). Qed.

Lemma taken_came n l s t m : N.of_nat (adds l) <= two64 ->
  g_run (manager_init n) l = Some s -> (t, m) ∈ g_taken s ->
  exists a, peer_id_of s a = Some (m_peer_id m) /\ m_pkt m ∈ received_from s a.
Proof.
  intros B R M. destruct (i_taken _ (reach_inv _ _ _ B R) t m M) as (a & q & A & X).
  exists a. split; [|exact X]. unfold peer_id_of. now rewrite A.
Qed.

Lemma ids_differ n l s a b id : N.of_nat (adds l) <= two64 ->
  g_run (manager_init n) l = Some s -> peer_id_of s a = Some id -> peer_id_of s b = Some id -> a = b.
Proof.
  intros B R P1 P2. pose proof (reach_inv _ _ _ B R) as I. unfold peer_id_of in *.
  destruct (g_adds s !! a) as [[ | |i q|]|] eqn:A1; try discriminate P1. injection P1 as ->.
  destruct (g_adds s !! b) as [[ | |i' q'|]|] eqn:A2; try discriminate P2. injection P2 as ->.
  pose proof (i_ids _ I a _ A1). pose proof (i_ids _ I b _ A2). cbn in *. lia.
Qed.

Lemma answers_back n l s m b a : N.of_nat (adds l) <= two64 ->
  g_run (manager_init n) l = Some s -> (m, b, Some a) ∈ g_answers s ->
  peer_id_of s a = Some (m_peer_id m) /\ m_pkt m ∈ received_from s a.
Proof. intros B R. exact (i_answers _ (reach_inv _ _ _ B R) m b a). Qed.

Lemma not_overslept n l s q ms : N.of_nat (adds l) <= two64 ->
  g_run (manager_init n) l = Some s -> g_running s = true -> (0 < n)%nat ->
  g_queues s !! q = Some ms -> ms <> [] ->
  g_data s = true /\
  ((0 < g_notify s)%nat \/ exists t h, g_handlers s !! t = Some h /\ awake h = true).
Proof.
  intros B R RN N Q NE. pose proof (reach_inv _ _ _ B R) as I.
  assert (D : g_data s = true).
  { destruct (g_data s) eqn:D; [easy|]. pose proof (i_flag _ I D) as F. rewrite Forall_lookup in F.
    now rewrite (F q ms Q) in NE. }
  split; [exact D|]. apply (i_woken _ I RN D).
  assert (L : length (g_handlers s) = n).
  { clear - R. assert (G : forall l s s', g_run s l = Some s' -> length (g_handlers s') = length (g_handlers s)).
    { clear. intros l. induction l as [|o r IH]; intros s s' E; cbn [g_run] in E.
      - now injection E as <-.
      - destruct (g_step s o) as [s1|] eqn:S; [|discriminate E]. rewrite (IH s1 s' E). clear - S.
        destruct o as [|a|a|a pkt|who|t|t resp|]; cbn [g_step] in S.
        + now injection S as <-.
        + destruct (g_adds s !! a) as [[]|]; try discriminate S.
          destruct (g_mutex s); [discriminate S|]. now injection S as <-.
        + destruct (g_adds s !! a) as [[]|]; try discriminate S.
          destruct (g_running s); now injection S as <-.
        + destruct (g_adds s !! a) as [[]|]; try discriminate S.
          destruct (g_mutex s); [discriminate S|]. destruct (g_closing s <? 2)%nat; [|discriminate S].
          now injection S as <-.
        + destruct (g_notify s); [discriminate S|].
          destruct (g_handlers s !! who) as [[]|];
            [..|destruct (existsb _ _); [discriminate S|]; now injection S as <-];
            try (destruct (existsb _ _); [discriminate S|]); injection S as <-; cbn;
            rewrite ?insert_length; easy.
        + destruct (g_handlers s !! t) as [[]|]; try discriminate S. injection S as <-. cbn.
          now rewrite insert_length.
        + unfold handler_step in S.
          destruct (g_handlers s !! t) as [[| | | |[|m r0]|]|]; try discriminate S.
          * injection S as <-. cbn. now rewrite insert_length.
          * destruct (g_mutex s); [discriminate S|]. destruct (negb (g_running s) || g_data s).
            -- destruct (collect (g_queues s)) as [[ms qs] d]. injection S as <-. cbn. now rewrite insert_length.
            -- injection S as <-. cbn. now rewrite insert_length.
          * injection S as <-. cbn. now rewrite insert_length.
          * injection S as <-. cbn. now rewrite insert_length.
          * destruct resp; injection S as <-; cbn; now rewrite insert_length.
        + destruct (g_closing s) as [|[|[|[|k]]]]; try discriminate S; injection S as <-; cbn; try easy.
          now rewrite map_length. }
    rewrite (G _ _ _ R). cbn. now rewrite replicate_length. }
  intros H. rewrite H in L. cbn in L. lia.
Qed.

(** Each return of handle_messages takes a packet from every queue that has one. *)
Lemma step_progress s o s' a id : inv s -> inv s' -> g_step s o = Some s' ->
  peer_id_of s a = Some id ->
  peer_id_of s' a = Some id /\
  (length (received_from s a) <= length (received_from s' a))%nat /\
  (Nat.min (length (received_from s a)) (length (taken_of s id) + collects s o)
     <= length (taken_of s' id))%nat.
Proof.
  intros I I' E P. unfold peer_id_of in P.
  destruct (g_adds s !! a) as [[ | |i q|]|] eqn:A; try discriminate P. injection P as ->.
  destruct (i_peer _ I a id q A) as (l & L & F & RT).
  assert (KEEP : g_adds s' = g_adds s -> peer_id_of s' a = Some id).
  { intros H. unfold peer_id_of. now rewrite H, A. }
  destruct o as [|b|b|b pkt|who|t|t resp|]; cbn [g_step collects] in E |- *.
  - injection E as <-. split_and!; [|easy|cbn; rewrite Nat.add_0_r; apply Nat.le_min_r].
    unfold peer_id_of. cbn. erewrite lookup_app_l_Some; [|exact A]. easy.
  - destruct (g_adds s !! b) as [[i|i p|i p|i p]|] eqn:AB; try discriminate E.
    destruct (g_mutex s); [discriminate E|]. injection E as <-.
    split_and!; [|easy|cbn; rewrite Nat.add_0_r; apply Nat.le_min_r].
    unfold peer_id_of. cbn. rewrite list_lookup_insert_ne by congruence. now rewrite A.
  - destruct (g_adds s !! b) as [[i|i p|i p|i p]|] eqn:AB; try discriminate E.
    destruct (g_running s); injection E as <-;
      (split_and!; [|easy|cbn; rewrite Nat.add_0_r; apply Nat.le_min_r]);
      unfold peer_id_of; cbn; rewrite list_lookup_insert_ne by congruence; now rewrite A.
  - destruct (g_adds s !! b) as [[i|i p|i p|i p]|] eqn:AB; try discriminate E.
    destruct (g_mutex s); [discriminate E|]. destruct (g_closing s <? 2)%nat; [|discriminate E].
    injection E as <-. split_and!; [now apply KEEP| |cbn; rewrite Nat.add_0_r; apply Nat.le_min_r].
    unfold received_from at 2. cbn. rewrite received_app, app_length. lia.
  - destruct (g_notify s); [discriminate E|].
    destruct (g_handlers s !! who) as [[]|];
      [..|destruct (existsb _ _); [discriminate E|]];
      try (destruct (existsb _ _); [discriminate E|]); injection E as <-;
      (split_and!; [now apply KEEP|easy|cbn; rewrite Nat.add_0_r; apply Nat.le_min_r]).
  - destruct (g_handlers s !! t) as [[]|]; try discriminate E. injection E as <-.
    (split_and!; [now apply KEEP|easy|cbn; rewrite Nat.add_0_r; apply Nat.le_min_r]).
  - unfold handler_step in E.
    destruct (g_handlers s !! t) as [[| | | |[|m r]|]|] eqn:H; try discriminate E.
    + injection E as <-. (split_and!; [now apply KEEP|easy|cbn; rewrite Nat.add_0_r; apply Nat.le_min_r]).
    + destruct (g_mutex s) eqn:MX; [discriminate E|]. destruct (negb (g_running s) || g_data s) eqn:PR.
      * destruct (collect (g_queues s)) as [[ms qs] d] eqn:C. injection E as <-.
        split_and!; [now apply KEEP|easy|].
        destruct (i_peer _ I' a id q A) as (l' & L' & _ & RT').
        cbn in L'. destruct (collect_spec _ _ _ _ C) as (_ & QS & _).
        rewrite QS, list_lookup_fmap, L in L'. injection L' as <-.
        apply (f_equal length) in RT, RT'. rewrite app_length, map_length in RT, RT'.
        change (length (received_from s a) = (length (taken_of
          (set_handler (log_taken (set_queues s qs d) (map (pair t) ms)) t (HWork ms)) id)
          + length (List.tl l))%nat) in RT'.
        destruct l; cbn [List.tl length] in RT, RT'; lia.
      * injection E as <-. (split_and!; [now apply KEEP|easy|cbn; rewrite Nat.add_0_r; apply Nat.le_min_r]).
    + injection E as <-. (split_and!; [now apply KEEP|easy|cbn; rewrite Nat.add_0_r; apply Nat.le_min_r]).
    + injection E as <-. (split_and!; [now apply KEEP|easy|cbn; rewrite Nat.add_0_r; apply Nat.le_min_r]).
    + destruct resp; injection E as <-;
        (split_and!; [now apply KEEP|easy|cbn; rewrite Nat.add_0_r; apply Nat.le_min_r]).
  - destruct (g_closing s) as [|[|[|[|n]]]]; try discriminate E; injection E as <-;
      (split_and!; [now apply KEEP|easy|cbn; rewrite Nat.add_0_r; apply Nat.le_min_r]).
Qed.

Lemma run_progress l : forall s s' a id, inv s -> N.of_nat (length (g_adds s) + adds l) <= two64 ->
  g_run s l = Some s' -> peer_id_of s a = Some id ->
  (Nat.min (length (received_from s a)) (length (taken_of s id) + all_collects s l)
     <= length (taken_of s' id))%nat.
Proof.
  induction l as [|o r IH]; intros s s' a id I B E P; cbn [g_run all_collects] in *.
  - injection E as <-. lia.
  - destruct (g_step s o) as [s1|] eqn:S; [|discriminate E].
    pose proof (step_adds _ _ _ S) as A.
    assert (B1 : N.of_nat (length (g_adds s1) + adds r) <= two64).
    { rewrite A. destruct o; cbn [adds] in B |- *; lia. }
    assert (I1 : inv s1) by (apply (step_inv s o s1 I); [lia|exact S]).
    destruct (step_progress s o s1 a id I I1 S P) as (P1 & P2 & P3).
    specialize (IH s1 s' a id I1 B1 E P1). lia.
Qed.

Lemma bounded_wait n l1 s l2 s' a id : N.of_nat (adds l1 + adds l2) <= two64 ->
  g_run (manager_init n) l1 = Some s -> g_run s l2 = Some s' -> peer_id_of s a = Some id ->
  (length (queued s a) <= all_collects s l2)%nat ->
  (length (received_from s a) <= length (taken_of s' id))%nat.
Proof.
  intros B R1 R2 P Q.
  assert (B1 : N.of_nat (adds l1) <= two64) by lia.
  pose proof (reach_inv _ _ _ B1 R1) as I.
  pose proof (run_adds _ _ _ R1) as A. cbn in A.
  assert (B2 : N.of_nat (length (g_adds s) + adds l2) <= two64) by (rewrite A; exact B).
  pose proof (run_progress l2 s s' a id I B2 R2 P) as X.
  pose proof (nothing_lost _ _ _ _ _ B1 R1 P) as Y. apply (f_equal length) in Y.
  rewrite app_length in Y. lia.
Qed.

(** * send_to_one *)

Lemma send_loop_some c off i left idx : send_to_one_loop c off i left = Some idx ->
  c !! idx = Some true.
Proof.
  revert i. induction left as [|n IH]; intros i E; cbn [send_to_one_loop] in E; [discriminate E|].
  destruct (c !! ((i + off) mod length c)%nat) as [[]|] eqn:L.
  - injection E as <-. exact L.
  - exact (IH _ E).
  - exact (IH _ E).
Qed.

Lemma send_loop_none c off i left : send_to_one_loop c off i left = None ->
  forall k, (k < left)%nat -> c !! ((i + k + off) mod length c)%nat <> Some true.
Proof.
  revert i. induction left as [|n IH]; intros i E k K; [lia|]. cbn [send_to_one_loop] in E.
  destruct k as [|k].
  - rewrite Nat.add_0_r. destruct (c !! ((i + off) mod length c)%nat) as [[]|]; congruence.
  - replace (i + S k + off)%nat with (S i + k + off)%nat by lia.
    destruct (c !! ((i + off) mod length c)%nat) as [[]|]; [discriminate E|..];
      apply (IH (S i) E k); lia.
Qed.

Lemma send_to_one_spec c off :
  match send_to_one c off with
  | Some i => c !! i = Some true
  | None => forall i, c !! i <> Some true
  end.
Proof.
  unfold send_to_one. destruct (send_to_one_loop c off 0 (length c)) as [i|] eqn:E.
  - exact (send_loop_some _ _ _ _ _ E).
  - intros i L. assert (B : (i < length c)%nat) by now apply lookup_lt_Some in L.
    set (n := length c) in *.
    (* the turn that looks at [i] *)
    set (k := ((i + (n - off mod n)) mod n)%nat).
    assert (K : (k < n)%nat) by (apply Nat.mod_upper_bound; lia).
    apply (send_loop_none _ _ _ _ E k K). cbn [Nat.add].
    replace ((k + off) mod length c)%nat with i; [exact L|]. fold n. unfold k.
    rewrite Nat.add_mod_idemp_l by lia.
    pose proof (Nat.mod_upper_bound off n ltac:(lia)).
    rewrite <- Nat.add_mod_idemp_r by lia.
    replace (i + (n - off mod n) + off mod n)%nat with (i + 1 * n)%nat by lia.
    rewrite Nat.mod_add by lia. now rewrite Nat.mod_small.
Qed.
