From stdpp Require Import base option list.
From Coq Require Import NArith Lia.
From Verif Require Import CoordBatchModel CoordBatchSpec.
Open Scope nat_scope.

Section params.
Context (batch_size max_threads : nat).
Notation c_move := (c_move batch_size max_threads).
Notation c_moves := (c_moves batch_size max_threads).
Notation reachable := (reachable batch_size max_threads).
Notation quiet := (quiet batch_size max_threads).

(** ** Books *)
Definition reqs_of (b : batch) : list nat := map e_req (b_map b).
Definition hand (s : coord) : list batch :=
  match c_exec s with ENotify b | ESchedule b => [b] | _ => [] end.
Definition pending (s : coord) : list nat :=
  match c_handler s with HWant _ r | HAsleep _ r => [r] | _ => [] end.
Definition live (s : coord) : list batch := c_cur s :: hand s ++ c_work s.

Definition good (reqs : list N) (b : batch) : Prop :=
  length (b_map b) = length (b_txs b) /\ length (b_txs b) <= batch_size /\ NoDup (b_txs b) /\
  forall i e, b_map b !! i = Some e ->
    e_idx e = i /\ b_txs b !! i = Some (e_tx e) /\ reqs !! e_req e = Some (e_tx e).
Definition told (s : coord) (a : nat * option bool) : Prop :=
  exists txs res i, (txs, res) ∈ c_done s /\ txs !! i = c_reqs s !! fst a /\
    is_Some (c_reqs s !! fst a) /\
    match res with
    | Some l => length l = length txs /\ exists b, l !! i = Some b /\ snd a = Some b
    | None => snd a = None
    end.
Record books (s : coord) : Prop := Books {
  k_acc : c_accepted s ≡ₚ concat (map reqs_of (live s)) ++ map fst (c_answers s) ++ c_lost s;
  k_all : seq 0 (length (c_reqs s)) ≡ₚ c_accepted s ++ c_refused s ++ pending s;
  k_good : Forall (good (c_reqs s)) (live s);
  k_told : Forall (told s) (c_answers s);
  k_want : forall tx r, c_handler s = HWant tx r \/ c_handler s = HAsleep tx r ->
             c_reqs s !! r = Some tx;
  k_done : Forall (fun d : list N * option (list bool) =>
             NoDup (fst d) /\ length (fst d) <= batch_size /\
             match snd d with Some l => length l = length (fst d) | None => True end) (c_done s)
}.

Lemma good_mono reqs tx b : good reqs b -> good (reqs ++ [tx]) b.
Proof.
  intros (H1 & H2 & H3 & H4). do 3 (split; [done|]). intros i e He.
  destruct (H4 i e He) as (? & ? & ?). split; [done|]. split; [done|].
  by apply lookup_app_l_Some.
Qed.
Lemma good_empty reqs : good reqs batch_empty.
Proof. split; [done|]. split; [cbn; lia|]. split; [constructor|]. intros i e He. done. Qed.

Lemma books_init : books coord_init.
Proof.
  constructor; cbn; try done.
  - apply List.Forall_cons; [apply good_empty|apply List.Forall_nil].
  - intros tx r [H|H]; discriminate.
Qed.

(** Moves that leave the books alone. *)
Lemma books_same s s' : books s ->
  c_reqs s' = c_reqs s -> c_accepted s' = c_accepted s -> c_refused s' = c_refused s ->
  c_answers s' = c_answers s -> c_lost s' = c_lost s -> c_done s' = c_done s ->
  live s' = live s -> pending s' = pending s ->
  (forall tx r, c_handler s' = HWant tx r \/ c_handler s' = HAsleep tx r ->
     c_handler s = HWant tx r \/ c_handler s = HAsleep tx r) ->
  books s'.
Proof.
  intros [K1 K2 K3 K4 K5 K6] Er Ea Ef En El Ed Ev Ep Eh. constructor.
  - by rewrite Ea, Ev, En, El.
  - by rewrite Er, Ea, Ef, Ep.
  - by rewrite Er, Ev.
  - rewrite En. eapply Forall_impl; [exact K4|]. intros a. unfold told. by rewrite Er, Ed.
  - intros tx r H. rewrite Er. by apply K5, Eh.
  - by rewrite Ed.
Qed.

Lemma wake_handler_books s : books s -> books (wake_handler s).
Proof.
  intros K. destruct s as [ru cu h e w st rq ac rf an dn lo]. unfold wake_handler.
  destruct h as [|tx r|tx r| |]; cbn; try exact K.
  apply (books_same _ _ K); try reflexivity. cbn. intros tx' r' [H|H]; [|discriminate].
  injection H as -> ->. by right.
Qed.
Lemma wake_exec_books s : books s -> books (wake_exec s).
Proof.
  intros K. destruct s as [ru cu h e w st rq ac rf an dn lo]. unfold wake_exec.
  destruct e; cbn; try exact K. apply (books_same _ _ K); try reflexivity. tauto.
Qed.
Lemma notify_books w s : books s -> books (notify_one w s).
Proof.
  intros K. unfold notify_one.
  destruct (c_handler s), (c_exec s), w; try exact K;
    first [by apply wake_handler_books|by apply wake_exec_books].
Qed.
Lemma notify_fields w s :
  c_reqs (notify_one w s) = c_reqs s /\ c_cur (notify_one w s) = c_cur s /\
  c_work (notify_one w s) = c_work s /\ c_running (notify_one w s) = c_running s /\
  c_stop (notify_one w s) = c_stop s /\ hand (notify_one w s) = hand s /\
  (forall b, c_exec s = ENotify b -> c_exec (notify_one w s) = ENotify b) /\
  (c_handler s = HNotify -> c_handler (notify_one w s) = HNotify).
Proof.
  destruct s as [ru cu h e wk st rq ac rf an dn lo]. unfold notify_one, wake_handler, wake_exec, hand.
  destruct h, e, w; cbn; repeat split; try done.
Qed.

Lemma set_handler_idle_books s : books s -> pending s = [] ->
  forall h, (forall tx r, h <> HWant tx r /\ h <> HAsleep tx r) -> books (set_handler h s).
Proof.
  intros K P h N. apply (books_same _ _ K); try reflexivity.
  - rewrite P. unfold pending, set_handler. cbn. destruct h; try done; by destruct (N tx req).
  - cbn. intros tx r [->| ->]; by destruct (N tx r).
Qed.
Lemma set_exec_books s e : books s ->
  (match e with ENotify b | ESchedule b => [b] | _ => [] end) = hand s ->
  books (set_exec e s).
Proof.
  intros K E. apply (books_same _ _ K); try reflexivity.
  - unfold live, hand in *. cbn. by rewrite E.
  - tauto.
Qed.
Lemma set_stop_books s t : books s -> books (set_stop t s).
Proof. intros K. apply (books_same _ _ K); try reflexivity. tauto. Qed.

Lemma concat_app {A} (l m : list (list A)) : concat (l ++ m) = concat l ++ concat m.
Proof. apply List.concat_app. Qed.

Lemma told_mono s s' a : c_reqs s' = c_reqs s -> (forall d, d ∈ c_done s -> d ∈ c_done s') ->
  told s a -> told s' a.
Proof.
  intros Er Ed (txs & res & i & H1 & H2 & H3 & H4). exists txs, res, i. rewrite Er.
  split; [by apply Ed|done].
Qed.

Lemma try_add_books tx r s : books s -> c_handler s = HWant tx r ->
  books (try_add batch_size tx r s).
Proof.
  intros K Hh. pose proof K as [K1 K2 K3 K4 K5 K6].
  assert (Hr : c_reqs s !! r = Some tx) by (apply K5; by left).
  unfold try_add. destruct (c_running s && (batch_size <=? length (b_map (c_cur s)))) eqn:F.
  { apply (books_same _ _ K); try reflexivity.
    - unfold pending. rewrite Hh. reflexivity.
    - cbn. intros tx' r' [H|H]; [discriminate|]. injection H as -> ->. by left. }
  destruct (negb (c_running s) || existsb _ _) eqn:D.
  { constructor; cbn [c_accepted c_reqs c_refused c_answers c_lost c_done c_handler]; try done.
    - unfold pending at 1. cbn [c_handler]. rewrite app_nil_r. rewrite K2. unfold pending.
      by rewrite Hh.
    - intros tx' r' [H|H]; discriminate. }
  apply orb_false_elim in D as [D1 D2]. apply negb_false_iff in D1. rewrite D1 in F. cbn in F.
  apply Nat.leb_gt in F.
  destruct (c_cur s) as [txs m] eqn:Ecur. cbn [b_txs b_map] in *.
  unfold live in K3. rewrite Ecur in K3. apply Forall_cons in K3 as [G K3].
  destruct G as (G1 & G2 & G3 & G4). cbn [b_txs b_map] in *.
  assert (NI : tx ∉ txs).
  { intros H. apply elem_of_list_lookup in H as [i Hi].
    destruct (lookup_lt_is_Some_2 m i) as [e He].
    { rewrite G1. by apply lookup_lt_Some in Hi. }
    destruct (G4 i e He) as (_ & H & _).
    assert (existsb (fun e => N.eqb (e_tx e) tx) m = true) as X; [|congruence].
    apply existsb_exists. exists e. split; [apply elem_of_list_In; by apply elem_of_list_lookup_2 in He|].
    apply N.eqb_eq. congruence. }
  constructor; cbn [c_accepted c_reqs c_refused c_answers c_lost c_done c_handler]; try done.
  - unfold live, hand in *. cbn [c_cur c_exec c_work] in *. rewrite Ecur in K1.
    cbn [map concat] in *. unfold reqs_of at 1. cbn [b_map]. rewrite map_app. cbn [map e_req].
    unfold reqs_of at 1 in K1. cbn [b_map] in K1. rewrite K1.
    rewrite <- !app_assoc. cbn [app]. solve_Permutation.
  - unfold pending at 1. cbn [c_handler]. rewrite K2. unfold pending. rewrite Hh.
    solve_Permutation.
  - unfold live, hand in *. cbn [c_cur c_exec c_work] in *. apply List.Forall_cons; [|exact K3].
    split; [|split; [|split]]; cbn [b_txs b_map].
    + rewrite !app_length. cbn. lia.
    + rewrite app_length. cbn. lia.
    + apply NoDup_app. split; [done|]. split; [|apply NoDup_singleton].
      intros x Hx Hx'. apply elem_of_list_singleton in Hx' as ->. done.
    + intros i e He. apply lookup_app_Some in He as [He|[Hl He]].
      * destruct (G4 i e He) as (? & ? & ?). split; [done|]. split; [by apply lookup_app_l_Some|done].
      * apply list_lookup_singleton_Some in He as [Hi <-]. cbn [e_idx e_tx e_req].
        assert (i = length m) as -> by lia. split; [lia|]. split; [|done].
        rewrite lookup_app_r by lia. by replace (length m - length txs) with 0 by lia.
  - intros tx' r' [H|H]; discriminate.
Qed.

Lemma batch_step_books i res s s' : books s -> batch_step i res s = Some s' -> books s'.
Proof.
  intros K. unfold batch_step. destruct (c_work s !! i) as [b|] eqn:Hb; [|done].
  destruct (match res with Some l => length l =? length (b_txs b) | None => true end) eqn:L; [|done].
  intros H. injection H as <-. pose proof K as [K1 K2 K3 K4 K5 K6].
  assert (Ew : c_work s = take i (c_work s) ++ b :: drop (S i) (c_work s)).
  { by rewrite take_drop_middle. }
  assert (G : good (c_reqs s) b).
  { eapply Forall_forall; [exact K3|]. unfold live. apply elem_of_cons. right.
    apply elem_of_app. right. by apply elem_of_list_lookup_2 in Hb. }
  assert (Ls : match res with Some l => length l = length (b_txs b) | None => True end).
  { destruct res; [by apply Nat.eqb_eq|done]. }
  constructor; cbn [c_accepted c_reqs c_refused c_answers c_lost c_done c_handler]; try done.
  - unfold live, hand in *. cbn [c_cur c_exec c_work]. rewrite K1. rewrite Ew at 1.
    cbn [map concat]. rewrite !map_app, !concat_app. cbn [map concat].
    rewrite map_map.
    assert (map (fun x => fst (answer res x)) (b_map b) = reqs_of b) as -> by reflexivity.
    solve_Permutation.
  - unfold live, hand in *. cbn [c_cur c_exec c_work] in *. rewrite Ew in K3.
    apply Forall_cons in K3 as [X1 K3]. apply Forall_app in K3 as [X2 K3].
    apply Forall_app in K3 as [X3 X4]. apply Forall_cons in X4 as [_ X4].
    apply List.Forall_cons; [done|]. apply Forall_app. split; [done|]. by apply Forall_app.
  - apply Forall_app. split.
    + eapply Forall_impl; [exact K4|]. intros a. apply told_mono; [done|]. cbn.
      intros d Hd. apply elem_of_app. by left.
    + apply List.Forall_forall. intros a Ha. apply in_map_iff in Ha as (e & <- & He).
      apply elem_of_list_In, elem_of_list_lookup in He as [j Hj].
      destruct G as (G1 & G2 & G3 & G4). destruct (G4 j e Hj) as (E1 & E2 & E3).
      exists (b_txs b), res, j. cbn [answer fst snd c_done c_reqs]. split; [|split; [|split]].
      * apply elem_of_app. right. by apply elem_of_list_singleton.
      * congruence.
      * by rewrite E3.
      * destruct res as [l|]; [|done]. split; [done|]. rewrite E1.
        destruct (lookup_lt_is_Some_2 l j) as [v Hv].
        { rewrite Ls. by apply lookup_lt_Some in E2. }
        exists v. split; [done|]. by rewrite Hv.
  - apply Forall_app. split; [done|]. apply List.Forall_cons; [|apply List.Forall_nil].
    cbn. destruct G as (G1 & G2 & G3 & G4). done.
Qed.

(** ** Threads *)
Record threads (s : coord) : Prop := Threads {
  t_run : c_running s = true <-> c_stop s = SRun;
  t_run_h : c_stop s = SRun -> c_handler s <> HEnded;
  t_run_e : c_stop s = SRun -> c_exec s <> EEnded;
  t_exec_sleeps : c_exec s = EAsleep -> c_running s = true -> b_map (c_cur s) <> [] ->
    c_handler s = HNotify;
  t_handler_sleeps : forall tx r, c_handler s = HAsleep tx r -> c_running s = true ->
    length (b_map (c_cur s)) < batch_size -> exists b, c_exec s = ENotify b;
  t_check : c_exec s = ECheck -> c_running s = true -> b_map (c_cur s) <> [];
  t_swap : c_exec s = ESwap -> b_map (c_cur s) <> [];
  t_full : Forall (fun b => b_map b <> []) (hand s ++ c_work s);
  t_closed : match c_stop s with SRun | SClose => True | _ => c_handler s = HEnded end;
  t_asleep : c_exec s = EAsleep -> match c_stop s with SRun | SClose | SNotify => True | _ => False end;
  t_joined : match c_stop s with SJoinBatches | SStopped => c_exec s = EEnded | _ => True end;
  t_empty : c_stop s = SStopped -> c_work s = []
}.
Lemma threads_init : threads coord_init.
Proof. constructor; cbn; try done. Qed.

(** Both are never asleep while the coordinator runs, unless batches have no room. *)
Lemma not_both tx r s : 0 < batch_size -> threads s -> c_running s = true ->
  c_handler s = HAsleep tx r -> c_exec s <> EAsleep.
Proof.
  intros B T R Hh He. destruct (b_map (c_cur s)) eqn:E.
  - destruct (t_handler_sleeps s T tx r Hh R) as [b Hb]; [by rewrite E|congruence].
  - assert (c_handler s = HNotify) by (apply (t_exec_sleeps s T He R); by rewrite E). congruence.
Qed.

Lemma move_books s m s' : books s -> threads s -> c_move s m = Some s' -> books s'.
Proof.
  intros K T. destruct m as [tx|w|w|i res|w| |w|]; cbn [CoordBatchModel.c_move].
  - destruct (c_handler s) eqn:Hh; try done. intros H. injection H as <-.
    pose proof K as [K1 K2 K3 K4 K5 K6].
    constructor; cbn [c_accepted c_reqs c_refused c_answers c_lost c_done c_handler]; try done.
    + rewrite app_length. cbn [length]. rewrite seq_app, K2. unfold pending. rewrite Hh.
      cbn [c_handler seq]. rewrite app_nil_r, <- app_assoc. done.
    + eapply Forall_impl; [exact K3|]. intros b. apply good_mono.
    + eapply Forall_impl; [exact K4|]. intros a (txs & r & i & H1 & H2 & H3 & H4).
      destruct H3 as [x Hx]. exists txs, r, i. cbn [c_done c_reqs].
      rewrite (lookup_app_l_Some _ _ _ _ Hx). rewrite Hx in H2.
      split; [done|]. split; [done|]. split; [by exists x|done].
    + intros tx' r' [H|H]; [|discriminate]. injection H as <- <-.
      by rewrite lookup_app_r, Nat.sub_diag by lia.
  - unfold handler_step. destruct (c_handler s) eqn:Hh; try done.
    + intros H. injection H as <-. by apply try_add_books.
    + intros H. injection H as <-.
      destruct (notify_fields w s) as (_ & _ & _ & _ & _ & _ & _ & F).
      apply set_handler_idle_books; [by apply notify_books| |done].
      unfold pending. by rewrite (F Hh).
  - unfold exec_step. destruct (c_exec s) eqn:He; try done.
    + intros H. injection H as <-. apply set_exec_books; [done|]. unfold hand. rewrite He.
      by destruct (c_running s).
    + intros H. injection H as <-. apply set_exec_books; [done|]. unfold hand. rewrite He.
      by destruct (_ || _).
    + intros H. injection H as <-. apply set_exec_books; [done|]. unfold hand. rewrite He.
      by destruct (c_running s).
    + intros H. injection H as <-. pose proof K as [K1 K2 K3 K4 K5 K6].
      constructor; cbn [c_accepted c_reqs c_refused c_answers c_lost c_done c_handler]; try done.
      * etransitivity; [exact K1|]. unfold live, hand. cbn [c_cur c_exec c_work]. rewrite He. reflexivity.
      * unfold live, hand in *. cbn [c_cur c_exec c_work]. rewrite He in K3. cbn [app] in *.
        apply List.Forall_cons; [apply good_empty|exact K3].
    + intros H. injection H as <-.
      destruct (notify_fields w s) as (_ & _ & _ & _ & _ & F & _ & _).
      apply set_exec_books; [by apply notify_books|]. rewrite F. unfold hand. by rewrite He.
    + destruct (length (c_work s) <? max_threads); [|done]. intros H. injection H as <-.
      pose proof K as [K1 K2 K3 K4 K5 K6].
      constructor; cbn [c_accepted c_reqs c_refused c_answers c_lost c_done c_handler]; try done.
      * etransitivity; [exact K1|]. unfold live, hand. cbn [c_cur c_exec c_work]. rewrite He. cbn [app].
        cbn [map concat]. rewrite map_app, concat_app. cbn [map concat]. rewrite app_nil_r.
        solve_Permutation.
      * unfold live, hand in *. cbn [c_cur c_exec c_work]. rewrite He in K3. cbn [app] in *.
        apply Forall_cons in K3 as [X1 X2]. apply Forall_cons in X2 as [X2 X3].
        apply List.Forall_cons; [done|]. apply Forall_app. split; [done|].
        apply List.Forall_cons; [done|apply List.Forall_nil].
  - by apply batch_step_books.
  - destruct w.
    + destruct (c_handler s) eqn:Hh; try done. intros H. injection H as <-.
      by apply wake_handler_books.
    + destruct (c_exec s) eqn:Hh; try done. intros H. injection H as <-.
      by apply wake_exec_books.
  - destruct (c_stop s) eqn:Hs; try done. intros H. injection H as <-.
    apply (books_same _ _ K); try reflexivity. tauto.
  - unfold stop_step. destruct (c_stop s) eqn:Hs; try done.
    + destruct (c_handler s) eqn:Hh; try done; intros H; injection H as <-;
        apply set_stop_books; [|done]. apply set_handler_idle_books; [done| |done].
      unfold pending. by rewrite Hh.
    + intros H. injection H as <-. by apply set_stop_books, notify_books.
    + destruct (c_exec s); try done. intros H. injection H as <-. by apply set_stop_books.
    + destruct (c_work s); try done. intros H. injection H as <-. by apply set_stop_books.
  - destruct (c_stop s) eqn:Hs; try done. intros H. injection H as <-.
    destruct T as [T1 T2 T3 T4 T5 T6 T7 T8 T9 T10 T11 T12]. rewrite Hs in *.
    specialize (T12 eq_refl). pose proof K as [K1 K2 K3 K4 K5 K6].
    constructor; cbn [c_accepted c_reqs c_refused c_answers c_lost c_done c_handler]; try done.
    + etransitivity; [exact K1|]. unfold live, hand. cbn [c_cur c_exec c_work]. rewrite T11, T12. cbn [app map concat].
      rewrite app_nil_r. unfold reqs_of. cbn [b_map batch_empty map]. solve_Permutation.
    + unfold pending in *. by rewrite T9 in K2.
    + apply List.Forall_cons; [apply good_empty|apply List.Forall_nil].
    + intros tx r [H|H]; discriminate.
Qed.

Ltac fin1 := first
  [ congruence | assumption | tauto | lia | solve [eauto] | split; congruence
  | split; [let X := fresh in intros X;
            match goal with T : _ = true <-> _ |- _ => apply T in X; discriminate X end
           |discriminate]
  | exfalso; match goal with
      X : _ -> _ -> _ -> _ = HNotify |- _ =>
        let Y := fresh in assert (Y := X eq_refl eq_refl ltac:(assumption)); discriminate Y
    | X : forall tx r, _ = HAsleep tx r -> _ -> _ -> exists b, _ |- _ =>
        let b := fresh in let Y := fresh in
        destruct (X _ _ eq_refl eq_refl ltac:(assumption)) as [b Y]; discriminate Y
    | X : _ = true <-> _ = SRun |- _ =>
        let Y := fresh in assert (Y := proj2 X eq_refl); discriminate Y
    end ].
Ltac fin T := constructor; cbn in *; intros; subst; cbn in *;
  try (first [ fin1 | match goal with x : stopper |- _ => destruct x; cbn in *; fin1 end ]).
Lemma move_threads s m s' : threads s -> c_move s m = Some s' -> threads s'.
Proof.
  intros T. destruct s as [ru cu h e wk st rq ac rf an dn lo].
  destruct T as [T1 T2 T3 T4 T5 T6 T7 T8 T9 T10 T11 T12]. cbn in T1, T2, T3, T4, T5, T6, T7, T9, T10, T11, T12.
  destruct m as [tx|w|w|i res|w| |w|]; cbn [CoordBatchModel.c_move].
  - destruct h; try done. intros H. injection H as <-. fin T.
  - unfold handler_step. cbn [c_handler]. destruct h as [|tx r| | |]; try done.
    + intros H. injection H as <-. unfold try_add. cbn [c_running c_cur c_reqs].
      destruct (ru && (batch_size <=? length (b_map cu))) eqn:F.
      { apply andb_prop in F as [-> F]. apply Nat.leb_le in F. fin T. }
      destruct (negb ru || existsb _ _) eqn:D; fin T.
      all: by destruct (b_map cu).
    + intros H. injection H as <-. unfold notify_one, wake_exec. cbn [c_handler c_exec].
      destruct e; fin T.
  - unfold exec_step. cbn [c_exec]. destruct e; try done.
    + intros H. injection H as <-. destruct ru; fin T.
    + intros H. injection H as <-. cbn [c_cur c_running].
      destruct ru; cbn [negb orb]; destruct (b_map cu) eqn:E; fin T; rewrite E in *; cbn in *; fin1.
    + intros H. injection H as <-. destruct ru; fin T.
    + intros H. injection H as <-. fin T.
    + intros H. injection H as <-. unfold notify_one, wake_handler, wake_exec. cbn [c_handler c_exec].
      destruct h, w; fin T.
    + cbn [c_work]. destruct (length wk <? max_threads); [|done]. intros H. injection H as <-.
      unfold hand in T8. cbn in T8. apply Forall_cons in T8 as [X1 X2].
      fin T.
      apply Forall_app. split; [done|]. apply List.Forall_cons; [done|apply List.Forall_nil].
  - unfold batch_step. cbn [c_work]. destruct (wk !! i) as [b|] eqn:Hb; [|done].
    destruct (match res with Some l => length l =? length (b_txs b) | None => true end) eqn:L; [|done].
    intros H. injection H as <-. fin T.
    + unfold hand in *. cbn in *. apply Forall_app in T8 as [X1 X2]. apply Forall_app. split; [done|].
      rewrite <- (take_drop_middle wk i b Hb) in X2. apply Forall_app in X2 as [X2 X3].
      apply Forall_cons in X3 as [_ X3]. by apply Forall_app.
    + rewrite (T12 eq_refl) in Hb. done.
  - destruct w; cbn [c_handler c_exec].
    + destruct h; try done. intros H. injection H as <-. unfold wake_handler. cbn [c_handler]. fin T.
    + destruct e; try done. intros H. injection H as <-. unfold wake_exec. cbn [c_exec]. fin T.
  - cbn [c_stop]. destruct st; try done. intros H. injection H as <-. fin T.
  - unfold stop_step. cbn [c_stop]. destruct st; try done.
    + destruct h; try done; intros H; injection H as <-; fin T.
    + intros H. injection H as <-. unfold notify_one, wake_exec. cbn [c_handler c_exec].
      rewrite T9. destruct e; fin T.
    + destruct e; try done. intros H. injection H as <-. fin T.
    + destruct wk; try done. intros H. injection H as <-. fin T.
  - cbn [c_stop]. destruct st; try done. intros H. injection H as <-. fin T.
Qed.

Lemma reach_inv s : reachable s -> books s /\ threads s.
Proof.
  intros [l H]. assert (G : forall l s0, books s0 /\ threads s0 -> c_moves s0 l = Some s ->
    books s /\ threads s).
  { clear. induction l as [|m l IH]; intros s0 [K T] H; [by injection H as <-|].
    cbn [CoordBatchModel.c_moves] in H. destruct (c_move s0 m) as [s1|] eqn:E; [|done].
    apply (IH s1); [|done]. split; [by apply (move_books s0 m)|by apply (move_threads s0 m)]. }
  apply (G l coord_init); [|done]. split; [apply books_init|apply threads_init].
Qed.

(** ** Answers *)
Lemma accepted_nodup s : books s -> NoDup (c_accepted s ++ c_refused s ++ pending s).
Proof. intros K. rewrite <- (k_all s K). apply NoDup_ListNoDup, seq_NoDup. Qed.

Lemma times_le_fst k (l : list (nat * option bool)) :
  length (filter (fun a : nat * option bool => fst a = k) l)
  = length (filter (fun x => x = k) (map fst l)).
Proof.
  induction l as [|[x a] l IH]; [done|]. cbn [map fst]. rewrite !filter_cons. cbn [fst].
  destruct (decide (x = k)); cbn [length]; by rewrite IH.
Qed.
Lemma count_nodup k (l : list nat) : NoDup l ->
  length (filter (fun x => x = k) l) = if decide (k ∈ l) then 1 else 0.
Proof.
  induction l as [|x l IH]; intros H; [by rewrite decide_False by apply not_elem_of_nil|].
  apply NoDup_cons in H as [Hx H]. rewrite filter_cons. specialize (IH H).
  destruct (decide (x = k)) as [->|N].
  - rewrite decide_True by apply elem_of_list_here. cbn [length]. rewrite IH.
    by rewrite decide_False.
  - rewrite IH. destruct (decide (k ∈ l)) as [I|I].
    + by rewrite decide_True by by apply elem_of_list_further.
    + rewrite decide_False; [done|]. intros J. apply elem_of_cons in J as [->|J]; done.
Qed.

Lemma elem_of_reqs k (l : list batch) : k ∈ concat (map reqs_of l) <-> Exists (in_batch k) l.
Proof.
  rewrite List.Exists_exists. rewrite elem_of_list_In, in_concat. split.
  - intros (x & Hx & Hk). apply in_map_iff in Hx as (b & <- & Hb). exists b. split; [done|].
    unfold in_batch, reqs_of in *. apply in_map_iff in Hk as (e & He & Hk).
    apply List.Exists_exists. by exists e.
  - intros (b & Hb & Hk). exists (reqs_of b). split; [by apply in_map|].
    unfold in_batch, reqs_of in *. apply List.Exists_exists in Hk as (e & He & Hk).
    apply in_map_iff. by exists e.
Qed.
Lemma live_under_way k s : Exists (in_batch k) (live s) <-> under_way k s.
Proof.
  unfold live, under_way, hand. rewrite Exists_cons, Exists_app.
  destruct (c_exec s); rewrite ?Exists_nil, ?Exists_cons, ?Exists_nil; tauto.
Qed.

Lemma answered_once s k : reachable s -> k ∈ c_accepted s ->
  (times_answered k s = 1 /\ ~ under_way k s /\ k ∉ c_lost s) \/
  (times_answered k s = 0 /\ under_way k s /\ k ∉ c_lost s) \/
  (times_answered k s = 0 /\ ~ under_way k s /\ k ∈ c_lost s).
Proof.
  intros R Hk. destruct (reach_inv s R) as [K T].
  pose proof (accepted_nodup s K) as N. apply NoDup_app in N as (N & _ & _).
  rewrite (k_acc s K) in N. apply NoDup_app in N as (N1 & D1 & N2).
  apply NoDup_app in N2 as (N2 & D2 & N3).
  unfold times_answered. rewrite times_le_fst, (count_nodup k _ N2).
  rewrite (k_acc s K), !elem_of_app in Hk. rewrite <- live_under_way, <- elem_of_reqs.
  destruct Hk as [Hk|[Hk|Hk]].
  - right; left. pose proof (D1 k Hk) as X. rewrite elem_of_app in X.
    rewrite decide_False by tauto. tauto.
  - left. rewrite decide_True by done. split; [done|]. split; [|by apply D2].
    intros X. apply (D1 k X). apply elem_of_app. by left.
  - right; right. rewrite decide_False; [split; [done|split; [|done]]|].
    + intros X. apply (D1 k X). apply elem_of_app. by right.
    + intros X. by apply (D2 k X).
Qed.
Lemma only_accepted s k a : reachable s -> (k, a) ∈ c_answers s ->
  k ∈ c_accepted s /\ k ∉ c_refused s.
Proof.
  intros R Hk. destruct (reach_inv s R) as [K T].
  pose proof (accepted_nodup s K) as N. apply NoDup_app in N as (_ & D & _).
  assert (A : k ∈ c_accepted s).
  { rewrite (k_acc s K), !elem_of_app. right; left. apply elem_of_list_In, in_map_iff.
    exists (k, a). split; [done|by apply elem_of_list_In]. }
  split; [done|]. specialize (D k A). rewrite elem_of_app in D. tauto.
Qed.
Lemma taken_or_not s k : reachable s -> k < length (c_reqs s) ->
  k ∈ c_accepted s \/ k ∈ c_refused s \/
  exists tx, c_handler s = HWant tx k \/ c_handler s = HAsleep tx k.
Proof.
  intros R Hk. destruct (reach_inv s R) as [K T].
  assert (X : k ∈ seq 0 (length (c_reqs s))) by (apply elem_of_list_In, in_seq; lia).
  rewrite (k_all s K), !elem_of_app in X. destruct X as [X|[X|X]]; [by left|right; by left|].
  right; right. unfold pending in X.
  destruct (c_handler s) as [|tx r|tx r| |]; try by apply elem_of_nil in X.
  - apply elem_of_list_singleton in X as ->. exists tx. by left.
  - apply elem_of_list_singleton in X as ->. exists tx. by right.
Qed.
Lemma told_true s k a : reachable s -> (k, a) ∈ c_answers s ->
  exists tx txs res i, c_reqs s !! k = Some tx /\ (txs, res) ∈ c_done s /\ txs !! i = Some tx /\
    match res with Some l => length l = length txs /\ a = l !! i | None => a = None end.
Proof.
  intros R H. destruct (reach_inv s R) as [K T].
  pose proof (proj1 (Forall_forall _ _) (k_told s K) _ H) as (txs & res & i & H1 & H2 & H3 & H4).
  cbn [fst snd] in *. destruct H3 as [tx Hx]. exists tx, txs, res, i. rewrite Hx in H2.
  split; [done|]. split; [done|]. split; [done|]. destruct res as [l|]; [|done].
  destruct H4 as [L (b & Hb & ->)]. split; [done|by symmetry].
Qed.
Lemma batches_fit s : reachable s ->
  Forall (fun d : list N * option (list bool) => NoDup (fst d) /\ length (fst d) <= batch_size)
    (c_done s) /\ Forall (fun b => NoDup (b_txs b) /\ length (b_txs b) <= batch_size)
                    (c_cur s :: c_work s).
Proof.
  intros R. destruct (reach_inv s R) as [K T]. split.
  - eapply Forall_impl; [exact (k_done s K)|]. intros d (? & ? & _). done.
  - pose proof (k_good s K) as G. unfold live in G. apply Forall_cons in G as [G1 G2].
    apply Forall_app in G2 as [_ G2]. apply List.Forall_cons; [by destruct G1 as (_ & ? & ? & _)|].
    eapply Forall_impl; [exact G2|]. intros b (_ & ? & ? & _). done.
Qed.

(** ** Going on *)
Definition e_rank (e : executor) : nat :=
  match e with
  | ETop => 10 | EWait => 9 | EAsleep => 0 | ECheck => 8 | ESwap => 7
  | ENotify b => 6 + 12 * length (b_map b) | ESchedule b => 4 + 12 * length (b_map b)
  | EEnded => 0
  end.
Definition h_rank (h : handler) : nat :=
  match h with HIdle => 0 | HWant _ _ => 24 | HAsleep _ _ => 23 | HNotify => 11 | HEnded => 0 end.
Definition s_rank (t : stopper) : nat :=
  match t with SRun => 0 | SClose => 13 | SNotify => 12 | SJoinExec => 2 | SJoinBatches => 1
  | SStopped => 0 end.
Definition w_rank (l : list batch) : nat := foldr (fun b n => length (b_map b) + n) 0 l.
Definition rank (s : coord) : nat :=
  e_rank (c_exec s) + h_rank (c_handler s) + s_rank (c_stop s)
  + 12 * length (b_map (c_cur s)) + w_rank (c_work s).

Lemma w_rank_cons b l : w_rank (b :: l) = length (b_map b) + w_rank l.
Proof. done. Qed.
Lemma w_rank_nil : w_rank [] = 0.
Proof. done. Qed.
Lemma w_rank_app l m : w_rank (l ++ m) = w_rank l + w_rank m.
Proof. induction l as [|b l IH]; [done|].
  change (length (b_map b) + w_rank (l ++ m) = length (b_map b) + w_rank l + w_rank m). lia.
Qed.

Arguments w_rank : simpl never.
Lemma rank_falls s m s' : threads s -> internal m -> c_move s m = Some s' -> rank s' < rank s.
Proof.
  intros T I. destruct s as [ru cu h e wk st rq ac rf an dn lo].
  pose proof (t_full _ T) as TF. pose proof (t_swap _ T) as TS. cbn in TS.
  destruct m as [tx|w|w|i res|w| |w|]; try done; cbn [CoordBatchModel.c_move].
  - unfold handler_step. cbn [c_handler]. destruct h as [|tx r| | |]; try done.
    + intros H. injection H as <-. unfold try_add. cbn [c_running c_cur c_reqs].
      destruct (ru && _); [unfold rank; cbn; lia|].
      destruct (negb ru || _); unfold rank; cbn; rewrite ?app_length; cbn; lia.
    + intros H. injection H as <-. unfold notify_one, wake_exec. cbn [c_handler c_exec].
      destruct e; unfold rank; cbn; lia.
  - unfold exec_step. cbn [c_exec]. destruct e; try done.
    + intros H. injection H as <-. destruct ru; unfold rank; cbn; lia.
    + intros H. injection H as <-. cbn [c_cur c_running].
      destruct (_ || _); unfold rank; cbn; lia.
    + intros H. injection H as <-. destruct ru; unfold rank; cbn; lia.
    + intros H. injection H as <-. specialize (TS eq_refl).
      destruct (b_map cu) eqn:E; [done|]. unfold rank. cbn. rewrite E. cbn. lia.
    + intros H. injection H as <-. unfold notify_one, wake_handler, wake_exec. cbn [c_handler c_exec].
      destruct h; unfold rank; cbn; destruct w; cbn; lia.
    + cbn [c_work]. destruct (length wk <? max_threads); [|done]. intros H. injection H as <-.
      unfold hand in TF. cbn in TF. apply Forall_cons in TF as [X1 X2].
      unfold rank. cbn. rewrite w_rank_app, w_rank_cons, w_rank_nil.
      destruct (b_map b); [done|]. cbn. lia.
  - unfold batch_step. cbn [c_work]. destruct (wk !! i) as [b|] eqn:Hb; [|done].
    destruct (match res with Some l => length l =? length (b_txs b) | None => true end) eqn:L; [|done].
    intros H. injection H as <-. apply Forall_app in TF as [_ TF]. cbn in TF.
    assert (NE : b_map b <> []).
    { apply (proj1 (Forall_forall _ _) TF). by apply elem_of_list_lookup_2 in Hb. }
    unfold rank. cbn [c_exec c_handler c_stop c_cur c_work].
    rewrite <- (take_drop_middle wk i b Hb) at 3. rewrite !w_rank_app, w_rank_cons.
    destruct (b_map b); [done|]. cbn. lia.
  - unfold stop_step. cbn [c_stop]. destruct st; try done.
    + destruct h; try done; intros H; injection H as <-; unfold rank; cbn; lia.
    + intros H. injection H as <-. unfold notify_one, wake_exec, wake_handler. cbn [c_handler c_exec].
      destruct h, e; destruct w; unfold rank; cbn; lia.
    + destruct e; try done. intros H. injection H as <-. unfold rank; cbn; lia.
    + destruct wk; try done. intros H. injection H as <-. unfold rank; cbn; lia.
Qed.

Lemma moves_bounded l : forall s s', threads s -> Forall internal l -> c_moves s l = Some s' ->
  length l <= rank s /\ threads s'.
Proof.
  induction l as [|m l IH]; intros s s' T F H; [injection H as <-; split; [cbn; lia|done]|].
  apply Forall_cons in F as [Im F]. cbn [CoordBatchModel.c_moves] in H.
  destruct (c_move s m) as [s1|] eqn:E; [|done].
  pose proof (rank_falls s m s1 T Im E). pose proof (move_threads s m s1 T E) as T1.
  destruct (IH s1 s' T1 F H) as [L T']. split; [cbn; lia|done].
Qed.

Hypothesis Hb : 0 < batch_size.
Hypothesis Hm : 0 < max_threads.

Lemma quiet_exec s : threads s -> quiet s ->
  c_exec s = EAsleep /\ c_work s = [] \/ c_exec s = EEnded /\ c_work s = [].
Proof using Hm.
  intros T Q.
  assert (W : c_work s = []).
  { destruct (c_work s) as [|b r] eqn:E; [done|]. specialize (Q (MBatch 0 None) I). cbn in Q.
    unfold batch_step in Q. rewrite E in Q. cbn in Q. done. }
  specialize (Q (MExec WExec) I). cbn in Q. unfold exec_step in Q. rewrite W in Q.
  destruct (c_exec s); try done; [by left| |by right].
  cbn in Q. destruct max_threads; [by apply Nat.lt_irrefl in Hm|]. done.
Qed.

Lemma quiet_running s : reachable s -> c_stop s = SRun -> quiet s ->
  c_handler s = HIdle /\ forall k, k ∈ c_accepted s -> times_answered k s = 1 \/ k ∈ c_lost s.
Proof.
  intros R S Q. destruct (reach_inv s R) as [K T].
  assert (Ru : c_running s = true) by by apply (t_run s T).
  destruct (quiet_exec s T Q) as [[He Hw]|[He Hw]]; [|by destruct (t_run_e s T S)].
  assert (Hn : c_handler s <> HNotify).
  { intros E. specialize (Q (MHandler WExec) I). cbn in Q. unfold handler_step in Q.
    by rewrite E in Q. }
  assert (Hc : b_map (c_cur s) = []).
  { destruct (b_map (c_cur s)) eqn:E; [done|]. destruct Hn.
    apply (t_exec_sleeps s T He Ru). by rewrite E. }
  assert (Hh : c_handler s = HIdle).
  { destruct (c_handler s) as [|tx r|tx r| |] eqn:E; [done| | |done|].
    - specialize (Q (MHandler WExec) I). cbn in Q. unfold handler_step in Q. by rewrite E in Q.
    - destruct (t_handler_sleeps s T tx r E Ru) as [b Hbb]; [by rewrite Hc|congruence].
    - by destruct (t_run_h s T S). }
  split; [done|]. intros k Hk. destruct (answered_once s k R Hk) as [(?&?&?)|[(?&U&?)|(?&?&?)]];
    [by left| |by right].
  exfalso. destruct U as [U|[U|U]].
  - unfold in_batch in U. rewrite Hc in U. by apply Exists_nil in U.
  - rewrite Hw in U. by apply Exists_nil in U.
  - by rewrite He in U.
Qed.

Lemma reach_moves l : forall s s', reachable s -> c_moves s l = Some s' -> reachable s'.
Proof.
  intros s s' [l0 H0] H. exists (l0 ++ l). revert H0. generalize coord_init as x.
  induction l0 as [|m l0 IH]; intros x H0; cbn in *; [by injection H0 as ->|].
  destruct (CoordBatchModel.c_move batch_size max_threads x m); [|done]. by apply IH.
Qed.

Lemma stop_stays m s s' : internal m -> c_move s m = Some s' ->
  (c_stop s = SRun <-> c_stop s' = SRun) /\ c_running s' = c_running s /\ c_lost s' = c_lost s.
Proof.
  intros I. destruct s as [ru cu h e wk st rq ac rf an dn lo].
  destruct m as [tx|w|w|i res|w| |w|]; try done; cbn [CoordBatchModel.c_move].
  - unfold handler_step. cbn [c_handler]. destruct h as [|tx r| | |]; try done.
    + intros H. injection H as <-. unfold try_add. cbn [c_running c_cur c_reqs].
      destruct (ru && _); [done|]. destruct (negb ru || _); done.
    + intros H. injection H as <-. unfold notify_one, wake_exec. cbn [c_handler c_exec].
      destruct e; done.
  - unfold exec_step. cbn [c_exec]. destruct e; try done; intros H; try (injection H as <-; done).
    + injection H as <-. unfold notify_one, wake_handler, wake_exec. cbn [c_handler c_exec].
      destruct h, w; done.
    + cbn [c_work] in H. destruct (length wk <? max_threads); [|done]. by injection H as <-.
  - unfold batch_step. cbn [c_work]. destruct (wk !! i) as [b|] eqn:E; [|done].
    destruct (match res with Some l => length l =? length (b_txs b) | None => true end); [|done].
    intros H. by injection H as <-.
  - unfold stop_step. cbn [c_stop]. destruct st; try done.
    + destruct h; try done; intros H; by injection H as <-.
    + intros H. injection H as <-. unfold notify_one, wake_exec, wake_handler. cbn [c_handler c_exec].
      destruct h, e; destruct w; done.
    + destruct e; try done. intros H. by injection H as <-.
    + destruct wk; try done. intros H. by injection H as <-.
Qed.
Lemma stop_stays_all l : forall s s', Forall internal l -> c_moves s l = Some s' ->
  (c_stop s = SRun <-> c_stop s' = SRun) /\ c_running s' = c_running s /\ c_lost s' = c_lost s.
Proof.
  induction l as [|m l IH]; intros s s' F H; [by injection H as <-|].
  apply Forall_cons in F as [Im F]. cbn [CoordBatchModel.c_moves] in H.
  destruct (c_move s m) as [s1|] eqn:E; [|done].
  destruct (stop_stays m s s1 Im E) as (A1 & A2 & A3). destruct (IH s1 s' F H) as (B1 & B2 & B3).
  split; [tauto|]. split; congruence.
Qed.

Lemma all_answered s : reachable s -> c_stop s = SRun -> exists n,
  forall l s', Forall internal l -> c_moves s l = Some s' ->
    length l <= n /\
    (quiet s' -> c_handler s' = HIdle /\
       forall k, k ∈ c_accepted s' -> times_answered k s' = 1 \/ k ∈ c_lost s).
Proof.
  intros R S. destruct (reach_inv s R) as [K T]. exists (rank s). intros l s' F H.
  destruct (moves_bounded l s s' T F H) as [L _]. split; [done|]. intros Q.
  destruct (stop_stays_all l s s' F H) as (A1 & _ & <-).
  apply quiet_running; [by apply (reach_moves l s)|tauto|done].
Qed.

(** ** Stopping *)
Definition awake (s : coord) : Prop :=
  forall tx r, c_handler s = HAsleep tx r -> exists b, c_exec s = ENotify b.
Lemma awake_move m s s' : internal m -> c_running s = false -> awake s -> c_move s m = Some s' ->
  awake s'.
Proof.
  intros I Ru A. destruct s as [ru cu h e wk st rq ac rf an dn lo]. cbn in Ru. subst ru.
  unfold awake in A. cbn in A.
  destruct m as [tx|w|w|i res|w| |w|]; try done; cbn [CoordBatchModel.c_move].
  - unfold handler_step. cbn [c_handler]. destruct h as [|tx r| | |]; try done.
    + intros H. injection H as <-. unfold try_add. cbn. intros tx' r' H. discriminate.
    + intros H. injection H as <-. unfold notify_one, wake_exec. cbn [c_handler c_exec].
      intros tx' r' H. destruct e; discriminate.
  - unfold exec_step. cbn [c_exec].
    destruct e; try done; intros H; try (injection H as <-; intros tx' r' E; cbn in E;
      destruct (A tx' r' E) as [b' X]; discriminate).
    + injection H as <-. unfold notify_one, wake_handler, wake_exec. cbn [c_handler c_exec].
      intros tx' r' E. destruct h, w; discriminate.
    + cbn [c_work] in H. destruct (length wk <? max_threads); [|done]. injection H as <-.
      intros tx' r' E. cbn in E. destruct (A tx' r' E) as [b' X]; discriminate.
  - unfold batch_step. cbn [c_work]. destruct (wk !! i) as [b|] eqn:E; [|done].
    destruct (match res with Some l => length l =? length (b_txs b) | None => true end); [|done].
    intros H. by injection H as <-.
  - unfold stop_step. cbn [c_stop]. destruct st; try done.
    + destruct h; try done; intros H; injection H as <-; intros tx' r' E; discriminate.
    + intros H. injection H as <-. unfold notify_one, wake_exec, wake_handler. cbn [c_handler c_exec].
      intros tx' r' E. destruct h, e; destruct w; try discriminate; cbn in *;
        destruct (A _ _ eq_refl) as [b' X]; try discriminate; by exists b'.
    + destruct e; try done. intros H. injection H as <-. exact A.
    + destruct wk; try done. intros H. injection H as <-. exact A.
Qed.
Lemma awake_moves l : forall s s', Forall internal l -> c_running s = false -> awake s ->
  c_moves s l = Some s' -> awake s'.
Proof.
  induction l as [|m l IH]; intros s s' F Ru A H; [by injection H as <-|].
  apply Forall_cons in F as [Im F]. cbn [CoordBatchModel.c_moves] in H.
  destruct (c_move s m) as [s1|] eqn:E; [|done].
  destruct (stop_stays m s s1 Im E) as (_ & A2 & _).
  apply (IH s1 s' F); [congruence| |done]. by apply (awake_move m s).
Qed.
Lemma quiet_stopped s : threads s -> awake s -> quiet s -> c_stop s <> SRun ->
  c_stop s = SStopped.
Proof using Hm.
  intros T A Q NS. pose proof (quiet_exec s T Q) as E.
  pose proof (Q (MStopper WExec) I) as QS. cbn in QS. unfold stop_step in QS.
  destruct (c_stop s) eqn:S; try done.
  - pose proof (Q (MHandler WExec) I) as QH. cbn in QH. unfold handler_step in QH.
    destruct (c_handler s) as [|tx r|tx r| |] eqn:Hh; try done.
    destruct (A tx r Hh) as [b Hbb]. destruct E as [[? _]|[? _]]; congruence.
  - destruct E as [[He Hw]|[He Hw]]; [|by rewrite He in QS].
    pose proof (t_asleep s T He) as X. by rewrite S in X.
  - destruct E as [[He Hw]|[He Hw]]; by rewrite Hw in QS.
Qed.
Lemma stop_ends s : reachable s -> c_stop s <> SRun ->
  (forall tx r, c_handler s = HAsleep tx r -> exists b, c_exec s = ENotify b) ->
  exists n, forall l s', Forall internal l -> c_moves s l = Some s' ->
    length l <= n /\ (quiet s' -> c_stop s' = SStopped).
Proof using Hm.
  intros R S A. destruct (reach_inv s R) as [K T]. exists (rank s). intros l s' F H.
  destruct (moves_bounded l s s' T F H) as [L T']. split; [done|]. intros Q.
  destruct (stop_stays_all l s s' F H) as (A1 & _ & _).
  apply quiet_stopped; [done| |done|tauto].
  apply (awake_moves l s s' F); [|exact A|done].
  destruct (c_running s) eqn:Ru; [|done]. by apply (t_run s T) in Ru.
Qed.
End params.
