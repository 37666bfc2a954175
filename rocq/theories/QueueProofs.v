(** Proofs about the blocking queue. *)
From stdpp Require Import base option list.
From Coq Require Import NArith Lia.
From Verif Require Import Base QueueModel QueueSpec.
Open Scope N_scope.

Lemma best_in o x l : best o x l ∈ x :: l.
Proof.
  revert x. induction l as [|y l IH]; intros x; cbn; [left|].
  specialize (IH (if better o x y then y else x)).
  destruct (better o x y); rewrite !elem_of_cons in *; tauto.
Qed.

Lemma best_largest x l : Forall (fun y => y <= best Largest x l) (x :: l).
Proof.
  revert x. induction l as [|y l IH]; intros x; cbn; [repeat constructor; lia|].
  specialize (IH (if x <? y then y else x)). inversion IH as [|? ? H1 H2]; subst.
  destruct (N.ltb_spec x y); repeat constructor; auto; lia.
Qed.

Lemma best_smallest x l : Forall (fun y => best Smallest x l <= y) (x :: l).
Proof.
  revert x. induction l as [|y l IH]; intros x; cbn; [repeat constructor; lia|].
  specialize (IH (if y <? x then y else x)). inversion IH as [|? ? H1 H2]; subst.
  destruct (N.ltb_spec y x); repeat constructor; auto; lia.
Qed.

Lemma remove_first_perm x l : x ∈ l -> l ≡ₚ x :: remove_first x l.
Proof.
  induction l as [|y l IH]; intros H; [inversion H|].
  cbn. destruct (N.eqb_spec y x) as [->|N]; [done|].
  apply elem_of_cons in H as [->|H]; [done|].
  rewrite (IH H) at 1. constructor.
Qed.

Lemma take_first_spec o l x r : take_first o l = Some (x, r) ->
  first_of o x l /\ l ≡ₚ x :: r /\ (o = Fifo -> l = x :: r).
Proof.
  destruct l as [|y l]; cbn; [done|]. destruct o; intros H.
  - injection H as <- <-. split; [exists l; done|]. auto.
  - injection H as H1 H2. rewrite <- H1, <- H2. split.
    + split; [apply best_in|apply best_largest].
    + split; [|done]. apply (remove_first_perm _ (y :: l)). apply best_in.
  - injection H as H1 H2. rewrite <- H1, <- H2. split.
    + split; [apply best_in|apply best_smallest].
    + split; [|done]. apply (remove_first_perm _ (y :: l)). apply best_in.
Qed.

Lemma take_first_none o l : take_first o l = None -> l = [].
Proof. destruct l; [done|]. destruct o; done. Qed.

Lemma take_first_cons o x l : exists y r, take_first o (x :: l) = Some (y, r).
Proof. destruct o; cbn; eauto. Qed.

Lemma notify_buffer q w : q_buffer (notify_one q w) = q_buffer q /\ q_wake (notify_one q w) = q_wake q.
Proof. unfold notify_one. destruct (_ !! _); done. Qed.

(** What one step does to the contents. *)
Lemma step_buffer o q c q' x : q_step o q c = (q', x) ->
  match c with
  | Push y _ => q_buffer q' = q_buffer q ++ [y] /\ x = None
  | Clear => q_buffer q' = [] /\ x = None
  | _ => match x with
         | Some (_, Some y) => first_of o y (q_buffer q) /\ q_buffer q ≡ₚ y :: q_buffer q' /\
                               (o = Fifo -> q_buffer q = y :: q_buffer q')
         | Some (_, None) => q_buffer q = [] /\ q_wake q = true /\ q_buffer q' = []
         | None => q_buffer q' = q_buffer q
         end
  end.
Proof.
  destruct c; cbn; intros H.
  - injection H as <- <-. split; [|done]. apply notify_buffer.
  - unfold pop in H. destruct (q_buffer q) as [|y b] eqn:B.
    + destruct (q_wake q) eqn:W; injection H as <- <-; cbn; auto.
    + unfold finish_pop in H. rewrite B in H. destruct (take_first_cons o y b) as (z & r & T).
      rewrite T in H. injection H as <- <-. cbn. apply take_first_spec in T. rewrite ?B. tauto.
  - unfold resume in H. destruct (q_runnable q !! j) as [t|]; [|injection H as <- <-; done].
    destruct (q_wake q) eqn:W.
    + unfold finish_pop in H. cbn in H. destruct (take_first o (q_buffer q)) as [[z r]|] eqn:T.
      * injection H as <- <-. cbn. apply take_first_spec in T. tauto.
      * injection H as <- <-. cbn. apply take_first_none in T. auto.
    + injection H as <- <-. done.
  - injection H as <- <-. unfold spurious. destruct (_ !! _); done.
  - injection H as <- <-. done.
  - injection H as <- <-. done.
Qed.

Lemma pushed_app a b : pushed (a ++ b) = pushed a ++ pushed b.
Proof. apply omap_app. Qed.
Lemma popped_app a b : popped (a ++ b) = popped a ++ popped b.
Proof. apply omap_app. Qed.

Lemma run_contents o l : forall q q' tr acc, q_run o q l = (q', tr) ->
  pushed acc ≡ₚ popped acc ++ q_buffer q -> (o = Fifo -> pushed acc = popped acc ++ q_buffer q) ->
  pushed (since_clear acc tr) ≡ₚ popped (since_clear acc tr) ++ q_buffer q' /\
  (o = Fifo -> pushed (since_clear acc tr) = popped (since_clear acc tr) ++ q_buffer q').
Proof.
  induction l as [|c l IH]; intros q q' tr acc H P1 P2; cbn in H.
  - injection H as <- <-. done.
  - destruct (q_step o q c) as [q1 x] eqn:E. destruct (q_run o q1 l) as [q2 xs] eqn:R.
    injection H as <- <-. pose proof (step_buffer _ _ _ _ _ E) as S. cbn [since_clear].
    assert (K : forall acc', since_clear acc ((c, x) :: xs) = since_clear acc' xs ->
      (pushed acc' ≡ₚ popped acc' ++ q_buffer q1) -> (o = Fifo -> pushed acc' = popped acc' ++ q_buffer q1) ->
      pushed (since_clear acc ((c, x) :: xs)) ≡ₚ popped (since_clear acc ((c, x) :: xs)) ++ q_buffer q2 /\
      (o = Fifo -> pushed (since_clear acc ((c, x) :: xs)) = popped (since_clear acc ((c, x) :: xs)) ++ q_buffer q2)).
    { intros acc' -> A B. eapply IH; eauto. }
    destruct c.
    + destruct S as [S ->].
      apply (K (acc ++ [(Push x0 who, None)])); [done| |]; rewrite pushed_app, popped_app, S; cbn; rewrite app_nil_r.
      * rewrite P1, app_assoc. done.
      * intros F. rewrite (P2 F), app_assoc. done.
    + apply (K (acc ++ [(Pop t, x)])); [done| |]; rewrite pushed_app, popped_app; cbn; rewrite ?app_nil_r;
        destruct x as [[? [y|]]|]; cbn; rewrite ?app_nil_r, <- ?app_assoc.
      * destruct S as (_ & S & _). rewrite P1, S. done.
      * destruct S as (S1 & _ & S2); rewrite S1 in P1; rewrite S2; done.
      * rewrite S. done.
      * intros F. destruct S as (_ & _ & S). rewrite (P2 F), (S F). done.
      * intros F. destruct S as (S1 & _ & S2). rewrite (P2 F), S1, S2. done.
      * intros F. rewrite S. auto.
    + apply (K (acc ++ [(Resume j, x)])); [done| |]; rewrite pushed_app, popped_app; cbn; rewrite ?app_nil_r;
        destruct x as [[? [y|]]|]; cbn; rewrite ?app_nil_r, <- ?app_assoc.
      * destruct S as (_ & S & _). rewrite P1, S. done.
      * destruct S as (S1 & _ & S2); rewrite S1 in P1; rewrite S2; done.
      * rewrite S. done.
      * intros F. destruct S as (_ & _ & S). rewrite (P2 F), (S F). done.
      * intros F. destruct S as (S1 & _ & S2). rewrite (P2 F), S1, S2. done.
      * intros F. rewrite S. auto.
    + cbn in E. injection E as <- <-. cbn in S.
      apply (K (acc ++ [(Spurious j, None)])); [done| |]; rewrite pushed_app, popped_app, S; cbn;
        rewrite ?app_nil_r; auto.
    + destruct S as [S ->].
      apply (K []); [done| |]; cbn; rewrite S; done.
    + cbn in E. injection E as <- <-. cbn in S.
      apply (K (acc ++ [(Reset, None)])); [done| |]; rewrite pushed_app, popped_app; cbn;
        rewrite ?app_nil_r; auto.
Qed.

Lemma fifo l q tr : q_run Fifo queue0 l = (q, tr) ->
  pushed (since_clear [] tr) = popped (since_clear [] tr) ++ q_buffer q.
Proof. intros H. apply (run_contents _ _ _ _ _ [] H); done. Qed.

Lemma nothing_lost o l q tr : q_run o queue0 l = (q, tr) ->
  pushed (since_clear [] tr) ≡ₚ popped (since_clear [] tr) ++ q_buffer q.
Proof. intros H. apply (run_contents _ _ _ _ _ [] H); done. Qed.

Lemma run_app o l1 : forall l2 q, q_run o q (l1 ++ l2) =
  let '(q1, t1) := q_run o q l1 in let '(q2, t2) := q_run o q1 l2 in (q2, t1 ++ t2).
Proof.
  induction l1 as [|c l1 IH]; intros l2 q; cbn.
  - destruct (q_run o q l2). done.
  - destruct (q_step o q c) as [q1 x]. rewrite IH.
    destruct (q_run o q1 l1) as [q2 t2]. destruct (q_run o q2 l2). done.
Qed.

(** A pop returns the element that comes first. *)
Lemma pop_order o l c q tr q' t x : q_run o queue0 l = (q, tr) ->
  q_step o q c = (q', Some (t, Some x)) ->
  exists content, pushed (since_clear [] tr) ≡ₚ popped (since_clear [] tr) ++ content /\
                  first_of o x content.
Proof.
  intros H S. exists (q_buffer q). split; [apply (nothing_lost _ _ _ _ H)|].
  apply step_buffer in S. destruct c; try (destruct S; discriminate); tauto.
Qed.

(** ** When a pop returns false *)

Definition flagged (q : queue) (tr : trace) : Prop :=
  q_wake q = true -> q_buffer q = [] ->
  exists a b, tr = a ++ (Clear, None) :: b /\ pushed b = [] /\ Forall (fun e => fst e <> Reset /\ fst e <> Clear) b.

Lemma step_flag o q c q' x tr : q_step o q c = (q', x) -> flagged q tr -> flagged q' (tr ++ [(c, x)]).
Proof.
  intros H F W B. pose proof (step_buffer _ _ _ _ _ H) as S.
  assert (K : q_wake q = true -> q_buffer q = [] -> pushed [(c, x)] = [] -> c <> Reset -> c <> Clear ->
    exists a b, tr ++ [(c, x)] = a ++ (Clear, None) :: b /\ pushed b = [] /\
      Forall (fun e => fst e <> Reset /\ fst e <> Clear) b).
  { intros W1 B1 P1 C1 C2. destruct (F W1 B1) as (a & b & -> & P & Q).
    exists a, (b ++ [(c, x)]). rewrite <- app_assoc. split; [done|].
    rewrite pushed_app, P, P1. split; [done|]. apply Forall_app. auto. }
  destruct c; cbn in H.
  - destruct S as [S _]. rewrite S in B. destruct (q_buffer q); discriminate.
  - unfold pop in H. destruct (q_buffer q) as [|y b] eqn:E.
    + destruct (q_wake q) eqn:W1; injection H as <- <-; [apply K; done|]. discriminate W.
    + unfold finish_pop in H. rewrite E in H. destruct (take_first_cons o y b) as (z & r & T).
      rewrite T in H. injection H as <- <-. cbn in *. subst r. discriminate W.
  - unfold resume in H. destruct (q_runnable q !! j) as [t|]; [|injection H as <- <-; apply K; done].
    destruct (q_wake q) eqn:W1.
    + unfold finish_pop in H. cbn in H. destruct (take_first o (q_buffer q)) as [[z r]|] eqn:T.
      * injection H as <- <-. cbn in *. subst r. discriminate W.
      * injection H as <- <-. cbn in *. apply K; done.
    + injection H as <- <-. discriminate W.
  - injection H as <- <-. unfold spurious in W, B. destruct (q_asleep q !! j); cbn in *; apply K; done.
  - injection H as <- <-. exists tr, []. repeat split; constructor.
  - injection H as <- <-. discriminate W.
Qed.

Lemma run_flag o l : forall q q' tr acc, q_run o q l = (q', tr) -> flagged q acc -> flagged q' (acc ++ tr).
Proof.
  induction l as [|c l IH]; intros q q' tr acc H F; cbn in H.
  - injection H as <- <-. rewrite app_nil_r. done.
  - destruct (q_step o q c) as [q1 x] eqn:E. destruct (q_run o q1 l) as [q2 xs] eqn:R.
    injection H as <- <-. change ((c, x) :: xs) with ([(c, x)] ++ xs). rewrite app_assoc.
    eapply IH; eauto. eapply step_flag; eauto.
Qed.

Lemma false_only_cleared o l c q tr q' t : q_run o queue0 l = (q, tr) ->
  q_step o q c = (q', Some (t, None)) ->
  exists a b, tr = a ++ (Clear, None) :: b /\ pushed b = [] /\
    Forall (fun e => fst e <> Reset /\ fst e <> Clear) b.
Proof.
  intros H S. apply step_buffer in S.
  assert (Q : q_buffer q = [] /\ q_wake q = true) by (destruct c; try (destruct S; discriminate); tauto).
  apply (run_flag _ _ _ _ _ [] H); [discriminate|apply Q|apply Q].
Qed.

(** ** No lost wake-up *)

Definition awake (q : queue) : Prop :=
  (q_buffer q <> [] -> q_wake q = true) /\
  (q_asleep q <> [] -> (length (q_buffer q) <= length (q_runnable q))%nat).

Lemma step_awake o q c : awake q -> (c = Reset -> q_buffer q = []) ->
  awake (fst (q_step o q c)).
Proof.
  intros [A1 A2] R. destruct c; cbn.
  - split.
    + intros _. apply notify_buffer.
    + unfold notify_one. cbn. destruct (q_asleep q !! _) as [t|] eqn:E; cbn.
      * intros _. rewrite !app_length. cbn.
        assert (q_asleep q <> []) by (intros Z; rewrite Z in E; discriminate). specialize (A2 H). lia.
      * apply lookup_ge_None in E. intros N. destruct (q_asleep q) as [|z l]; [done|].
        exfalso. cbn [length] in E. pose proof (Nat.mod_upper_bound who (S (length l)) ltac:(lia)). lia.
  - unfold pop. destruct (q_buffer q) as [|y b] eqn:B.
    + destruct (q_wake q) eqn:W; cbn; split; cbn; rewrite ?B; try done; intros; cbn; lia.
    + unfold finish_pop. rewrite B. destruct (take_first_cons o y b) as (z & r & T). rewrite T. cbn.
      apply take_first_spec in T as (_ & T & _). apply Permutation_length in T. cbn in T.
      split; cbn.
      * destruct r; done.
      * intros N. specialize (A2 N). cbn in A2. lia.
  - unfold resume. destruct (q_runnable q !! j) as [t|] eqn:E; [|split; done].
    assert (L : length (q_runnable q) = S (length (delete j (q_runnable q)))).
    { rewrite length_delete; [|eauto]. apply lookup_lt_Some in E. lia. }
    destruct (q_wake q) eqn:W.
    + unfold finish_pop. cbn. destruct (take_first o (q_buffer q)) as [[z r]|] eqn:T; cbn.
      * apply take_first_spec in T as (_ & T & _). apply Permutation_length in T. cbn in T.
        split; cbn; [destruct r; done|]. intros N. specialize (A2 N). lia.
      * apply take_first_none in T. rewrite T. split; cbn; [done|]. intros; lia.
    + cbn. destruct (q_buffer q) eqn:B; [|exfalso; specialize (A1 ltac:(done)); congruence].
      split; cbn; [done|]. intros; lia.
  - unfold spurious. destruct (q_asleep q !! j) as [t|] eqn:E; [|split; done].
    split; cbn; [done|]. intros _. rewrite app_length. cbn.
    assert (q_asleep q <> []) by (intros Z; rewrite Z in E; discriminate). specialize (A2 H). lia.
  - split; cbn; done.
  - split; cbn; [|done]. rewrite R; done.
Qed.

Lemma run_awake o l : forall q, awake q -> resets_empty o q l -> awake (fst (q_run o q l)).
Proof.
  induction l as [|c l IH]; intros q A R; cbn; [done|]. destruct R as [R1 R2].
  pose proof (step_awake o q c A R1) as S.
  destruct (q_step o q c) as [q1 x]. cbn in *. specialize (IH q1 S R2).
  destruct (q_run o q1 l). done.
Qed.

Lemma no_lost_wakeup o l q tr : q_run o queue0 l = (q, tr) -> resets_empty o queue0 l ->
  q_asleep q <> [] -> (length (q_buffer q) <= length (q_runnable q))%nat.
Proof.
  intros H R. pose proof (run_awake o l queue0) as W. rewrite H in W. cbn in W.
  apply W; [|done]. split; done.
Qed.

Lemma woken_pops o l q tr j : q_run o queue0 l = (q, tr) -> resets_empty o queue0 l ->
  q_buffer q <> [] -> (j < length (q_runnable q))%nat ->
  exists t x, snd (q_step o q (Resume j)) = Some (t, Some x).
Proof.
  intros H R B J. pose proof (run_awake o l queue0) as W. rewrite H in W. cbn in W.
  destruct (W ltac:(split; done) R) as [A _]. specialize (A B).
  apply lookup_lt_is_Some in J as [t E]. cbn. unfold resume. rewrite E, A. unfold finish_pop. cbn.
  destruct (q_buffer q) as [|y b]; [done|].
  destruct (take_first_cons o y b) as (z & r & T). rewrite T. cbn. eauto.
Qed.

Lemma reset_case : exists l q tr, q_run Fifo queue0 l = (q, tr) /\
  q_buffer q = [7] /\ q_asleep q = [1%nat] /\ q_runnable q = [].
Proof. exists [Pop 1; Push 7 0; Reset; Resume 0]. vm_compute. eauto 10. Qed.
