(** Proofs about PoolModel. *)
From Coq Require Import List Bool Arith Lia.
From stdpp Require Import base option list list_numbers sets.
From Verif Require Import PoolModel PoolSpec.
Import ListNotations.

(** ** Lists *)
Lemma alter_cases {A} (f : A -> A) (l : list A) i j y : alter f i l !! j = Some y ->
  exists x, l !! j = Some x /\ ((j = i /\ y = f x) \/ (j <> i /\ y = x)).
Proof.
  intros H. destruct (decide (i = j)) as [->|N].
  - rewrite list_lookup_alter in H. destruct (l !! j) as [x|]; [|done]. inversion H; subst. eauto.
  - rewrite list_lookup_alter_ne in H by done. eauto 10.
Qed.
Lemma sum_alter {A} (w : A -> nat) f (l : list A) i x : l !! i = Some x ->
  sum_list_with w (alter f i l) + w x = sum_list_with w l + w (f x).
Proof.
  revert i. induction l as [|a l IH]; intros [|i] H; [done..| |].
  - injection H as ->. unfold alter; cbn. lia.
  - cbn in H. specialize (IH i H). unfold alter in *; cbn in *. lia.
Qed.
Lemma sum_alter_same {A} (w : A -> nat) f (l : list A) i : (forall x, w (f x) = w x) ->
  sum_list_with w (alter f i l) = sum_list_with w l.
Proof.
  intros H. revert i. induction l as [|a l IH]; intros [|i]; [done..| |]; unfold alter in *; cbn in *.
  - by rewrite H.
  - by rewrite IH.
Qed.
Lemma sum_app {A} (w : A -> nat) l k : sum_list_with w (l ++ k) = sum_list_with w l + sum_list_with w k.
Proof. induction l as [|a l IH]; cbn; [done|]. rewrite IH. lia. Qed.
Lemma sum_delete {A} (w : A -> nat) (l : list A) k x : l !! k = Some x ->
  sum_list_with w (delete k l) + w x = sum_list_with w l.
Proof.
  revert k. induction l as [|a l IH]; intros [|k] H; [done..| |].
  - injection H as ->. unfold delete; cbn. lia.
  - cbn in H. specialize (IH k H). change (delete (S k) (a :: l)) with (a :: delete k l). cbn. lia.
Qed.
Lemma sum_len {A} (l : list A) : sum_list_with (fun _ => 1) l = length l.
Proof. induction l; cbn; [done|]. by f_equal. Qed.

Lemma alter_none {A} (f : A -> A) (l : list A) i : l !! i = None -> alter f i l = l.
Proof.
  revert i. induction l as [|a l IH]; intros [|i] H; [done..|]. cbn in H. specialize (IH i H).
  change (alter f (S i) (a :: l)) with (a :: alter f i l). by rewrite IH.
Qed.

(** ** Every step of the pool's code brings its end nearer *)
Definition w_pos (x : tpos) : nat := match x with TRun _ => 3 | TFlag _ => 2 | TPop => 1 | TEnd => 0 end.
Definition w_thr (x : thr) : nat := 4 * length (t_queue x) + w_pos (t_pos x).
Definition scanning (h : option holder) : nat := match h with Some (HScan _ _ _) => 1 | _ => 0 end.
Definition cap (p : pool) : nat := length (p_threads p) + length (p_pending p) + scanning (p_lock p).
Definition w_hold (n : nat) (h : option holder) : nat :=
  match h with
  | Some (HScan _ _ i) => 7 + (n - i)
  | Some (HPut _ _ _) => 5
  | Some (HClear _ i) => 2 * (n - i) + 1
  | Some (HJoin _ i) => 2 * (n - i)
  | None => 0
  end.
Definition rank (p : pool) : nat :=
  if ended p then 0
  else 1 + sum_list_with w_thr (p_threads p) + (cap p + 8) * length (p_pending p)
       + (match p_destroy p with Some _ => 2 * cap p + 2 | None => 0 end)
       + w_hold (length (p_threads p)) (p_lock p).

Lemma hold_len b w p : length (p_threads (hold_caller b w p)) = length (p_threads p).
Proof. destruct w; cbn; [|done]. by rewrite alter_length. Qed.
Lemma hold_sum (f : thr -> nat) b w p : (forall x, f (hold b x) = f x) ->
  sum_list_with f (p_threads (hold_caller b w p)) = sum_list_with f (p_threads p).
Proof. intros H. destruct w; cbn; [|done]. by apply sum_alter_same. Qed.
Lemma hold_rest b w p : p_lock (hold_caller b w p) = p_lock p /\ p_pending (hold_caller b w p) = p_pending p /\
  p_destroy (hold_caller b w p) = p_destroy p /\ p_events (hold_caller b w p) = p_events p.
Proof. by destruct w. Qed.

Definition wgt (p : pool) : nat :=
  1 + sum_list_with w_thr (p_threads p) + (cap p + 8) * length (p_pending p)
       + (match p_destroy p with Some _ => 2 * cap p + 2 | None => 0 end)
       + w_hold (length (p_threads p)) (p_lock p).
Lemma rank_le p : rank p <= wgt p.
Proof. unfold rank, wgt. destruct (ended p); lia. Qed.
Lemma rank_eq p : ended p = false -> rank p = wgt p.
Proof. unfold rank, wgt. by intros ->. Qed.
Lemma ended_emit p e : ended p = true -> ended (emit p e) = true.
Proof.
  unfold ended; cbn. intros [H|H]%orb_true_iff; apply orb_true_iff; [left|right];
    apply bool_decide_eq_true in H; apply bool_decide_eq_true; set_solver.
Qed.

Lemma step_rank p l p' : ending l = true -> step p l = Some p' -> rank p' < rank p.
Proof.
  intros O. unfold step. destruct (ended p) eqn:E; [done|]. rewrite (rank_eq p E).
  destruct l; cbn in O; try discriminate; intros H.
  - destruct (p_lock p) eqn:L; [done|]. destruct (p_pending p !! k) as [[w t]|] eqn:K; [|done].
    injection H as <-. eapply Nat.le_lt_trans; [apply rank_le|]. unfold wgt, cap. rewrite L; cbn.
    pose proof (sum_delete (fun _ => 1) _ _ _ K) as D. rewrite !sum_len in D.
    set (d := length (delete k (p_pending p))) in *. rewrite <-D. destruct (p_destroy p); nia.
  - destruct (p_lock p) as [[w t i|w t i|w i|w i]|] eqn:L; [| | | |done]; cbn in H.
    + destruct (p_threads p !! i) as [x|] eqn:X.
      * apply lookup_lt_Some in X as Lt. destruct (t_running x); injection H as <-;
          (eapply Nat.le_lt_trans; [apply rank_le|]); unfold wgt, cap; rewrite L; cbn.
        -- destruct (p_destroy p); nia.
        -- rewrite alter_length. rewrite (sum_alter_same w_thr claim) by done. destruct (p_destroy p); nia.
      * injection H as <-. eapply Nat.le_lt_trans; [apply rank_le|]. unfold wgt, cap. rewrite L; cbn.
        rewrite app_length, sum_app; cbn. destruct (p_destroy p); nia.
    + injection H as <-. eapply Nat.le_lt_trans; [apply rank_le|].
      set (q := set_lock (set_thr p i (put t)) None). destruct (hold_rest false w q) as (A1 & A2 & A3 & A4).
      unfold wgt, cap. rewrite L. cbn [emit p_threads p_lock p_pending p_destroy]. rewrite A1, A2, A3, hold_len, hold_sum by done.
      cbn. rewrite alter_length.
      assert (sum_list_with w_thr (alter (put t) i (p_threads p)) <= sum_list_with w_thr (p_threads p) + 4) as B.
      { destruct (p_threads p !! i) as [x|] eqn:X.
        - pose proof (sum_alter w_thr (put t) _ _ _ X) as S. unfold w_thr at 2 4 in S. cbn in S. rewrite app_length in S. cbn in S. lia.
        - rewrite alter_none by done. lia. }
      destruct (p_destroy p); nia.
    + destruct (p_threads p !! i) as [x|] eqn:X; injection H as <-; (eapply Nat.le_lt_trans; [apply rank_le|]);
        unfold wgt, cap; rewrite L; cbn.
      * apply lookup_lt_Some in X as Lt. rewrite alter_length.
        pose proof (sum_alter w_thr clear _ _ _ X) as S. unfold w_thr at 2 4 in S. cbn in S. destruct (p_destroy p); nia.
      * destruct (p_destroy p); nia.
    + destruct (bool_decide (w = Some i)).
      * injection H as <-. unfold rank. assert (ended (emit p Terminated) = true) as ->; [|unfold wgt; lia].
        unfold ended; cbn. apply orb_true_iff; right. apply bool_decide_eq_true. set_solver.
      * destruct (p_threads p !! i) as [[r q k [| | |] h]|] eqn:X; try done. injection H as <-.
        eapply Nat.le_lt_trans; [apply rank_le|]. apply lookup_lt_Some in X as Lt. unfold wgt, cap; rewrite L; cbn.
        destruct (p_destroy p); nia.
  - unfold step_pop in H. destruct (p_threads p !! i) as [[r [|t q] k [| | |] h]|] eqn:X; try done; try by destruct k.
    + destruct k; [|done]. injection H as <-. eapply Nat.le_lt_trans; [apply rank_le|].
      unfold wgt, cap; cbn. rewrite alter_length.
      match goal with |- context[alter ?f i _] => pose proof (sum_alter w_thr f _ _ _ X) as S end.
      unfold w_thr at 2 4 in S; cbn in S. destruct (p_destroy p); nia.
    + injection H as <-. eapply Nat.le_lt_trans; [apply rank_le|].
      unfold wgt, cap; cbn. rewrite alter_length.
      match goal with |- context[alter ?f i _] => pose proof (sum_alter w_thr f _ _ _ X) as S end.
      unfold w_thr at 2 4 in S; cbn in S. destruct (p_destroy p); nia.
  - destruct (p_threads p !! i) as [[r q k [|t|t|] []]|] eqn:X; try done.
    injection H as <-. eapply Nat.le_lt_trans; [apply rank_le|].
    unfold wgt, cap; cbn. rewrite alter_length.
    match goal with |- context[alter ?f i _] => pose proof (sum_alter w_thr f _ _ _ X) as S end.
    unfold w_thr at 2 4 in S; cbn in S. destruct (p_destroy p); nia.
  - destruct (p_threads p !! i) as [[r q k [|t|t|] h]|] eqn:X; try done.
    injection H as <-. eapply Nat.le_lt_trans; [apply rank_le|].
    unfold wgt, cap; cbn. rewrite alter_length.
    match goal with |- context[alter ?f i _] => pose proof (sum_alter w_thr f _ _ _ X) as S end.
    unfold w_thr at 2 4 in S; cbn in S. destruct (p_destroy p); nia.
  - destruct (p_lock p) eqn:L; [done|]. destruct (p_destroy p) eqn:D; [|done]. injection H as <-.
    eapply Nat.le_lt_trans; [apply rank_le|]. unfold wgt, cap; rewrite L; rewrite ?D; cbn. nia.
Qed.
Lemma runs_rank ls : forall p p', Forall (fun l => ending l = true) ls -> runs p ls = Some p' -> length ls + rank p' <= rank p.
Proof.
  induction ls as [|l ls IH]; intros p p' F H; cbn in *; [injection H as <-; lia|].
  inversion F; subst. destruct (step p l) as [q|] eqn:S; [|done].
  apply step_rank in S; [|done]. apply IH in H; [|done]. lia.
Qed.

(** ** What holds of every run *)
Definition cnt (l : list task) (t : task) : nat := count_occ Nat.eq_dec l t.
Definition hold_task (h : option holder) : list task :=
  match h with Some (HScan _ t _) | Some (HPut _ t _) => [t] | _ => [] end.
Definition total (p : pool) (t : task) : nat :=
  cnt (map snd (p_pending p)) t + cnt (hold_task (p_lock p)) t
  + sum_list_with (fun x => cnt (t_queue x) t) (p_threads p) + cnt (starts (p_events p)) t.
Definition called (es : list event) (t : task) : nat := if bool_decide (Called t ∈ es) then 1 else 0.
(** The destructor has got m_mut. *)
Definition phase (p : pool) : bool :=
  match p_lock p with
  | Some (HClear _ _) | Some (HJoin _ _) => true
  | _ => bool_decide (Destroyed ∈ p_events p)
  end.
Definition cleared (p : pool) (j : nat) : Prop :=
  match p_lock p with
  | Some (HClear _ i) => j < i
  | Some (HJoin _ i) => j <= i
  | _ => Destroyed ∈ p_events p
  end.
Definition joined (p : pool) (j : nat) : Prop :=
  match p_lock p with
  | Some (HClear _ i) | Some (HJoin _ i) => j < i
  | _ => Destroyed ∈ p_events p
  end.
Definition okthr (x : thr) : Prop :=
  (t_running x = false -> t_queue x = [] /\ (t_pos x = TPop \/ t_pos x = TEnd)) /\
  (t_queue x <> [] -> t_pos x = TPop) /\ length (t_queue x) <= 1 /\
  (t_held x = true -> exists t, t_pos x = TRun t).
Definition normal (x : thr) : Prop := t_wake x = negb (bool_decide (t_queue x = [])) /\ t_pos x <> TEnd.
Record inv (p : pool) : Prop := Inv {
  i_le : forall t, total p t <= called (p_events p) t;
  i_eq : phase p = false -> forall t, total p t = called (p_events p) t;
  i_thr : forall i x, p_threads p !! i = Some x -> okthr x;
  i_cleared : forall i x, p_threads p !! i = Some x -> cleared p i -> t_queue x = [] /\ t_wake x = true;
  i_joined : forall i x, p_threads p !! i = Some x -> joined p i -> t_pos x = TEnd;
  i_normal : forall i x, p_threads p !! i = Some x -> ~ cleared p i -> normal x;
  i_put : forall w t i, p_lock p = Some (HPut w t i) ->
    exists x, p_threads p !! i = Some x /\ t_running x = true /\ t_queue x = [] /\ t_pos x = TPop;
  i_join : forall w i, p_lock p = Some (HJoin w i) -> i < length (p_threads p);
  i_destroy : p_destroy p <> None \/ phase p = true <-> DestroyCalled ∈ p_events p;
  i_destroy' : p_destroy p <> None -> phase p = false;
  i_started : forall t, Started t ∈ p_events p -> Finished t ∈ p_events p \/
    exists i x, p_threads p !! i = Some x /\ t_pos x = TRun t;
  i_finished : forall t, Finished t ∈ p_events p \/ (exists i x, p_threads p !! i = Some x /\ t_pos x = TRun t) ->
    Started t ∈ p_events p;
}.
Lemma inv0 : inv pool0.
Proof.
  constructor; try (cbn; intros; set_solver).
Qed.

Lemma cnt_app l k t : cnt (l ++ k) t = cnt l t + cnt k t.
Proof. apply count_occ_app. Qed.
Lemma cnt_one t u : cnt [t] u = if Nat.eq_dec t u then 1 else 0.
Proof. reflexivity. Qed.
Lemma cnt_nil u : cnt [] u = 0.
Proof. reflexivity. Qed.
Lemma cnt_in l t : t ∈ l <-> 0 < cnt l t.
Proof. rewrite elem_of_list_In. unfold cnt. apply count_occ_In. Qed.
Lemma cnt_nodup l : NoDup l <-> forall t, cnt l t <= 1.
Proof. rewrite NoDup_ListNoDup. apply NoDup_count_occ. Qed.
Global Opaque cnt.
Lemma starts_app l k : starts (l ++ k) = starts l ++ starts k.
Proof. unfold starts. induction l as [|[] l IH]; cbn; congruence. Qed.
Lemma called_app es e t : called (es ++ [e]) t =
  match e with Called t' => if Nat.eq_dec t' t then 1 else called es t | _ => called es t end.
Proof.
  unfold called. destruct e; try (repeat case_bool_decide; set_solver).
  destruct (Nat.eq_dec _ _) as [->|]; repeat case_bool_decide; try done; exfalso; set_solver.
Qed.

Lemma emit_hold b w p e : emit (hold_caller b w p) e = hold_caller b w (emit p e).
Proof. by destruct w. Qed.
Lemma inv_hold b w p : (b = true -> caller_active p w = true) -> inv p -> inv (hold_caller b w p).
Proof.
  destruct w as [i|]; [|done]. intros A I. cbn.
  assert (forall j y, p_threads (set_thr p i (hold b)) !! j = Some y -> exists x, p_threads p !! j = Some x /\
    t_running y = t_running x /\ t_queue y = t_queue x /\ t_wake y = t_wake x /\ t_pos y = t_pos x /\
    (t_held y = true -> t_held x = true \/ exists t, t_pos x = TRun t)) as F.
  { cbn. intros j y (x & X & [(-> & ->)|(_ & ->)])%alter_cases; exists x; [|by eauto 10].
    repeat (split; [done|]). cbn. intros ->. right. specialize (A eq_refl). cbn in A. unfold active in A.
    rewrite X in A. destruct x as [? ? ? [|t| |] []]; cbn; eauto; done. }
  assert (forall j x, p_threads p !! j = Some x -> exists y, p_threads (set_thr p i (hold b)) !! j = Some y /\
    t_running y = t_running x /\ t_queue y = t_queue x /\ t_wake y = t_wake x /\ t_pos y = t_pos x) as G.
  { cbn. intros j x X. destruct (decide (i = j)) as [->|N].
    - rewrite list_lookup_alter, X. cbn. eauto 10.
    - rewrite list_lookup_alter_ne by done. eauto 10. }
  destruct I as [I1 I2 I3 I4 I5 I6 I7 I8 I9 I9' I10 I11].
  assert (forall t, total (set_thr p i (hold b)) t = total p t) as T.
  { intros t. unfold total; cbn. by rewrite (sum_alter_same (fun x => cnt (t_queue x) t) (hold b)). }
  constructor.
  - intros t. rewrite T. apply I1.
  - intros Ph t. rewrite T. by apply I2.
  - intros j y (x & X & E1 & E2 & E3 & E4 & E5)%F. destruct (I3 _ _ X) as (J1 & J2 & J3 & J4).
    unfold okthr. rewrite E1, E2, E4. repeat split; try (by intuition).
  - intros j y (x & X & E1 & E2 & E3 & E4 & E5)%F C. rewrite E2, E3. by apply (I4 j).
  - intros j y (x & X & E1 & E2 & E3 & E4 & E5)%F C. rewrite E4. by apply (I5 j).
  - intros j y (x & X & E1 & E2 & E3 & E4 & E5)%F C. unfold normal. rewrite E2, E3, E4. by apply (I6 j).
  - intros w t j (x & X & J1 & J2 & J3)%I7. destruct (G _ _ X) as (y & Y & E1 & E2 & E3 & E4).
    exists y. rewrite E1, E2, E4. done.
  - intros w j L%I8. cbn. by rewrite alter_length.
  - exact I9.
  - exact I9'.
  - intros t [H|(j & x & X & P)]%I10; [by left|right]. destruct (G _ _ X) as (y & Y & E1 & E2 & E3 & E4).
    exists j, y. by rewrite E4.
  - intros t H. apply I11. destruct H as [H|(j & y & (x & X & E1 & E2 & E3 & E4 & E5)%F & P)]; [by left|right].
    exists j, x. by rewrite <-E4.
Qed.

Lemma elem_snoc {A} (x : A) l y : x ∈ l ++ [y] <-> x ∈ l \/ x = y.
Proof. set_solver. Qed.

Lemma inv_call p w t : inv p -> ended p = false -> Called t ∉ p_events p ->
  inv (emit (Pool (p_threads p) (p_lock p) (p_pending p ++ [(w, t)]) (p_destroy p) (p_events p)) (Called t)).
Proof.
  intros [I1 I2 I3 I4 I5 I6 I7 I8 I9 I9' I10 I11] E N. set (p' := emit _ _).
  assert (phase p' = phase p) as Ph.
  { unfold phase, p'; cbn. destruct (p_lock p) as [[]|]; try done; apply bool_decide_ext; set_solver. }
  assert (forall j, cleared p' j <-> cleared p j) as Cl.
  { intros j. unfold cleared, p'; cbn. destruct (p_lock p) as [[]|]; try done; set_solver. }
  assert (forall j, joined p' j <-> joined p j) as Jo.
  { intros j. unfold joined, p'; cbn. destruct (p_lock p) as [[]|]; try done; set_solver. }
  assert (forall u, total p' u = total p u + (if Nat.eq_dec t u then 1 else 0)) as T.
  { intros u. unfold total, p'; cbn -[cnt]. rewrite map_app, cnt_app, starts_app, app_nil_r. cbn. rewrite cnt_one. destruct (Nat.eq_dec t u); lia. }
  assert (called (p_events p) t = 0) as C0 by (unfold called; by rewrite bool_decide_eq_false_2).
  constructor.
  - intros u. rewrite T. unfold p'; cbn. rewrite called_app. specialize (I1 u). destruct (Nat.eq_dec t u) as [<-|]; lia.
  - rewrite Ph. intros F u. rewrite T. unfold p'; cbn. rewrite called_app. specialize (I2 F u). destruct (Nat.eq_dec t u) as [<-|]; lia.
  - exact I3.
  - intros i x X C%Cl. by apply (I4 i).
  - intros i x X C%Jo. by apply (I5 i).
  - intros i x X C. apply (I6 i); [done|]. by rewrite <-Cl.
  - exact I7.
  - exact I8.
  - rewrite Ph. unfold p'; cbn. rewrite elem_snoc. rewrite I9. split; [by left|by intros [|]].
  - rewrite Ph. exact I9'.
  - unfold p'; cbn. intros u. rewrite !elem_snoc. intros [H|]; [|done]. destruct (I10 u H); auto.
  - unfold p'; cbn. intros u. rewrite !elem_snoc. intros [[H|]|H]; [|done|]; auto.
Qed.

Lemma inv_destroy p w : inv p -> ended p = false -> DestroyCalled ∉ p_events p ->
  inv (emit (Pool (p_threads p) (p_lock p) (p_pending p) (Some w) (p_events p)) DestroyCalled).
Proof.
  intros [I1 I2 I3 I4 I5 I6 I7 I8 I9 I9' I10 I11] E N. set (p' := emit _ _).
  assert (phase p' = phase p) as Ph.
  { unfold phase, p'; cbn. destruct (p_lock p) as [[]|]; try done; apply bool_decide_ext; set_solver. }
  assert (forall j, cleared p' j <-> cleared p j) as Cl.
  { intros j. unfold cleared, p'; cbn. destruct (p_lock p) as [[]|]; try done; set_solver. }
  assert (forall j, joined p' j <-> joined p j) as Jo.
  { intros j. unfold joined, p'; cbn. destruct (p_lock p) as [[]|]; try done; set_solver. }
  assert (forall u, total p' u = total p u) as T.
  { intros u. unfold total, p'; cbn -[starts]. by rewrite starts_app, app_nil_r. }
  assert (phase p = false) as Pf.
  { destruct (phase p) eqn:F; [|done]. destruct N. apply I9. by right. }
  constructor.
  - intros u. rewrite T. unfold p'; cbn. rewrite called_app. apply I1.
  - rewrite Ph. intros F u. rewrite T. unfold p'; cbn. rewrite called_app. by apply I2.
  - exact I3.
  - intros i x X C%Cl. by apply (I4 i).
  - intros i x X C%Jo. by apply (I5 i).
  - intros i x X C. apply (I6 i); [done|]. by rewrite <-Cl.
  - exact I7.
  - exact I8.
  - unfold p'; cbn. rewrite elem_snoc. split; [by right|]. by left.
  - rewrite Ph. by intros _.
  - unfold p'; cbn. intros u. rewrite !elem_snoc. intros [H|]; [|done]. destruct (I10 u H); auto.
  - unfold p'; cbn. intros u. rewrite !elem_snoc. intros [[H|]|H]; [|done|]; auto.
Qed.

(** Events that say nothing about tasks. *)
Lemma inv_terminate p : inv p -> inv (emit p Terminated).
Proof.
  intros [I1 I2 I3 I4 I5 I6 I7 I8 I9 I9' I10 I11]. set (p' := emit _ _).
  assert (phase p' = phase p) as Ph.
  { unfold phase, p'; cbn. destruct (p_lock p) as [[]|]; try done; apply bool_decide_ext; set_solver. }
  assert (forall j, cleared p' j <-> cleared p j) as Cl.
  { intros j. unfold cleared, p'; cbn. destruct (p_lock p) as [[]|]; try done; set_solver. }
  assert (forall j, joined p' j <-> joined p j) as Jo.
  { intros j. unfold joined, p'; cbn. destruct (p_lock p) as [[]|]; try done; set_solver. }
  assert (forall u, total p' u = total p u) as T.
  { intros u. unfold total, p'; cbn -[starts]. by rewrite starts_app, app_nil_r. }
  constructor.
  - intros u. rewrite T. unfold p'; cbn. rewrite called_app. apply I1.
  - rewrite Ph. intros F u. rewrite T. unfold p'; cbn. rewrite called_app. by apply I2.
  - exact I3.
  - intros i x X C%Cl. by apply (I4 i).
  - intros i x X C%Jo. by apply (I5 i).
  - intros i x X C. apply (I6 i); [done|]. by rewrite <-Cl.
  - exact I7.
  - exact I8.
  - rewrite Ph. unfold p'; cbn. rewrite elem_snoc. rewrite I9. split; [by left|by intros [|]].
  - rewrite Ph. exact I9'.
  - unfold p'; cbn. intros u. rewrite !elem_snoc. intros [H|]; [|done]. destruct (I10 u H); auto.
  - unfold p'; cbn. intros u. rewrite !elem_snoc. intros [[H|]|H]; [|done|]; auto.
Qed.

Lemma not_destroyed p : ended p = false -> Destroyed ∉ p_events p.
Proof. unfold ended. intros [H _]%orb_false_iff. by apply bool_decide_eq_false in H. Qed.

Lemma inv_lock p k w t : inv p -> ended p = false -> p_lock p = None -> p_pending p !! k = Some (w, t) ->
  inv (Pool (p_threads p) (Some (HScan w t 0)) (delete k (p_pending p)) (p_destroy p) (p_events p)).
Proof.
  intros [I1 I2 I3 I4 I5 I6 I7 I8 I9 I9' I10 I11] E L K. set (p' := Pool _ _ _ _ _).
  assert (phase p' = phase p) as Ph by (unfold phase, p'; by rewrite L).
  assert (forall j, cleared p' j <-> cleared p j) as Cl by (intros j; unfold cleared, p'; by rewrite L).
  assert (forall j, joined p' j <-> joined p j) as Jo by (intros j; unfold joined, p'; by rewrite L).
  assert (forall l u, cnt (map snd l) u = sum_list_with (fun c : caller * task => if Nat.eq_dec (snd c) u then 1 else 0) l) as S.
  { intros l u. induction l as [|[? a] l IH]; [done|]. cbn -[Nat.eq_dec]. rewrite <-IH.
    rewrite <-(cnt_one a u). apply (cnt_app [a]). }
  assert (forall u, total p' u = total p u) as T.
  { intros u. unfold total, p'; cbn -[Nat.eq_dec starts]. rewrite L, !S.
    pose proof (sum_delete (fun c : caller * task => if Nat.eq_dec (snd c) u then 1 else 0) _ _ _ K) as D.
    cbn [hold_task]. rewrite cnt_one, cnt_nil. cbn -[Nat.eq_dec] in D. lia. }
  constructor; try done.
  - intros u. rewrite T. apply I1.
  - rewrite Ph. intros F u. rewrite T. by apply I2.
  - intros i x X C%Cl. by apply (I4 i).
  - intros i x X C%Jo. by apply (I5 i).
  - intros i x X C. apply (I6 i); [done|]. by rewrite <-Cl.
  - by rewrite Ph.
  - by rewrite Ph.
Qed.

Lemma inv_next p w t i : inv p -> p_lock p = Some (HScan w t i) -> inv (set_lock p (Some (HScan w t (S i)))).
Proof.
  intros [I1 I2 I3 I4 I5 I6 I7 I8 I9 I9' I10 I11] L. set (p' := set_lock _ _).
  assert (phase p' = phase p) as Ph by (unfold phase, p'; by rewrite L).
  assert (forall j, cleared p' j <-> cleared p j) as Cl by (intros j; unfold cleared, p'; by rewrite L).
  assert (forall j, joined p' j <-> joined p j) as Jo by (intros j; unfold joined, p'; by rewrite L).
  assert (forall u, total p' u = total p u) as T by (intros u; unfold total, p'; cbn; by rewrite L).
  constructor; try done.
  - intros u. rewrite T. apply I1.
  - rewrite Ph. intros F u. rewrite T. by apply I2.
  - intros j x X C%Cl. by apply (I4 j).
  - intros j x X C%Jo. by apply (I5 j).
  - intros j x X C. apply (I6 j); [done|]. by rewrite <-Cl.
  - by rewrite Ph.
  - by rewrite Ph.
Qed.
Lemma phase_off p : ended p = false -> match p_lock p with Some (HClear _ _) | Some (HJoin _ _) => False | _ => True end ->
  phase p = false /\ (forall j, ~ cleared p j) /\ (forall j, ~ joined p j).
Proof.
  intros E%not_destroyed H. unfold phase, cleared, joined.
  destruct (p_lock p) as [[]|]; try done; (split; [by apply bool_decide_eq_false|done]).
Qed.

Lemma inv_claim p w t i x : inv p -> ended p = false -> p_lock p = Some (HScan w t i) ->
  p_threads p !! i = Some x -> t_running x = false ->
  inv (set_lock (set_thr p i claim) (Some (HPut w t i))).
Proof.
  intros [I1 I2 I3 I4 I5 I6 I7 I8 I9 I9' I10 I11] E L X R. set (p' := set_lock _ _).
  assert (ended p' = false) as E' by exact E.
  destruct (phase_off p E) as (P1 & P2 & P3); [by rewrite L|].
  destruct (phase_off p' E') as (Q1 & Q2 & Q3); [done|].
  assert (forall u, total p' u = total p u) as T.
  { intros u. unfold total, p'; cbn -[starts]. rewrite L. cbn. by rewrite (sum_alter_same (fun x => cnt (t_queue x) u) claim). }
  destruct (I3 _ _ X) as (A1 & A2 & A3 & A4). destruct (A1 R) as (Q & PP).
  destruct (I6 _ _ X (P2 i)) as (N1 & N2).
  assert (t_pos x = TPop) as Tp by (destruct PP; done).
  constructor.
  - intros u. rewrite T. apply I1.
  - intros _ u. rewrite T. by apply I2.
  - unfold p'; cbn. intros j y (z & Z & [(-> & ->)|(N & ->)])%alter_cases; [|by apply (I3 j)].
    assert (z = x) as -> by congruence. repeat split; cbn; intuition.
  - intros j y Y C. by destruct (Q2 j).
  - intros j y Y C. by destruct (Q3 j).
  - unfold p'; cbn. intros j y (z & Z & [(-> & ->)|(N & ->)])%alter_cases _; [|by apply (I6 j)].
    assert (z = x) as -> by congruence. by split.
  - unfold p'; cbn. intros ? ? ? [= -> -> ->]. exists (claim x). rewrite list_lookup_alter, X. done.
  - done.
  - rewrite Q1. rewrite P1 in I9. exact I9.
  - done.
  - unfold p'; cbn. intros u [H|(j & y & Y & P)]%I10; [by left|right].
    destruct (decide (i = j)) as [<-|N]; [congruence|]. exists j, y. by rewrite list_lookup_alter_ne.
  - unfold p'; cbn. intros u H. apply I11. destruct H as [H|(j & y & (z & Z & [(-> & ->)|(N & ->)])%alter_cases & P)]; [by left|right..]; eauto.
Qed.

Lemma inv_new p w t i : inv p -> ended p = false -> p_lock p = Some (HScan w t i) -> i = length (p_threads p) ->
  inv (Pool (p_threads p ++ [fresh_thr]) (Some (HPut w t i)) (p_pending p) (p_destroy p) (p_events p)).
Proof.
  intros [I1 I2 I3 I4 I5 I6 I7 I8 I9 I9' I10 I11] E L Hi. set (p' := Pool _ _ _ _ _).
  assert (ended p' = false) as E' by exact E.
  destruct (phase_off p E) as (P1 & P2 & P3); [by rewrite L|].
  destruct (phase_off p' E') as (Q1 & Q2 & Q3); [done|].
  assert (forall u, total p' u = total p u) as T.
  { intros u. unfold total, p'; cbn -[starts]. rewrite L, sum_app. cbn -[starts]. rewrite cnt_nil. lia. }
  assert (forall j y, p_threads p' !! j = Some y -> p_threads p !! j = Some y \/ y = fresh_thr) as F.
  { unfold p'; cbn. intros j y [Y|(_ & Y)]%lookup_app_Some; [by left|right]. by apply list_lookup_singleton_Some in Y as (_ & <-). }
  constructor.
  - intros u. rewrite T. apply I1.
  - intros _ u. rewrite T. by apply I2.
  - intros j y [Y| ->]%F; [by apply (I3 j)|]. repeat split; cbn; try done; lia.
  - intros j y Y C. by destruct (Q2 j).
  - intros j y Y C. by destruct (Q3 j).
  - intros j y [Y| ->]%F _; [by apply (I6 j)|]. by split.
  - unfold p'; cbn. intros ? ? ? [= -> -> <-]. exists fresh_thr. rewrite Hi. split; [|done].
    rewrite lookup_app_r by lia. by rewrite Nat.sub_diag.
  - done.
  - rewrite Q1. rewrite P1 in I9. exact I9.
  - done.
  - intros u [H|(j & y & Y & P)]%I10; [by left|right]. exists j, y. split; [|done]. unfold p'; cbn. by apply lookup_app_l_Some.
  - intros u H. apply I11. destruct H as [H|(j & y & [Y| ->]%F & P)]; [by left|right; eauto|done].
Qed.

Lemma inv_put p w t i : inv p -> ended p = false -> p_lock p = Some (HPut w t i) ->
  inv (emit (set_lock (set_thr p i (put t)) None) (Returned t)).
Proof.
  intros [I1 I2 I3 I4 I5 I6 I7 I8 I9 I9' I10 I11] E L. set (p' := emit _ _).
  destruct (phase_off p E) as (P1 & P2 & P3); [by rewrite L|].
  assert (ended p' = false) as E'.
  { unfold ended in *. unfold p'; cbn. apply orb_false_iff in E as [E1 E2]. apply orb_false_iff.
    apply bool_decide_eq_false in E1, E2. split; apply bool_decide_eq_false; set_solver. }
  destruct (phase_off p' E') as (Q1 & Q2 & Q3); [done|].
  destruct (I7 _ _ _ L) as (x & X & R & Q & Tp).
  assert (forall u, total p' u = total p u) as T.
  { intros u. unfold total, p'; cbn -[starts]. rewrite L, starts_app, app_nil_r. cbn -[starts].
    pose proof (sum_alter (fun x => cnt (t_queue x) u) (put t) _ _ _ X) as S. cbn in S. rewrite Q in S. cbn in S.
    rewrite cnt_nil in *. lia. }
  constructor.
  - intros u. rewrite T. unfold p'; cbn. rewrite called_app. apply I1.
  - intros _ u. rewrite T. unfold p'; cbn. rewrite called_app. by apply I2.
  - unfold p'; cbn. intros j y (z & Z & [(-> & ->)|(N & ->)])%alter_cases; [|by apply (I3 j)].
    assert (z = x) as -> by congruence. destruct (I3 _ _ X) as (A1 & A2 & A3 & A4).
    unfold okthr; cbn; rewrite Q, R, Tp; cbn. do 2 (split; [done|]). split; [lia|]. intros (? & ?)%A4; congruence.
  - intros j y Y C. by destruct (Q2 j).
  - intros j y Y C. by destruct (Q3 j).
  - unfold p'; cbn. intros j y (z & Z & [(-> & ->)|(N & ->)])%alter_cases _; [|by apply (I6 j)].
    assert (z = x) as -> by congruence. split; cbn; [by rewrite Q|by rewrite Tp].
  - done.
  - done.
  - rewrite Q1. rewrite P1 in I9. unfold p'; cbn. rewrite elem_snoc, <-I9. split; [by intuition|]. intros [|]; [by intuition|done].
  - done.
  - unfold p'; cbn. intros u. rewrite !elem_snoc. intros [H|]; [|done]. destruct (I10 u H) as [|(j & y & Y & P)]; [by auto|right].
    destruct (decide (i = j)) as [<-|N]; [congruence|]. exists j, y. by rewrite list_lookup_alter_ne.
  - unfold p'; cbn. intros u. rewrite !elem_snoc. intros H. left. apply I11.
    destruct H as [[H|]|(j & y & (z & Z & [(-> & ->)|(N & ->)])%alter_cases & P)]; [by left|done|right..]; eauto.
Qed.

Lemma inv_clear p w i x : inv p -> p_lock p = Some (HClear w i) -> p_threads p !! i = Some x ->
  inv (set_lock (set_thr p i clear) (Some (HJoin w i))).
Proof.
  intros [I1 I2 I3 I4 I5 I6 I7 I8 I9 I9' I10 I11] L X. set (p' := set_lock _ _).
  assert (phase p = true) as P1 by (unfold phase; by rewrite L).
  assert (phase p' = true) as Q1 by done.
  assert (forall u, total p' u <= total p u) as T.
  { intros u. unfold total, p'; cbn -[starts]. rewrite L. cbn.
    pose proof (sum_alter (fun x => cnt (t_queue x) u) clear _ _ _ X) as S. cbn in S. rewrite cnt_nil in *. lia. }
  destruct (I3 _ _ X) as (A1 & A2 & A3 & A4).
  constructor.
  - intros u. specialize (T u). specialize (I1 u). unfold p' in *; cbn in *. lia.
  - by rewrite Q1.
  - unfold p'; cbn. intros j y (z & Z & [(-> & ->)|(N & ->)])%alter_cases; [|by apply (I3 j)].
    assert (z = x) as -> by congruence. unfold okthr; cbn. split; [by intros (_ & ?)%A1|]. split; [done|]. split; [lia|done].
  - unfold p', cleared; cbn. intros j y (z & Z & [(-> & ->)|(N & ->)])%alter_cases C; [by split|].
    apply (I4 j); [done|]. unfold cleared. rewrite L. lia.
  - unfold p', joined; cbn. intros j y (z & Z & [(-> & ->)|(N & ->)])%alter_cases C; [lia|].
    apply (I5 j); [done|]. unfold joined. by rewrite L.
  - unfold p', cleared; cbn. intros j y (z & Z & [(-> & ->)|(N & ->)])%alter_cases C; [lia|].
    apply (I6 j); [done|]. unfold cleared. rewrite L. lia.
  - done.
  - unfold p'; cbn. intros ? ? [= -> ->]. rewrite alter_length. by eapply lookup_lt_Some.
  - rewrite Q1. rewrite P1 in I9. exact I9.
  - intros D%I9'. congruence.
  - unfold p'; cbn. intros u [H|(j & y & Y & P)]%I10; [by left|right].
    destruct (decide (i = j)) as [<-|N].
    + exists i, (clear y). by rewrite list_lookup_alter, Y.
    + exists j, y. by rewrite list_lookup_alter_ne.
  - unfold p'; cbn. intros u H. apply I11. destruct H as [H|(j & y & (z & Z & [(-> & ->)|(N & ->)])%alter_cases & P)]; [by left|right..]; eauto.
Qed.

Lemma inv_cleared p w i : inv p -> p_lock p = Some (HClear w i) -> p_threads p !! i = None ->
  inv (emit (set_lock p None) Destroyed).
Proof.
  intros [I1 I2 I3 I4 I5 I6 I7 I8 I9 I9' I10 I11] L X%lookup_ge_None. set (p' := emit _ _).
  assert (phase p = true) as P1 by (unfold phase; by rewrite L).
  assert (phase p' = true) as Q1.
  { unfold phase, p'; cbn. apply bool_decide_eq_true. set_solver. }
  assert (forall u, total p' u = total p u) as T.
  { intros u. unfold total, p'; cbn -[starts]. by rewrite L, starts_app, app_nil_r. }
  constructor.
  - intros u. rewrite T. unfold p'; cbn. rewrite called_app. apply I1.
  - by rewrite Q1.
  - exact I3.
  - unfold p'; cbn. intros j y Y _. apply (I4 j); [done|]. apply lookup_lt_Some in Y. unfold cleared. rewrite L. lia.
  - unfold p'; cbn. intros j y Y _. apply (I5 j); [done|]. apply lookup_lt_Some in Y. unfold joined. rewrite L. lia.
  - unfold p', cleared; cbn. intros j y Y []. set_solver.
  - done.
  - done.
  - rewrite Q1. rewrite P1 in I9. unfold p'; cbn. rewrite elem_snoc, <-I9. split; [by intuition|]. intros [|]; [by intuition|done].
  - intros D%I9'. congruence.
  - unfold p'; cbn. intros u. rewrite !elem_snoc. intros [H|]; [|done]. destruct (I10 u H); auto.
  - unfold p'; cbn. intros u. rewrite !elem_snoc. intros [[H|]|H]; [|done|]; auto.
Qed.

Lemma inv_joined p w i x : inv p -> p_lock p = Some (HJoin w i) -> p_threads p !! i = Some x -> t_pos x = TEnd ->
  inv (set_lock p (Some (HClear w (S i)))).
Proof.
  intros [I1 I2 I3 I4 I5 I6 I7 I8 I9 I9' I10 I11] L X Tp. set (p' := set_lock _ _).
  assert (phase p = true) as P1 by (unfold phase; by rewrite L).
  assert (phase p' = true) as Q1 by done.
  assert (forall u, total p' u = total p u) as T by (intros u; unfold total, p'; cbn; by rewrite L).
  constructor; try done.
  - intros u. rewrite T. apply I1.
  - unfold p', cleared; cbn. intros j y Y C. apply (I4 j); [done|]. unfold cleared. rewrite L. lia.
  - unfold p', joined; cbn. intros j y Y C. destruct (decide (j = i)) as [->|N]; [congruence|].
    apply (I5 j); [done|]. unfold joined. rewrite L. lia.
  - unfold p', cleared; cbn. intros j y Y C. apply (I6 j); [done|]. unfold cleared. rewrite L. lia.
  - rewrite Q1. by rewrite P1 in I9.
  - intros D%I9'. congruence.
Qed.

Lemma inv_destroylock p w : inv p -> ended p = false -> p_lock p = None -> p_destroy p = Some w ->
  inv (Pool (p_threads p) (Some (HClear w 0)) (p_pending p) None (p_events p)).
Proof.
  intros [I1 I2 I3 I4 I5 I6 I7 I8 I9 I9' I10 I11] E L D. set (p' := Pool _ _ _ _ _).
  destruct (phase_off p E) as (P1 & P2 & P3); [by rewrite L|].
  assert (phase p' = true) as Q1 by done.
  assert (forall u, total p' u = total p u) as T by (intros u; unfold total, p'; cbn; by rewrite L).
  constructor; try done.
  - intros u. rewrite T. apply I1.
  - unfold p', cleared; cbn. lia.
  - unfold p', joined; cbn. lia.
  - unfold p'; cbn. intros j y Y _. by apply (I6 j).
  - rewrite Q1. unfold p'; cbn. rewrite <-I9, D. split; [by left|by right].
Qed.

(** A thread's own step. *)
Lemma inv_thread p i x y es : inv p -> ended p = false -> p_threads p !! i = Some x ->
  (forall t, cnt (t_queue y) t + cnt (starts es) t = cnt (t_queue x) t) -> okthr y ->
  (t_queue x = [] -> t_wake x = true -> t_queue y = [] /\ t_wake y = true) ->
  t_pos x <> TEnd -> (t_pos y = TEnd -> t_queue x = [] /\ t_wake x = true) ->
  (normal x -> t_wake y = negb (bool_decide (t_queue y = []))) ->
  (t_queue x = [] -> t_pos x = TPop -> t_wake x = true) ->
  Forall (fun e => (exists t, e = Started t /\ t_pos y = TRun t) \/ (exists t, e = Finished t /\ t_pos x = TRun t)) es ->
  (forall t, t_pos x = TRun t -> Finished t ∈ es \/ t_pos y = TRun t) ->
  (forall t, t_pos y = TRun t -> Started t ∈ es \/ t_pos x = TRun t) ->
  inv (Pool (alter (fun _ => y) i (p_threads p)) (p_lock p) (p_pending p) (p_destroy p) (p_events p ++ es)).
Proof.
  intros [I1 I2 I3 I4 I5 I6 I7 I8 I9 I9' I10 I11] E X Hc Ok Hcl NE Hend Hw Hput Hes Hf Hs. set (p' := Pool _ _ _ _ _).
  assert (forall e, e ∈ es -> (exists t, e = Started t /\ t_pos y = TRun t) \/ (exists t, e = Finished t /\ t_pos x = TRun t)) as Fe.
  { rewrite Forall_forall in Hes. exact Hes. }
  assert (Destroyed ∉ es) as N1 by (intros [(? & ? & _)|(? & ? & _)]%Fe; done).
  assert (DestroyCalled ∉ es) as N2 by (intros [(? & ? & _)|(? & ? & _)]%Fe; done).
  assert (forall t, Called t ∉ es) as N3 by (intros t [(? & ? & _)|(? & ? & _)]%Fe; done).
  assert (phase p' = phase p) as Ph.
  { unfold phase, p'; cbn. destruct (p_lock p) as [[]|]; try done; apply bool_decide_ext; set_solver. }
  assert (forall j, cleared p' j <-> cleared p j) as Cl.
  { intros j. unfold cleared, p'; cbn. destruct (p_lock p) as [[]|]; try done; set_solver. }
  assert (forall j, joined p' j <-> joined p j) as Jo.
  { intros j. unfold joined, p'; cbn. destruct (p_lock p) as [[]|]; try done; set_solver. }
  assert (forall u, total p' u = total p u) as T.
  { intros u. unfold total, p'; cbn -[starts]. rewrite starts_app, cnt_app.
    pose proof (sum_alter (fun x => cnt (t_queue x) u) (fun _ => y) _ _ _ X) as S. cbn in S. specialize (Hc u). lia. }
  assert (forall u, called (p_events p') u = called (p_events p) u) as Ca.
  { intros u. unfold called, p'; cbn. assert (bool_decide (Called u ∈ p_events p ++ es) = bool_decide (Called u ∈ p_events p)) as ->; [|done].
    apply bool_decide_ext. specialize (N3 u). set_solver. }
  constructor.
  - intros u. rewrite T, Ca. apply I1.
  - rewrite Ph. intros F u. rewrite T, Ca. by apply I2.
  - unfold p'; cbn. intros j z (v & V & [(-> & ->)|(N & ->)])%alter_cases; [done|by apply (I3 j)].
  - intros j z Z C%Cl. unfold p' in Z; cbn in Z. apply alter_cases in Z as (v & V & [(-> & ->)|(N & ->)]).
    + assert (v = x) as -> by congruence. destruct (I4 _ _ X C). by apply Hcl.
    + by apply (I4 j).
  - intros j z Z C%Jo. unfold p' in Z; cbn in Z. apply alter_cases in Z as (v & V & [(-> & ->)|(N & ->)]).
    + assert (v = x) as -> by congruence. destruct NE. by apply (I5 i).
    + by apply (I5 j).
  - intros j z Z C. rewrite Cl in C. unfold p' in Z; cbn in Z. apply alter_cases in Z as (v & V & [(-> & ->)|(N & ->)]).
    + assert (v = x) as -> by congruence. destruct (I6 _ _ X C) as (W1 & W2). split; [by apply Hw|].
      intros (Q & Wk)%Hend. rewrite Q in W1. cbn in W1. congruence.
    + by apply (I6 j).
  - unfold p'; cbn. intros w t j L. destruct (I7 _ _ _ L) as (v & V & R & Q & Tp).
    destruct (decide (i = j)) as [<-|N].
    + assert (v = x) as -> by congruence. specialize (Hput Q Tp).
      destruct (phase_off p E) as (P1 & P2 & P3); [by rewrite L|]. destruct (I6 _ _ X (P2 i)) as (W1 & _).
      rewrite Q in W1. cbn in W1. congruence.
    + exists v. by rewrite list_lookup_alter_ne.
  - unfold p'; cbn. intros w j L%I8. by rewrite alter_length.
  - rewrite Ph. unfold p'; cbn. rewrite I9. set_solver.
  - rewrite Ph. exact I9'.
  - unfold p'; cbn. intros t [H|H]%elem_of_app.
    + destruct (I10 _ H) as [F|(j & v & V & P)]; [left; set_solver|].
      destruct (decide (i = j)) as [<-|N].
      * assert (v = x) as -> by congruence. destruct (Hf _ P) as [F|F]; [left; set_solver|].
        right. exists i, y. by rewrite list_lookup_alter, X.
      * right. exists j, v. by rewrite list_lookup_alter_ne.
    + right. apply Fe in H as [(u & [= <-] & P)|(u & ? & _)]; [|done]. exists i, y. by rewrite list_lookup_alter, X.
  - unfold p'; cbn. intros t H. rewrite elem_of_app. destruct H as [[H|H]%elem_of_app|(j & z & Z & P)].
    + left. apply I11. by left.
    + left. apply I11. right. apply Fe in H as [(u & ? & _)|(u & [= <-] & P)]; [done|]. eauto.
    + apply alter_cases in Z as (v & V & [(-> & ->)|(N & ->)]).
      * destruct (Hs _ P) as [H|H]; [by right|left]. apply I11. right. eauto.
      * left. apply I11. right. eauto.
Qed.

Lemma app_nil_pool p : Pool (p_threads p) (p_lock p) (p_pending p) (p_destroy p) (p_events p ++ []) = p.
Proof. rewrite app_nil_r. by destruct p. Qed.
Lemma cnt_cons t q u : cnt (t :: q) u = cnt [t] u + cnt q u.
Proof. apply (cnt_app [t]). Qed.

Definition scan_ok (p : pool) : Prop := forall w t i, p_lock p = Some (HScan w t i) -> i <= length (p_threads p).
Lemma step_inv p l p' : inv p -> scan_ok p -> step p l = Some p' -> inv p' /\ scan_ok p'.
Proof.
  intros I Sc. unfold step. destruct (ended p) eqn:E; [done|]. destruct l.
  - destruct (_ && _) eqn:C; [|done]. intros [= <-]. apply andb_true_iff in C as [[C1 C2]%andb_true_iff _].
    rewrite emit_hold. split.
    + apply inv_hold; [done|]. apply inv_call; [done..|]. by apply negb_true_iff, bool_decide_eq_false in C2.
    + intros w' t' i. rewrite hold_len. destruct (hold_rest true w (emit (Pool (p_threads p) (p_lock p) (p_pending p ++ [(w, t)]) (p_destroy p) (p_events p)) (Called t))) as (-> & _). cbn. apply Sc.
  - destruct (p_lock p) eqn:L; [done|]. destruct (p_pending p !! k) as [[w t]|] eqn:K; [|done]. intros [= <-]. split.
    + by apply inv_lock.
    + intros ? ? ? [= _ _ <-]. lia.
  - destruct (p_lock p) as [[w t i|w t i|w i|w i]|] eqn:L; [| | | |done]; cbn.
    + destruct (p_threads p !! i) as [x|] eqn:X.
      * destruct (t_running x) eqn:R; intros [= <-]; split.
        -- by apply inv_next.
        -- intros ? ? ? [= _ _ <-]. cbn. apply lookup_lt_Some in X. lia.
        -- by eapply inv_claim.
        -- done.
      * intros [= <-]. split; [|done]. apply inv_new; [done..|]. apply lookup_ge_None in X. specialize (Sc _ _ _ L). lia.
    + intros [= <-]. rewrite emit_hold. split; [apply inv_hold; [done|]; by eapply inv_put|].
      intros w' t' j. rewrite hold_len. destruct (hold_rest false w (emit (set_lock (set_thr p i (put t)) None) (Returned t))) as (-> & _). done.
    + destruct (p_threads p !! i) as [x|] eqn:X; intros [= <-]; (split; [|done]).
      * by eapply inv_clear.
      * by eapply inv_cleared.
    + destruct (bool_decide (w = Some i)).
      * intros [= <-]. split; [by apply inv_terminate|]. cbn. intros ? ? ?. cbn. by rewrite L.
      * destruct (p_threads p !! i) as [[r q k [| | |] h]|] eqn:X; try done. intros [= <-]. split; [|done]. by eapply inv_joined.
  - unfold step_pop. destruct (p_threads p !! i) as [x|] eqn:X; [|done].
    pose proof (i_thr _ I _ _ X) as Ok.
    destruct x as [r [|t q] k [| | |] h]; try done; try (by destruct k).
    + destruct k; [|done]. intros [= <-]. split; [|unfold scan_ok, set_thr; cbn; intros ? ? ?; rewrite alter_length; apply Sc].
      pose proof (inv_thread p i _ (Thr r [] true TEnd h) [] I E X) as J. rewrite app_nil_r in J. apply J; clear J; cbn; try done.
      2: by intros [? _].
      destruct Ok as (A1 & A2 & A3 & A4); cbn in *. unfold okthr; cbn. split; [by auto|]. split; [done|]. split; [lia|]. by intros (? & ?)%A4.
    + intros [= <-]. split; [|unfold scan_ok, set_thr; cbn; intros ? ? ?; rewrite alter_length; apply Sc].
      destruct Ok as (A1 & A2 & A3 & A4); cbn in *. destruct q; [|cbn in A3; lia].
      apply (inv_thread p i _ (Thr r [] false (TRun t) h) [Started t] I E X); cbn; try done.
      * unfold okthr; cbn. split; [by intros (? & ?)%A1|]. split; [done|]. split; [lia|by eauto].
      * apply Forall_singleton; left; eauto.
      * intros u [= ->]. left. set_solver.
  - destruct (p_threads p !! i) as [[r q k [|t|t|] []]|] eqn:X; try done. intros [= <-].
    split; [|unfold scan_ok, set_thr; cbn; intros ? ? ?; rewrite alter_length; apply Sc].
    destruct (i_thr _ I _ _ X) as (A1 & A2 & A3 & A4); cbn in *.
    apply (inv_thread p i _ (Thr r q k (TFlag t) false) [Finished t] I E X); cbn; try done.
    + unfold okthr; cbn. split; [by intros (? & [|])%A1|]. split; [by intros ?%A2|]. split; [lia|done].
    + by intros (? & _).
    + apply Forall_singleton; right; eauto.
    + intros u [= ->]. left. set_solver.
  - destruct (active p i); [|done]. intros [= <-]. split; [by apply inv_terminate|]. exact Sc.
  - destruct (p_threads p !! i) as [[r q k [|t|t|] h]|] eqn:X; try done. intros [= <-].
    split; [|unfold scan_ok, set_thr; cbn; intros ? ? ?; rewrite alter_length; apply Sc].
    destruct (i_thr _ I _ _ X) as (A1 & A2 & A3 & A4); cbn in *.
    assert (q = []) as -> by (destruct q; [done|]; by discriminate A2).
    pose proof (inv_thread p i _ (Thr false [] k TPop h) [] I E X) as J. rewrite app_nil_r in J. apply J; clear J; cbn; try done.
    + unfold okthr; cbn. split; [by auto|]. split; [done|]. split; [lia|]. by intros (? & ?)%A4.
    + by intros (? & _).
  - destruct (_ && _) eqn:C; [|done]. intros [= <-]. apply andb_true_iff in C as [[C1 C2]%andb_true_iff _].
    rewrite emit_hold. split.
    + apply inv_hold; [done|]. apply inv_destroy; [done..|]. by apply negb_true_iff, bool_decide_eq_false in C2.
    + intros w' t' i. rewrite hold_len. destruct (hold_rest true w (emit (Pool (p_threads p) (p_lock p) (p_pending p) (Some w) (p_events p)) DestroyCalled)) as (-> & _). cbn. apply Sc.
  - destruct (p_lock p) eqn:L; [done|]. destruct (p_destroy p) eqn:D; [|done]. intros [= <-]. split; [|done]. by apply inv_destroylock.
Qed.
Lemma runs_inv ls : forall p p', inv p -> scan_ok p -> runs p ls = Some p' -> inv p' /\ scan_ok p'.
Proof.
  induction ls as [|l ls IH]; intros p p' I Sc H; cbn in H; [by injection H as <-|].
  destruct (step p l) as [q|] eqn:S; [|done]. destruct (step_inv _ _ _ I Sc S). by eapply IH.
Qed.
Lemma runs0_inv ls p : runs pool0 ls = Some p -> inv p /\ scan_ok p.
Proof. apply runs_inv; [apply inv0|done]. Qed.

(** ** The theorems *)
Lemma starts_in es t : t ∈ starts es <-> Started t ∈ es.
Proof.
  unfold starts. rewrite elem_of_list_omap. split.
  - intros (e & H & E). destruct e; inversion E; by subst.
  - intros H. by exists (Started t).
Qed.

Lemma started_once ls p : runs pool0 ls = Some p ->
  NoDup (starts (p_events p)) /\ forall t, Started t ∈ p_events p -> Called t ∈ p_events p.
Proof.
  intros (I & _)%runs0_inv. pose proof (i_le _ I) as L.
  assert (forall t, cnt (starts (p_events p)) t <= called (p_events p) t) as K.
  { intros t. specialize (L t). unfold total in L. lia. }
  split.
  - apply cnt_nodup. intros t. specialize (K t). unfold called in K. destruct (bool_decide _); lia.
  - intros t H%starts_in%cnt_in. specialize (K t). unfold called in K. case_bool_decide; [done|lia].
Qed.

Definition returned (p : pool) : Prop := forall t, Called t ∈ p_events p ->
  Returned t ∈ p_events p \/ t ∈ map snd (p_pending p) \/ t ∈ hold_task (p_lock p).
Lemma step_returned p l p' : returned p -> step p l = Some p' -> returned p'.
Proof.
  intros R. unfold step. destruct (ended p) eqn:E; [done|]. unfold returned in *. destruct l.
  - destruct (_ && _); [|done]. intros [= <-]. rewrite emit_hold. intros u.
    match goal with |- context[hold_caller true w ?q] => destruct (hold_rest true w q) as (-> & -> & _ & ->) end. cbn.
    rewrite !elem_snoc, map_app. intros [H|[= ->]]; [|set_solver]. specialize (R u H). set_solver.
  - destruct (p_lock p) eqn:L; [done|]. destruct (p_pending p !! k) as [[w t]|] eqn:K; [|done]. intros [= <-] u H. cbn in *.
    destruct (R u H) as [?|[X|?]]; [by left| |set_solver]. right.
    apply elem_of_list_fmap in X as ([w' u'] & -> & X). apply elem_of_list_lookup in X as (j & J). cbn.
    destruct (decide (j = k)) as [->|N]; [right; rewrite K in J; injection J as -> ->; set_solver|left].
    apply elem_of_list_fmap. exists (w', u'). split; [done|]. apply elem_of_list_lookup.
    destruct (decide (j < k)) as [Lt|Ge].
    + exists j. by rewrite lookup_delete_lt.
    + exists (j - 1). rewrite lookup_delete_ge by lia. by replace (S (j - 1)) with j by lia.
  - destruct (p_lock p) as [[w t i|w t i|w i|w i]|] eqn:L; [| | | |done]; cbn.
    + destruct (p_threads p !! i) as [x|]; [destruct (t_running x)|]; intros [= <-]; exact R.
    + intros [= <-]. rewrite emit_hold. intros u.
      match goal with |- context[hold_caller false w ?q] => destruct (hold_rest false w q) as (-> & -> & _ & ->) end. cbn.
      rewrite !elem_snoc. intros [H|?]; [|done]. specialize (R u H). set_solver.
    + destruct (p_threads p !! i); intros [= <-]; [exact R|]. intros u. cbn. rewrite !elem_snoc. intros [H|?]; [|done]. specialize (R u H). set_solver.
    + destruct (bool_decide _).
      * intros [= <-] u. cbn. rewrite !elem_snoc, L. intros [H|?]; [|done]. specialize (R u H). set_solver.
      * destruct (p_threads p !! i) as [[r q k [| | |] h]|]; try done. intros [= <-]. exact R.
  - unfold step_pop. destruct (p_threads p !! i) as [[r [|t q] k [| | |] h]|]; try done; try (by destruct k).
    + destruct k; [|done]. intros [= <-]. exact R.
    + intros [= <-] u. cbn. rewrite !elem_snoc. intros [H|?]; [|done]. specialize (R u H). set_solver.
  - destruct (p_threads p !! i) as [[r q k [|t|t|] []]|]; try done. intros [= <-] u. cbn. rewrite !elem_snoc. intros [H|?]; [|done]. specialize (R u H). set_solver.
  - destruct (active p i); [|done]. intros [= <-] u. cbn. rewrite !elem_snoc. intros [H|?]; [|done]. specialize (R u H). set_solver.
  - destruct (p_threads p !! i) as [[r q k [|t|t|] h]|]; try done. intros [= <-]. exact R.
  - destruct (_ && _); [|done]. intros [= <-]. rewrite emit_hold. intros u.
    match goal with |- context[hold_caller true w ?q] => destruct (hold_rest true w q) as (-> & -> & _ & ->) end. cbn.
    rewrite !elem_snoc. intros [H|?]; [|done]. specialize (R u H). set_solver.
  - destruct (p_lock p) eqn:L; [done|]. destruct (p_destroy p) eqn:D; [|done]. intros [= <-]. exact R.
Qed.
Lemma runs_returned ls : forall p p', returned p -> runs p ls = Some p' -> returned p'.
Proof.
  induction ls as [|l ls IH]; intros p p' R H; cbn in H; [by injection H as <-|].
  destruct (step p l) as [q|] eqn:S; [|done]. eapply IH; [|done]. by eapply step_returned.
Qed.

Definition alive (p : pool) : Prop := DestroyCalled ∉ p_events p /\ Terminated ∉ p_events p.
Lemma alive_lock p : inv p -> alive p -> phase p = false.
Proof. intros I (N & _). destruct (phase p) eqn:P; [|done]. destruct N. apply (i_destroy _ I). by right. Qed.
Lemma own_alive p l p' : inv p -> alive p -> own l = true -> step p l = Some p' -> alive p'.
Proof.
  intros I A O. pose proof (alive_lock p I A) as P. unfold step. destruct (ended p); [done|]. unfold alive in *. destruct l; try done.
  - destruct (p_lock p); [done|]. destruct (p_pending p !! k) as [[w t]|]; [|done]. by intros [= <-].
  - destruct (p_lock p) as [[w t i|w t i|w i|w i]|] eqn:L; [| | | |done]; cbn.
    + destruct (p_threads p !! i) as [x|]; [destruct (t_running x)|]; by intros [= <-].
    + intros [= <-]. rewrite emit_hold.
      match goal with |- context[hold_caller false w ?q] => destruct (hold_rest false w q) as (_ & _ & _ & ->) end. cbn. set_solver.
    + unfold phase in P. by rewrite L in P.
    + unfold phase in P. by rewrite L in P.
  - unfold step_pop. destruct (p_threads p !! i) as [[r [|t q] k [| | |] h]|]; try done; try (by destruct k).
    + destruct k; [|done]. by intros [= <-].
    + intros [= <-]. cbn. set_solver.
  - destruct (p_threads p !! i) as [[r q k [|t|t|] h]|]; try done. by intros [= <-].
Qed.
Lemma own_runs_alive ls : forall p p', inv p -> scan_ok p -> alive p -> Forall (fun l => own l = true) ls -> runs p ls = Some p' -> alive p'.
Proof.
  induction ls as [|l ls IH]; intros p p' I Sc A F H; cbn in H; [by injection H as <-|].
  destruct (step p l) as [q|] eqn:S; [|done]. inversion F; subst. destruct (step_inv _ _ _ I Sc S).
  refine (IH q p' _ _ _ _ H); try done. exact (own_alive _ _ _ I A ltac:(done) S).
Qed.

Lemma sum_zero {A} (f : A -> nat) l : Forall (fun x => f x = 0) l -> sum_list_with f l = 0.
Proof. induction 1 as [|x l X F IH]; cbn; [done|]. by rewrite X, IH. Qed.
Lemma quiet_started p : inv p -> returned p -> alive p -> quiet own p ->
  forall t, Called t ∈ p_events p -> Returned t ∈ p_events p /\ Started t ∈ p_events p.
Proof.
  intros I R A Q. pose proof (alive_lock p I A) as P.
  assert (Destroyed ∉ p_events p) as ND.
  { intros D. unfold phase in P. destruct (p_lock p) as [[]|]; try done; by apply bool_decide_eq_false in P. }
  assert (ended p = false) as E.
  { unfold ended. apply orb_false_iff. split; apply bool_decide_eq_false; [done|apply A]. }
  assert (p_lock p = None) as L.
  { specialize (Q LHold eq_refl). unfold step in Q. rewrite E in Q. unfold phase in P.
    destruct (p_lock p) as [[w t i|w t i|w i|w i]|]; try done; cbn in Q.
    destruct (p_threads p !! i) as [x|]; [destruct (t_running x)|]; done. }
  assert (p_pending p = []) as Pe.
  { specialize (Q (LLock 0) eq_refl). unfold step in Q. rewrite E, L in Q. by destruct (p_pending p) as [|[]]. }
  assert (forall i x, p_threads p !! i = Some x -> t_queue x = []) as Qe.
  { intros i x X. specialize (Q (LPop i) eq_refl). unfold step, step_pop in Q. rewrite E, X in Q.
    destruct (i_thr _ I _ _ X) as (_ & A2 & _). destruct x as [r [|t q] k ps h]; [done|]. cbn in A2. by rewrite A2 in Q. }
  assert (forall t, sum_list_with (fun x => cnt (t_queue x) t) (p_threads p) = 0) as S0.
  { intros t. apply sum_zero, Forall_lookup. intros i x X. by rewrite (Qe i x X), cnt_nil. }
  intros t C. split.
  - destruct (R t C) as [|[H|H]]; [done|rewrite Pe in H; set_solver|rewrite L in H; set_solver].
  - apply starts_in, cnt_in. pose proof (i_eq _ I P t) as T. unfold total in T. rewrite S0, L, Pe in T. cbn [map hold_task] in T. rewrite !cnt_nil in T.
    unfold called in T. rewrite bool_decide_eq_true_2 in T by done. lia.
Qed.
Lemma own_ending ls : Forall (fun l => own l = true) ls -> Forall (fun l => ending l = true) ls.
Proof. induction 1 as [|l ls H F IH]; constructor; [|done]. destruct l; cbn in *; auto. Qed.
Lemma no_waiting ls p : runs pool0 ls = Some p -> DestroyCalled ∉ p_events p -> Terminated ∉ p_events p ->
  exists n, forall ls' p', Forall (fun l => own l = true) ls' -> runs p ls' = Some p' ->
  length ls' <= n /\ (quiet own p' -> forall t, Called t ∈ p_events p' -> Returned t ∈ p_events p' /\ Started t ∈ p_events p').
Proof.
  intros H N1 N2. destruct (runs0_inv _ _ H) as (I & Sc). exists (rank p). intros ls' p' F H'. split.
  - apply own_ending in F. pose proof (runs_rank _ _ _ F H'). lia.
  - destruct (runs_inv _ _ _ I Sc H'). apply quiet_started; [done| |].
    + eapply runs_returned; [|exact H']. eapply runs_returned; [|exact H]. intros t; cbn; set_solver.
    + exact (own_runs_alive _ _ _ I Sc (conj N1 N2) F H').
Qed.

(** *** Destruction *)
Lemma events_mono p l p' e : step p l = Some p' -> e ∈ p_events p -> e ∈ p_events p'.
Proof.
  unfold step. destruct (ended p); [done|]. destruct l.
  - destruct (_ && _); [|done]. intros [= <-]. rewrite emit_hold.
    match goal with |- context[hold_caller true w ?q] => destruct (hold_rest true w q) as (_ & _ & _ & ->) end. cbn. set_solver.
  - destruct (p_lock p); [done|]. destruct (p_pending p !! k) as [[w t]|]; [|done]. by intros [= <-].
  - destruct (p_lock p) as [[w t i|w t i|w i|w i]|] eqn:L; [| | | |done]; cbn.
    + destruct (p_threads p !! i) as [x|]; [destruct (t_running x)|]; by intros [= <-].
    + intros [= <-]. rewrite emit_hold.
      match goal with |- context[hold_caller false w ?q] => destruct (hold_rest false w q) as (_ & _ & _ & ->) end. cbn. set_solver.
    + destruct (p_threads p !! i); intros [= <-]; cbn; set_solver.
    + destruct (bool_decide _); [intros [= <-]; cbn; set_solver|].
      destruct (p_threads p !! i) as [[r q k [| | |] h]|]; try done. by intros [= <-].
  - unfold step_pop. destruct (p_threads p !! i) as [[r [|t q] k [| | |] h]|]; try done; try (by destruct k).
    + destruct k; [|done]. by intros [= <-].
    + intros [= <-]. cbn. set_solver.
  - destruct (p_threads p !! i) as [[r q k [|t|t|] []]|]; try done. intros [= <-]. cbn. set_solver.
  - destruct (active p i); [|done]. intros [= <-]. cbn. set_solver.
  - destruct (p_threads p !! i) as [[r q k [|t|t|] h]|]; try done. by intros [= <-].
  - destruct (_ && _); [|done]. intros [= <-]. rewrite emit_hold.
    match goal with |- context[hold_caller true w ?q] => destruct (hold_rest true w q) as (_ & _ & _ & ->) end. cbn. set_solver.
  - destruct (p_lock p) eqn:L; [done|]. destruct (p_destroy p) eqn:D; [|done]. by intros [= <-].
Qed.
Lemma runs_mono ls : forall p p' e, runs p ls = Some p' -> e ∈ p_events p -> e ∈ p_events p'.
Proof.
  induction ls as [|l ls IH]; intros p p' e H E; cbn in H; [by injection H as <-|].
  destruct (step p l) as [q|] eqn:S; [|done]. eapply IH; [done|]. by eapply events_mono.
Qed.
(** Nobody holds m_mut after the end. *)
Definition free_end (p : pool) : Prop := Destroyed ∈ p_events p -> p_lock p = None.
Lemma step_free_end p l p' : step p l = Some p' -> free_end p'.
Proof.
  unfold step. destruct (ended p) eqn:E; [done|]. apply not_destroyed in E. unfold free_end. destruct l.
  - destruct (_ && _); [|done]. intros [= <-]. rewrite emit_hold.
    match goal with |- context[hold_caller true w ?q] => destruct (hold_rest true w q) as (_ & _ & _ & ->) end. cbn. set_solver.
  - destruct (p_lock p); [done|]. destruct (p_pending p !! k) as [[w t]|]; [|done]. by intros [= <-].
  - destruct (p_lock p) as [[w t i|w t i|w i|w i]|] eqn:L; [| | | |done]; cbn.
    + destruct (p_threads p !! i) as [x|]; [destruct (t_running x)|]; by intros [= <-].
    + intros [= <-]. rewrite emit_hold.
      match goal with |- context[hold_caller false w ?q] => destruct (hold_rest false w q) as (_ & _ & _ & ->) end. cbn. set_solver.
    + destruct (p_threads p !! i); intros [= <-]; cbn; set_solver.
    + destruct (bool_decide _); [intros [= <-]; cbn; set_solver|].
      destruct (p_threads p !! i) as [[r q k [| | |] h]|]; try done. by intros [= <-].
  - unfold step_pop. destruct (p_threads p !! i) as [[r [|t q] k [| | |] h]|]; try done; try (by destruct k).
    + destruct k; [|done]. by intros [= <-].
    + intros [= <-]. cbn. set_solver.
  - destruct (p_threads p !! i) as [[r q k [|t|t|] []]|]; try done. intros [= <-]. cbn. set_solver.
  - destruct (active p i); [|done]. intros [= <-]. cbn. set_solver.
  - destruct (p_threads p !! i) as [[r q k [|t|t|] h]|]; try done. by intros [= <-].
  - destruct (_ && _); [|done]. intros [= <-]. rewrite emit_hold.
    match goal with |- context[hold_caller true w ?q] => destruct (hold_rest true w q) as (_ & _ & _ & ->) end. cbn. set_solver.
  - destruct (p_lock p) eqn:L; [done|]. destruct (p_destroy p) eqn:D; [|done]. by intros [= <-].
Qed.
Lemma runs_free_end ls : forall p p', free_end p -> runs p ls = Some p' -> free_end p'.
Proof.
  induction ls as [|l ls IH]; intros p p' R H; cbn in H; [by injection H as <-|].
  destruct (step p l) as [q|] eqn:S; [|done]. eapply IH; [|done]. by eapply step_free_end.
Qed.

Lemma quiet_destroyed p : inv p -> DestroyCalled ∈ p_events p -> Terminated ∉ p_events p ->
  quiet ending p -> ~ some_held p -> Destroyed ∈ p_events p.
Proof.
  intros I D NT Q NH. destruct (decide (Destroyed ∈ p_events p)) as [|ND]; [done|exfalso].
  assert (ended p = false) as E.
  { unfold ended. apply orb_false_iff. split; by apply bool_decide_eq_false. }
  pose proof (Q LHold eq_refl) as QH. unfold step in QH. rewrite E in QH.
  destruct (p_lock p) as [[w t i|w t i|w i|w i]|] eqn:L; cbn in QH.
  - destruct (p_threads p !! i) as [x|]; [destruct (t_running x)|]; done.
  - done.
  - by destruct (p_threads p !! i).
  - destruct (bool_decide _); [done|]. pose proof (i_join _ I _ _ L) as Lt.
    apply lookup_lt_is_Some in Lt as (x & X). rewrite X in QH.
    assert (cleared p i) as C by (unfold cleared; by rewrite L).
    destruct (i_cleared _ I _ _ X C) as (Qx & Wx).
    destruct x as [r q k [|t|t|] h]; cbn in *; subst.
    + specialize (Q (LPop i) eq_refl). unfold step, step_pop in Q. by rewrite E, X in Q.
    + destruct h.
      * destruct NH. apply Exists_exists. exists (Thr r [] true (TRun t) true). split; [|done]. by eapply elem_of_list_lookup_2.
      * specialize (Q (LFinish i) eq_refl). unfold step in Q. by rewrite E, X in Q.
    + specialize (Q (LFlag i) eq_refl). unfold step in Q. by rewrite E, X in Q.
    + done.
  - pose proof (Q LDestroyLock eq_refl) as QD. unfold step in QD. rewrite E, L in QD.
    apply (i_destroy _ I) in D as [D|D]; [by destruct (p_destroy p)|]. unfold phase in D. rewrite L in D. by apply bool_decide_eq_true in D.
Qed.
Lemma destroyed_all p : inv p -> free_end p -> Destroyed ∈ p_events p ->
  Forall (fun x => t_pos x = TEnd) (p_threads p) /\ forall t, Started t ∈ p_events p -> Finished t ∈ p_events p.
Proof.
  intros I F D. pose proof (F D) as L.
  assert (forall i x, p_threads p !! i = Some x -> t_pos x = TEnd) as T.
  { intros i x X. apply (i_joined _ I i); [done|]. unfold joined. by rewrite L. }
  split; [by apply Forall_lookup|]. intros t [|(i & x & X & P)]%(i_started _ I); [done|]. rewrite (T _ _ X) in P. done.
Qed.
Lemma destruction ls p : runs pool0 ls = Some p -> DestroyCalled ∈ p_events p ->
  exists n, forall ls' p', Forall (fun l => ending l = true) ls' -> runs p ls' = Some p' ->
  length ls' <= n /\
  (quiet ending p' -> ~ some_held p' -> Terminated ∉ p_events p' ->
   Destroyed ∈ p_events p' /\ forall t, Started t ∈ p_events p' -> Finished t ∈ p_events p').
Proof.
  intros H D. destruct (runs0_inv _ _ H) as (I & Sc). exists (rank p). intros ls' p' F H'. split.
  - pose proof (runs_rank _ _ _ F H'). lia.
  - destruct (runs_inv _ _ _ I Sc H') as (I' & _). intros Q NH NT.
    assert (Destroyed ∈ p_events p') as Ds by (apply quiet_destroyed; try done; by eapply runs_mono).
    split; [done|]. apply destroyed_all; [done| |done].
    eapply runs_free_end; [|exact H']. eapply runs_free_end; [|exact H]. done.
Qed.

(** *** No task ends the process *)
Definition good (p : pool) : Prop := Terminated ∉ p_events p /\ (forall w, p_destroy p = Some w -> w = None) /\
  match p_lock p with Some (HClear w _) | Some (HJoin w _) => w = None | _ => True end.
Lemma step_good p l p' : harmless l = true -> good p -> step p l = Some p' -> good p'.
Proof.
  intros Hl (G1 & G2 & G3). unfold step. destruct (ended p) eqn:E; [done|]. unfold good. destruct l; try done.
  - destruct (_ && _); [|done]. intros [= <-]. rewrite emit_hold.
    match goal with |- context[hold_caller true w ?q] => destruct (hold_rest true w q) as (-> & _ & -> & ->) end. cbn. split; [set_solver|done].
  - destruct (p_lock p); [done|]. destruct (p_pending p !! k) as [[w t]|]; [|done]. by intros [= <-].
  - destruct (p_lock p) as [[w t i|w t i|w i|w i]|] eqn:L; [| | | |done]; cbn.
    + destruct (p_threads p !! i) as [x|]; [destruct (t_running x)|]; by intros [= <-].
    + intros [= <-]. rewrite emit_hold.
      match goal with |- context[hold_caller false w ?q] => destruct (hold_rest false w q) as (-> & _ & -> & ->) end. cbn. split; [set_solver|done].
    + destruct (p_threads p !! i); intros [= <-]; cbn; [done|]. split; [set_solver|done].
    + rewrite bool_decide_eq_false_2 by (subst; done).
      destruct (p_threads p !! i) as [[r q k [| | |] h]|]; try done. by intros [= <-].
  - unfold step_pop. destruct (p_threads p !! i) as [[r [|t q] k [| | |] h]|]; try done; try (by destruct k).
    + destruct k; [|done]. by intros [= <-].
    + intros [= <-]. cbn. split; [set_solver|done].
  - destruct (p_threads p !! i) as [[r q k [|t|t|] []]|]; try done. intros [= <-]. cbn. split; [set_solver|done].
  - destruct (p_threads p !! i) as [[r q k [|t|t|] h]|]; try done. by intros [= <-].
  - destruct w; [done|]. destruct (_ && _); [|done]. intros [= <-]. cbn. split; [set_solver|]. split; [|done]. by intros w [= <-].
  - destruct (p_lock p) eqn:L; [done|]. destruct (p_destroy p) as [w|] eqn:D; [|done]. intros [= <-]. cbn. split; [done|]. split; [done|]. by apply G2.
Qed.
Lemma not_terminated ls p : Forall (fun l => harmless l = true) ls -> runs pool0 ls = Some p -> Terminated ∉ p_events p.
Proof.
  intros F H. assert (good pool0) as G by (split; [set_solver|done]).
  revert G F H. generalize pool0. induction ls as [|l ls IH]; intros q G F H; cbn in H; [injection H as <-; apply G|].
  destruct (step q l) as [r|] eqn:S; [|done]. inversion F; subst. eapply IH; [|done..]. by eapply step_good.
Qed.

(** *** Threads *)
Lemma calls_app l k : calls (l ++ k) = calls l ++ calls k.
Proof. unfold calls. induction l as [|[] l IH]; cbn; congruence. Qed.
Lemma step_cap p l p' : cap p <= length (calls (p_events p)) -> step p l = Some p' -> cap p' <= length (calls (p_events p')).
Proof.
  intros C. unfold step. destruct (ended p); [done|]. unfold cap in *. destruct l.
  - destruct (_ && _); [|done]. intros [= <-]. rewrite emit_hold, hold_len.
    match goal with |- context[hold_caller true w ?q] => destruct (hold_rest true w q) as (-> & -> & _ & ->) end. cbn -[calls].
    rewrite calls_app, !app_length. cbn. lia.
  - destruct (p_lock p) eqn:L; [done|]. destruct (p_pending p !! k) as [[w t]|] eqn:K; [|done]. intros [= <-]. cbn -[calls] in *.
    pose proof (sum_delete (fun _ => 1) _ _ _ K) as D. rewrite !sum_len in D. lia.
  - destruct (p_lock p) as [[w t i|w t i|w i|w i]|] eqn:L; [| | | |done]; cbn -[calls].
    + destruct (p_threads p !! i) as [x|]; [destruct (t_running x)|]; intros [= <-]; cbn -[calls] in *; rewrite ?alter_length, ?app_length; cbn; lia.
    + intros [= <-]. rewrite emit_hold, hold_len.
      match goal with |- context[hold_caller false w ?q] => destruct (hold_rest false w q) as (-> & -> & _ & ->) end. cbn -[calls] in *.
      rewrite alter_length, calls_app, app_length. cbn. lia.
    + destruct (p_threads p !! i); intros [= <-]; cbn -[calls] in *; rewrite ?alter_length, ?calls_app, ?app_length; cbn; lia.
    + destruct (bool_decide _).
      * intros [= <-]. cbn -[calls]. rewrite L. cbn -[calls] in *. rewrite calls_app, app_length. cbn. lia.
      * destruct (p_threads p !! i) as [[r q k [| | |] h]|]; try done. intros [= <-]. exact C.
  - unfold step_pop. destruct (p_threads p !! i) as [[r [|t q] k [| | |] h]|]; try done; try (by destruct k).
    + destruct k; [|done]. intros [= <-]. cbn -[calls]. by rewrite alter_length.
    + intros [= <-]. cbn -[calls]. rewrite alter_length, calls_app, app_length. cbn. lia.
  - destruct (p_threads p !! i) as [[r q k [|t|t|] []]|]; try done. intros [= <-]. cbn -[calls]. rewrite alter_length, calls_app, app_length. cbn. lia.
  - destruct (active p i); [|done]. intros [= <-]. cbn -[calls]. rewrite calls_app, app_length. cbn. lia.
  - destruct (p_threads p !! i) as [[r q k [|t|t|] h]|]; try done. intros [= <-]. cbn -[calls]. by rewrite alter_length.
  - destruct (_ && _); [|done]. intros [= <-]. rewrite emit_hold, hold_len.
    match goal with |- context[hold_caller true w ?q] => destruct (hold_rest true w q) as (-> & -> & _ & ->) end. cbn -[calls].
    rewrite calls_app, app_length. cbn. lia.
  - destruct (p_lock p) eqn:L; [done|]. destruct (p_destroy p) eqn:D; [|done]. intros [= <-]. cbn -[calls] in *. lia.
Qed.
Lemma threads_bound ls p : runs pool0 ls = Some p -> length (p_threads p) <= length (calls (p_events p)).
Proof.
  intros H. assert (cap p <= length (calls (p_events p))); [|unfold cap in *; lia].
  assert (cap pool0 <= length (calls (p_events pool0))) as G by (cbn; lia).
  revert G H. generalize pool0. induction ls as [|l ls IH]; intros q G H; cbn in H; [injection H as <-; apply G|].
  destruct (step q l) as [r|] eqn:S; [|done]. eapply IH; [|done]. by eapply step_cap.
Qed.

(** A thread that is idle when push looks is found. *)
Definition found (i n : nat) (p : pool) : Prop := length (p_threads p) = n /\
  match p_lock p with
  | Some (HScan _ _ j) => j <= i /\ exists x, p_threads p !! i = Some x /\ t_running x = false
  | _ => True
  end.
Lemma found_alter i n p j f : (forall x, p_threads p !! j = Some x -> t_running x = false -> t_running (f x) = false) ->
  found i n p -> found i n (set_thr p j f).
Proof.
  intros Hf (F1 & F2). split; cbn; [by rewrite alter_length|]. destruct (p_lock p) as [[w t k| | | ]|]; try done.
  destruct F2 as (Le & x & X & R). split; [done|]. destruct (decide (j = i)) as [->|N].
  - exists (f x). rewrite list_lookup_alter, X. split; [done|]. by apply Hf.
  - exists x. by rewrite list_lookup_alter_ne.
Qed.
Lemma found_hold i n p b w : found i n p -> found i n (hold_caller b w p).
Proof. intros F. destruct w; [|done]. by apply found_alter. Qed.
Lemma step_found i n p l p' : no_locks l = true -> found i n p -> step p l = Some p' -> found i n p'.
Proof.
  intros Hl F. unfold step. destruct (ended p); [done|]. destruct l; try done.
  - destruct (_ && _); [|done]. intros [= <-]. rewrite emit_hold. by apply found_hold.
  - destruct (p_lock p) as [[w t j|w t j|w j|w j]|] eqn:L; [| | | |done]; cbn.
    + destruct F as (F1 & F2). rewrite L in F2. destruct F2 as (Le & x & X & R).
      destruct (p_threads p !! j) as [y|] eqn:Y.
      * destruct (t_running y) eqn:Ry; intros [= <-].
        -- split; [done|]. cbn. split; [|by eauto]. assert (i <> j) by congruence. lia.
        -- split; [cbn; by rewrite alter_length|done].
      * apply lookup_ge_None in Y. apply lookup_lt_Some in X. lia.
    + intros [= <-]. rewrite emit_hold. apply found_hold. destruct F as (F1 & _). split; [cbn; by rewrite alter_length|done].
    + destruct F as (F1 & _). destruct (p_threads p !! j); intros [= <-]; (split; [cbn; by rewrite ?alter_length|done]).
    + destruct F as (F1 & _). destruct (bool_decide _).
      * intros [= <-]. split; cbn; [done|]. by rewrite L.
      * destruct (p_threads p !! j) as [[r q k [| | |] h]|]; try done. by intros [= <-].
  - unfold step_pop. destruct (p_threads p !! i0) as [[r [|t q] k [| | |] h]|] eqn:X; try done; try (by destruct k).
    + destruct k; [|done]. intros [= <-]. apply found_alter; [|done]. intros y Y. rewrite X in Y. injection Y as <-. done.
    + intros [= <-]. change (found i n (set_thr p i0 (fun _ => Thr r q (negb (bool_decide (q = []))) (TRun t) h))).
      apply found_alter; [|done]. intros y Y. rewrite X in Y. injection Y as <-. done.
  - destruct (p_threads p !! i0) as [[r q k [|t|t|] []]|] eqn:X; try done. intros [= <-].
    change (found i n (set_thr p i0 (fun _ => Thr r q k (TFlag t) false))).
    apply found_alter; [|done]. intros y Y. rewrite X in Y. injection Y as <-. done.
  - destruct (active p i0); [|done]. by intros [= <-].
  - destruct (p_threads p !! i0) as [[r q k [|t|t|] h]|] eqn:X; try done. intros [= <-]. by apply found_alter.
  - destruct (_ && _); [|done]. intros [= <-]. rewrite emit_hold. by apply found_hold.
Qed.
Lemma reuse p k p1 i x ls p2 : step p (LLock k) = Some p1 -> p_threads p !! i = Some x -> t_running x = false ->
  Forall (fun l => no_locks l = true) ls -> runs p1 ls = Some p2 -> length (p_threads p2) = length (p_threads p).
Proof.
  intros S X R F H. assert (found i (length (p_threads p)) p1) as G.
  { unfold step in S. destruct (ended p); [done|]. destruct (p_lock p); [done|].
    destruct (p_pending p !! k) as [[w t]|]; [|done]. injection S as <-. split; cbn; [done|]. split; [lia|eauto]. }
  clear S X R x. revert p1 G F H. generalize (length (p_threads p)) as n. intros n.
  induction ls as [|l ls IH]; intros p1 G F H; cbn in H; [injection H as <-; apply G|].
  destruct (step p1 l) as [q|] eqn:S; [|done]. inversion F; subst. eapply IH; [|done..]. by eapply step_found.
Qed.

(** A thread that is marked as running has something to do. *)
Definition busy_ok (p : pool) : Prop := phase p = true \/ forall i x, p_threads p !! i = Some x -> t_running x = true ->
  (exists t, t_pos x = TRun t \/ t_pos x = TFlag t) \/ t_queue x <> [] \/ (exists w t, p_lock p = Some (HPut w t i)).
Lemma busy_hold p b w : busy_ok p -> busy_ok (hold_caller b w p).
Proof.
  destruct w as [j|]; [|done]. intros [P|B]; [by left|right]. cbn.
  intros i y (x & X & [(-> & ->)|(_ & ->)])%alter_cases; [|by apply B]. cbn. by apply B.
Qed.
Lemma busy_emit p e : e <> Destroyed -> busy_ok p -> busy_ok (emit p e).
Proof.
  intros N [P|B]; [left|by right]. unfold phase in *; cbn. destruct (p_lock p) as [[]|]; try done;
    apply bool_decide_eq_true; apply bool_decide_eq_true in P; set_solver.
Qed.
(** One thread changes, and nothing else. *)
Lemma busy_thread p i y : busy_ok p ->
  (t_running y = true -> (exists t, t_pos y = TRun t \/ t_pos y = TFlag t) \/ t_queue y <> []) ->
  busy_ok (set_thr p i (fun _ => y)).
Proof.
  intros [P|B] H; [by left|right]. cbn.
  intros j z (x & X & [(-> & ->)|(_ & ->)])%alter_cases R; [|by apply B]. destruct (H R); auto.
Qed.
Lemma step_busy p l p' : inv p -> scan_ok p -> busy_ok p -> step p l = Some p' -> busy_ok p'.
Proof.
  intros I Sc B. unfold step. destruct (ended p) eqn:E; [done|]. destruct l.
  - destruct (_ && _); [|done]. intros [= <-]. rewrite emit_hold. apply busy_hold, busy_emit; [done|].
    destruct B as [P|B]; [by left|by right].
  - destruct (p_lock p) eqn:L; [done|]. destruct (p_pending p !! k) as [[w t]|]; [|done]. intros [= <-].
    destruct B as [P|B]; [left; unfold phase in *; by rewrite L in P|right]. cbn. intros i x X R.
    destruct (B i x X R) as [?|[?|(? & ? & ?)]]; [by auto..|congruence].
  - destruct (p_lock p) as [[w t i|w t i|w i|w i]|] eqn:L; [| | | |done]; cbn.
    + destruct (phase_off p E) as (P1 & _); [by rewrite L|]. destruct B as [P|B]; [congruence|].
      destruct (p_threads p !! i) as [x|] eqn:X; [destruct (t_running x) eqn:Rx|]; intros [= <-]; right; cbn.
      * intros j y Y R. destruct (B j y Y R) as [?|[?|(? & ? & ?)]]; [by auto..|congruence].
      * intros j z (y & Y & [(-> & ->)|(_ & ->)])%alter_cases R; [by eauto|].
        destruct (B j y Y R) as [?|[?|(? & ? & ?)]]; [by auto..|congruence].
      * intros j y [Y|(Le & Y)]%lookup_app_Some R.
        -- destruct (B j y Y R) as [?|[?|(? & ? & ?)]]; [by auto..|congruence].
        -- apply list_lookup_singleton_Some in Y as (Hj & <-). specialize (Sc _ _ _ L). apply lookup_ge_None in X.
           replace j with i by lia. eauto.
    + destruct (phase_off p E) as (P1 & _); [by rewrite L|]. destruct B as [P|B]; [congruence|].
      intros [= <-]. rewrite emit_hold. apply busy_hold, busy_emit; [done|]. right. cbn.
      intros j z (y & Y & [(-> & ->)|(Nj & ->)])%alter_cases R.
      * right. left. cbn. by destruct (t_queue y).
      * destruct (B j y Y R) as [?|[?|(? & ? & ?)]]; [by auto..|congruence].
    + destruct (p_threads p !! i); intros [= <-]; left; [done|]. unfold phase; cbn. apply bool_decide_eq_true. set_solver.
    + destruct (bool_decide _); [intros [= <-]; left; unfold phase; cbn; by rewrite L|].
      destruct (p_threads p !! i) as [[r q k [| | |] h]|]; try done. intros [= <-]. by left.
  - unfold step_pop. destruct (p_threads p !! i) as [[r [|t q] k [| | |] h]|] eqn:X; try done; try (by destruct k).
    + destruct k; [|done]. intros [= <-]. destruct B as [P|B]; [by left|].
      destruct (phase p) eqn:P; [by left|]. assert (~ cleared p i) as C.
      { unfold cleared. unfold phase in P. destruct (p_lock p) as [[]|]; try done; by apply bool_decide_eq_false in P. }
      destruct (i_normal _ I _ _ X C) as (W & _). done.
    + intros [= <-]. apply busy_emit; [done|]. apply busy_thread; [done|]. cbn. eauto.
  - destruct (p_threads p !! i) as [[r q k [|t|t|] []]|]; try done. intros [= <-].
    apply busy_emit; [done|]. apply busy_thread; [done|]. cbn. eauto.
  - destruct (active p i); [|done]. intros [= <-]. by apply busy_emit.
  - destruct (p_threads p !! i) as [[r q k [|t|t|] h]|]; try done. intros [= <-]. by apply busy_thread.
  - destruct (_ && _); [|done]. intros [= <-]. rewrite emit_hold. apply busy_hold, busy_emit; [done|].
    destruct B as [P|B]; [by left|by right].
  - destruct (p_lock p) eqn:L; [done|]. destruct (p_destroy p) eqn:D; [|done]. intros [= <-]. by left.
Qed.
Lemma runs_busy ls p : runs pool0 ls = Some p -> busy_ok p.
Proof.
  assert (busy_ok pool0) as B by (right; done). generalize inv0 as I. assert (scan_ok pool0) as Sc by done.
  revert B Sc. generalize pool0. induction ls as [|l ls IH]; intros q B Sc I H; cbn in H; [by injection H as <-|].
  destruct (step q l) as [r|] eqn:S; [|done]. destruct (step_inv _ _ _ I Sc S) as (I' & Sc').
  exact (IH r (step_busy _ _ _ I Sc B S) Sc' I' H).
Qed.
Lemma idle_marked ls p : runs pool0 ls = Some p -> DestroyCalled ∉ p_events p -> Terminated ∉ p_events p -> quiet own p ->
  forall i x, p_threads p !! i = Some x -> (forall t, t_pos x <> TRun t) -> t_running x = false.
Proof.
  intros H N1 N2 Q i x X NR. destruct (runs0_inv _ _ H) as (I & Sc). pose proof (alive_lock p I (conj N1 N2)) as P.
  destruct (t_running x) eqn:R; [|done]. exfalso.
  assert (ended p = false) as E.
  { unfold ended. apply orb_false_iff. split; apply bool_decide_eq_false; [|done].
    intros D. unfold phase in P. destruct (p_lock p) as [[]|]; try done; by apply bool_decide_eq_false in P. }
  destruct (runs_busy _ _ H) as [P'|B]; [congruence|].
  destruct (B i x X R) as [(t & [T|T])|[Qx|(w & t & L)]].
  - by destruct (NR t).
  - specialize (Q (LFlag i) eq_refl). unfold step in Q. rewrite E, X in Q. destruct x; cbn in *; subst; done.
  - specialize (Q (LPop i) eq_refl). unfold step, step_pop in Q. rewrite E, X in Q.
    destruct (i_thr _ I _ _ X) as (_ & A2 & _). destruct x as [r [|t q] k ps h]; [done|]. cbn in A2. by rewrite A2 in Q.
  - specialize (Q LHold eq_refl). unfold step in Q. by rewrite E, L in Q.
Qed.
