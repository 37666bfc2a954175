(** Proofs about the ticket machine, its clients and the directory. *)
From stdpp Require Import base option list.
From Coq Require Import NArith Lia.
From Verif Require Import Base TicketModel TicketSpec.
Open Scope N_scope.

Lemma submseteq_NoDup (l k : list N) : l ⊆+ k -> NoDup k -> NoDup l.
Proof.
  intros S D. destruct (submseteq_Permutation _ _ S) as [m P].
  rewrite P in D. apply NoDup_app in D. tauto.
Qed.

Lemma numbers_lt r x : x ∈ numbers r -> fst r <= x < snd r.
Proof.
  unfold numbers. rewrite elem_of_list_fmap. intros [i [-> Hi]].
  apply elem_of_list_In, in_seq in Hi. lia.
Qed.

Lemma numbers_nodup r : NoDup (numbers r).
Proof.
  unfold numbers. apply NoDup_fmap_2; [|apply NoDup_ListNoDup, seq_NoDup].
  intros a b E. lia.
Qed.

Lemma pair_up_spec ts cbs a ts' cbs' : pair_up ts cbs = (a, ts', cbs') ->
  ts = given a ++ ts' /\ cbs = answered a ++ cbs' /\ (ts' = [] \/ cbs' = []).
Proof.
  revert cbs a ts' cbs'. induction ts as [|t ts IH]; intros cbs a ts' cbs' H.
  - destruct cbs; cbn in H; injection H as <- <- <-; cbn; auto.
  - destruct cbs as [|b cbs]; cbn in H.
    + injection H as <- <- <-; cbn; auto.
    + destruct (pair_up ts cbs) as [[a1 t1] c1] eqn:E.
      injection H as <- <- <-.
      destruct (IH _ _ _ _ E) as (-> & -> & D). cbn. auto.
Qed.

Definition hand (s : system) : list N := concat (c_tickets <$> sy_clients s).
Definition wait (s : system) : list N := concat (c_callbacks <$> sy_clients s).
Definition flying (s : system) : list N := concat ((fun p => numbers (snd p)) <$> sy_ranges s).

Lemma concat_insert {A} (f : A -> list N) l i c c' : l !! i = Some c ->
  exists r, concat (f <$> l) ≡ₚ f c ++ r /\ concat (f <$> <[i := c']> l) ≡ₚ f c' ++ r.
Proof.
  intros H. exists (concat (f <$> take i l) ++ concat (f <$> drop (S i) l)).
  pose proof (lookup_lt_Some _ _ _ H) as L.
  rewrite <- (take_drop_middle l i c H) at 1.
  rewrite insert_take_drop by done.
  rewrite !fmap_app, !concat_app. cbn.
  split; solve_Permutation.
Qed.

Lemma concat_delete {A} (f : A -> list N) l j x : l !! j = Some x ->
  concat (f <$> l) ≡ₚ f x ++ concat (f <$> delete j l).
Proof.
  intros H. rewrite delete_take_drop.
  rewrite <- (take_drop_middle l j x H) at 1.
  rewrite !fmap_app, !concat_app. cbn. solve_Permutation.
Qed.

Lemma concat_delete_sub {A} (f : A -> list N) l j :
  concat (f <$> delete j l) ⊆+ concat (f <$> l).
Proof.
  destruct (l !! j) eqn:E.
  - rewrite (concat_delete _ _ _ _ E). apply submseteq_inserts_l. done.
  - apply lookup_ge_None in E. rewrite delete_take_drop, (take_ge l), (drop_ge l) by lia.
    rewrite app_nil_r. done.
Qed.

Lemma concat_insert_client0 (f : client -> list N) l i : f client0 = [] ->
  concat (f <$> <[i := client0]> l) ⊆+ concat (f <$> l).
Proof.
  intros F. destruct (l !! i) eqn:E.
  - destruct (concat_insert f _ _ _ client0 E) as (r & P1 & P2).
    rewrite P1, P2, F. cbn. apply submseteq_inserts_l. done.
  - rewrite list_insert_ge; [done|]. apply lookup_ge_None. done.
Qed.

Lemma given_app a b : given (a ++ b) = given a ++ given b.
Proof. unfold given. apply omap_app. Qed.

Lemma answered_app a b : answered (a ++ b) = answered a ++ answered b.
Proof. unfold answered. apply fmap_app. Qed.

Lemma given_failed l : given ((fun b => (b, Failed)) <$> l) = [].
Proof. induction l; cbn; auto. Qed.

Lemma answered_failed l : answered ((fun b => (b, Failed)) <$> l) = l.
Proof. induction l as [|x l IH]; cbn; [done|]. unfold answered in IH. rewrite IH. done. Qed.

(** What an effect does to the numbers in hand and to the waiting calls. *)
Lemma get_numbers c rid ok e : get_ticket_number c rid ok = e ->
  given (ef_answers e) ++ c_tickets (ef_client e) = c_tickets c /\
  answered (ef_answers e) ++ c_callbacks (ef_client e) ⊆+ rid :: c_callbacks c.
Proof.
  intros <-. unfold get_ticket_number.
  destruct (_ && _) eqn:E.
  - cbn. split; [done|]. apply submseteq_cons. done.
  - destruct (c_tickets c) as [|n r] eqn:T; cbn; split; try done.
    rewrite Permutation_app_comm. done.
Qed.

Lemma handle_numbers c r ok e : handle_ticket_numbers c r ok = e ->
  given (ef_answers e) ++ c_tickets (ef_client e) = c_tickets c ++ numbers r /\
  answered (ef_answers e) ++ c_callbacks (ef_client e) = c_callbacks c.
Proof.
  intros <-. unfold handle_ticket_numbers.
  destruct (pair_up _ _) as [[a ts] cbs] eqn:E.
  apply pair_up_spec in E as (E1 & E2 & _).
  destruct cbs; cbn; auto.
Qed.

Definition all_numbers (s : system) : list N := hand s ++ flying s.

Lemma act_numbers R s a s' o : act R s a = (s', o) ->
  given o ++ all_numbers s' ⊆+
  all_numbers s ++ (match a with
                    | AServe j => match sy_requests s !! j with
                                  | Some _ => numbers (sy_next s, add64 (sy_next s) R)
                                  | None => [] end
                    | _ => [] end).
Proof.
  unfold all_numbers, hand, flying.
  destruct a; cbn; intros H.
  - destruct (sy_clients s !! i) as [c|] eqn:E; [|injection H as <- <-; rewrite app_nil_r; done].
    injection H as <- <-. cbn. rewrite app_nil_r.
    destruct (get_numbers c rid ok _ eq_refl) as [G _].
    set (e := get_ticket_number c rid ok) in *.
    destruct (concat_insert c_tickets _ _ _ (ef_client e) E) as (r & P1 & P2).
    rewrite P1, P2, <- G. rewrite <- !app_assoc. done.
  - destruct (sy_requests s !! j) as [i|] eqn:E; [|injection H as <- <-; rewrite app_nil_r; done].
    injection H as <- <-. cbn. rewrite fmap_app, concat_app. cbn.
    rewrite app_nil_r, app_assoc. done.
  - rewrite app_nil_r. destruct (sy_requests s !! j) as [i|] eqn:E; [|injection H as <- <-; done].
    destruct (sy_clients s !! i) as [c|] eqn:E2; injection H as <- <-; cbn; [|done].
    rewrite given_failed. cbn.
    destruct (concat_insert c_tickets _ _ _ (ef_client (handle_error c)) E2) as (r & P1 & P2).
    cbn in P2. rewrite P1, P2. done.
  - rewrite app_nil_r. destruct (sy_requests s !! j) as [i|] eqn:E; injection H as <- <-; cbn; [|done].
    apply submseteq_app; [|done]. apply concat_insert_client0. done.
  - rewrite app_nil_r. destruct (sy_ranges s !! j) as [[i r]|] eqn:E; [|injection H as <- <-; done].
    pose proof (concat_delete (fun p => numbers (snd p)) _ _ _ E) as D. cbn in D.
    destruct (sy_clients s !! i) as [c|] eqn:E2; injection H as <- <-; cbn.
    + destruct (handle_numbers c r ok _ eq_refl) as [G _].
      set (e := handle_ticket_numbers c r ok) in *.
      destruct (concat_insert c_tickets _ _ _ (ef_client e) E2) as (q & P1 & P2).
      rewrite P1, P2, D. rewrite !app_assoc, G. rewrite <- !app_assoc.
      apply submseteq_app; [done|]. rewrite (app_assoc (numbers r) q), (Permutation_app_comm (numbers r) q).
      rewrite <- app_assoc. done.
    + rewrite D. apply submseteq_app; [done|]. apply submseteq_inserts_l. done.
  - injection H as <- <-. cbn. rewrite app_nil_r. done.
  - injection H as <- <-. cbn. rewrite app_nil_r.
    apply submseteq_app; [done|]. apply concat_delete_sub.
  - injection H as <- <-. cbn. rewrite app_nil_r.
    apply submseteq_app; [|done]. apply concat_insert_client0. done.
Qed.

Lemma act_next R s a s' o : act R s a = (s', o) ->
  sy_next s' = (match a with
                | AServe j => match sy_requests s !! j with
                              | Some _ => add64 (sy_next s) R | None => sy_next s end
                | _ => sy_next s end).
Proof.
  destruct a; cbn; intros H;
    repeat (match type of H with context [match ?x with _ => _ end] => destruct x eqn:? end);
    injection H as <- <-; done.
Qed.

Definition is_serve (a : action) : bool := match a with AServe _ => true | _ => false end.

Lemma serves_cons a l : serves (a :: l) = (if is_serve a then 1 else 0) + serves l.
Proof. unfold serves. destruct a; cbn [List.filter is_serve]; try lia. cbn [length]. lia. Qed.


(** [c] is how many numbers have been handed out in ranges; the counter is [c] until
    it wraps. *)
Lemma serve_numbers c R : c + R <= two64 ->
  Forall (fun n => c <= n < c + R) (numbers (c mod two64, add64 (c mod two64) R)).
Proof.
  intros L. apply Forall_forall. intros x Hx. apply numbers_lt in Hx. cbn in Hx.
  destruct (decide (R = 0)) as [->|NR].
  - unfold add64, wrap64 in Hx. rewrite N.add_0_r, N.mod_mod in Hx by done. lia.
  - assert (C : c < two64) by lia.
    rewrite (N.mod_small c) in Hx by done.
    unfold add64, wrap64 in Hx.
    destruct (N.eq_dec (c + R) two64) as [E|NE].
    + rewrite E, N.mod_same in Hx by done. lia.
    + rewrite N.mod_small in Hx by lia. lia.
Qed.

Lemma add64_mod c R : add64 (c mod two64) R = (c + R) mod two64.
Proof. unfold add64, wrap64. rewrite N.add_mod_idemp_l; done. Qed.

Lemma acts_numbers R l : forall s c s' o, acts R s l = (s', o) -> sy_next s = c mod two64 ->
  c + serves l * R <= two64 -> forall old, NoDup (old ++ all_numbers s) ->
  Forall (fun n => n < c) (old ++ all_numbers s) -> NoDup (old ++ given o ++ all_numbers s').
Proof.
  induction l as [|a l IH]; intros s c s' o H Hn Hc old Hd Hf; cbn in H.
  - injection H as <- <-. done.
  - destruct (act R s a) as [s1 o1] eqn:E1.
    destruct (acts R s1 l) as [s2 o2] eqn:E2. injection H as <- <-.
    pose proof (act_numbers _ _ _ _ _ E1) as S.
    pose proof (act_next _ _ _ _ _ E1) as N1.
    rewrite serves_cons in Hc. rewrite given_app, <- app_assoc.
    rewrite (app_assoc old).
    assert (Q : forall k c', given o1 ++ all_numbers s1 ⊆+ all_numbers s ++ k ->
      NoDup (old ++ all_numbers s ++ k) -> Forall (fun n => n < c') (old ++ all_numbers s ++ k) ->
      NoDup ((old ++ given o1) ++ all_numbers s1) /\
      Forall (fun n => n < c') ((old ++ given o1) ++ all_numbers s1)).
    { intros k c' S1 D1 F1. rewrite <- app_assoc.
      assert (S2 : old ++ given o1 ++ all_numbers s1 ⊆+ old ++ all_numbers s ++ k)
        by (apply submseteq_app; done).
      split; [eapply submseteq_NoDup; eauto|].
      rewrite Forall_forall in *. intros x Hx. apply F1. eapply elem_of_submseteq; eauto. }
    assert (K : exists c', sy_next s1 = c' mod two64 /\ c' + serves l * R <= two64 /\
      NoDup ((old ++ given o1) ++ all_numbers s1) /\
      Forall (fun n => n < c') ((old ++ given o1) ++ all_numbers s1)).
    { destruct a as [| j | | | | | |];
        try (exists c; split; [congruence|]; split; [cbn in Hc; lia|];
             apply (Q [] c); rewrite ?app_nil_r in *; auto; fail).
      destruct (sy_requests s !! j).
      - exists (c + R). cbn in Hc.
        split; [rewrite N1, Hn; apply add64_mod|]. split; [lia|].
        rewrite Hn in S.
        assert (SN : Forall (fun n => c <= n < c + R) (numbers (c mod two64, add64 (c mod two64) R)))
          by (apply serve_numbers; lia).
        eapply Q; [apply S| |].
        + rewrite app_assoc. apply NoDup_app. split; [done|]. split; [|apply numbers_nodup].
          intros x X1 X2. rewrite Forall_forall in Hf, SN.
          specialize (Hf x X1). specialize (SN x X2). lia.
        + rewrite app_assoc. apply Forall_app. split.
          * eapply Forall_impl; [apply Hf|]. cbn. lia.
          * eapply Forall_impl; [apply SN|]. cbn. lia.
      - exists c. split; [congruence|]. split; [cbn in Hc; lia|].
        apply (Q [] c); rewrite ?app_nil_r in *; auto. }
    destruct K as (c' & K1 & K2 & K3 & K4).
    eapply IH; eauto.
Qed.

Lemma all_numbers0 n : all_numbers (system0 n) = [].
Proof. unfold all_numbers, hand. cbn. induction n; cbn; auto. Qed.

Lemma numbers_unique R n l s out : acts R (system0 n) l = (s, out) ->
  serves l * R <= two64 -> NoDup (given out).
Proof.
  intros H L.
  assert (D : NoDup ([] ++ given out ++ all_numbers s)).
  { eapply (acts_numbers R l (system0 n) 0); eauto; cbn [app]; rewrite all_numbers0; constructor. }
  cbn in D. apply NoDup_app in D. tauto.
Qed.

(** ** Calls and answers *)

Lemma act_calls R s a s' o : act R s a = (s', o) ->
  answered o ++ wait s' ⊆+ wait s ++ asked [a].
Proof.
  unfold wait. destruct a; cbn; intros H.
  - destruct (sy_clients s !! i) as [c|] eqn:E;
      [|injection H as <- <-; cbn; apply submseteq_inserts_r; done].
    injection H as <- <-. cbn.
    destruct (get_numbers c rid ok _ eq_refl) as [_ G].
    set (e := get_ticket_number c rid ok) in *.
    destruct (concat_insert c_callbacks _ _ _ (ef_client e) E) as (r & P1 & P2).
    rewrite P1, P2, app_assoc. rewrite (Permutation_app_comm _ [rid]).
    apply (submseteq_app _ _ r r G). done.
  - rewrite app_nil_r. destruct (sy_requests s !! j); injection H as <- <-; done.
  - rewrite app_nil_r. destruct (sy_requests s !! j) as [i|] eqn:E; [|injection H as <- <-; done].
    destruct (sy_clients s !! i) as [c|] eqn:E2; injection H as <- <-; cbn; [|done].
    rewrite answered_failed.
    destruct (concat_insert c_callbacks _ _ _ (ef_client (handle_error c)) E2) as (r & P1 & P2).
    cbn in P2. rewrite P1, P2. done.
  - rewrite app_nil_r. destruct (sy_requests s !! j) as [i|] eqn:E; injection H as <- <-; cbn; [|done].
    apply concat_insert_client0. done.
  - rewrite app_nil_r. destruct (sy_ranges s !! j) as [[i r]|] eqn:E; [|injection H as <- <-; done].
    destruct (sy_clients s !! i) as [c|] eqn:E2; injection H as <- <-; cbn; [|done].
    destruct (handle_numbers c r ok _ eq_refl) as [_ G].
    set (e := handle_ticket_numbers c r ok) in *.
    destruct (concat_insert c_callbacks _ _ _ (ef_client e) E2) as (q & P1 & P2).
    rewrite P1, P2, app_assoc, G. done.
  - injection H as <- <-. cbn. rewrite app_nil_r. done.
  - injection H as <- <-. cbn. rewrite app_nil_r. done.
  - injection H as <- <-. cbn. rewrite app_nil_r. apply concat_insert_client0. done.
Qed.

Lemma asked_cons a l : asked (a :: l) = asked [a] ++ asked l.
Proof. destruct a; done. Qed.

Lemma acts_calls R l : forall s s' o, acts R s l = (s', o) ->
  answered o ++ wait s' ⊆+ wait s ++ asked l.
Proof.
  induction l as [|a l IH]; intros s s' o H; cbn in H.
  - injection H as <- <-. cbn. rewrite app_nil_r. done.
  - destruct (act R s a) as [s1 o1] eqn:E1.
    destruct (acts R s1 l) as [s2 o2] eqn:E2. injection H as <- <-.
    rewrite answered_app, asked_cons, <- app_assoc.
    transitivity (answered o1 ++ wait s1 ++ asked l);
      [apply submseteq_app; [done|apply (IH _ _ _ E2)]|].
    rewrite !app_assoc. apply submseteq_app; [|done]. apply (act_calls _ _ _ _ _ E1).
Qed.

Lemma wait0 n : wait (system0 n) = [].
Proof. unfold wait. cbn. induction n; cbn; auto. Qed.

Lemma waiting_sub s i : waiting s i ⊆+ wait s.
Proof.
  unfold waiting, wait. destruct (sy_clients s !! i) as [c|] eqn:E; [|apply submseteq_nil_l].
  destruct (concat_insert c_callbacks _ _ _ c E) as (r & P & _). rewrite P.
  apply submseteq_inserts_r. done.
Qed.

Lemma answered_once R n l s out : acts R (system0 n) l = (s, out) -> NoDup (asked l) ->
  NoDup (answered out) /\ (forall rid, rid ∈ answered out -> rid ∈ asked l) /\
  (forall i rid, rid ∈ waiting s i -> rid ∈ asked l /\ rid ∉ answered out).
Proof.
  intros H D. pose proof (acts_calls _ _ _ _ _ H) as S. rewrite wait0 in S. cbn in S.
  pose proof (submseteq_NoDup _ _ S D) as DD. apply NoDup_app in DD as (D1 & D2 & D3).
  split; [done|]. split.
  - intros rid Hr. eapply elem_of_submseteq; [|apply S]. apply elem_of_app. auto.
  - intros i rid Hr.
    assert (W : rid ∈ wait s) by (eapply elem_of_submseteq; [apply Hr|apply waiting_sub]).
    split.
    + eapply elem_of_submseteq; [|apply S]. apply elem_of_app. auto.
    + intros A. apply (D2 _ A W).
Qed.

(** ** No call waits while its client has numbers in hand *)

Definition idle (c : client) : Prop := c_callbacks c = [] \/ c_tickets c = [].

Lemma act_idle R s a s' o : act R s a = (s', o) ->
  Forall idle (sy_clients s) -> Forall idle (sy_clients s').
Proof.
  intros H F.
  assert (Z : idle client0) by (left; done).
  destruct a; cbn in H;
    repeat (match type of H with context [match ?x with _ => _ end] => destruct x eqn:? end);
    injection H as <- <-; cbn; try done; apply Forall_insert; auto.
  - unfold get_ticket_number. destruct (_ && _) eqn:B.
    + cbn. eapply Forall_lookup_1; [apply F|eassumption].
    + destruct (c_tickets c) eqn:T; cbn; [right; done|].
      assert (I : idle c) by (eapply Forall_lookup_1; [apply F|eassumption]).
      destruct I as [I|I]; [left; done|congruence].
  - left. done.
  - unfold handle_ticket_numbers. destruct (pair_up _ _) as [[a ts] cbs] eqn:E.
    apply pair_up_spec in E as (_ & _ & [->| ->]); [|left; done].
    destruct cbs; [left|right]; done.
Qed.

Lemma acts_idle R l : forall s s' o, acts R s l = (s', o) ->
  Forall idle (sy_clients s) -> Forall idle (sy_clients s').
Proof.
  induction l as [|a l IH]; intros s s' o H F; cbn in H.
  - injection H as <- <-. done.
  - destruct (act R s a) as [s1 o1] eqn:E1.
    destruct (acts R s1 l) as [s2 o2] eqn:E2. injection H as <- <-.
    eapply IH; eauto. eapply act_idle; eauto.
Qed.

Lemma no_needless_wait R n l s out i : acts R (system0 n) l = (s, out) ->
  waiting s i <> [] -> in_hand s i = [].
Proof.
  intros H W.
  assert (F : Forall idle (sy_clients s)).
  { eapply acts_idle; eauto. cbn. apply Forall_replicate. left. done. }
  unfold waiting, in_hand in *. destruct (sy_clients s !! i) eqn:E; [|done].
  assert (I : idle c) by (eapply Forall_lookup_1; [apply F|eassumption]).
  destruct I; congruence.
Qed.

(** ** The directory *)

Lemma location_below sip n key : n <> 0 ->
  exists i, key_location sip n key = Some i /\ i < n.
Proof.
  intros Hn. unfold key_location. rewrite (proj2 (N.eqb_neq _ _) Hn).
  exists (sip key mod n). split; [done|]. apply N.mod_lt. done.
Qed.

(** ** A delivered range serves the waiting calls, oldest first *)

Lemma delivery R s j ok s' o i r : act R s (ADeliver j ok) = (s', o) ->
  sy_ranges s !! j = Some (i, r) -> answered o ++ waiting s' i = waiting s i.
Proof.
  intros H E. unfold waiting. cbn in H. rewrite E in H.
  destruct (sy_clients s !! i) as [c|] eqn:E2; injection H as <- <-; cbn.
  - rewrite list_lookup_insert by (eapply lookup_lt_Some; eauto).
    destruct (handle_numbers c r ok _ eq_refl) as [_ G]. done.
  - rewrite E2. done.
Qed.

Lemma delivery_enough R s j ok s' o i r : act R s (ADeliver j ok) = (s', o) ->
  sy_ranges s !! j = Some (i, r) ->
  N.of_nat (length (waiting s i)) <= snd r - fst r -> waiting s' i = [].
Proof.
  intros H E. unfold waiting. cbn in H. rewrite E in H.
  destruct (sy_clients s !! i) as [c|] eqn:E2; injection H as <- <-; cbn; [|rewrite E2; done].
  rewrite list_lookup_insert by (eapply lookup_lt_Some; eauto).
  unfold handle_ticket_numbers. destruct (pair_up _ _) as [[a ts] cbs] eqn:P. intros L.
  apply pair_up_spec in P as (P1 & P2 & [->| ->]); [|done].
  destruct cbs as [|b cbs]; [done|]. exfalso.
  apply (f_equal length) in P1, P2. rewrite !app_length in P1, P2. cbn in P1, P2.
  assert (length (given a) <= length (answered a))%nat.
  { unfold given, answered. clear. induction a as [|[x []] a IH]; cbn; lia. }
  assert (length (numbers r) = N.to_nat (snd r - fst r)) as LN
    by (unfold numbers; rewrite fmap_length, seq_length; done).
  rewrite app_nil_r in P1. lia.
Qed.

(** * Without losses, waiting calls are served *)
Definition client_due (s : system) (i : nat) (c : client) : Prop :=
  (c_callbacks c <> [] -> c_fetching c = true) /\ (c_fetching c = true -> on_its_way s i).
Definition due (s : system) : Prop := forall i c, sy_clients s !! i = Some c -> client_due s i c.

Lemma elem_delete_ne {A} (l : list A) j x y : l !! j = Some x -> y <> x -> y ∈ l -> y ∈ delete j l.
Proof.
  intros L N E. rewrite <- (take_drop_middle l j x L) in E. rewrite delete_take_drop.
  rewrite !elem_of_app, elem_of_cons in *. tauto.
Qed.

Lemma act_due R s a s' o : due s -> reliable a = true -> act R s a = (s', o) -> due s'.
Proof.
  intros D RL E.
  destruct a as [i rid ok|j|j|j|j ok|j|j|i]; cbn in RL, E; try discriminate RL; subst.
  - destruct (sy_clients s !! i) as [c|] eqn:C; [|now injection E as <- _].
    unfold apply_effect in E. injection E as <- _. destruct (D i c C) as [D1 D2].
    assert (W : forall k, on_its_way s k -> on_its_way (System (sy_next s) (<[i:=ef_client (get_ticket_number c rid true)]> (sy_clients s))
      (sy_requests s ++ (if ef_request (get_ticket_number c rid true) then [i] else [])) (sy_ranges s)) k).
    { intros k [H|H]; [left|now right]. cbn. apply elem_of_app. now left. }
    intros k c' L. cbn in L. apply list_lookup_insert_Some in L as [(<- & <- & L)|(NE & L)].
    + unfold get_ticket_number in *. rewrite andb_false_r in *. cbn in *.
      destruct (c_fetching c) eqn:F; cbn in *.
      * rewrite andb_false_r in *. destruct (c_tickets c); cbn in *; (split; [done|]; intros _; apply W, D2; reflexivity).
      * rewrite !andb_true_r in *. destruct (length (c_tickets c) <? 500)%nat eqn:T; cbn in *.
        -- destruct (c_tickets c); cbn in *; rewrite ?T in *; (split; [done|]); intros _; left; cbn; rewrite ?T;
             apply elem_of_app; right; now apply elem_of_list_singleton.
        -- destruct (c_tickets c); cbn in *; [discriminate T|]. rewrite ?T. split; [exact D1|]. done.
    + destruct (D k c' L) as [K1 K2]. split; [exact K1|]. intros F. apply W, K2, F.
  - destruct (sy_requests s !! j) as [i|] eqn:Q; [|now injection E as <- _]. injection E as <- _.
    intros k c L. destruct (D k c L) as [K1 K2]. split; [exact K1|]. intros F.
    destruct (decide (k = i)) as [->|NE].
    + right. cbn. rewrite fmap_app. apply elem_of_app. right. now apply elem_of_list_singleton.
    + destruct (K2 F) as [H|H].
      * left. cbn. apply (elem_delete_ne _ j i); [done|congruence|done].
      * right. cbn. rewrite fmap_app. apply elem_of_app. now left.
  - destruct (sy_requests s !! j) as [i|] eqn:Q; [|now injection E as <- _].
    destruct (sy_clients s !! i) as [c|] eqn:C; unfold apply_effect in E; injection E as <- _.
    + intros k c' L. cbn in L. apply list_lookup_insert_Some in L as [(<- & <- & L)|(NE & L)]; [done|].
      destruct (D k c' L) as [K1 K2]. split; [exact K1|]. intros F.
      destruct (K2 F) as [H|H]; [left|now right]. cbn. rewrite app_nil_r. apply (elem_delete_ne _ j i); [done|congruence|done].
    + intros k c' L. cbn in L. destruct (D k c' L) as [K1 K2]. split; [exact K1|]. intros F.
      destruct (K2 F) as [H|H]; [left|now right]. cbn. apply (elem_delete_ne _ j i); [done|congruence|done].
  - destruct (sy_requests s !! j) as [i|] eqn:Q; [|now injection E as <- _]. injection E as <- _.
    intros k c' L. cbn in L. apply list_lookup_insert_Some in L as [(<- & <- & L)|(NE & L)]; [done|].
    destruct (D k c' L) as [K1 K2]. split; [exact K1|]. intros F.
    destruct (K2 F) as [H|H]; [left|now right]. cbn. apply (elem_delete_ne _ j i); [done|congruence|done].
  - destruct (sy_ranges s !! j) as [[i r]|] eqn:Q; [|now injection E as <- _].
    assert (DEL : forall k, k <> i -> k ∈ (sy_ranges s).*1 -> k ∈ (delete j (sy_ranges s)).*1).
    { intros k NE H. apply elem_of_list_fmap in H as ([k' r'] & -> & H). cbn in NE. apply elem_of_list_fmap.
      exists (k', r'). split; [done|]. apply (elem_delete_ne _ j (i, r)); [done|congruence|done]. }
    destruct (sy_clients s !! i) as [c|] eqn:C; [|injection E as <- _].
    + unfold apply_effect in E. injection E as <- _. destruct (D i c C) as [D1 D2].
      intros k c' L. cbn in L. apply list_lookup_insert_Some in L as [(<- & <- & L)|(NE & L)].
      * unfold handle_ticket_numbers. destruct (pair_up _ _) as [[a ts] cbs] eqn:P.
        destruct (pair_up_spec _ _ _ _ _ P) as (P1 & P2 & P3).
        destruct cbs as [|b cbs]; cbn; [done|]. rewrite andb_true_r. split.
        -- intros _. apply D1. intros X. rewrite X in P. destruct (c_tickets c ++ numbers r); discriminate P.
        -- intros _. left. cbn. apply elem_of_app. right. now apply elem_of_list_singleton.
      * destruct (D k c' L) as [K1 K2]. split; [exact K1|]. intros F.
        destruct (K2 F) as [H|H]; [left|right; cbn; apply DEL; [congruence|done]]. cbn. apply elem_of_app. now left.
    + intros k c' L. cbn in L. destruct (D k c' L) as [K1 K2]. split; [exact K1|]. intros F.
      destruct (K2 F) as [H|H]; [now left|right]. cbn. apply DEL; [congruence|done].
  - injection E as <- _. intros k c' L. cbn in L.
    apply list_lookup_insert_Some in L as [(<- & <- & L)|(NE & L)]; [done|exact (D k c' L)].
Qed.

Lemma acts_due R l : forall s s' o, due s -> Forall (fun a => reliable a = true) l ->
  acts R s l = (s', o) -> due s'.
Proof.
  induction l as [|a l IH]; intros s s' o D F E; cbn in E; [now injection E as <- _|].
  apply Forall_cons in F as [F1 F2]. destruct (act R s a) as [s1 o1] eqn:A.
  destruct (acts R s1 l) as [s2 o2] eqn:B. injection E as <- _.
  exact (IH s1 s2 o2 (act_due R s a s1 o1 D F1 A) F2 B).
Qed.

Lemma waiting_served R n l s out i : acts R (system0 n) l = (s, out) ->
  Forall (fun a => reliable a = true) l -> waiting s i <> [] -> on_its_way s i.
Proof.
  intros E F W. assert (D : due s).
  { eapply acts_due; [|exact F|exact E]. intros k c L. cbn in L. apply lookup_replicate in L as [-> _]. done. }
  unfold waiting in W. destruct (sy_clients s !! i) as [c|] eqn:C; [|done].
  destruct (D i c C) as [D1 D2]. auto.
Qed.
