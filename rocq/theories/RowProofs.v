(** Proofs for property C93. *)
From stdpp Require Import base option list.
From Coq Require Import NArith Lia.
From Verif Require Import Base ParsecShardModel RowModel RowSpec.

Lemma sub_snoc (l h : list revent) e : l `sublist_of` h -> l ++ [e] `sublist_of` h ++ [e].
Proof. intros H. by apply sublist_app. Qed.
Lemma sub_grow (l h g : list revent) : l `sublist_of` h -> l `sublist_of` h ++ g.
Proof. intros H. by apply sublist_inserts_r. Qed.

(** ** put_row *)

Section put.
  Context (k : key) (v : bytes).
  Notation run ins := (fold_left (put_step k v) ins put0).

  (** Why a call was made. *)
  Definition why (h : list revent) (n : nat) (c : bcall) : Prop :=
    match c with
    | CBegin => True
    | CLock t k' m => k' = k /\ m = Write /\
        exists n0, [EAnswer n0 (ATicket t); ECall n c] `sublist_of` h
    | CCommit t u => u = [(k, v)] /\
        exists n0 n1 w, [EAnswer n0 (ATicket t); ECall n1 (CLock t k Write);
          EAnswer n1 (AValue w); ECall n c] `sublist_of` h
    | CFinish t =>
        exists n0 n1 n2 w, [EAnswer n0 (ATicket t); ECall n1 (CLock t k Write);
          EAnswer n1 (AValue w); ECall n2 (CCommit t [(k, v)]); EAnswer n2 AOk; ECall n c]
          `sublist_of` h
    | CRollback _ => False
    end.

  Lemma why_grow h g n c : why h n c -> why (h ++ g) n c.
  Proof.
    destruct c; simpl; try done.
    - intros (-> & -> & n0 & H). split_and!; eauto using sub_grow.
    - intros (-> & n0 & n1 & w & H). split; eauto 10 using sub_grow.
    - intros (n0 & n1 & n2 & w & H). eauto 10 using sub_grow.
  Qed.

  Definition pinv (s : pst) : Prop :=
    (forall n c b, p_calls s !! n = Some (c, b) -> why (p_hist s) n c) /\
    (forall n c, ECall n c ∈ p_hist s -> exists b, p_calls s !! n = Some (c, b)) /\
    (forall j, p_hist s !! j = Some (EResult AOk) -> stored k v (take j (p_hist s))).

  Lemma stored_grow h g : stored k v h -> stored k v (h ++ g).
  Proof. intros (t & n0 & n1 & n2 & n3 & w & H). exists t, n0, n1, n2, n3, w. by apply sub_grow. Qed.

  Lemma emit_inv s e : pinv s -> (forall n c, e <> ECall n c) ->
    (e = EResult AOk -> stored k v (p_hist s)) -> pinv (p_emit s e).
  Proof.
    intros (A & B & C) Hn Ht. split_and!; simpl.
    - intros n c b H. by apply why_grow, (A _ _ b).
    - intros n c [H|H%elem_of_list_singleton]%elem_of_app; [by apply B|by edestruct Hn].
    - intros j H. apply lookup_app_Some in H as [H|[Hl H]].
      + rewrite take_app_le; [by apply C|]. apply lookup_lt_Some in H. lia.
      + apply list_lookup_singleton_Some in H as [H0 ->].
        replace j with (length (p_hist s)) by lia. rewrite take_app. by apply Ht.
  Qed.

  Lemma call_inv s c : pinv s ->
    why (p_hist s ++ [ECall (length (p_calls s)) c]) (length (p_calls s)) c -> pinv (p_call s c).
  Proof.
    intros (A & B & C) Hw. split_and!; simpl.
    - intros n c' b [H|[Hl H]]%lookup_app_Some; [by apply why_grow, (A _ _ b)|].
      apply list_lookup_singleton_Some in H as [H0 H].
      injection H as <- <-. by replace n with (length (p_calls s)) by lia.
    - intros n c' [H|H%elem_of_list_singleton]%elem_of_app.
      + destruct (B _ _ H) as [b Hb]. exists b. by apply lookup_app_l_Some.
      + injection H as -> ->. exists false. by rewrite lookup_app_r, Nat.sub_diag.
    - intros j [H|[Hl H]]%lookup_app_Some.
      + rewrite take_app_le; [by apply C|]. apply lookup_lt_Some in H. lia.
      + by apply list_lookup_singleton_Some in H as [_ ?].
  Qed.

  Lemma flag_inv s n c b' : pinv s -> p_calls s !! n = Some (c, false) ->
    pinv (Pst (<[n := (c, b')]> (p_calls s)) (p_hist s)).
  Proof.
    intros (A & B & C) Hc. split_and!; simpl; [|intros m c' H|exact C].
    - intros m c' b H. apply list_lookup_insert_Some in H as [(-> & [= <- <-] & _)|[_ H]].
      + by eapply A.
      + by eapply A.
    - destruct (B _ _ H) as [b Hb]. destruct (decide (m = n)) as [->|].
      + rewrite Hc in Hb. injection Hb as <- <-. exists b'. apply list_lookup_insert.
        by eapply lookup_lt_Some.
      + exists b. by rewrite list_lookup_insert_ne.
  Qed.

  Lemma step_inv s i : pinv s -> pinv (put_step k v s i).
  Proof.
    intros I. destruct i as [n a|n b| |]; [| |done..]; simpl.
    - unfold put_answer. destruct (p_calls s !! n) as [[c b]|] eqn:Hc; [|done].
      pose proof (proj1 I _ _ _ Hc) as Hw.
      assert (Hf : pinv (p_emit s (EAnswer n a))) by (apply emit_inv; [done..]).
      destruct c as [|t k' m|t u|t|t]; [| | | |done]; destruct a as [t'|w|e|]; try done;
        try (apply emit_inv; [done..]).
      + apply call_inv; [done|]. simpl. split_and!; [done..|]. exists n.
        apply (sub_snoc [_]).
        apply sublist_inserts_l. done.
      + destruct Hw as (-> & -> & n0 & Hw). apply call_inv; [done|]. simpl. split; [done|].
        exists n0, n, w. apply (sub_snoc [_; _; _]). by apply (sub_snoc [_; _]).
      + destruct Hw as (-> & n0 & n1 & w & Hw). apply call_inv; [done|]. simpl.
        exists n0, n1, n, w. apply (sub_snoc [_; _; _; _; _]). by apply (sub_snoc [_; _; _; _]).
      + apply emit_inv; [done..|]. intros _. simpl.
        destruct Hw as (n0 & n1 & n2 & w & Hw). exists t, n0, n1, n2, n, w.
        by apply (sub_snoc [_; _; _; _; _; _]).
    - unfold put_return. destruct (p_calls s !! n) as [[c [|]]|] eqn:Hc; [done| |done].
      pose proof (flag_inv s n c true I Hc) as I1.
      assert (I2 : pinv (p_emit (Pst (<[n := (c, true)]> (p_calls s)) (p_hist s)) (EReturn n b)))
        by (apply emit_inv; [done..]).
      destruct c; try destruct b; try (apply emit_inv; [exact I2|done..]); exact I2.
  Qed.

  Lemma run_inv ins : pinv (run ins).
  Proof.
    induction ins as [|i ins IH] using rev_ind.
    - split_and!; simpl.
      + intros [|n] c b H; [by injection H as <- <-|done].
      + intros n c H%elem_of_list_singleton. injection H as -> ->. by exists false.
      + intros [|j] H; done.
    - rewrite fold_left_app. by apply step_inv.
  Qed.

  Lemma put_true ins j :
    put_row k v ins !! j = Some (EResult AOk) -> stored k v (take j (put_row k v ins)).
  Proof. apply run_inv. Qed.

  Lemma put_calls ins n c : ECall n c ∈ put_row k v ins ->
    c = CBegin \/ exists n0 t, EAnswer n0 (ATicket t) ∈ put_row k v ins /\
      (c = CLock t k Write \/ c = CCommit t [(k, v)] \/ c = CFinish t).
  Proof.
    intros H. destruct (run_inv ins) as (A & B & _). destruct (B _ _ H) as [b Hb].
    pose proof (A _ _ _ Hb) as Hw.
    assert (Hs : forall e l, e :: l `sublist_of` put_row k v ins -> e ∈ put_row k v ins).
    { intros e l Hl. eapply elem_of_submseteq; [|apply sublist_submseteq, Hl]. left. }
    destruct c; simpl in Hw; [by left| | | |done]; right.
    - destruct Hw as (-> & -> & n0 & Hw). exists n0, t. eauto.
    - destruct Hw as (-> & n0 & n1 & w & Hw). exists n0, t. eauto.
    - destruct Hw as (n0 & n1 & n2 & w & Hw). exists n0, t. eauto.
  Qed.
End put.

(** ** Politeness *)

Lemma settled_app n h g : settled n (h ++ g) = settled n h ++ settled n g.
Proof. apply omap_app. Qed.
Lemma outcomes_app h g : outcomes (h ++ g) = outcomes h ++ outcomes g.
Proof. apply omap_app. Qed.
Lemma results_app h g : results (h ++ g) = results h ++ results g.
Proof. apply omap_app. Qed.

Lemma polite_prefix h g : polite (h ++ g) -> polite h.
Proof. intros H n. specialize (H n). rewrite settled_app, app_length in H. lia. Qed.

(** A call dealt with is not dealt with again. *)
Lemma polite_new h e g n : polite ((h ++ [e]) ++ g) -> settles n e = Some tt -> settled n h = [].
Proof.
  intros H He. pose proof (polite_prefix _ _ H n) as P. rewrite settled_app in P.
  unfold settled at 2 in P. simpl in P. rewrite He in P. rewrite app_length in P. simpl in P.
  destruct (settled n h); [done|simpl in P; lia].
Qed.

Lemma settled_one n e : settled n [e] = match settles n e with Some _ => [tt] | None => [] end.
Proof. unfold settled. simpl. by destruct (settles n e) as [[]|]. Qed.

Section put_polite.
  Context (k : key) (v : bytes).
  Notation run ins := (fold_left (put_step k v) ins put0).

  Record chain (s : pst) : Prop := {
    ch_len : (0 < length (p_calls s))%nat;
    ch_old : forall n, (S n < length (p_calls s))%nat -> settled n (p_hist s) <> [];
    ch_new : forall n, (length (p_calls s) <= n)%nat -> settled n (p_hist s) = [];
    ch_out : (length (outcomes (p_hist s)) <= 1)%nat;
    ch_last : settled (pred (length (p_calls s))) (p_hist s) = [] <-> outcomes (p_hist s) = [];
    ch_begin : forall n c b, p_calls s !! n = Some (c, b) -> c = CBegin -> n = O
  }.

  (** The last call is dealt with, and an outcome reported. *)
  Lemma chain_out s e o l : chain s -> length l = length (p_calls s) ->
    (forall n c b, l !! n = Some (c, b) -> c = CBegin -> n = O) ->
    settles (pred (length (p_calls s))) e = Some tt ->
    (forall n, settles n e = Some tt -> n = pred (length (p_calls s))) ->
    settled (pred (length (p_calls s))) (p_hist s) = [] ->
    outcomes [e] = [] -> (forall n, settles n o = None) -> length (outcomes [o]) = 1%nat ->
    chain (Pst l ((p_hist s ++ [e]) ++ [o])).
  Proof.
    intros [L O N U Z Bg] El Hb He1 He2 Hn Ho Hs1 Hs2.
    assert (Hso : forall n, settled n [o] = []) by (intros n; by rewrite settled_one, Hs1).
    constructor; simpl; rewrite ?El; try done.
    - intros n Hlt. rewrite !settled_app. specialize (O n Hlt). by destruct (settled n (p_hist s)).
    - intros n Hle. rewrite !settled_app, N, Hso, settled_one by done.
      destruct (settles n e) as [[]|] eqn:E; [|done]. apply He2 in E. lia.
    - rewrite !outcomes_app, Ho, app_nil_r, app_length, Hs2. by rewrite (proj1 Z Hn).
    - rewrite !settled_app, !outcomes_app, Ho, app_nil_r, (settled_one _ e), He1.
      split; intros H; destruct (settled _ (p_hist s)), (outcomes (p_hist s)); try done.
      change (outcomes [o] = []) in H. rewrite H in Hs2. done.
  Qed.

  (** The last call is answered, and another made. *)
  Lemma chain_call s e c : chain s ->
    settles (pred (length (p_calls s))) e = Some tt ->
    (forall n, settles n e = Some tt -> n = pred (length (p_calls s))) ->
    settled (pred (length (p_calls s))) (p_hist s) = [] -> outcomes [e] = [] -> c <> CBegin ->
    chain (p_call (p_emit s e) c).
  Proof.
    intros [L O N U Z Bg] He1 He2 Hn Ho Hc.
    constructor; simpl; rewrite ?app_length; simpl.
    - lia.
    - intros n Hlt. rewrite !settled_app. destruct (decide (S n = length (p_calls s))) as [E|].
      + replace (pred (length (p_calls s))) with n in He1 by lia. rewrite (settled_one n e), He1.
        by destruct (settled n (p_hist s)).
      + assert (S n < length (p_calls s))%nat as Hlt' by lia. specialize (O n Hlt').
        by destruct (settled n (p_hist s)).
    - intros n Hle. rewrite !settled_app, N by lia. rewrite (settled_one n e).
      destruct (settles n e) as [[]|] eqn:E; [|done]. apply He2 in E. lia.
    - by rewrite !outcomes_app, Ho, !app_nil_r.
    - rewrite !outcomes_app, Ho, !app_nil_r.
      replace (pred (length (p_calls s) + 1)) with (length (p_calls s)) by lia.
      rewrite !settled_app, N by lia. rewrite (settled_one _ e).
      destruct (settles (length (p_calls s)) e) as [[]|] eqn:E; [apply He2 in E; lia|].
      split; intros _; [by apply Z|done].
    - intros n c' b [H|[Hl H]]%lookup_app_Some Hb; [by eapply Bg|].
      apply list_lookup_singleton_Some in H as [_ H]. by injection H as <- <-.
  Qed.

  Lemma chain_quiet s l e : chain s -> length l = length (p_calls s) ->
    (forall n c b, l !! n = Some (c, b) -> c = CBegin -> n = O) ->
    (forall n, settled n e = []) -> outcomes e = [] -> chain (Pst l (p_hist s ++ e)).
  Proof.
    intros [L O N U Z Bg] El Hb Hs Ho. constructor; simpl; rewrite ?El; try done.
    - intros n Hn. rewrite settled_app, Hs, app_nil_r. by apply O.
    - intros n Hn. rewrite settled_app, Hs, app_nil_r. by apply N.
    - by rewrite outcomes_app, Ho, app_nil_r.
    - by rewrite outcomes_app, Ho, settled_app, Hs, !app_nil_r.
  Qed.

  Lemma step_chain s i : chain s -> polite (p_hist (put_step k v s i)) ->
    chain (put_step k v s i) /\ ((length (outcomes (p_hist s)) = 1)%nat ->
      forall n c, ECall n c ∈ p_hist (put_step k v s i) -> ECall n c ∈ p_hist s).
  Proof.
    intros I P. assert (Same : chain s /\ ((length (outcomes (p_hist s)) = 1)%nat ->
      forall n c, ECall n c ∈ p_hist s -> ECall n c ∈ p_hist s)) by done.
    destruct i as [n a|n b| |]; [| |exact Same..]; simpl in P |- *.
    - unfold put_answer in *. destruct (p_calls s !! n) as [[c b]|] eqn:Hc; [|exact Same].
      assert (Hlt : (n < length (p_calls s))%nat) by by eapply lookup_lt_Some.
      assert (Key : forall g, polite ((p_hist s ++ [EAnswer n a]) ++ g) ->
        n = pred (length (p_calls s)) /\ settled n (p_hist s) = []).
      { intros g Pg. assert (E : settled n (p_hist s) = []).
        { eapply polite_new; [exact Pg|]. simpl. by rewrite Nat.eqb_refl. }
        split; [|done]. destruct (decide (S n < length (p_calls s))%nat) as [H|H]; [|lia].
        by apply (ch_old s I) in H. }
      assert (T1 : settles n (EAnswer n a) = Some tt) by (simpl; by rewrite Nat.eqb_refl).
      assert (T2 : forall m, settles m (EAnswer n a) = Some tt -> m = n).
      { intros m H. simpl in H. destruct (Nat.eqb n m) eqn:E; [|done]. by apply Nat.eqb_eq in E. }
      destruct c as [|t k' m|t u|t|t]; [| | | |exact Same]; destruct a as [t'|w|e|];
        try exact Same; simpl in P; destruct (Key _ P) as [En Es];
        (split; [|intros H1; exfalso; rewrite En in Es; apply (ch_last s I) in Es;
                  rewrite Es in H1; discriminate]);
        first [ apply chain_call; [exact I|by rewrite <- En|by intros ? ->%T2|by rewrite <- En|
                  done|done]
              | apply (chain_out s _ _ (p_calls s)); [exact I|done|exact (ch_begin s I)|
                  by rewrite <- En|by intros ? ->%T2|by rewrite <- En|done|done|done] ].
    - unfold put_return in *. destruct (p_calls s !! n) as [[c [|]]|] eqn:Hc;
        [exact Same| |exact Same].
      assert (Hlt : (n < length (p_calls s))%nat) by by eapply lookup_lt_Some.
      assert (Hb : forall m c' b', <[n := (c, true)]> (p_calls s) !! m = Some (c', b') ->
        c' = CBegin -> m = O).
      { intros m c' b' H He. apply list_lookup_insert_Some in H as [(-> & [= -> <-] & _)|[_ H]];
          by eapply (ch_begin s I). }
      destruct b.
      + assert (Q : forall e, (forall n, settled n e = []) -> outcomes e = [] ->
          (forall m c', ECall m c' ∉ e) ->
          let s' := Pst (<[n := (c, true)]> (p_calls s)) (p_hist s ++ e) in
          chain s' /\ ((length (outcomes (p_hist s)) = 1)%nat ->
            forall n c, ECall n c ∈ p_hist s' -> ECall n c ∈ p_hist s)).
        { intros e H1 H2 H3. split; [apply chain_quiet; [exact I|by rewrite insert_length|done..]|].
          intros _ m c' [H|H]%elem_of_app; [done|by apply H3 in H]. }
        assert (Q1 : forall m c', ECall m c' ∉ [EReturn n true])
          by (intros m c' H%elem_of_list_singleton; done).
        destruct c; try (apply Q; done).
        unfold p_emit. simpl. rewrite <- (assoc_L (++)). apply Q; [done|done|].
        intros m c' H. by apply elem_of_cons in H as [H|H%elem_of_list_singleton].
      + assert (T1 : settles n (EReturn n false) = Some tt) by (simpl; by rewrite Nat.eqb_refl).
        assert (T2 : forall m, settles m (EReturn n false) = Some tt -> m = n).
        { intros m H. simpl in H. destruct (Nat.eqb n m) eqn:E; [|done]. by apply Nat.eqb_eq in E. }
        assert (P' : exists o, polite ((p_hist s ++ [EReturn n false]) ++ [o])).
        { destruct c; eexists; exact P. }
        destruct P' as [o' P'].
        assert (Es : settled n (p_hist s) = []) by by eapply polite_new.
        assert (En : n = pred (length (p_calls s))).
        { destruct (decide (S n < length (p_calls s))%nat) as [H|H]; [|lia].
          by apply (ch_old s I) in H. }
        split; [|intros H1; exfalso; rewrite En in Es; apply (ch_last s I) in Es;
                  rewrite Es in H1; discriminate].
        destruct c; unfold p_emit; simpl;
          (apply chain_out; [exact I|by rewrite insert_length|exact Hb|
                  by rewrite <- En|by intros ? ->%T2|by rewrite <- En|done|done|done]).
  Qed.

  Lemma grows s i : exists g, p_hist (put_step k v s i) = p_hist s ++ g.
  Proof.
    assert (S0 : exists g, p_hist s = p_hist s ++ g) by (exists []; by rewrite app_nil_r).
    destruct i as [n a|n b| |]; simpl; [| |done..].
    - unfold put_answer. repeat case_match; simpl; try done; rewrite <- ?(assoc_L (++)); eauto.
    - unfold put_return. repeat case_match; simpl; try done; rewrite <- ?(assoc_L (++)); eauto.
  Qed.
  Lemma run_grows more : forall s, exists g, p_hist (fold_left (put_step k v) more s) = p_hist s ++ g.
  Proof.
    induction more as [|i more IH]; intros s; simpl; [exists []; by rewrite app_nil_r|].
    destruct (IH (put_step k v s i)) as [g ->], (grows s i) as [g' ->].
    rewrite <- (assoc_L (++)). eauto.
  Qed.

  Lemma run_chain ins : polite (put_row k v ins) -> chain (run ins).
  Proof.
    unfold put_row. induction ins as [|i ins IH] using rev_ind.
    - intros _. constructor; simpl; [lia|lia|by intros|lia|done|].
      intros [|n] c b H; done.
    - rewrite fold_left_app. simpl. intros P. apply step_chain; [|exact P]. apply IH.
      destruct (grows (run ins) i) as [g Hg]. rewrite Hg in P. by eapply polite_prefix.
  Qed.

  Lemma put_once ins : polite (put_row k v ins) -> (length (outcomes (put_row k v ins)) <= 1)%nat.
  Proof. intros P. apply (ch_out _ (run_chain ins P)). Qed.

  Lemma calls_hist ins n : (n < length (p_calls (run ins)))%nat ->
    exists c, ECall n c ∈ put_row k v ins.
  Proof.
    unfold put_row. revert n. induction ins as [|i ins IH] using rev_ind; intros n.
    - simpl. intros H. assert (n = O) as -> by lia. exists CBegin. by left.
    - rewrite fold_left_app. simpl. set (s := run ins) in *. clearbody s.
      intros H. destruct (decide (n < length (p_calls s))%nat) as [L|L].
      { destruct (IH _ L) as [c Hc]. exists c. destruct (grows s i) as [g ->].
        apply elem_of_app. by left. }
      destruct i as [m a|m b| |]; simpl in *; [| |lia..].
      + unfold put_answer in *. repeat case_match; simpl in *; try lia;
          rewrite app_length in H; simpl in H;
          (assert (n = length (p_calls s)) as -> by lia; eexists; apply elem_of_app; right;
           by apply elem_of_list_singleton).
      + unfold put_return in *. repeat case_match; simpl in *; rewrite ?insert_length in H; lia.
  Qed.

  Lemma put_answers ins : polite (put_row k v ins) -> answered (put_row k v ins) ->
    (length (outcomes (put_row k v ins)) = 1)%nat.
  Proof.
    intros P A. pose proof (run_chain ins P) as I.
    assert (H : outcomes (put_row k v ins) <> []).
    { intros E. apply (ch_last _ I) in E. pose proof (ch_len _ I).
      destruct (calls_hist ins (pred (length (p_calls (run ins))))) as [c Hc]; [lia|].
      by apply (A _ _ Hc). }
    pose proof (put_once ins P). destruct (outcomes (put_row k v ins)) as [|? [|]]; simpl in *;
      [done|done|lia].
  Qed.

  Lemma put_quiet ins more n c : polite (put_row k v (ins ++ more)) ->
    outcomes (put_row k v ins) <> [] ->
    ECall n c ∈ put_row k v (ins ++ more) -> ECall n c ∈ put_row k v ins.
  Proof.
    induction more as [|i more IH] using rev_ind; [by rewrite app_nil_r|].
    rewrite (assoc_L (++)). intros P O H.
    assert (Hg : exists g, put_row k v ((ins ++ more) ++ [i]) = put_row k v (ins ++ more) ++ g).
    { unfold put_row. rewrite (fold_left_app _ _ [i]). apply grows. }
    assert (P' : polite (put_row k v (ins ++ more))).
    { destruct Hg as [g Hg]. rewrite Hg in P. by eapply polite_prefix. }
    apply IH; [done..|].
    pose proof (run_chain _ P') as I.
    assert (O' : (length (outcomes (put_row k v (ins ++ more))) = 1)%nat).
    { pose proof (put_once _ P'). destruct (run_grows more (run ins)) as [g E].
      revert H0. unfold put_row. rewrite fold_left_app, E, outcomes_app, app_length.
      unfold put_row in O. destruct (outcomes (p_hist (run ins))); [done|simpl; lia]. }
    revert P H. unfold put_row. rewrite (fold_left_app _ _ [i]). simpl. intros P H.
    by eapply (step_chain _ i).
  Qed.
End put_polite.
