(** Proofs for property C93: get_row. *)
From stdpp Require Import base option list.
From Coq Require Import NArith Lia.
From Verif Require Import Base ParsecShardModel RowModel RowSpec RowProofs.

Section get.
  Context (k : key).
  Notation run ins := (fold_left (get_step k) ins get0).

  (** ** Any broker *)

  Definition gwhy (h : list revent) (n : nat) (c : bcall) : Prop :=
    match c with
    | CBegin => [ECall n CBegin] `sublist_of` h
    | CLock t k' m => k' = k /\ m = Read /\
        exists n0, [EAnswer n0 (ATicket t); ECall n c] `sublist_of` h
    | CCommit t u => u = []
    | CFinish t => True
    | CRollback _ => False
    end.

  Lemma gwhy_grow h g n c : gwhy h n c -> gwhy (h ++ g) n c.
  Proof.
    destruct c; simpl; try done; eauto using sub_grow.
    intros (-> & -> & n0 & H). split_and!; eauto using sub_grow.
  Qed.
  Lemma just_grow h g r : justified k r h -> justified k r (h ++ g).
  Proof.
    destruct r as [|w|e|]; simpl; try done.
    - intros (t & n0 & n1 & H). exists t, n0, n1. by apply sub_grow.
    - intros (n & c & e0 & H & Hc). exists n, c, e0. split; [by apply sub_grow|done].
  Qed.

  Definition rest_of (g : grest) : answer := match g with GResult r | GCommit _ r => r end.

  Record ginv (s : gst) : Prop := {
    gi_why : forall n c b, g_calls s !! n = Some (c, b) -> gwhy (g_hist s) n c;
    gi_calls : forall n c, ECall n c ∈ g_hist s -> exists b, g_calls s !! n = Some (c, b);
    gi_prom : forall r, g_prom s = Some r -> justified k r (g_hist s);
    gi_rest : forall n g, (n, g) ∈ g_rest s -> justified k (rest_of g) (g_hist s);
    gi_done : forall j r, g_hist s !! j = Some (EDone r) -> justified k r (take j (g_hist s));
    gi_res : forall j w, g_hist s !! j = Some (EResult (AValue w)) ->
      justified k (AValue w) (take j (g_hist s))
  }.

  (** More is seen, the calls change only in their flags, the promise and the rest have
      justified values. *)
  Lemma ginv_emit s e l rest prom bg dn st : ginv s ->
    (forall n c, e <> ECall n c) ->
    (forall n c b, l !! n = Some (c, b) -> exists b', g_calls s !! n = Some (c, b')) ->
    (forall n c b, g_calls s !! n = Some (c, b) -> exists b', l !! n = Some (c, b')) ->
    (forall r, prom = Some r -> justified k r (g_hist s ++ [e])) ->
    (forall n g, (n, g) ∈ rest -> justified k (rest_of g) (g_hist s ++ [e])) ->
    (forall r, e = EDone r -> justified k r (g_hist s)) ->
    (forall w, e = EResult (AValue w) -> justified k (AValue w) (g_hist s)) ->
    ginv (Gst l (g_hist s ++ [e]) rest prom bg dn st).
  Proof.
    intros [W C P R D V] He Hl Hl' Hp Hr Hd Hv. constructor; simpl.
    - intros n c b H. destruct (Hl _ _ _ H) as [b' H']. by eapply gwhy_grow, W.
    - intros n c [H|H%elem_of_list_singleton]%elem_of_app; [|by edestruct He].
      destruct (C _ _ H) as [b Hb]. by eapply Hl'.
    - done.
    - done.
    - intros j r [H|[H1 H]]%lookup_app_Some.
      + rewrite take_app_le; [by apply D|]. apply lookup_lt_Some in H. lia.
      + apply list_lookup_singleton_Some in H as [H0 H].
        replace j with (length (g_hist s)) by lia. rewrite take_app. by apply Hd.
    - intros j w [H|[H1 H]]%lookup_app_Some.
      + rewrite take_app_le; [by apply V|]. apply lookup_lt_Some in H. lia.
      + apply list_lookup_singleton_Some in H as [H0 H].
        replace j with (length (g_hist s)) by lia. rewrite take_app. by apply Hv.
  Qed.

  Lemma ginv_one s e : ginv s -> (forall n c, e <> ECall n c) ->
    (forall r, e = EDone r -> justified k r (g_hist s)) ->
    (forall w, e = EResult (AValue w) -> justified k (AValue w) (g_hist s)) ->
    ginv (g_emit s e).
  Proof.
    intros I He Hd Hv. apply ginv_emit; eauto.
    - intros r H. by apply just_grow, (gi_prom s I).
    - intros n g H. by eapply just_grow, (gi_rest s I).
  Qed.
  Lemma ginv_halt s e : ginv s -> (forall n c, e <> ECall n c) ->
    (forall r, e = EDone r -> justified k r (g_hist s)) ->
    (forall w, e = EResult (AValue w) -> justified k (AValue w) (g_hist s)) ->
    ginv (g_halt s e).
  Proof.
    intros I He Hd Hv. apply ginv_emit; eauto.
    - intros r H. by apply just_grow, (gi_prom s I).
    - intros n g H. by eapply just_grow, (gi_rest s I).
  Qed.

  Lemma ginv_call s c : ginv s ->
    gwhy (g_hist s ++ [ECall (length (g_calls s)) c]) (length (g_calls s)) c -> ginv (g_call s c).
  Proof.
    intros [W C P R D V] Hw. constructor; simpl.
    - intros n c' b [H|[Hl H]]%lookup_app_Some; [by eapply gwhy_grow, W|].
      apply list_lookup_singleton_Some in H as [H0 H]. injection H as <- <-.
      by replace n with (length (g_calls s)) by lia.
    - intros n c' [H|H%elem_of_list_singleton]%elem_of_app.
      + destruct (C _ _ H) as [b Hb]. exists b. by apply lookup_app_l_Some.
      + injection H as -> ->. exists false. by rewrite lookup_app_r, Nat.sub_diag.
    - intros r H. by apply just_grow, P.
    - intros n g H. by eapply just_grow, R.
    - intros j r [H|[H1 H]]%lookup_app_Some.
      + rewrite take_app_le; [by apply D|]. apply lookup_lt_Some in H. lia.
      + by apply list_lookup_singleton_Some in H as [_ ?].
    - intros j r [H|[H1 H]]%lookup_app_Some.
      + rewrite take_app_le; [by apply V|]. apply lookup_lt_Some in H. lia.
      + by apply list_lookup_singleton_Some in H as [_ ?].
  Qed.

  Lemma ginv_set s n r rest : ginv s -> rest_of rest = r -> justified k r (g_hist s) ->
    ginv (g_set s n r rest).
  Proof.
    intros I Hr Hj. unfold g_set. case_match; [apply ginv_halt; done|].
    case_match; [apply ginv_halt; done|]. destruct I as [W C P R D V]. constructor; simpl; try done.
    - intros r' [= <-]. done.
    - intros m g [[= -> ->]|Hin]%elem_of_cons; [by rewrite Hr|by eapply R].
  Qed.

  Lemma flags (l : list (bcall * bool)) n c b0 b1 : l !! n = Some (c, b0) ->
    (forall m c' b, <[n := (c, b1)]> l !! m = Some (c', b) -> exists b', l !! m = Some (c', b')) /\
    (forall m c' b, l !! m = Some (c', b) -> exists b', <[n := (c, b1)]> l !! m = Some (c', b')).
  Proof.
    intros Hc. split; intros m c' b H.
    - apply list_lookup_insert_Some in H as [(-> & [= <- <-] & _)|[_ H]]; eauto.
    - destruct (decide (m = n)) as [->|].
      + rewrite Hc in H. injection H as <- <-. exists b1. apply list_lookup_insert.
        by eapply lookup_lt_Some.
      + exists b. by rewrite list_lookup_insert_ne.
  Qed.

  Lemma gstep_inv s i : ginv s -> ginv (get_step k s i).
  Proof.
    intros I. unfold get_step. destruct (g_stop s); [done|]. destruct i as [n a|n b|n|].
    - unfold get_answer. destruct (g_calls s !! n) as [[c b]|] eqn:Hc; [|done].
      pose proof (gi_why s I _ _ _ Hc) as Hw.
      assert (Hf : ginv (g_emit s (EAnswer n a))) by (apply ginv_one; [done..]).
      destruct c as [|t k' m|t u|t|t]; [| | | |done]; destruct a as [t'|w|e|]; try done;
        try (apply ginv_one; [done..]).
      + case_match; [apply ginv_halt; done|]. apply ginv_call; [done|]. simpl.
        split_and!; [done..|]. exists n. apply (sub_snoc [_]). by apply sublist_inserts_l.
      + apply ginv_set; [done..|]. simpl. exists n, CBegin, e. split; [by apply (sub_snoc [_])|].
        by left.
      + destruct Hw as (-> & -> & n0 & Hw). apply ginv_set; [done..|]. simpl.
        exists t, n0, n. by apply (sub_snoc [_; _]).
      + destruct Hw as (-> & -> & n0 & Hw). apply ginv_set; [done..|]. simpl.
        exists n, (CLock t k Read), e. split; [|right; eauto]. apply (sub_snoc [_]).
        by apply sublist_cons_l in Hw as (h1 & h2 & -> & Hw); apply sublist_inserts_l, sublist_cons.
      + by apply ginv_call.
    - unfold get_return. destruct (g_calls s !! n) as [[c [|]]|] eqn:Hc; [done| |done].
      destruct (flags _ n c false true Hc) as [F1 F2].
      assert (I1 : ginv (Gst (<[n := (c, true)]> (g_calls s)) (g_hist s ++ [EReturn n b])
                    (g_rest s) (g_prom s) (match c with CBegin => true | _ => g_begin s end)
                    (g_done s) (g_stop s))).
      { apply ginv_emit; try done.
        - intros r H. by apply just_grow, (gi_prom s I).
        - intros m g H. by eapply just_grow, (gi_rest s I). }
      repeat case_match; try exact I1; first [by apply ginv_halt|by apply ginv_one].
    - unfold get_go. destruct (list_find _ (g_rest s)) as [[i [n' rest]]|] eqn:Hf; [|done].
      apply list_find_Some in Hf as (Hi & Hn & _).
      assert (Hj : justified k (rest_of rest) (g_hist s)).
      { eapply (gi_rest s I). by eapply elem_of_list_lookup_2. }
      assert (I1 : ginv (Gst (g_calls s) (g_hist s) (delete i (g_rest s)) (g_prom s) (g_begin s)
                    (g_done s) (g_stop s))).
      { destruct I as [W C P R D V]. constructor; simpl; try done.
        intros m g H. eapply R. eapply elem_of_submseteq; [exact H|].
        apply sublist_submseteq, sublist_delete. }
      case_match; [by apply ginv_halt|]. destruct rest as [r|t r]; simpl in Hj.
      + apply ginv_one; try done. by intros w [= ->].
      + assert (I2 : ginv (g_emit (Gst (g_calls s) (g_hist s) (delete i (g_rest s)) (g_prom s)
           (g_begin s) false (g_stop s)) (EResult r))).
        { apply ginv_one; try done. by intros w [= ->]. }
        repeat case_match; first [by apply ginv_halt|by apply ginv_call].
    - unfold get_wake. destruct (g_prom s) as [r|] eqn:Hp; [|done]. case_match; [|done].
      apply ginv_emit; try done; eauto.
      + intros r' [= <-]. by apply just_grow, (gi_prom s I).
      + intros m g H'. by eapply just_grow, (gi_rest s I).
      + intros r' [= <-]. by apply (gi_prom s I).
  Qed.

  Lemma grun_inv ins : ginv (run ins).
  Proof.
    induction ins as [|i ins IH] using rev_ind.
    - constructor; simpl; try done.
      + intros [|n] c b H; [|done]. injection H as <- <-. simpl. reflexivity.
      + intros n c H%elem_of_list_singleton. injection H as -> ->. by exists false.
      + by intros n g H%elem_of_nil.
      + intros [|j] r H; done.
      + intros [|j] r H; done.
    - rewrite fold_left_app. by apply gstep_inv.
  Qed.

  Lemma get_returned ins j r : get_row k ins !! j = Some (EDone r) ->
    justified k r (take j (get_row k ins)).
  Proof. apply grun_inv. Qed.
  Lemma get_value ins j w : get_row k ins !! j = Some (EResult (AValue w)) ->
    was_read k w (take j (get_row k ins)).
  Proof. apply (gi_res _ (grun_inv ins)). Qed.
  Lemma get_calls ins n c : ECall n c ∈ get_row k ins ->
    match c with
    | CBegin | CFinish _ => True
    | CLock _ k' m => k' = k /\ m = Read
    | CCommit _ upd => upd = []
    | CRollback _ => False
    end.
  Proof.
    intros H. destruct (gi_calls _ (grun_inv ins) _ _ H) as [b Hb].
    pose proof (gi_why _ (grun_inv ins) _ _ _ Hb) as Hw. destruct c; try done.
    by destruct Hw as (-> & -> & _).
  Qed.

  (** ** A broker that answers during its calls *)

  Lemma sync_snoc ins x : synchronous (ins ++ [x]) -> synchronous ins /\
    forall n b m, IReturn n b ∈ ins -> about x = Some m -> (m < n)%nat.
  Proof.
    intros S. split.
    - intros i j n b m y Hij Hi Hj. eapply S; [done| |]; by apply lookup_app_l_Some.
    - intros n b m [i Hi]%elem_of_list_lookup Hm. eapply (S i (length ins)); [| | |done].
      + by eapply lookup_lt_Some.
      + by apply lookup_app_l_Some.
      + by rewrite lookup_app_r, Nat.sub_diag.
  Qed.

  Record gsync (s : gst) (ins : list rinput) : Prop := {
    gs_flag : forall n c, g_calls s !! n = Some (c, true) -> exists b, IReturn n b ∈ ins;
    gs_begin : g_begin s = true -> exists b, IReturn 0 b ∈ ins;
    gs_done : g_done s = true -> g_begin s = true;
    gs_zero : forall n b, g_calls s !! n = Some (CBegin, b) -> n = O;
    gs_safe : EUndefined ∉ g_hist s
  }.

  Lemma not_in_app (h : list revent) e g : e ∉ h -> e ∉ g -> e ∉ h ++ g.
  Proof. intros H1 H2 [H|H]%elem_of_app; done. Qed.
  Lemma not_in_one (e x : revent) : e <> x -> e ∉ [x].
  Proof. by intros H ->%elem_of_list_singleton. Qed.

  Lemma gsync_emit s ins e : gsync s ins -> e <> EUndefined -> gsync (g_emit s e) ins.
  Proof.
    intros [F B D Z S] H. constructor; simpl; try done.
    apply not_in_app; [done|]. by apply not_in_one.
  Qed.
  Lemma gsync_call s ins c : gsync s ins -> c <> CBegin -> gsync (g_call s c) ins.
  Proof.
    intros [F B D Z S] Hc. constructor; simpl; try done.
    - intros n c' [H|[_ H]]%lookup_app_Some; [by eapply F|].
      by apply list_lookup_singleton_Some in H as [_ [=]].
    - intros n b [H|[_ H]]%lookup_app_Some; [by eapply Z|].
      apply list_lookup_singleton_Some in H as [_ H]. by injection H as -> <-.
    - apply not_in_app; [done|]. by apply not_in_one.
  Qed.
  Lemma gsync_set s ins n r rest : gsync s ins -> g_done s = false -> gsync (g_set s n r rest) ins.
  Proof.
    intros [F B D Z S] Hd. unfold g_set. rewrite Hd. case_match; constructor; simpl; try done.
    apply not_in_app; [done|]. by apply not_in_one.
  Qed.

  Lemma gsync_mono s ins x : gsync s ins -> gsync s (ins ++ [x]).
  Proof.
    intros [F B D Z S]. constructor; try done.
    - intros n c H. destruct (F _ _ H) as [b Hb]. exists b. apply elem_of_app. by left.
    - intros H. destruct (B H) as [b Hb]. exists b. apply elem_of_app. by left.
  Qed.

  Lemma gstep_sync s ins x : gsync s ins ->
    (forall n b m, IReturn n b ∈ ins -> about x = Some m -> (m < n)%nat) ->
    gsync (get_step k s x) (ins ++ [x]).
  Proof.
    intros I Hx. unfold get_step. destruct (g_stop s); [by apply gsync_mono|].
    assert (Hd : forall m, about x = Some m -> g_done s = false).
    { intros m Hm. destruct (g_done s) eqn:E; [|done]. apply (gs_done _ _ I) in E.
      apply (gs_begin _ _ I) in E as [b Hb]. specialize (Hx _ _ _ Hb Hm). lia. }
    destruct x as [n a|n b|n|].
    - specialize (Hd n eq_refl). apply (gsync_mono _ _ (IAnswer n a)) in I.
      unfold get_answer. rewrite Hd.
      assert (I1 : gsync (g_emit s (EAnswer n a)) (ins ++ [IAnswer n a])) by by apply gsync_emit.
      repeat case_match; subst; try exact I; try exact I1;
        first [by apply gsync_call|by apply gsync_set|by apply gsync_emit].
    - specialize (Hd n eq_refl). unfold get_return. rewrite Hd.
      destruct (g_calls s !! n) as [[c [|]]|] eqn:Hc; try by apply gsync_mono.
      assert (I1 : gsync (Gst (<[n := (c, true)]> (g_calls s)) (g_hist s ++ [EReturn n b])
                    (g_rest s) (g_prom s) (match c with CBegin => true | _ => g_begin s end)
                    false (g_stop s)) (ins ++ [IReturn n b])).
      { apply (gsync_mono _ _ (IReturn n b)) in I. destruct I as [F B D Z S]. constructor; simpl.
        - intros m c' H. apply list_lookup_insert_Some in H as [(-> & _)|[_ H]]; [|by eapply F].
          exists b. apply elem_of_app. right. by apply elem_of_list_singleton.
        - destruct c; try done. intros _. rewrite (Z _ _ Hc). exists b. apply elem_of_app. right.
          by apply elem_of_list_singleton.
        - done.
        - intros m b' H. apply list_lookup_insert_Some in H as [(-> & [= -> <-] & _)|[_ H]];
            by eapply Z.
        - apply not_in_app; [done|]. by apply not_in_one. }
      repeat case_match; try exact I1; by apply gsync_emit.
    - pose proof (Hd n eq_refl) as Hd'. unfold get_go. rewrite Hd'.
      assert (I0 : gsync s (ins ++ [IGo n])) by by apply gsync_mono.
      destruct (list_find _ (g_rest s)) as [[i [n' rest]]|]; [|done].
      assert (I1 : gsync (Gst (g_calls s) (g_hist s) (delete i (g_rest s)) (g_prom s) (g_begin s)
                    false (g_stop s)) (ins ++ [IGo n])).
      { destruct I0 as [F B D Z S]. by constructor. }
      destruct rest as [r|t r]; [by apply gsync_emit|].
      destruct (g_calls s !! n) as [[c [|]]|] eqn:Hc.
      + destruct (gs_flag _ _ I _ _ Hc) as [b Hb]. specialize (Hx _ _ _ Hb eq_refl). lia.
      + apply gsync_call; [|done]. by apply gsync_emit.
      + apply gsync_call; [|done]. by apply gsync_emit.
    - apply (gsync_mono _ _ IWake) in I. unfold get_wake. destruct (g_prom s); [|done].
      destruct (g_begin s) eqn:Eb; [|done]. destruct (negb (g_done s)); [|done].
      destruct I as [F B D Z S]. constructor; simpl; try done; [by intros _; apply B|].
      apply not_in_app; [done|]. by apply not_in_one.
  Qed.

  Lemma get_safe ins : synchronous ins -> EUndefined ∉ get_row k ins.
  Proof.
    intros S. apply (gs_safe _ ins). revert S. induction ins as [|x ins IH] using rev_ind.
    - intros _. constructor; simpl; try done.
      + intros [|n] c H; done.
      + intros [|n] b H; done.
      + by apply not_in_one.
    - intros [S Hx]%sync_snoc. rewrite fold_left_app. by apply gstep_sync; [apply IH|].
  Qed.

  (** ** A polite broker *)

  Lemma settled_in n h : settled n h = [] -> forall e, e ∈ h -> settles n e = None.
  Proof.
    intros H e He. destruct (settles n e) as [[]|] eqn:E; [|done]. exfalso.
    assert (tt ∈ settled n h) as X by (apply elem_of_list_omap; eauto).
    rewrite H in X. by apply elem_of_nil in X.
  Qed.
  Lemma new_in h e g n : polite ((h ++ [e]) ++ g) -> settles n e = Some tt ->
    forall e', e' ∈ h -> settles n e' = None.
  Proof. intros P E. apply settled_in. by eapply polite_new. Qed.
  Lemma both h n e e' : polite h -> e ∈ h -> e' ∈ h -> settles n e = Some tt ->
    settles n e' = Some tt -> e = e'.
  Proof.
    intros P [i Hi]%elem_of_list_lookup [j Hj]%elem_of_list_lookup He He'.
    assert (K : forall i j e e', h !! i = Some e -> h !! j = Some e' -> settles n e = Some tt ->
      settles n e' = Some tt -> (i < j)%nat -> False).
    { clear i j e e' Hi Hj He He'. intros i j e e' Hi Hj He He' L.
      rewrite <- (take_drop_middle h j e' Hj) in P.
      change (take j h ++ e' :: drop (S j) h) with (take j h ++ [e'] ++ drop (S j) h) in P.
      rewrite (assoc_L (++)) in P.
      pose proof (new_in _ _ _ _ P He' e) as X. rewrite X in He; [done|].
      apply elem_of_list_lookup. exists i. by rewrite lookup_take. }
    destruct (decide (i = j)) as [->|]; [congruence|].
    destruct (decide (i < j)%nat); exfalso; [eapply (K i j)|eapply (K j i)]; eauto. lia.
  Qed.

  Lemma settles_ans n a : settles n (EAnswer n a) = Some tt.
  Proof. simpl. by rewrite Nat.eqb_refl. Qed.
  Lemma settles_ref n : settles n (EReturn n false) = Some tt.
  Proof. simpl. by rewrite Nat.eqb_refl. Qed.

  Record gpol (s : gst) : Prop := {
    gp_zero : forall n b, g_calls s !! n = Some (CBegin, b) -> n = O;
    gp_lock : forall n t k' m b, g_calls s !! n = Some (CLock t k' m, b) -> n = 1%nat;
    gp_len : (0 < length (g_calls s))%nat;
    gp_more : (1 < length (g_calls s))%nat -> exists t, EAnswer 0 (ATicket t) ∈ g_hist s;
    gp_ans : forall n a, EAnswer n a ∈ g_hist s -> (n < length (g_calls s))%nat;
    gp_rest : forall n t r, (n, GCommit t r) ∈ g_rest s -> (1 < length (g_calls s))%nat;
    gp_prom : is_Some (g_prom s) -> (exists e, EAnswer 0 (AErr e) ∈ g_hist s) \/
      exists a, EAnswer 1 a ∈ g_hist s;
    gp_back : g_stop s = false -> (exists e, EAnswer 0 (AErr e) ∈ g_hist s) \/
      (exists a, EAnswer 1 a ∈ g_hist s) -> is_Some (g_prom s);
    gp_done : g_done s = true -> is_Some (g_prom s) /\ exists r, EDone r ∈ g_hist s;
    gp_ret : forall r, EDone r ∈ g_hist s -> g_done s = true;
    gp_begin : forall b, EReturn 0 b ∈ g_hist s -> g_begin s = true;
    gp_throw : EThrow ∉ g_hist s;
    gp_stop : g_stop s = true -> EUndefined ∈ g_hist s;
    gp_kind1 : forall c b, g_calls s !! 1%nat = Some (c, b) -> exists t, c = CLock t k Read;
    gp_kind0 : forall c b, g_calls s !! O = Some (c, b) -> c = CBegin
  }.

  Lemma in_one (h : list revent) e x : x ∈ h ++ [e] <-> x ∈ h \/ x = e.
  Proof. by rewrite elem_of_app, elem_of_list_singleton. Qed.

  (** Something else than an answer, a return or an exception is seen. *)
  Lemma gpol_emit s e st : gpol s ->
    (forall r, e <> EDone r) -> (forall n b, e <> EReturn n b) -> e <> EThrow ->
    (forall n a, e = EAnswer n a -> (n < length (g_calls s))%nat /\ n <> 1%nat /\
      (n = O -> exists t, a = ATicket t)) ->
    (st = true -> g_stop s = true \/ e = EUndefined) -> (g_stop s = true -> st = true) ->
    gpol (Gst (g_calls s) (g_hist s ++ [e]) (g_rest s) (g_prom s) (g_begin s) (g_done s) st).
  Proof.
    intros [Z K L M A R P B D T G W S K1 K0] Hd Hr Ht Ha Hs Hs'. constructor; simpl; try done.
    - intros Hl. destruct (M Hl) as [t Ht']. exists t. apply in_one. by left.
    - intros n a [H| <-]%in_one; [by eapply A|]. by eapply Ha.
    - intros [[e' H]|[a H]]%P; [left; exists e'|right; exists a]; apply in_one; by left.
    - intros Hst Hx. apply B; [destruct (g_stop s); [by rewrite Hs' in Hst|done]|].
      destruct Hx as [[e' [H| <-]%in_one]|[a [H| <-]%in_one]]; eauto.
      + destruct (Ha _ _ eq_refl) as (_ & _ & X). by destruct (X eq_refl).
      + by destruct (Ha _ _ eq_refl) as (_ & X & _).
    - intros Hx. destruct (D Hx) as [? [r' Hr']]. split; [done|]. exists r'. apply in_one. by left.
    - intros r [H| <-]%in_one; [by eapply T|by edestruct Hd].
    - intros b [H| <-]%in_one; [by eapply G|by edestruct Hr].
    - intros [H| <-]%in_one; done.
    - intros E. apply in_one. destruct (Hs E) as [E'| ->]; [left; by apply S|by right].
  Qed.
  Lemma gpol_ans s n a : gpol s -> (n < length (g_calls s))%nat -> n <> 1%nat ->
    (n = O -> exists t, a = ATicket t) -> gpol (g_emit s (EAnswer n a)).
  Proof. intros I H1 H2 H3. apply gpol_emit; try done; [|by left]. by intros ? ? [= <- <-]. Qed.
  Lemma gpol_res s r : gpol s -> gpol (g_emit s (EResult r)).
  Proof. intros I. apply gpol_emit; try done. by left. Qed.
  Lemma gpol_undef s : gpol s -> gpol (g_halt s EUndefined).
  Proof. intros I. apply gpol_emit; try done. by right. Qed.

  Lemma gpol_call s c : gpol s -> c <> CBegin ->
    (forall t k' m, c = CLock t k' m -> k' = k /\ m = Read /\ length (g_calls s) = 1%nat) ->
    ((forall t k' m, c <> CLock t k' m) -> (1 < length (g_calls s))%nat) ->
    (exists t, EAnswer 0 (ATicket t) ∈ g_hist s) -> gpol (g_call s c).
  Proof.
    intros [Z K L M A R P B D T G W S K1 K0] Hc Hl Ho Hm. constructor; simpl.
    - intros n b [H|[_ H]]%lookup_app_Some; [by eapply Z|].
      apply list_lookup_singleton_Some in H as [_ H]. by injection H as -> <-.
    - intros n t k' m b [H|[H0 H]]%lookup_app_Some; [by eapply K|].
      apply list_lookup_singleton_Some in H as [H1 H]. injection H as -> <-.
      destruct (Hl _ _ _ eq_refl) as (_ & _ & E). lia.
    - rewrite app_length. lia.
    - intros _. destruct Hm as [t Ht]. exists t. apply in_one. by left.
    - rewrite app_length. intros n a [H|H]%in_one; [|done]. apply A in H. lia.
    - rewrite app_length. intros n t r H. apply R in H. lia.
    - intros [[e' H]|[a H]]%P; [left; exists e'|right; exists a]; apply in_one; by left.
    - intros Hst Hx. apply B; [done|].
      destruct Hx as [[e' [H|H]%in_one]|[a [H|H]%in_one]]; try done; eauto.
    - intros Hx. destruct (D Hx) as [? [r' Hr']]. split; [done|]. exists r'. apply in_one. by left.
    - intros r [H|H]%in_one; [by eapply T|done].
    - intros b [H|H]%in_one; [by eapply G|done].
    - intros [H|H]%in_one; done.
    - intros E. apply in_one. left. by apply S.
    - intros c' b [H|[H0 H]]%lookup_app_Some; [by eapply K1|].
      apply list_lookup_singleton_Some in H as [H1 H]. injection H as <- <-.
      destruct c as [|t k' m| | |]; try done.
      + destruct (Hl _ _ _ eq_refl) as (-> & -> & _). by exists t.
      + assert (1 < length (g_calls s))%nat by by apply Ho. lia.
      + assert (1 < length (g_calls s))%nat by by apply Ho. lia.
      + assert (1 < length (g_calls s))%nat by by apply Ho. lia.
    - intros c' b [H|[H0 H]]%lookup_app_Some; [by eapply K0|lia].
  Qed.

  (** The promise is set by the answer of begin or of try_lock. *)
  Lemma gpol_set s n a r rest : gpol s -> polite (g_hist s ++ [EAnswer n a]) ->
    (n < length (g_calls s))%nat -> (n = O /\ (exists e, a = AErr e) \/ n = 1%nat) ->
    (forall t r', rest = GCommit t r' -> (1 < length (g_calls s))%nat) ->
    gpol (g_set (g_emit s (EAnswer n a)) n r rest).
  Proof.
    intros [Z K L M A R P B D T G W S K1 K0] Pl Hn Hk Hr.
    assert (Hnew : forall e', e' ∈ g_hist s -> settles n e' = None).
    { eapply (new_in _ (EAnswer n a) []); [by rewrite app_nil_r|apply settles_ans]. }
    assert (Hp : g_prom s = None).
    { destruct (g_prom s) eqn:E; [|done]. exfalso.
      assert (Hx : forall a', EAnswer n a' ∈ g_hist s -> False).
      { intros a' H. apply Hnew in H. by rewrite settles_ans in H. }
      destruct P as [[e H]|[a' H]]; [done| |].
      - destruct Hk as [[-> _]| ->]; [by eapply Hx|]. destruct (M ltac:(lia)) as [t Ht].
        assert (E0 : EAnswer 0 (AErr e) = EAnswer 0 (ATicket t)); [|done].
        eapply (both (g_hist s) 0); [by eapply polite_prefix|done|done|apply settles_ans..].
      - destruct Hk as [[-> _]| ->]; [|by eapply Hx].
        pose proof (A _ _ H) as H1. destruct (M H1) as [t Ht]. by eapply Hx. }
    assert (Hd : g_done s = false).
    { destruct (g_done s) eqn:E; [|done]. destruct (D eq_refl) as [[x Hx] _]. congruence. }
    unfold g_set. simpl. rewrite Hd, Hp. constructor; simpl; try done.
    - intros Hl. destruct (M Hl) as [t Ht']. exists t. apply in_one. by left.
    - intros m a' [H|[= -> ->]]%in_one; [by eapply A|done].
    - intros m t r' [[= -> <-]|H]%elem_of_cons; [by eapply Hr|by eapply R].
    - intros _. destruct Hk as [[-> [e ->]]| ->]; [left; exists e|right; exists a];
        apply in_one; by right.
    - intros r' [H|H]%in_one; [|done]. rewrite Hd in T. by eapply T.
    - intros b [H|H]%in_one; [by eapply G|done].
    - intros [H|H]%in_one; done.
    - intros E. apply in_one. left. by apply S.
  Qed.

  Lemma ggrows s i : exists g, g_hist (get_step k s i) = g_hist s ++ g.
  Proof.
    assert (S0 : exists g, g_hist s = g_hist s ++ g) by (exists []; by rewrite app_nil_r).
    unfold get_step. destruct (g_stop s); [done|].
    destruct i as [n a|n b|n|]; simpl.
    - unfold get_answer, g_set. repeat case_match; simpl; try done; rewrite <- ?(assoc_L (++)); eauto.
    - unfold get_return. repeat case_match; simpl; try done; rewrite <- ?(assoc_L (++)); eauto.
    - unfold get_go. repeat case_match; simpl; try done; rewrite <- ?(assoc_L (++)); eauto.
    - unfold get_wake. repeat case_match; simpl; try done; eauto.
  Qed.

  Lemma gstep_pol s i : gpol s -> polite (g_hist (get_step k s i)) -> gpol (get_step k s i).
  Proof.
    intros I P. unfold get_step in *. destruct (g_stop s) eqn:Est; [done|].
    destruct i as [n a|n b|n|].
    - unfold get_answer in *. destruct (g_calls s !! n) as [[c b]|] eqn:Hc; [|done].
      assert (Hlt : (n < length (g_calls s))%nat) by by eapply lookup_lt_Some.
      assert (Late : c <> CBegin -> (forall t k' m, c <> CLock t k' m) ->
        n <> 1%nat /\ n <> O /\ (1 < length (g_calls s))%nat).
      { intros C1 C2. assert (n <> 1%nat) as N1.
        { intros ->. destruct (gp_kind1 s I _ _ Hc) as [t ->]. by edestruct C2. }
        assert (n <> O); [|lia]. intros ->. apply C1. by eapply (gp_kind0 s I). }
      assert (Pset : forall r rest, polite (g_hist (g_set (g_emit s (EAnswer n a)) n r rest)) ->
        polite (g_hist s ++ [EAnswer n a])).
      { intros r rest. unfold g_set. repeat case_match; simpl; try done; apply polite_prefix. }
      destruct c as [|t k' m|t u|t|t]; [| | | |done].
      + rewrite (gp_zero s I _ _ Hc) in *. destruct a as [t'|w|e|]; try done.
        * assert (I1 : gpol (g_emit s (EAnswer 0 (ATicket t')))) by (apply gpol_ans; eauto).
          case_match; [by apply gpol_undef|]. simpl in P. apply gpol_call; try done.
          -- intros t k' m [= <- <- <-]. split_and!; [done..|]. simpl.
             pose proof (gp_len s I). destruct (decide (1 < length (g_calls s))%nat) as [H1|]; [|lia].
             destruct (gp_more s I H1) as [t Ht]. exfalso.
             eapply (new_in _ _ _ _ P (settles_ans 0 _)) in Ht. by rewrite settles_ans in Ht.
          -- intros C. by edestruct C.
          -- exists t'. simpl. apply in_one. by right.
        * apply gpol_set; eauto. done.
      + rewrite (gp_lock s I _ _ _ _ _ Hc) in *. destruct a as [t'|w|e|]; try done.
        * apply gpol_set; eauto.
        * apply gpol_set; eauto.
      + destruct Late as (N1 & N0 & L1); [done..|]. destruct a as [t'|w|e|]; try done.
        * apply gpol_res, gpol_ans; try done.
        * assert (I1 : gpol (g_emit s (EAnswer n AOk))) by by apply gpol_ans.
          apply gpol_call; try done. by apply (gp_more _ I1).
      + destruct Late as (N1 & N0 & L1); [done..|]. destruct a as [t'|w|e|]; try done.
        * by apply gpol_res, gpol_ans.
        * by apply gpol_ans.
    - unfold get_return in *. destruct (g_calls s !! n) as [[c [|]]|] eqn:Hc; [done| |done].
      assert (I1 : gpol (Gst (<[n := (c, true)]> (g_calls s)) (g_hist s ++ [EReturn n b])
                    (g_rest s) (g_prom s) (match c with CBegin => true | _ => g_begin s end)
                    (g_done s) (g_stop s))).
      { destruct (flags _ n c false true Hc) as [F1 _].
        destruct I as [Z K L M A R P' B D T G W S K1 K0]. constructor; simpl; rewrite ?insert_length.
        - intros m b' H. destruct (F1 _ _ _ H) as [b2 H2]. by eapply Z.
        - intros m t k' md b' H. destruct (F1 _ _ _ H) as [b2 H2]. by eapply K.
        - done.
        - intros Hl. destruct (M Hl) as [t Ht']. exists t. apply in_one. by left.
        - intros m a [H|H]%in_one; [by eapply A|done].
        - done.
        - intros [[e' H]|[a H]]%P'; [left; exists e'|right; exists a]; apply in_one; by left.
        - intros Hst Hx. apply B; [done|].
          destruct Hx as [[e' [H|H]%in_one]|[a [H|H]%in_one]]; try done; eauto.
        - intros Hx. destruct (D Hx) as [? [r' Hr']]. split; [done|]. exists r'. apply in_one. by left.
        - intros r [H|H]%in_one; [by eapply T|done].
        - intros b' [H|[= <- <-]]%in_one; [destruct c; [done|by eapply G..]|].
          by rewrite (K0 _ _ Hc).
        - intros [H|H]%in_one; done.
        - intros E. apply in_one. left. by apply S.
        - intros c' b' H. destruct (F1 _ _ _ H) as [b2 H2]. by eapply K1.
        - intros c' b' H. destruct (F1 _ _ _ H) as [b2 H2]. by eapply K0. }
      repeat case_match; try exact I1; first [by apply gpol_undef|by apply gpol_res].
    - unfold get_go in *. destruct (list_find _ (g_rest s)) as [[i [n' rest]]|] eqn:Hf; [|done].
      apply list_find_Some in Hf as (Hi & Hn & _).
      assert (I1 : gpol (Gst (g_calls s) (g_hist s) (delete i (g_rest s)) (g_prom s) (g_begin s)
                    (g_done s) (g_stop s))).
      { destruct I as [Z K L M A R P' B D T G W S K1 K0]. constructor; simpl; try done.
        intros m t r H. eapply R. eapply elem_of_submseteq; [exact H|].
        apply sublist_submseteq, sublist_delete. }
      destruct (g_done s) eqn:Ed; [by apply gpol_undef|]. destruct rest as [r|t r].
      + by apply gpol_res.
      + assert (L1 : (1 < length (g_calls s))%nat).
        { eapply (gp_rest s I). by eapply elem_of_list_lookup_2. }
        assert (I2 := gpol_res _ r I1).
        repeat case_match; try (by apply gpol_undef);
          (apply gpol_call; try done; by apply (gp_more _ I2)).
    - unfold get_wake. destruct (g_prom s) as [r|] eqn:Hp; [|done].
      destruct (g_begin s && negb (g_done s)) eqn:Hb; [|done].
      destruct I as [Z K L M A R P' B D T G W S K1 K0]. constructor; simpl; try done.
      + intros Hl. destruct (M Hl) as [t Ht']. exists t. apply in_one. by left.
      + intros m a [H|H]%in_one; [by eapply A|done].
      + rewrite Hp in P'.
        intros [[e' H]|[a H]]%P'; [left; exists e'|right; exists a]; apply in_one; by left.
      + intros _. split; [done|]. exists r. apply in_one. by right.
      + intros [H|H]%in_one; done.
      + intros E. apply in_one. left. by apply S.
  Qed.

  Lemma grun_pol ins : polite (get_row k ins) -> gpol (run ins).
  Proof.
    unfold get_row. induction ins as [|i ins IH] using rev_ind.
    - intros _. constructor; simpl; try done; try lia.
      + intros [|n] b H; done.
      + intros [|n] t k' m b H; done.
      + by intros n a H%elem_of_list_singleton.
      + by intros n a r H%elem_of_nil.
      + by intros [x H].
      + by intros _ [[e H%elem_of_list_singleton]|[a H%elem_of_list_singleton]].
      + by intros r H%elem_of_list_singleton.
      + by intros r H%elem_of_list_singleton.
      + by apply not_in_one.
      + by intros c b [= <- <-].
    - rewrite fold_left_app. simpl. intros P. apply gstep_pol; [|exact P]. apply IH.
      destruct (ggrows (run ins) i) as [g Hg]. rewrite Hg in P. by eapply polite_prefix.
  Qed.

  Lemma get_no_throw ins : polite (get_row k ins) -> EThrow ∉ get_row k ins.
  Proof. intros P. apply (gp_throw _ (grun_pol ins P)). Qed.

  (** If try_lock is refused, get_row never returns. *)
  Lemma get_hangs ins n t r : polite (get_row k ins) ->
    ECall n (CLock t k Read) ∈ get_row k ins -> EReturn n false ∈ get_row k ins ->
    EDone r ∉ get_row k ins.
  Proof.
    intros P Hc Hr Hd. pose proof (grun_pol ins P) as I. pose proof (grun_inv ins) as V.
    destruct (gi_calls _ V _ _ Hc) as [b Hb]. pose proof (gp_lock _ I _ _ _ _ _ Hb) as ->.
    assert (L : (1 < length (g_calls (run ins)))%nat) by by eapply lookup_lt_Some.
    destruct (gp_more _ I L) as [t' Ht]. fold (get_row k ins) in Ht.
    destruct (gp_prom _ I (proj1 (gp_done _ I (gp_ret _ I _ Hd)))) as [[e He]|[a Ha]].
    - assert (EAnswer 0 (AErr e) = EAnswer 0 (ATicket t')); [|done].
      by eapply (both (get_row k ins) 0); try apply settles_ans.
    - assert (EAnswer 1 a = EReturn 1 false); [|done].
      eapply (both (get_row k ins) 1); try done.
  Qed.

  (** When begin has returned and the read has come to an end, get_row returns. *)
  Lemma get_returns ins b n c a : polite (get_row k ins) -> EUndefined ∉ get_row k ins ->
    EReturn 0 b ∈ get_row k ins -> ECall n c ∈ get_row k ins -> EAnswer n a ∈ get_row k ins ->
    (c = CBegin /\ (exists e, a = AErr e) \/ exists t, c = CLock t k Read) ->
    exists r, EDone r ∈ get_row k (ins ++ [IWake]).
  Proof.
    intros P U Hb Hc Ha Hk. pose proof (grun_pol ins P) as I. pose proof (grun_inv ins) as V.
    destruct (gi_calls _ V _ _ Hc) as [b' Hb'].
    assert (Hs : g_stop (run ins) = false).
    { destruct (g_stop (run ins)) eqn:E; [|done]. by apply (gp_stop _ I) in E. }
    assert (Hp : is_Some (g_prom (run ins))).
    { apply (gp_back _ I Hs). destruct Hk as [[-> [e ->]]|[t ->]].
      - left. exists e. by rewrite <- (gp_zero _ I _ _ Hb').
      - right. exists a. by rewrite <- (gp_lock _ I _ _ _ _ _ Hb'). }
    destruct Hp as [r Hr].
    unfold get_row. rewrite fold_left_app. simpl. unfold get_step at 1. rewrite Hs.
    unfold get_wake. rewrite Hr, (gp_begin _ I _ Hb).
    destruct (g_done (run ins)) eqn:Ed; simpl.
    - by apply (gp_done _ I Ed).
    - exists r. apply in_one. by right.
  Qed.
End get.
