(** What the theorems about agents and their servers follow from. *)
From stdpp Require Import base option list gmap fin_maps.
From Coq Require Import NArith Lia.
From Verif Require Import Base ParsecShardModel BrokerModel AgentModel AgentSpec AgentProofs AgentServer AgentLocks AgentLife AgentServe.
Open Scope N_scope.

Section Facts.
Context (fn : bytes) (ilt : lock_type) (ro lua : bool).
Notation payload u := (if ro then ∅ else u : updates).
Notation atrace l := (a_tr (arun fn ilt ro l)).
Notation strace l := (a_tr (v_ag (srun fn ilt ro lua l))).

Lemma past_in tr i e : past tr i e -> i ∈ tr.
Proof. intros [l ->]. apply elem_of_app. right. apply elem_of_list_here. Qed.

(** ** One agent *)

Lemma one_ticket l o q t e : past (atrace l) (Out (OReq o q)) e -> names q = Some t ->
  assigned e t /\
  forall o' q' t', Out (OReq o' q') ∈ atrace l -> names q' = Some t' -> t' = t.
Proof.
  intros Hp Hn. destruct (run_inv fn ilt ro l) as [HC _]. split.
  - by apply (good_past ro _ _ _ (c_good _ _ HC)) in Hp as [Hp _]; auto.
  - intros o' q' t' Hi' Hn'. apply past_in in Hp.
    pose proof (c_one _ _ HC _ _ _ Hp Hn). pose proof (c_one _ _ HC _ _ _ Hi' Hn'). congruence.
Qed.

Lemma commits_what_ran l o t u e : past (atrace l) (Out (OReq o (QaCommit t u))) e ->
  exists u0, computed e u0 /\ u = payload u0.
Proof.
  intros Hp. destruct (run_inv fn ilt ro l) as [HC _].
  apply (good_past ro _ _ _ (c_good _ _ HC)) in Hp as (_ & Hp & _). by eapply Hp.
Qed.

Lemma in_past (tr : list item) i : i ∈ tr -> exists e, past tr i e.
Proof. intros (l1 & l2 & ->)%elem_of_list_split. by exists l2, l1. Qed.

Lemma read_only l o q : ro = true -> Out (OReq o q) ∈ atrace l -> writes_nothing q.
Proof.
  intros Hro [e Hp]%in_past. destruct (run_inv fn ilt ro l) as [HC _].
  apply (good_past ro _ _ _ (c_good _ _ HC)) in Hp as (_ & _ & Hp). by apply Hp.
Qed.

Lemma success_needs_commit l u e : past (atrace l) (Out (OReport (Done u))) e ->
  exists t c t' u', asked e c (QaCommit t (payload u)) /\ commit_ok e t' u' /\ finish_ok e t.
Proof.
  intros Hp. destruct (run_inv fn ilt ro l) as [HC _].
  exact (good_past ro _ _ _ (c_good _ _ HC) Hp).
Qed.

Lemma agent_survives l d e : past (atrace l) (Out (ODie d)) e ->
  (d = NoTicket /\ upkeep_failed e) \/ (d = AssertFails /\ exists e', e = In EvExec :: e').
Proof.
  intros Hp. destruct (run_inv fn ilt ro l) as [HC _].
  apply (good_past ro _ _ _ (c_good _ _ HC)) in Hp. cbn in Hp. destruct d; auto.
  done. done. done.
Qed.

(** ** Locks of the runner *)

Lemma lock_asked l run v t k m ch : asked (atrace l) run (QaRun v) -> (ro = true -> m = Read) ->
  a_dead (arun fn ilt ro l) = false -> a_st (arun fn ilt ro l) = AStarted ->
  a_tk (arun fn ilt ro l) = Some t -> a_wound (arun fn ilt ro l) = false ->
  exists id, a_tr (astep fn ilt ro (arun fn ilt ro l) (EvLock run k m, Later :: ch)) =
    Out (OReq (Some id) (QaLock (Runner run) t k m)) :: In (EvLock run k m) :: atrace l.
Proof.
  intros Ha Hro Hd Hs Ht Hw. destruct (run_inv fn ilt ro l) as [HC _].
  apply (c_made _ _ HC) in Ha. unfold astep. rewrite Hd. cbn [fst snd fits]. rewrite Ha.
  cbn [dispatch]. unfold take_lock. cbn [a_tk a_st a_wound a_locks emit with_ch]. rewrite Ht, Hs, Hw.
  assert (Hm : ro && bool_decide (m = Write) = false).
  { destruct ro; [|done]. by rewrite Hro. }
  rewrite Hm. assert ((if ro then Read else m) = m) as -> by (destruct ro; [by rewrite Hro|done]).
  destruct (a_locks (arun fn ilt ro l) !! k) as [[]|]; cbn; by eexists.
Qed.

Lemma lock_answered l id run t k m r ch : asked (atrace l) id (QaLock (Runner run) t k m) ->
  fits (arun fn ilt ro l) (EvAnswer id r) = true ->
  a_dead (arun fn ilt ro l) = false -> a_st (arun fn ilt ro l) = AStarted ->
  a_tr (astep fn ilt ro (arun fn ilt ro l) (EvAnswer id r, ch)) =
    Out (OLock run r) :: In (EvAnswer id r) :: atrace l.
Proof.
  intros Ha Hf Hd Hs. destruct (run_inv fn ilt ro l) as [HC _].
  apply (c_made _ _ HC) in Ha. unfold astep. rewrite Hd. cbn [fst snd]. rewrite Hf.
  cbn [dispatch]. cbn [a_made emit with_ch]. rewrite Ha.
  unfold handle_lock. cbn [a_st emit with_ch]. rewrite Hs. by destruct (is_wounded r).
Qed.

(** ** A server *)

Lemma sound_good l : once (strace l) -> good2 ro (strace l).
Proof. intros [(_ & H & _)|(_ & H & _)]%srun_sound; [apply H|done]. Qed.

Lemma told_done l u e : once (strace l) -> past (strace l) (Out (OReport (Done u))) e ->
  exists t, commit_ok e t (payload u) /\ finish_ok e t.
Proof. intros Ho Hp. apply (good2_past ro _ _ _ (sound_good l Ho)) in Hp as [Hp _]. by apply Hp. Qed.

Lemma after_commit l o q e : once (strace l) -> past (strace l) (Out (OReq o q)) e ->
  committed e -> is_finish q.
Proof. intros Ho Hp. apply (good2_past ro _ _ _ (sound_good l Ho)) in Hp as [Hp _]. exact Hp. Qed.

Lemma after_commit_told l r e : once (strace l) -> past (strace l) (Out (OReport r)) e ->
  committed e -> (exists u, r = Done u) \/ r = Fail XFinish \/ r = Fail XUnreachable.
Proof. intros Ho Hp. apply (good2_past ro _ _ _ (sound_good l Ho)) in Hp as (_ & Hp & _). exact Hp. Qed.

Lemma commit_of_last_run l o t u e : once (strace l) -> past (strace l) (Out (OReq o (QaCommit t u))) e ->
  exists u0, fresh_run e u0 /\ u = payload u0.
Proof. intros Ho Hp. apply (good2_past ro _ _ _ (sound_good l Ho)) in Hp as (_ & Hp). by eapply Hp. Qed.

Lemma failure_undone l x e : once (strace l) -> past (strace l) (Out (OReport (Fail x))) e ->
  x = XRetrieval \/ x = XExecution \/ x = XCommit -> undone e /\ ~ committed e.
Proof.
  intros Ho Hp Hx. pose proof (good2_past ro _ _ _ (sound_good l Ho) Hp) as (_ & H1 & H2). split.
  - apply H2. by destruct Hx as [-> |[-> | ->]]; auto.
  - intros Hc. destruct (H1 Hc) as [[u Hu]|[Hu|Hu]]; [done|..]; injection Hu as ->;
      destruct Hx as [?|[?|?]]; done.
Qed.

Lemma one_answer l : once (strace l) -> (length (told (v_ag (srun fn ilt ro lua l))) <= 1)%nat.
Proof.
  intros [(_ & H & _)|(_ & _ & H)]%srun_sound; [|done].
  destruct (l_counts _ _ _ H) as [_ ->]. destruct (final _); lia.
Qed.

Lemma server_survives l d e : once (strace l) -> past (strace l) (Out (ODie d)) e ->
  ((d = NoTicket \/ d = Unfinished) /\ upkeep_failed e) \/
  (d = Freed /\ exists r, Out (OReport r) ∈ e /\ is_retry r = false).
Proof.
  intros Ho Hp. apply (good2_past ro _ _ _ (sound_good l Ho)) in Hp. cbn in Hp.
  destruct d; try done; auto.
Qed.

Lemma pend_some c tr : pend c tr <> 0%nat -> exists id t k m, (id, QaLock (Reacq c) t k m) ∈ pending tr.
Proof.
  unfold pend. intros H.
  destruct (filter (fun p : N * areq => of_count c p.2 = true) (pending tr)) as [|[id q] l] eqn:E; [done|].
  assert (Hin : (id, q) ∈ filter (fun p : N * areq => of_count c p.2 = true) (pending tr))
    by (rewrite E; apply elem_of_list_here).
  apply elem_of_list_filter in Hin as [Hc Hin]. destruct q as [| |[c'|run] t k m| | | |]; try done.
  cbn in Hc. apply N.eqb_eq in Hc. subst c'. by exists id, t, k, m.
Qed.

Lemma drv_in tr id q : drv tr = [(id, q)] -> (id, q) ∈ pending tr.
Proof.
  intros E. assert (H : (id, q) ∈ drv tr) by (rewrite E; apply elem_of_list_here).
  by apply elem_of_list_filter in H as [_ H].
Qed.

Lemma never_stuck l : once (strace l) ->
  let v := srun fn ilt ro lua l in
  a_dead (v_ag v) = false ->
  a_st (v_ag v) = AInit \/
  (exists id q, (id, q) ∈ pending (strace l) /\ awaits (a_st (v_ag v)) q) \/
  (v_retried v < retries (v_ag v))%nat \/
  told (v_ag v) <> [].
Proof.
  intros Ho v Hd. destruct (srun_sound fn ilt ro lua l Ho) as [(Hi & H & _)|(H & _ & _)]; [|subst v; congruence].
  fold v in Hi, H. pose proof (l_shape _ _ _ H) as Hs. destruct (l_counts _ _ _ H) as [Hc1 Hc2].
  assert (Hdr : forall id q, drv (a_tr (v_ag v)) = [(id, q)] ->
    exists id q, (id, q) ∈ pending (strace l) /\ awaits (a_st (v_ag v)) q).
  { intros id q E. exists id, q. split; [by apply drv_in|by apply (drv_awaits ro _ id)]. }
  unfold shape in Hs. destruct (a_st (v_ag v)) eqn:E; try done; auto.
  - destruct Hs as [(id & Hs) _]. right. left. by eapply Hdr.
  - destruct Hs as [(id & t & m & Hs) _]. right. left. by eapply Hdr.
  - destruct Hs as [(id & w & Hs & _)|(_ & c & n & size & w & _ & _ & H1 & H2 & _)].
    + right. left. by eapply Hdr.
    + right. left. destruct (pend_some c (a_tr (v_ag v))) as (id & t & k & m & Hin); [lia|].
      exists id, (QaLock (Reacq c) t k m). done.
  - destruct Hs as [(id & t & u & Hs & _) _]. right. left. by eapply Hdr.
  - destruct Hs as [(id & t & Hs) _]. right. left. by eapply Hdr.
  - right. right. right. intros Et. by rewrite Et in Hc2.
  - right. right. right. intros Et. by rewrite Et in Hc2.
  - destruct Hs as [(id & t & Hs & _) _]. right. left. by eapply Hdr.
  - right. right. right. intros Et. by rewrite Et in Hc2.
  - right. right. left. rewrite Hc1. rewrite bool_decide_eq_true_2 by done. lia.
Qed.

(** The server's agent is an agent. *)
Lemma server_is_agent l : exists l' extra, strace l = extra ++ atrace l' /\
  forall o, Out o ∈ extra -> exists d, o = ODie d.
Proof.
  unfold srun. assert (H : forall v, (exists l' extra, (a_dead (v_ag v) = false -> extra = [] /\ v_ag v = arun fn ilt ro l') /\
      a_tr (v_ag v) = extra ++ atrace l' /\
      (forall o, Out o ∈ extra -> exists d, o = ODie d)) ->
    exists l' extra, a_tr (v_ag (foldl (sstep fn ilt ro lua) v l)) = extra ++ atrace l' /\
      (forall o, Out o ∈ extra -> exists d, o = ODie d)).
  { induction l as [|e l IH]; intros v (l' & x & H1 & H2 & H3); [by exists l', x|].
    cbn [foldl]. apply IH.
    assert (Hst : forall p, a_dead (v_ag v) = false ->
      exists l'0 extra, (a_dead (astep fn ilt ro (v_ag v) p) = false -> extra = [] /\ astep fn ilt ro (v_ag v) p = arun fn ilt ro l'0) /\
      a_tr (astep fn ilt ro (v_ag v) p) = extra ++ atrace l'0 /\
      (forall o, Out o ∈ extra -> exists d, o = ODie d)).
    { intros p Hd. destruct (H1 Hd) as [-> E]. exists (l' ++ [p]), [].
      assert (Ep : astep fn ilt ro (v_ag v) p = arun fn ilt ro (l' ++ [p])).
      { unfold arun. rewrite foldl_app. cbn. by rewrite E. }
      rewrite Ep. split; [done|]. split; [done|]. intros o Ho. by apply elem_of_nil in Ho. }
    assert (Hkeep : exists l'0 extra, (a_dead (v_ag v) = false -> extra = [] /\ v_ag v = arun fn ilt ro l'0) /\
      a_tr (v_ag v) = extra ++ atrace l'0 /\
      (forall o, Out o ∈ extra -> exists d, o = ODie d)) by (by exists l', x).
    unfold sstep. destruct (a_dead (v_ag v)) eqn:Hd; [rewrite Hd; exact Hkeep|].
    destruct (H1 eq_refl) as [-> E].
    destruct e as [ch|ch| |e ch].
    - destruct (a_st (v_ag v)); try (rewrite Hd; exact Hkeep). by apply Hst.
    - destruct (v_retried v <? _)%nat; [|rewrite Hd; exact Hkeep].
      destruct (v_gone v); [|by apply Hst].
      exists l', [Out (ODie AssertFails)]. split; [done|]. cbn. split; [by rewrite H2|].
      intros o Ho. apply elem_of_list_singleton in Ho. injection Ho as ->. by eexists.
    - destruct (v_cleaned v <? _)%nat; [|rewrite Hd; exact Hkeep].
      destruct (v_gone v); [cbn [v_ag]; rewrite Hd; exact Hkeep|].
      destruct (bool_decide _); [cbn [v_ag]; rewrite Hd; exact Hkeep|].
      exists l', [Out (ODie Unfinished)]. split; [done|]. cbn. split; [by rewrite H2|].
      intros o Ho. apply elem_of_list_singleton in Ho. injection Ho as ->. by eexists.
    - assert (Hgen : exists l'0 extra, (a_dead (v_ag (if fits (v_ag v) e then
              if v_gone v then set_agent v (die (emit (v_ag v) (In e)) Freed)
              else set_agent v (astep fn ilt ro (v_ag v) (e, ch)) else v)) = false -> extra = [] /\
            v_ag (if fits (v_ag v) e then
              if v_gone v then set_agent v (die (emit (v_ag v) (In e)) Freed)
              else set_agent v (astep fn ilt ro (v_ag v) (e, ch)) else v) = arun fn ilt ro l'0) /\
            a_tr (v_ag (if fits (v_ag v) e then
              if v_gone v then set_agent v (die (emit (v_ag v) (In e)) Freed)
              else set_agent v (astep fn ilt ro (v_ag v) (e, ch)) else v)) = extra ++ atrace l'0 /\
            (forall o, Out o ∈ extra -> exists d, o = ODie d)).
      { destruct (fits (v_ag v) e); [|rewrite Hd; exact Hkeep]. destruct (v_gone v); [|by apply Hst].
        exists l', [Out (ODie Freed); In e]. split; [done|]. cbn. split; [by rewrite H2|].
        intros o Ho. apply elem_of_cons in Ho as [Ho|Ho]; [injection Ho as ->; by eexists|].
        by apply elem_of_list_singleton in Ho. }
      destruct e; [rewrite Hd; exact Hkeep|exact Hgen..]. }
  apply H. exists [], []. split; [done|]. split; [done|]. intros o Ho. by apply elem_of_nil in Ho.
Qed.

End Facts.

(** ** The EVM server keeps the agents of failed requests *)

Lemma evm_gone fn ilt ro l : v_gone (srun fn ilt ro false l) = true ->
  exists u, Done u ∈ told (v_ag (srun fn ilt ro false l)).
Proof.
  assert (Htold : forall a b, grows a b -> forall r, r ∈ told a -> r ∈ told b).
  { intros a b [x E] r. unfold told. rewrite !elem_of_list_filter. intros [H1 H2]. split; [done|].
    unfold reports in *. rewrite E, omap_app. apply elem_of_app. by right. }
  unfold srun. assert (H : forall v, (v_gone v = true -> exists u, Done u ∈ told (v_ag v)) ->
    v_gone (foldl (sstep fn ilt ro false) v l) = true ->
    exists u, Done u ∈ told (v_ag (foldl (sstep fn ilt ro false) v l))).
  { induction l as [|e l IH]; intros v Hv; [done|]. cbn [foldl]. apply IH. intros Hg.
    assert (Hcase : v_gone v = true \/ exists u, Done u ∈ told (v_ag v)).
    { revert Hg. unfold sstep. destruct (a_dead (v_ag v)); [by left|]. destruct e as [ch|ch| |e ch].
      - destruct (a_st (v_ag v)); by left.
      - destruct (v_retried v <? _)%nat; [|by left]. destruct (v_gone v) eqn:Eg; [by left|cbn; intros ?; congruence].
      - destruct (v_cleaned v <? _)%nat eqn:Hc; [|by left]. intros _. right.
        apply Nat.ltb_lt in Hc. unfold releases in Hc.
        destruct (filter _ (told (v_ag v))) as [|r rest] eqn:Ef; [cbn in Hc; lia|].
        assert (Hr : r ∈ filter (fun r : ares => match r with Done _ => true | Fail _ => false end = true) (told (v_ag v))).
        { rewrite Ef. apply elem_of_list_here. }
        apply elem_of_list_filter in Hr as [Hr1 Hr2]. destruct r as [u|]; [|done]. by exists u.
      - destruct e; try (by left); destruct (fits _ _); try (by left);
          (destruct (v_gone v) eqn:Eg; [by left|cbn; intros ?; congruence]). }
    assert (Hd : exists u, Done u ∈ told (v_ag v)) by (destruct Hcase; auto).
    destruct Hd as [u Hu]. exists u. eapply Htold; [apply sstep_grows|done]. }
  by apply H.
Qed.

Lemma evm_leak fn ilt ro l x : once (a_tr (v_ag (srun fn ilt ro false l))) ->
  Fail x ∈ told (v_ag (srun fn ilt ro false l)) -> v_gone (srun fn ilt ro false l) = false.
Proof.
  intros Ho Hx. destruct (v_gone (srun fn ilt ro false l)) eqn:Hg; [|done].
  apply evm_gone in Hg as [u Hu]. pose proof (one_answer fn ilt ro false l Ho) as H1.
  destruct (told (v_ag (srun fn ilt ro false l))) as [|r [|]]; [by apply elem_of_nil in Hu| |cbn in H1; lia].
  apply elem_of_list_singleton in Hu, Hx. congruence.
Qed.
