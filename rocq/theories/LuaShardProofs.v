(** Proofs for property C96. *)
From Coq Require Import NArith List Lia.
From stdpp Require Import base option list gmap.
From Verif Require Import Base LuaModel LuaPayModel ParsecShardModel ParsecShardSpec ParsecShardProofs
  ParsecShardSteps ParsecShardRuns ParsecShardFinal LuaShardSpec.
Import ListNotations.
Open Scope N_scope.

(** A ticket is prepared by its own prepare only. *)
Lemma prepared_before s o s' ev tn t' :
  reachable s -> step s o = Done (s', ev) -> s_tk s' !! tn = Some t' -> t_state t' = Prepared ->
  s_tk s !! tn = Some t' \/
  exists br t, o = OPrepare tn br (t_update t') /\ succeeded ev = true /\ s_tk s !! tn = Some t /\
    t_state t = Begun /\ t_held t' = t_held t.
Proof.
  intros Hr E Ht' Hp'. pose proof (reachable_inv _ Hr) as H.
  assert (Back : forall t, s_tk s !! tn = Some t -> t_state t = Prepared ->
    o <> OCommit tn -> o <> ORollback tn -> s_tk s !! tn = Some t').
  { intros t Ht Hp N1 N2. pose proof (prepared_untouched s tn t o s' ev Hr Ht Hp N1 N2 E). congruence. }
  destruct o as [rid tn' b k m first|tn' b upd|tn'|tn'|tn'|b]; cbn [step] in E.
  - left. pose proof (try_lock_outcome s rid tn' b k m first H) as Ho. rewrite E in Ho.
    inversion Ho as [|Hn|t1 e d Ht1 Hc1|f s0 t1 s1 ev1 Ht0 Hst Hs0 Hh Hk H0 H1 Hs]; subst; try done.
    destruct (s_tk (enqueue s0 rid tn' b k m t1) !! tn) as [t2|] eqn:E2;
      [|rewrite (v_none _ _ _ _ Hs tn E2) in Ht'; discriminate].
    destruct (v_tk _ _ _ _ Hs tn t2 E2) as (t3 & Ht3 & Hk3).
    assert (t3 = t') as -> by congruence.
    assert (P2 : t_state t2 = Prepared).
    { destruct Hk3 as [(Est & _)|Hk3]; [congruence|]. revert Hk3. rewrite Hp'. naive_solver. }
    assert (Ne : tn <> tn').
    { intros ->. unfold enqueue in E2. cbn in E2. rewrite lookup_insert in E2.
      injection E2 as <-. cbn in P2. congruence. }
    unfold enqueue in E2. cbn in E2. rewrite lookup_insert_ne in E2 by congruence.
    destruct Hs0 as [[_ ->]|(_ & _ & _ & ->)].
    + by eapply Back.
    + cbn in E2. rewrite lookup_insert_ne in E2 by congruence. by eapply Back.
  - pose proof (prepare_outcome_ok s tn' upd H) as Ho. rewrite E in Ho.
    inversion Ho as [e d|t1 Ht1 Hst1 Hq1 Hh s1 Hi]; subst; [by left|].
    cbn in Ht'. destruct (decide (tn = tn')) as [->|Ne].
    + rewrite lookup_insert in Ht'. injection Ht' as <-. right. exists b, t1. done.
    + rewrite lookup_insert_ne in Ht' by congruence. by left.
  - left. pose proof (commit_outcome_ok s tn' H) as Ho. rewrite E in Ho.
    inversion Ho as [|t1 s1 s2 ev1 Ht1 Hst Htk Hel H1 H2 Ht2 Hs]; subst; [done|].
    assert (Ne : tn <> tn') by (intros ->; destruct Ht2 as (? & ? & ?); congruence).
    destruct (s_tk s1 !! tn) as [t2|] eqn:E2;
      [|rewrite (v_none _ _ _ _ Hs tn E2) in Ht'; discriminate].
    destruct (v_tk _ _ _ _ Hs tn t2 E2) as (t3 & Ht3 & [(Est & _)|C]); [|contradiction].
    rewrite Htk in E2. eapply Back; [exact E2| | |]; congruence.
  - left. pose proof (rollback_outcome_ok s tn' H) as Ho. rewrite E in Ho.
    inversion Ho as [|t1 s1 ev1 Ht1 Hi1 Hs Hh]; subst; [done|].
    cbn in Ht'. destruct (decide (tn = tn')) as [->|Ne]; [by rewrite lookup_delete in Ht'|].
    rewrite lookup_delete_ne in Ht' by congruence.
    destruct (s_tk s !! tn) as [t2|] eqn:E2;
      [|rewrite (v_none _ _ _ _ Hs tn E2) in Ht'; discriminate].
    destruct (v_tk _ _ _ _ Hs tn t2 E2) as (t3 & Ht3 & [(Est & _)|C]); [|contradiction].
    eapply Back; [reflexivity| | |]; congruence.
  - left. pose proof (finish_outcome_ok s tn' H) as Ho. rewrite E in Ho.
    inversion Ho as [|t1 Ht1 Hst Hi]; subst; [done|]. cbn in Ht'.
    destruct (decide (tn = tn')) as [->|Ne]; [by rewrite lookup_delete in Ht'|].
    by rewrite lookup_delete_ne in Ht' by congruence.
  - left. unfold get_tickets in E. injection E as <- <-. done.
Qed.

Lemma run_empty s os s' : run s os = Done (s', []) -> os = [] /\ s' = s.
Proof.
  destruct os as [|o r]; cbn [run]; [intros [= <-]; done|].
  destruct (step s o) as [[s1 ev]| | |]; try discriminate. cbn [bind].
  by destruct (run s1 r) as [[s2 tr]| | |].
Qed.

Lemma committed_yes tr tn ev : succeeded ev = true ->
  committed (tr ++ [(OCommit tn, ev)]) = committed tr ++ [tn].
Proof. intros H. unfold committed. rewrite omap_app. simpl. by rewrite H. Qed.
Lemma committed_no tr o ev : (~ exists tn, o = OCommit tn /\ succeeded ev = true) ->
  committed (tr ++ [(o, ev)]) = committed tr.
Proof.
  intros H. unfold committed. rewrite omap_app. destruct o; simpl; try by rewrite app_nil_r.
  destruct (succeeded ev); [exfalso; eauto|by rewrite app_nil_r].
Qed.

Section contracts.
  Context {L : Type} (resume : L -> bytes -> resumed L) (fuel : nat)
    (start : ticket_no -> L) (param : ticket_no -> bytes) (name : bytes -> key).
  Hypothesis name_inj : forall a b, name a = name b -> a = b.
  Notation alone := (alone resume fuel start param).
  Notation serial := (serial resume fuel start param).
  Notation update_map := (update_map name).

  Lemma alone_ext db db' tn ks u :
    (forall k, k ∈ ks -> db' k = db k) -> alone db tn ks u -> alone db' tn ks u.
  Proof.
    intros H. unfold LuaShardSpec.alone.
    rewrite (map_ext_in (fun k => (Value (db' k), true)) (fun k => (Value (db k), true))); [done|].
    intros k Hk%elem_of_list_In. by rewrite H.
  Qed.

  Lemma serial_ext db0 l db db' : (forall k, db' k = db k) -> serial db0 l db -> serial db0 l db'.
  Proof.
    intros E H. inversion H as [d H1|l1 d tn ks u d' H1 H2 H3]; subst.
    - apply serial_none. intros k. by rewrite E.
    - eapply serial_next; [exact H1|exact H2|]. intros k. by rewrite E.
  Qed.

  Lemma update_map_lookup u k :
    update_map u !! name k = snd <$> find (fun e => bool_decide (fst e = k)) u.
  Proof.
    unfold LuaShardSpec.update_map. induction u as [|[a v] u IH]; [done|]. cbn.
    destruct (bool_decide_reflect (a = k)) as [->|Ne]; cbn; [by rewrite lookup_insert|].
    rewrite lookup_insert_ne; [exact IH|]. intros C. by apply Ne, name_inj.
  Qed.

  Lemma store_update db u k : store db u k = default (db k) (update_map u !! name k).
  Proof. rewrite update_map_lookup. unfold store. by destruct (find _ u). Qed.

  (** The updates of prepared tickets are what their contracts would report now, and the keys
      they asked for are locked. *)
  Definition justified (s : shard) : Prop := forall tn t,
    s_tk s !! tn = Some t -> t_state t = Prepared ->
    exists ks u, alone (in_shard name s) tn ks u /\ t_update t = update_map u /\
      forall k, k ∈ ks -> is_Some (t_held t !! name k).

  Lemma follow_prefix state tr p :
    agents_follow resume fuel start param name state (tr ++ [p]) ->
    agents_follow resume fuel start param name state tr.
  Proof.
    intros H tr1 tn br m ev tr2 ->. apply (H tr1 tn br m ev (tr2 ++ [p])). by rewrite <- app_assoc.
  Qed.

  Lemma contracts_inv state tr : forall os s,
    NoDup (issued os) -> executes state ∅ os s tr ->
    agents_follow resume fuel start param name state tr ->
    serial (at_start name state) (committed tr) (in_shard name s) /\ justified s.
  Proof.
    induction tr as [|[o ev] tr IH] using rev_ind; intros os s ND He Hf.
    - destruct He as (s0 & Hs0 & Hr). apply run_empty in Hr as [-> ->].
      destruct (started_spec _ _ _ Hs0) as [Htk Hel]. split.
      + apply serial_none. intros k. unfold in_shard, at_start. apply Hel.
      + intros tn t Ht. rewrite Htk, lookup_empty in Ht. discriminate.
    - destruct (exec_prefix state ∅ os s tr o ev [] ND He) as (s1 & s2 & Hst & Hr1 & I1 & _ & _ & V1 & _).
      destruct He as (s0 & Hs0 & Hr).
      destruct (run_split _ _ _ _ _ _ _ Hr) as (os1 & os2 & s1' & s2' & -> & R1 & S1 & R2).
      apply run_empty in R2 as [-> <-].
      (* the state before the last step, from the split *)
      clear s1 s2 Hst Hr1 I1 V1.
      assert (ND1 : NoDup (issued os1)) by (rewrite issued_app in ND; by apply NoDup_app in ND as (? & _)).
      assert (He1 : executes state ∅ os1 s1' tr) by (exists s0; done).
      assert (Hr1 : reachable s1') by (exists state, ∅, os1, tr; done).
      destruct (started_queues _ _ _ Hs0) as [Hi Hp].
      assert (V1 : vinv None s1' (view_of (view0 state ∅) tr)).
      { eapply run_view; [eapply started_inv; exact Hs0|exact Hi| |exact ND1|by apply started_view|exact R1].
        intros rid _; apply Hp. }
      destruct (IH os1 s1' ND1 He1 (follow_prefix _ _ _ Hf)) as [HS HJ].
      split.
      + assert (Cs : (exists tn, o = OCommit tn /\ succeeded ev = true) \/
                     ~ exists tn, o = OCommit tn /\ succeeded ev = true).
        { destruct o; try (right; intros (? & ? & _); discriminate).
          destruct (succeeded ev); [left; eauto|right; by intros (? & _ & ?)]. }
        destruct Cs as [(tn & -> & Hsuc)|No].
        * rewrite (committed_yes _ _ _ Hsuc). cbn [step] in S1.
          pose proof (commit_outcome_ok s1' tn (reachable_inv _ Hr1)) as Ho. rewrite S1 in Ho.
          inversion Ho as [e Hn|t sa sb ev1 Ht Hpt]; subst; [discriminate|].
          destruct (HJ tn t Ht Hpt) as (ks & u & A & U & _).
          eapply serial_next; [exact HS|exact A|].
          destruct (prepared_commits s1' tn t Hr1 Ht Hpt) as (s' & ev' & S' & _ & _ & Hval).
          cbn [step] in S'. rewrite S1 in S'. injection S' as <- _.
          intros k. unfold in_shard at 1. rewrite Hval, U, store_update. done.
        * rewrite (committed_no _ _ _ No). eapply serial_ext; [|exact HS].
          intros k. unfold in_shard.
          destruct (decide (e_val (el s (name k)) = e_val (el s1' (name k)))) as [|Hd]; [done|].
          destruct (values_change_by_commit s1' o s ev (name k) Hr1 S1 Hd) as (tn & t & -> & Ht & Hpt & _).
          exfalso. apply No. exists tn. split; [done|].
          destruct (prepared_commits s1' tn t Hr1 Ht Hpt) as (s' & ev' & S' & Hsuc & _).
          rewrite S1 in S'. by injection S' as _ <-.
      + intros tn t' Ht' Hp'.
        destruct (prepared_before s1' o s ev tn t' Hr1 S1 Ht' Hp')
          as [Ht|(br & t & -> & Hsuc & Ht & Hb & Hh)].
        * destruct (HJ tn t' Ht Hp') as (ks & u & A & U & K). exists ks, u. split; [|done].
          eapply alone_ext; [|exact A]. intros k Hk. unfold in_shard.
          destruct (K k Hk) as [m Hm].
          eapply (locked_value_stable s1' o s ev tn (name k) m Hr1); [by exists t'|exact S1|].
          intros ->. cbn [step] in S1.
          pose proof (commit_outcome_ok s1' tn (reachable_inv _ Hr1)) as Ho. rewrite S1 in Ho.
          inversion Ho as [e Hn|t sa sb ev1 Ht1 Hpt ? ? ? ? (t2 & ? & ?)]; subst.
          -- apply Hn. by exists t'.
          -- congruence.
        * destruct (Hf tr tn br (t_update t') ev [] eq_refl Hsuc) as (got & ks & u & A & U & G).
          exists ks, u. split; [|split; [done|]].
          -- eapply alone_ext; [|exact A]. intros k Hk.
             destruct (w_got _ _ _ V1 _ _ _ (G k Hk)) as (t1 & Ht1 & [C|[[m Hm] Ev]]); [congruence|].
             unfold in_shard. rewrite Ev.
             eapply (locked_value_stable s1' _ s ev tn (name k) m Hr1); [by exists t1|exact S1|done].
          -- intros k Hk. rewrite Hh.
             destruct (w_got _ _ _ V1 _ _ _ (G k Hk)) as (t1 & Ht1 & [C|[Hm _]]); [congruence|].
             by assert (t1 = t) as <- by congruence.
  Qed.

  Lemma contracts_serial state os s tr :
    NoDup (issued os) -> executes state ∅ os s tr ->
    agents_follow resume fuel start param name state tr ->
    serial (at_start name state) (committed tr) (in_shard name s).
  Proof. intros A B C. by apply (contracts_inv state tr os s). Qed.
End contracts.
