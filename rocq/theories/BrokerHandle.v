(** Lock requests and the answers of shards. *)
From stdpp Require Import base option list gmap fin_maps fin_sets.
From Coq Require Import NArith Lia.
From Verif Require Import Base ParsecShardModel ParsecShardSpec BrokerModel BrokerSpec BrokerShard BrokerInv BrokerStage.
Open Scope N_scope.

Section Handle.
Context (loc : key -> N) (nsh : N).

Definition cell_as (c : cell) (a : bool) : cell := Cell (c_st c) (c_R c) (c_Q c) (c_dn c) (c_sh c) a.

(** What the observer notes about a lock request. *)
Definition noted_lock (v : view) (i : N) : view :=
  match w_bs v with
  | Some BBegun => View (w_bs v) (w_ph v) (w_up v)
      (fun j => cell_as (w_c v j) (c_as (w_c v j) || bool_decide (j = i)))
  | Some BAborted => View (w_bs v) (Some Work) None (fun j => cell_as (w_c v j) (bool_decide (j = i)))
  | _ => v
  end.

Lemma beg_lock i c s qs :
  beg loc nsh None i c -> i < nsh -> (forall q, q ∈ qs -> is_lock q) ->
  ss_state s = ss_state (default sst0 (c_sh c)) -> (forall k, is_Some (ss_keys s !! k) -> loc k = i) ->
  beg loc nsh None i (Cell (c_st c) (c_R c ++ qs) (c_Q c) (c_dn c) (Some s) true).
Proof.
  intros [A B C D E F G H] Hi Hq Hs Hk. constructor; cbn; try assumption; try discriminate.
  - intros q Hin. apply elem_of_app in Hin as [Hin|Hin]; auto.
  - intros r1 q r2 Er Hr. apply app_split in Er as [(r2' & -> & Er)|Hin]; [eauto|].
    apply Hq in Hin. destruct q; done.
  - intros s0 [= <-]. split; [done|]. rewrite Hs. destruct (c_sh c) as [s1|]; cbn.
    + destruct (G s1 eq_refl) as (_ & G1 & G2 & _). auto.
    + repeat split; [discriminate|done].
Qed.
Lemma clean_beg i c : clean c -> c_dn c = None ->
  beg loc nsh None i (Cell (c_st c) (c_R c) (c_Q c) (c_dn c) None false).
Proof.
  intros (A & B & C) D. constructor; cbn; try congruence.
  - intros q Hq. left. auto.
  - intros r1 q r2 Er _. split; [done|]. intros q' Hq'. apply B. rewrite Er. set_solver.
  - intros x o Hx Ho. rewrite C in Ho by done. discriminate.
  - intros _. split; [|done]. split; [done|]. split; done.
Qed.

Lemma lock_tinv st v b cid tn k m up b' os :
  loc k < nsh -> vhas v (b_tk b !! tn) -> b_lock loc b cid tn k m up = (b', os) ->
  w_ph v = Some Work \/ (w_bs v = Some BAborted /\ w_ph v <> Some Orphan) ->
  tinv loc nsh st v ->
  tinv loc nsh st (bmv (noted_lock v (loc k)) (b_tk b' !! tn) (sent tn os)).
Proof.
  intros Hi [Hv1 Hv2] E Hph [Hb H]. unfold b_lock in E. unfold noted_lock.
  assert (Hbase : forall v' o S, (forall j, exists a, w_c v' j = cell_as (w_c v j) a /\
      (S j = [] -> c_as (w_c v j) = true -> c_st (w_c v j) <> Absent \/ c_dn (w_c v j) <> None \/
         (exists q, q ∈ c_R (w_c v j) /\ is_lock q) -> a = true) /\ (S j <> [] -> a = true)) ->
      forall i, base (w_c (bmv v' o S) i)).
  { intros v' o S HS i. destruct (HS i) as (a & Ha & Ha1 & Ha2). rewrite bmv_cell, Ha.
    destruct (Hb i) as (B1 & B2 & B3). unfold base. cbn. destruct (decide (S i = [])) as [HS0|HS0].
    - rewrite HS0, app_nil_r. repeat split.
      + intros Hx. apply Ha1; auto.
      + intros q Hq Hl. apply Ha1; eauto 10.
      + intros Hx. apply Ha1; auto.
    - repeat split; auto. }
  destruct (b_tk b !! tn) as [t|] eqn:Et; cbn in Hv1, Hv2.
  2: { injection E as <- <-. rewrite Hv1, Et. apply bmv_same; [done|done|]. split; [done|]. rewrite Hv1 in *. done. }
  destruct (bt_state t) eqn:Es; rewrite Hv1 in *.
  - destruct Hph as [Hph|[[=] _]]. rewrite Hph in *. destruct H as [_ H].
    assert (Hgo : forall s S, ss_state s = ss_state (sh t (loc k)) -> (forall k', is_Some (ss_keys s !! k') -> loc k' = loc k) ->
      (forall j, j <> loc k -> S j = []) -> (forall q, q ∈ S (loc k) -> is_lock q) ->
      tinv loc nsh st (bmv (View (Some BBegun) (Some Work) (w_up v)
        (fun j => cell_as (w_c v j) (c_as (w_c v j) || bool_decide (j = loc k)))) (Some (set_sh t (loc k) s)) S)).
    { intros s S Hss Hsk HS1 HS2. split.
      { apply Hbase. intros j. eexists. split; [done|]. split; [intros _ ->; done|].
        intros HSj. destruct (decide (j = loc k)) as [->|Hne]; [|now rewrite HS1 in HSj].
        rewrite bool_decide_eq_true_2 by done. apply orb_true_r. }
      cbn [w_bs w_ph w_up bmv]. cbn [fmap option_fmap option_map bt_state set_sh]. rewrite Es. split; [done|].
      intros j. rewrite bmv_cell. cbn. destruct (decide (j = loc k)) as [->|Hne].
      - rewrite lookup_insert. rewrite bool_decide_eq_true_2 by done. rewrite orb_true_r.
        refine (beg_lock _ (w_c v (loc k)) s (S (loc k)) (H _) Hi HS2 _ Hsk). now rewrite Hv2.
      - rewrite lookup_insert_ne by done. rewrite bool_decide_eq_false_2 by done. rewrite orb_false_r, HS1 by done.
        rewrite <- Hv2. unfold cell_as, cmv. cbn. rewrite app_nil_r. specialize (H j). now destruct (w_c v j). }
    assert (Hkeys : forall k', is_Some (ss_keys (sh t (loc k)) !! k') -> loc k' = loc k).
    { intros k' Hk'. unfold sh in Hk'. destruct (bt_sh t !! loc k) as [s|] eqn:Esh; cbn in Hk'.
      - destruct (g1_sh _ _ _ _ _ (H (loc k)) s) as (_ & _ & _ & G); [now rewrite Hv2|]. now apply G.
      - rewrite lookup_empty in Hk'. now destruct Hk'. }
    assert (Hask : (let b' := set_btk b tn (set_sh t (loc k) (Sst (<[k := KLocking m]> (ss_keys (sh t (loc k)))) (ss_state (sh t (loc k))))) in
      if up then (b', [OSend (loc k) (QLock tn k m (bool_decide (ss_keys (sh t (loc k)) = ∅))) (KLock cid tn k)])
      else (b', [OCall (Client cid) (RErr EShardUnreachable)])) = (b', os) ->
      tinv loc nsh st (bmv (View (Some BBegun) (Some Work) (w_up v)
        (fun j => cell_as (w_c v j) (c_as (w_c v j) || bool_decide (j = loc k)))) (b_tk b' !! tn) (sent tn os))).
    { cbn zeta. intros Ea.
      assert (Eb : b_tk b' !! tn = Some (set_sh t (loc k) (Sst (<[k := KLocking m]> (ss_keys (sh t (loc k)))) (ss_state (sh t (loc k)))))).
      { destruct up; injection Ea as <- _; cbn; apply lookup_insert. }
      rewrite Eb. apply Hgo; [done| | |].
      - cbn. intros k' Hk'. destruct (decide (k' = k)) as [->|Hne]; [done|].
        rewrite lookup_insert_ne in Hk' by done. auto.
      - intros j Hj. apply sent_none. intros j' q c Hin. right. destruct up; injection Ea as <- <-.
        + apply elem_of_list_singleton in Hin. injection Hin as -> _ _. done.
        + apply elem_of_list_singleton in Hin. discriminate.
      - intros q Hq. destruct up; injection Ea as <- <-; [|now apply elem_of_nil in Hq].
        unfold sent in Hq. cbn in Hq. rewrite bool_decide_eq_true_2 in Hq by done.
        apply elem_of_list_singleton in Hq as ->. done. }
    destruct (ss_keys (sh t (loc k)) !! k) as [[m'|m' x]|] eqn:Ek; auto.
    destruct (lt_ge m' m); auto. injection E as <- <-. cbn [b_tk set_btk]. rewrite lookup_insert.
    apply Hgo; auto. intros q Hq. now apply elem_of_nil in Hq.
  - destruct Hph as [Hph|[[=] _]]. rewrite Hph in H. now destruct H.
  - destruct Hph as [Hph|[[=] _]]. rewrite Hph in H. now destruct H.
  - destruct Hph as [Hph|[_ Hph]]; [rewrite Hph in H; now destruct H|].
    assert (Hc : forall i, clean (w_c v i) /\ c_dn (w_c v i) = None).
    { destruct (w_ph v) as [[]|]; try done.
      - now destruct H.
      - destruct H as (U & _ & [[[=] _]|[[[=] _]|[[=] _]]]).
      - destruct H as [[[=] _]|[_ H]]. exact H. }
    assert (E0 : sh (Btk BBegun ∅) (loc k) = sst0) by (unfold sh; cbn; now rewrite lookup_empty).
    rewrite E0 in E. cbn [sst0 ss_keys ss_state] in E. rewrite lookup_empty in E. cbn zeta in E.
    assert (Eb : b_tk b' !! tn = Some (set_sh (Btk BBegun ∅) (loc k) (Sst {[k := KLocking m]} SBegun)) /\
       (forall j, j <> loc k -> sent tn os j = []) /\ (forall q, q ∈ sent tn os (loc k) -> is_lock q)).
    { destruct up; injection E as <- <-; (split; [cbn; apply lookup_insert|split]).
      - intros j Hj. apply sent_none. intros j' q c Hin. right.
        apply elem_of_list_singleton in Hin. injection Hin as -> _ _. done.
      - intros q Hq. unfold sent in Hq. cbn in Hq. rewrite bool_decide_eq_true_2 in Hq by done.
        apply elem_of_list_singleton in Hq as ->. done.
      - done.
      - intros q Hq. now apply elem_of_nil in Hq. }
    destruct Eb as (-> & HS1 & HS2). split.
    { apply Hbase. intros j. eexists. split; [done|]. destruct (Hc j) as [Hcj Hdj]. split.
      - intros _ _ [Hx|[Hx|(q & Hq & Hl)]]; exfalso; [now apply Hx, Hcj|congruence|].
        apply (proj1 (proj2 Hcj)) in Hq. destruct q; done.
      - intros HSj. apply bool_decide_eq_true. destruct (decide (j = loc k)) as [->|Hne]; [done|].
        now rewrite HS1 in HSj. }
    cbn [w_bs w_ph w_up bmv]. cbn [fmap option_fmap option_map bt_state set_sh]. split; [done|].
    intros j. rewrite bmv_cell. cbn. destruct (Hc j) as [Hcj Hdj].
    pose proof (clean_beg j _ Hcj Hdj) as B.
    destruct (decide (j = loc k)) as [->|Hne].
    + rewrite lookup_insert, bool_decide_eq_true_2 by done.
      apply (beg_lock (loc k) _ (Sst {[k := KLocking m]} SBegun) (sent tn os (loc k)) B); auto.
      cbn. intros k' [y Hy]. now apply lookup_singleton_Some in Hy as [<- _].
    + rewrite lookup_insert_ne, lookup_empty, bool_decide_eq_false_2, HS1 by done.
      unfold cell_as, cmv. cbn. rewrite app_nil_r. exact B.
Qed.

(** begin *)
Lemma begin_tinv st v : never v -> w_bs v = None ->
  tinv loc nsh st (bmv (View (w_bs v) (Some Work) (w_up v) (fun j => cell_as (w_c v j) false)) (Some btk0) (fun _ => [])).
Proof.
  intros H _. split.
  - intros i. rewrite bmv_cell. destruct (H i) as (H1 & H2 & H3 & H4 & H5). unfold base. cbn. rewrite H2.
    repeat split; try congruence. intros q Hq. now apply elem_of_nil in Hq.
  - cbn. split; [done|]. intros i. destruct (H i) as (H1 & H2 & H3 & H4 & H5). cbn zeta in *. rewrite lookup_empty.
    pose proof (clean_beg i (w_c v i)) as B. rewrite app_nil_r. apply B; [|done].
    split; [done|]. split; [|done]. rewrite H2. intros q Hq. now apply elem_of_nil in Hq.
Qed.

(** ** Answers *)

Lemma all_in_ok t x : all_in t x = true <-> forall i s, bt_sh t !! i = Some s -> ss_state s = x.
Proof.
  unfold all_in. rewrite forallb_forall. split.
  - intros H i s Hi. specialize (H (i, s)). cbn in H. rewrite bool_decide_eq_true in H. apply H.
    now apply elem_of_list_In, elem_of_map_to_list.
  - intros H [i s] Hi. apply elem_of_list_In, elem_of_map_to_list in Hi. cbn. apply bool_decide_eq_true. eauto.
Qed.

Lemma sh_like t i (c : cell) : c_sh c = bt_sh t !! i -> like c (sh t i).
Proof. intros E. unfold like, sh. now rewrite E. Qed.

Definition popv (v : view) (i : N) (Q : list (cont * rsp)) : view := set_cell v i (pop (w_c v i) Q).

Lemma popv_sh v i Q j : c_sh (w_c (popv v i Q) j) = c_sh (w_c v j).
Proof. unfold popv. destruct (decide (j = i)) as [->|]; [now rewrite set_cell_eq|now rewrite set_cell_ne]. Qed.
Lemma popv_has v i Q ot : vhas v ot -> vhas (popv v i Q) ot.
Proof. intros [A B]. split; [done|]. intros j. rewrite popv_sh. apply B. Qed.

Lemma hlock_tinv st v b i cid tn k a b' os :
  i < nsh -> vhas v (b_tk b !! tn) -> h_lock b i cid tn k a = (b', os) -> tinv loc nsh st v ->
  tinv loc nsh st (bmv v (b_tk b' !! tn) (sent tn os)).
Proof.
  intros Hi Hv E H. unfold h_lock in E. destruct a as [x|e]; [|injection E as <- <-; now apply bmv_same].
  destruct (b_tk b !! tn) as [t|] eqn:Et; [|injection E as <- <-; rewrite Et; now apply bmv_same].
  pose proof Hv as [Hv1 Hv2]. cbn in Hv1, Hv2.
  assert (Hgo : forall s S, (forall j, S j = []) -> like (w_c v i) s -> tinv loc nsh st (bmv v (Some (set_sh t i s)) S)).
  { intros s S HS Hl. apply bmv_put; [done|done|]. apply same_tinv; auto. congruence. }
  destruct (ss_keys (sh t i) !! k) as [[m|m y]|] eqn:Ek; injection E as <- <-; cbn [b_tk set_btk]; rewrite lookup_insert;
    (apply Hgo; [done|]); try (apply sh_like; apply Hv2).
  split; cbn; rewrite Hv2; [done|]. intros k' Hk'. destruct (decide (k' = k)) as [->|Hne].
  - exists (KLocking m). exact Ek.
  - now rewrite lookup_insert_ne in Hk' by done.
Qed.

Lemma beg_remark uo i c s x : beg loc nsh uo i c -> c_sh c = Some s -> beg_state x ->
  (x = SPrepared -> exists u, c_st c = Ready u) -> beg loc nsh uo i (cmv c (Some (Sst (ss_keys s) x)) []).
Proof.
  intros [A B C D E F G H] Hs Hx Hr. constructor; cbn; rewrite ?app_nil_r; try assumption; try discriminate.
  intros s0 [= <-]. destruct (G s Hs) as (G1 & G2 & G3 & G4). cbn. auto.
Qed.
Lemma rol_remark i c s x : rol nsh i c -> c_sh c = Some s -> beg_state x ->
  rol nsh i (cmv c (Some (Sst (ss_keys s) x)) []).
Proof.
  intros [A B C D E F G H] Hs Hx. constructor; cbn; rewrite ?app_nil_r; try assumption; try discriminate.
  intros s0 [= <-]. destruct (G s Hs) as (G1 & G2 & G3). cbn. split; [done|]. split; [now destruct x|].
  intros ->. destruct Hx.
Qed.
Lemma rolling_remark v i s x : rolling nsh v -> c_sh (w_c v i) = Some s -> ss_state s = SPreparing -> beg_state x ->
  rolling nsh (put v i (Sst (ss_keys s) x)).
Proof.
  intros [A (j & sj & Hj & Hsj)] Hs Hst Hx. split.
  - apply put_all; [|exact A]. intros H. now apply rol_remark.
  - exists j, sj. unfold put. destruct (decide (j = i)) as [->|Hne].
    + exfalso. rewrite Hs in Hj. injection Hj as <-. rewrite Hst in Hsj. now destruct Hsj.
    + now rewrite set_cell_ne.
Qed.
Lemma pre_remark U i c s : pre loc U i c -> c_sh c = Some s -> c_st c = Applied ->
  pre loc U i (cmv c (Some (Sst (ss_keys s) SCommitted)) []).
Proof.
  intros [(s1 & A & B & C & D & E)|((A & _) & _)] Hs Ha; [left|congruence].
  eexists. split; [done|]. cbn. rewrite app_nil_r. auto 10.
Qed.
Lemma cmt_remark U i c s : cmt loc U i c -> c_sh c = Some s -> c_st c = Absent -> (exists u, c_dn c = Some u) ->
  (forall q, q ∈ c_R c -> is_fin q) ->
  cmt loc U i (cmv c (Some (Sst (ss_keys s) SFinished)) []).
Proof.
  intros H Hs Ha [u Hu] HR. left. eexists. split; [done|]. cbn. rewrite app_nil_r.
  destruct H as [(s1 & A & B & C & D & E & F & G)|(A & B & C & D)].
  - auto 10.
  - rewrite Hu. rewrite (C u Hu). split; [done|]. split; [auto|]. split; [auto 10|]. split; [|auto].
    intros r1 q r2 Er _ q' Hq'. apply HR. rewrite Er. set_solver.
Qed.
Lemma rol_done i c s : rol nsh i c -> c_sh c = Some s -> clean c -> rol nsh i (cmv c (Some (Sst ∅ SRolledBack)) []).
Proof.
  intros [A B C D E F G H] Hs Hc. constructor; cbn; rewrite ?app_nil_r; try assumption; try discriminate.
  intros s0 [= <-]. destruct (G s Hs) as (G1 & G2 & G3). split; [done|]. split; [done|]. intros _. now apply clean_same.
Qed.

Lemma busy_some t i x : ss_state (sh t i) = x -> x <> SBegun -> bt_sh t !! i = Some (sh t i).
Proof. unfold sh. destruct (bt_sh t !! i); [done|]. cbn. intros <- H. done. Qed.

Lemma mark_set t i x s : bt_sh t !! i = Some s -> mark t i x = set_sh t i (Sst (ss_keys s) x).
Proof. intros E. unfold mark, sh. now rewrite E. Qed.

(** The answer to prepare. *)
Lemma hprepare_tinv st v b i cb tn r ord down b' os res Q :
  i < nsh -> base.NoDup ord -> vhas v (b_tk b !! tn) ->
  c_Q (w_c v i) = (KPrepare cb tn, PReply r) :: Q ->
  h_prepare b i cb tn r ord down = (b', os, res) -> tinv loc nsh st v ->
  tinv loc nsh st (bmv (popv v i Q) (b_tk b' !! tn) (sent tn os)).
Proof.
  intros Hi Hnd Hv HQ E H. pose proof (pop_tinv _ _ _ _ _ _ _ HQ H) as H'. fold (popv v i Q) in H'.
  apply (popv_has _ i Q) in Hv as Hv'.
  assert (Hsame : tinv loc nsh st (bmv (popv v i Q) (b_tk b !! tn) (sent tn []))) by now apply bmv_same.
  unfold h_prepare in E. destruct (b_tk b !! tn) as [t|] eqn:Et; [|injection E as <- <- <-; now rewrite Et].
  pose proof Hv as [Hv1 Hv2]. pose proof Hv' as [Hv1' Hv2']. cbn in Hv1, Hv2, Hv1', Hv2'.
  assert (Hput : forall s, tinv loc nsh st (put (popv v i Q) i s) ->
     tinv loc nsh st (bmv (popv v i Q) (Some (set_sh t i s)) (sent tn []))).
  { intros s. now apply bmv_put. }
  assert (Htouch : tinv loc nsh st (bmv (popv v i Q) (Some (touch t i)) (sent tn []))).
  { apply Hput, same_tinv; auto; [change (w_bs v <> None); congruence|]. apply sh_like. apply Hv2'. }
  destruct (bt_state t) eqn:Es; try (injection E as <- <- <-; now rewrite Et).
  case_bool_decide as Hp; cbn [negb] in E.
  2: { injection E as <- <- <-. cbn [b_tk set_btk]. now rewrite lookup_insert. }
  pose proof (busy_some _ _ _ Hp ltac:(done)) as Hsi.
  assert (Hmark : forall x, beg_state x ->
     (x = SPrepared -> r = None) ->
     tinv loc nsh st (put (popv v i Q) i (Sst (ss_keys (sh t i)) x))).
  { intros x Hx Hr. destruct H as [Hb H], H' as [Hb' H']. split.
    { apply (put_all _ i _ (fun _ c => base c)); [apply base_same|done]. }
    cbn [w_bs w_ph w_up put set_cell popv] in *. fold (popv v i Q) in *.
    fold (put (popv v i Q) i (Sst (ss_keys (sh t i)) x)).
    rewrite Hv1 in *.
    assert (Hbeg : forall uo, (forall j, beg loc nsh uo j (w_c v j)) -> (forall j, beg loc nsh uo j (w_c (popv v i Q) j)) ->
      forall j, beg loc nsh uo j (w_c (put (popv v i Q) i (Sst (ss_keys (sh t i)) x)) j)).
    { intros uo B1 B2. apply put_all; [|exact B2]. intros B3. apply beg_remark; auto.
      - now rewrite popv_sh, Hv2.
      - intros Hxp. destruct (g1_Q _ _ _ _ _ (B1 i) (KPrepare cb tn, PReply r) OP) as [_ [u Hu]].
        + rewrite HQ. left.
        + now rewrite Hr.
        + exists u. unfold popv. now rewrite set_cell_eq. }
    assert (Hrol : rollmode nsh BBegun (popv v i Q) -> rollmode nsh BBegun (put (popv v i Q) i (Sst (ss_keys (sh t i)) x))).
    { intros [[_ R]|[[=] _]]. left. split; [done|]. eapply rolling_remark; eauto. now rewrite popv_sh, Hv2. }
    destruct (w_ph v) as [[]|]; try done.
    - destruct H as [_ H], H' as [_ H']. split; [done|]. now apply Hbeg.
    - destruct H as (U & HU & [[_ H]|[[[=] _]|[[=] _]]]), H' as (U' & HU' & [[_ H']|[[[=] _]|[[=] _]]]).
      exists U. split; [done|]. left. split; [done|]. apply Hbeg; [done|]. assert (U' = U) as -> by congruence. done.
    - now apply Hrol.
    - destruct H' as [H'|(U & _ & [[[=] _]|[[=] _]])]. left. now apply Hrol. }
  destruct r as [[e d]|].
  - assert (Hother : (set_btk b tn (touch t i), [], Some (RShardErr (e, d))) = (b', os, res) ->
       tinv loc nsh st (bmv (popv v i Q) (b_tk b' !! tn) (sent tn os))).
    { intros [= <- <- <-]. cbn [b_tk set_btk]. now rewrite lookup_insert. }
    destruct e; auto. destruct (existsb _ _); injection E as <- <- <-; cbn [b_tk set_btk]; rewrite lookup_insert; [done|].
    apply Hput. apply Hmark; done.
  - destruct (all_in _ _) eqn:Ha.
    2: { injection E as <- <- <-. cbn [b_tk set_btk]. rewrite lookup_insert. apply Hput. apply Hmark; done. }
    specialize (Hmark SPrepared I (fun _ => eq_refl)). rewrite all_in_ok in Ha.
    set (v2 := put (popv v i Q) i (Sst (ss_keys (sh t i)) SPrepared)) in *.
    assert (Hv2s : forall j, c_sh (w_c v2 j) = bt_sh (mark t i SPrepared) !! j).
    { intros j. unfold v2, put. destruct (decide (j = i)) as [->|Hne].
      - rewrite set_cell_eq. unfold mark, set_sh. cbn. now rewrite lookup_insert.
      - rewrite set_cell_ne by done. unfold mark, set_sh. cbn. rewrite lookup_insert_ne by done. apply Hv2'. }
    destruct Hmark as [Hb2 H2].
    assert (Hpre : exists U, w_up v = Some U /\ w_ph v = Some Com /\ forall j, pre loc U j (w_c v2 j)).
    { assert (Hrol : rollmode nsh BBegun v2 -> False).
      { intros [[_ [_ (j & s & Hj & Hs)]]|[[=] _]]. rewrite Hv2s in Hj. specialize (Ha _ _ Hj).
        rewrite Ha in Hs. now destruct Hs. }
      assert (E1 : w_bs v2 = Some BBegun) by exact Hv1.
      assert (E2 : w_ph v2 = w_ph v) by reflexivity. assert (E3 : w_up v2 = w_up v) by reflexivity.
      rewrite E1, E2, E3 in H2. destruct (w_ph v) as [[]|] eqn:Eph; try done.
      - exfalso. destruct H as [_ H]. rewrite Hv1, Eph in H. destruct H as [_ H].
        destruct (g1_Q _ _ _ _ _ (H i) (KPrepare cb tn, PReply None) OP) as [_ [u Hu]]; [rewrite HQ; left|done|].
        destruct (g1_ready _ _ _ _ _ (H i) u Hu) as (U & [=] & _).
      - destruct H2 as (U & HU & [[_ H2]|[[[=] _]|[[=] _]]]). exists U. split; [done|]. split; [done|].
        intros j. apply (beg_pre loc nsh); auto. intros s. rewrite Hv2s. apply Ha.
      - exfalso. destruct H2 as [H2|(U & _ & [[[=] _]|[[=] _]])]. now apply Hrol. }
    destruct Hpre as (U & HU & Hph & Hpre).
    destruct (docommit_pre loc nsh v2 b tn (Btk BPrepared (bt_sh (mark t i SPrepared))) cb ord down b' os res U)
      as ((shs & Hsh) & D1 & D2); auto.
    rewrite Hsh in *. cbn [bt_state] in *.
    assert (Hcell : forall j, w_c (bmv (popv v i Q) (Some (Btk BPrepared shs)) (sent tn os)) j =
       w_c (bmv v2 (Some (Btk BPrepared shs)) (sent tn os)) j).
    { intros j. rewrite !bmv_cell. unfold v2, put. destruct (decide (j = i)) as [->|Hne].
      - rewrite set_cell_eq. unfold cmv. cbn. now rewrite app_nil_r.
      - now rewrite set_cell_ne. }
    split; [intros j; rewrite Hcell; apply D1|].
    cbn [w_bs w_ph w_up bmv popv set_cell fmap option_fmap option_map bt_state]. rewrite Hph.
    exists U. split; [done|]. right; left. split; [done|]. intros j. fold (popv v i Q). rewrite Hcell. apply D2.
Qed.

(** The answer to commit. *)
Lemma hcommit_tinv st v b i cb tn r b' os res Q :
  i < nsh -> vhas v (b_tk b !! tn) ->
  c_Q (w_c v i) = (KCommit cb tn, PReply r) :: Q ->
  h_commit b i tn r = (b', os, res) -> tinv loc nsh st v ->
  tinv loc nsh st (bmv (popv v i Q) (b_tk b' !! tn) (sent tn os)) /\
  (res = Some ROk -> b_tk b' !! tn <> None /\ exists U, w_up v = Some U /\ forall j, cmt loc U j (w_c (bmv (popv v i Q) (b_tk b' !! tn) (sent tn os)) j)).
Proof.
  intros Hi Hv HQ E H. pose proof (pop_tinv _ _ _ _ _ _ _ HQ H) as H'. fold (popv v i Q) in H'.
  apply (popv_has _ i Q) in Hv as Hv'.
  assert (Hsame : tinv loc nsh st (bmv (popv v i Q) (b_tk b !! tn) (sent tn []))) by now apply bmv_same.
  unfold h_commit in E. destruct (b_tk b !! tn) as [t|] eqn:Et; [|injection E as <- <- <-; now rewrite Et].
  pose proof Hv as [Hv1 Hv2]. pose proof Hv' as [Hv1' Hv2']. cbn in Hv1, Hv2, Hv1', Hv2'.
  destruct (bt_state t) eqn:Es; try (injection E as <- <- <-; now rewrite Et).
  assert (Htouch : tinv loc nsh st (bmv (popv v i Q) (Some (touch t i)) (sent tn []))).
  { apply bmv_put; auto. apply same_tinv; auto; [change (w_bs v <> None); congruence|]. apply sh_like. apply Hv2'. }
  case_bool_decide as Hp; cbn [negb] in E.
  2: { injection E as <- <- <-. cbn [b_tk set_btk]. now rewrite lookup_insert. }
  destruct r as [e|]; [injection E as <- <- <-; cbn [b_tk set_btk]; now rewrite lookup_insert|].
  pose proof (busy_some _ _ _ Hp ltac:(done)) as Hsi.
  assert (Hph : exists U, w_up v = Some U /\ (w_ph v = Some Com \/ w_ph v = Some Orphan) /\
     (forall j, pre loc U j (w_c v j)) /\ forall j, pre loc U j (w_c (popv v i Q) j)).
  { destruct H as [_ H], H' as [_ H']. cbn [w_bs w_ph w_up popv set_cell] in H'. fold (popv v i Q) in H'.
    rewrite Hv1 in *. destruct (w_ph v) as [[]|]; try done.
    - now destruct H.
    - destruct H as (U & HU & [[[=] _]|[[_ H]|[[=] _]]]), H' as (U' & HU' & [[[=] _]|[[_ H']|[[=] _]]]).
      exists U. split; [done|]. split; [auto|]. split; [done|]. assert (U' = U) as -> by congruence. done.
    - destruct H as [[[=] _]|[[=] _]].
    - destruct H as [[[[=] _]|[[=] _]]|(U & HU & [[_ H]|[[=] _]])], H' as [[[[=] _]|[[=] _]]|(U' & HU' & [[_ H']|[[=] _]])].
      exists U. split; [done|]. split; [auto|]. split; [done|]. assert (U' = U) as -> by congruence. done. }
  destruct Hph as (U & HU & Hph & Hpre & Hpre').
  assert (Happ : c_st (w_c v i) = Applied).
  { destruct (Hpre i) as [(s & A & B & C & D & F)|((A & B & C) & _)].
    - destruct (D (KCommit cb tn, PReply None) OC) as [[=]|[_ ?]]; [rewrite HQ; left|done|done].
    - exfalso. enough (ok (KCommit cb tn, PReply None) = None) by done. apply C. rewrite HQ. left. }
  set (v2 := put (popv v i Q) i (Sst (ss_keys (sh t i)) SCommitted)).
  assert (Hpre2 : forall j, pre loc U j (w_c v2 j)).
  { apply put_all; [|exact Hpre']. intros _. apply pre_remark; auto; [now rewrite popv_sh, Hv2|].
    unfold popv. now rewrite set_cell_eq. }
  assert (Hb2 : forall j, base (w_c v2 j)).
  { apply (put_all _ i _ (fun _ c => base c)); [apply base_same|apply H']. }
  assert (Hcell : forall bs, forall j, w_c (bmv (popv v i Q) (Some (Btk bs (bt_sh (mark t i SCommitted)))) (sent tn [])) j = w_c v2 j).
  { intros bs j. rewrite bmv_cell. unfold v2, put. cbn [mbind option_bind bt_sh]. destruct (decide (j = i)) as [->|Hne].
    - rewrite set_cell_eq. unfold mark, set_sh. cbn. now rewrite lookup_insert.
    - rewrite set_cell_ne by done. unfold mark, set_sh. cbn. rewrite lookup_insert_ne by done.
      rewrite <- Hv2'. apply cmv_id. }
  destruct (all_in _ _) eqn:Ha; injection E as <- <- <-; cbn [b_tk set_btk]; rewrite lookup_insert.
  - rewrite all_in_ok in Ha.
    assert (Hcmt : forall j, cmt loc U j (w_c v2 j)).
    { intros j. apply pre_cmt; [done|]. intros s Hs. rewrite <- (Hcell BCommitted) in Hs. rewrite bmv_cell in Hs. cbn [cmv c_sh mbind option_bind bt_sh] in Hs. eauto. }
    split; [|intros _; split; [done|]; exists U; split; [done|]; intros j; rewrite Hcell; apply Hcmt].
    split; [intros j; rewrite Hcell; apply Hb2|].
    cbn [w_bs w_ph w_up bmv popv set_cell fmap option_fmap option_map bt_state]. fold (popv v i Q).
    destruct Hph as [-> | ->]; [|right]; (exists U; split; [done|]; right; try right; split; [done|];
      intros j; rewrite Hcell; apply Hcmt).
  - split; [|discriminate]. assert (Eeq : mark t i SCommitted = Btk BPrepared (bt_sh (mark t i SCommitted))).
    { unfold mark, set_sh. cbn. now rewrite Es. }
    rewrite Eeq. split; [intros j; rewrite Hcell; apply Hb2|].
    cbn [w_bs w_ph w_up bmv popv set_cell fmap option_fmap option_map bt_state]. fold (popv v i Q).
    destruct Hph as [-> | ->].
    + exists U. split; [done|]. right; left. split; [done|]. intros j. rewrite Hcell. apply Hpre2.
    + right. exists U. split; [done|]. left. split; [done|]. intros j. rewrite Hcell. apply Hpre2.
Qed.

(** The answer to rollback. *)
Lemma hrollback_tinv st v b i cb tn r b' os res Q :
  i < nsh -> vhas v (b_tk b !! tn) ->
  c_Q (w_c v i) = (KRollback cb tn, PReply r) :: Q ->
  h_rollback b i tn r = (b', os, res) -> tinv loc nsh st v ->
  tinv loc nsh st (bmv (popv v i Q) (b_tk b' !! tn) (sent tn os)).
Proof.
  intros Hi Hv HQ E H. pose proof (pop_tinv _ _ _ _ _ _ _ HQ H) as H'. fold (popv v i Q) in H'.
  apply (popv_has _ i Q) in Hv as Hv'.
  assert (Hsame : tinv loc nsh st (bmv (popv v i Q) (b_tk b !! tn) (sent tn []))) by now apply bmv_same.
  unfold h_rollback in E. destruct (b_tk b !! tn) as [t|] eqn:Et; [|injection E as <- <- <-; now rewrite Et].
  pose proof Hv as [Hv1 Hv2]. pose proof Hv' as [Hv1' Hv2']. cbn in Hv1, Hv2, Hv1', Hv2'.
  destruct (bt_state t) eqn:Es; try (injection E as <- <- <-; now rewrite Et).
  assert (Htouch : tinv loc nsh st (bmv (popv v i Q) (Some (touch t i)) (sent tn []))).
  { apply bmv_put; auto. apply same_tinv; auto; [change (w_bs v <> None); congruence|]. apply sh_like. apply Hv2'. }
  case_bool_decide as Hp; cbn [negb] in E.
  2: { injection E as <- <- <-. cbn [b_tk set_btk]. now rewrite lookup_insert. }
  destruct r as [e|]; [injection E as <- <- <-; cbn [b_tk set_btk]; now rewrite lookup_insert|].
  pose proof (busy_some _ _ _ Hp ltac:(done)) as Hsi.
  assert (Hnb : forall uo, (forall j, beg loc nsh uo j (w_c v j)) -> False).
  { intros uo B. destruct (g1_sh _ _ _ _ _ (B i) (sh t i)) as (_ & G & _); [now rewrite Hv2|]. rewrite Hp in G. done. }
  assert (Hroll : (w_ph v = Some Roll \/ w_ph v = Some Orphan) /\ rolling nsh v /\ rolling nsh (popv v i Q)).
  { destruct H as [_ H], H' as [_ H']. cbn [w_bs w_ph w_up popv set_cell] in H'. fold (popv v i Q) in H'.
    rewrite Hv1 in *. destruct (w_ph v) as [[]|]; try done.
    - destruct H as [_ H]. exfalso. eauto.
    - destruct H as (U & HU & [[_ H]|[[[=] _]|[[=] _]]]). exfalso. eauto.
    - destruct H as [[_ H]|[[=] _]], H' as [[_ H']|[[=] _]]. auto.
    - destruct H as [[[_ H]|[[=] _]]|(U & HU & [[[=] _]|[[=] _]])], H' as [[[_ H']|[[=] _]]|(U' & HU' & [[[=] _]|[[=] _]])]. auto. }
  destruct Hroll as (Hph & [R _] & [R' _]).
  assert (Hclean : clean (w_c (popv v i Q) i)).
  { unfold popv. rewrite set_cell_eq. destruct (g2_ok _ _ _ (R i) [] (KRollback cb tn, PReply None) Q) as (A & B & C); [done|done|].
    split; [done|]. split; done. }
  set (v2 := put (popv v i Q) i (Sst ∅ SRolledBack)).
  assert (HR2 : forall j, rol nsh j (w_c v2 j)).
  { apply put_all; [|exact R']. intros X. apply (rol_done i _ (sh t i)); auto. now rewrite popv_sh, Hv2. }
  assert (Hb2 : forall j, base (w_c v2 j)).
  { apply (put_all _ i _ (fun _ c => base c)); [apply base_same|apply H']. }
  assert (Hcell : forall bs, forall j, w_c (bmv (popv v i Q) (Some (Btk bs (bt_sh (set_sh t i (Sst ∅ SRolledBack))))) (sent tn [])) j = w_c v2 j).
  { intros bs j. rewrite bmv_cell. unfold v2, put. cbn [mbind option_bind bt_sh]. destruct (decide (j = i)) as [->|Hne].
    - rewrite set_cell_eq. unfold set_sh. cbn. now rewrite lookup_insert.
    - rewrite set_cell_ne by done. unfold set_sh. cbn. rewrite lookup_insert_ne by done.
      rewrite <- Hv2'. apply cmv_id. }
  destruct (all_in _ _) eqn:Ha; injection E as <- <- <-; cbn [b_tk set_btk]; rewrite lookup_insert.
  - rewrite all_in_ok in Ha. split; [intros j; rewrite Hcell; apply Hb2|].
    assert (Hm : rollmode nsh BAborted (bmv (popv v i Q) (Some (Btk BAborted (bt_sh (set_sh t i (Sst ∅ SRolledBack))))) (sent tn []))).
    { right. split; [done|]. intros j. rewrite Hcell. apply (rol_clean nsh j); [done|].
      intros s Hs. rewrite <- (Hcell BAborted) in Hs. rewrite bmv_cell in Hs. cbn [cmv c_sh mbind option_bind bt_sh] in Hs. eauto. }
    cbn [w_bs w_ph w_up bmv popv set_cell fmap option_fmap option_map bt_state].
    destruct Hph as [-> | ->]; [exact Hm|left; exact Hm].
  - assert (Eeq : set_sh t i (Sst ∅ SRolledBack) = Btk BBegun (bt_sh (set_sh t i (Sst ∅ SRolledBack)))).
    { unfold set_sh. cbn. now rewrite Es. }
    rewrite Eeq. split; [intros j; rewrite Hcell; apply Hb2|].
    assert (Hm : rollmode nsh BBegun (bmv (popv v i Q) (Some (Btk BBegun (bt_sh (set_sh t i (Sst ∅ SRolledBack))))) (sent tn []))).
    { left. split; [done|]. split; [intros j; rewrite Hcell; apply HR2|].
      exists i. eexists. rewrite Hcell. unfold v2, put. rewrite set_cell_eq. cbn. auto. }
    cbn [w_bs w_ph w_up bmv popv set_cell fmap option_fmap option_map bt_state].
    destruct Hph as [-> | ->]; [exact Hm|left; exact Hm].
Qed.

(** The answer to finish. *)
Lemma hfinish_tinv st v b i cb tn r b' os res Q :
  i < nsh -> vhas v (b_tk b !! tn) ->
  c_Q (w_c v i) = (KFinish cb tn, PReply r) :: Q ->
  h_finish b i tn r = (b', os, res) -> tinv loc nsh st v ->
  tinv loc nsh st (bmv (popv v i Q) (b_tk b' !! tn) (sent tn os)).
Proof.
  intros Hi Hv HQ E H. pose proof (pop_tinv _ _ _ _ _ _ _ HQ H) as H'. fold (popv v i Q) in H'.
  apply (popv_has _ i Q) in Hv as Hv'.
  assert (Hsame : tinv loc nsh st (bmv (popv v i Q) (b_tk b !! tn) (sent tn []))) by now apply bmv_same.
  unfold h_finish in E. destruct (b_tk b !! tn) as [t|] eqn:Et; [|injection E as <- <- <-; now rewrite Et].
  pose proof Hv as [Hv1 Hv2]. pose proof Hv' as [Hv1' Hv2']. cbn in Hv1, Hv2, Hv1', Hv2'.
  destruct (bt_state t) eqn:Es; try (injection E as <- <- <-; now rewrite Et).
  assert (Htouch : tinv loc nsh st (bmv (popv v i Q) (Some (touch t i)) (sent tn []))).
  { apply bmv_put; auto. apply same_tinv; auto; [change (w_bs v <> None); congruence|]. apply sh_like. apply Hv2'. }
  case_bool_decide as Hp; cbn [negb] in E.
  2: { injection E as <- <- <-. cbn [b_tk set_btk]. now rewrite lookup_insert. }
  destruct r as [e|]; [injection E as <- <- <-; cbn [b_tk set_btk]; now rewrite lookup_insert|].
  pose proof (busy_some _ _ _ Hp ltac:(done)) as Hsi.
  assert (Hph : exists U, w_up v = Some U /\ (w_ph v = Some Com \/ w_ph v = Some Orphan) /\
     (forall j, cmt loc U j (w_c v j)) /\ forall j, cmt loc U j (w_c (popv v i Q) j)).
  { destruct H as [_ H], H' as [_ H']. cbn [w_bs w_ph w_up popv set_cell] in H'. fold (popv v i Q) in H'.
    rewrite Hv1 in *. destruct (w_ph v) as [[]|]; try done.
    - now destruct H.
    - destruct H as (U & HU & [[[=] _]|[[[=] _]|[_ H]]]), H' as (U' & HU' & [[[=] _]|[[[=] _]|[_ H']]]).
      exists U. split; [done|]. split; [auto|]. split; [done|]. assert (U' = U) as -> by congruence. done.
    - destruct H as [[[=] _]|[[=] _]].
    - destruct H as [[[[=] _]|[[=] _]]|(U & HU & [[[=] _]|[_ H]])], H' as [[[[=] _]|[[=] _]]|(U' & HU' & [[[=] _]|[_ H']])].
      exists U. split; [done|]. split; [auto|]. split; [done|]. assert (U' = U) as -> by congruence. done. }
  destruct Hph as (U & HU & Hph & Hpre & Hpre').
  assert (Happ : c_st (w_c v i) = Absent /\ (exists u, c_dn (w_c v i) = Some u) /\ forall q, q ∈ c_R (w_c v i) -> is_fin q).
  { destruct (Hpre i) as [(s & A & B & C & D & F & G & _)|((A & B & C) & _)].
    - assert (Ha : c_st (w_c v i) = Absent) by (apply (G (KFinish cb tn, PReply None)); [rewrite HQ; left|done]).
      split; [done|]. split; [eauto|]. destruct C as [C|[_ C]]; [congruence|done].
    - exfalso. enough (ok (KFinish cb tn, PReply None) = None) by done. apply C. rewrite HQ. left. }
  destruct Happ as (Ha1 & Ha2 & Ha3).
  set (v2 := put (popv v i Q) i (Sst (ss_keys (sh t i)) SFinished)).
  assert (Hpre2 : forall j, cmt loc U j (w_c v2 j)).
  { apply put_all; [|exact Hpre']. intros _.
    apply cmt_remark; auto; [now rewrite popv_sh, Hv2|..]; unfold popv; rewrite set_cell_eq; done. }
  assert (Hb2 : forall j, base (w_c v2 j)).
  { apply (put_all _ i _ (fun _ c => base c)); [apply base_same|apply H']. }
  assert (Hcell : forall bs, forall j, w_c (bmv (popv v i Q) (Some (Btk bs (bt_sh (mark t i SFinished)))) (sent tn [])) j = w_c v2 j).
  { intros bs j. rewrite bmv_cell. unfold v2, put. cbn [mbind option_bind bt_sh]. destruct (decide (j = i)) as [->|Hne].
    - rewrite set_cell_eq. unfold mark, set_sh. cbn. now rewrite lookup_insert.
    - rewrite set_cell_ne by done. unfold mark, set_sh. cbn. rewrite lookup_insert_ne by done.
      rewrite <- Hv2'. apply cmv_id. }
  destruct (all_in _ _) eqn:Ha; injection E as <- <- <-; cbn [b_tk set_btk del_btk].
  - rewrite lookup_delete. rewrite all_in_ok in Ha.
    assert (Hg : gone loc v2).
    { apply (cmt_gone loc U); auto. intros j s Hs. rewrite <- (Hcell BCommitted) in Hs. rewrite bmv_cell in Hs.
      cbn [cmv c_sh mbind option_bind bt_sh] in Hs. eauto. }
    assert (Hsame2 : forall j, exists o, w_c (bmv (popv v i Q) None (sent tn [])) j = cmv (w_c v2 j) o []).
    { intros j. exists None. rewrite bmv_cell. unfold v2, put. destruct (decide (j = i)) as [->|Hne].
      - rewrite set_cell_eq. unfold cmv. cbn. now rewrite !app_nil_r.
      - now rewrite set_cell_ne. }
    split.
    { intros j. destruct (Hsame2 j) as [o ->]. apply cmv_base; [apply Hb2|]. intros q Hq. now apply elem_of_nil in Hq. }
    assert (Hg' : gone loc (bmv (popv v i Q) None (sent tn []))).
    { destruct Hg as [G1 G2]. split.
      - intros j. destruct (Hsame2 j) as [o ->]. cbn. rewrite app_nil_r. apply G1.
      - destruct G2 as [G2|(U' & HU' & G2)]; [left|right].
        + intros j. destruct (Hsame2 j) as [o ->]. apply G2.
        + exists U'. split; [done|]. intros j. destruct (Hsame2 j) as [o ->]. apply G2. }
    cbn [w_bs w_ph w_up bmv popv set_cell fmap option_fmap option_map].
    destruct Hph as [-> | ->]; [exact Hg'|right; exact Hg'].
  - rewrite lookup_insert. assert (Eeq : mark t i SFinished = Btk BCommitted (bt_sh (mark t i SFinished))).
    { unfold mark, set_sh. cbn. now rewrite Es. }
    rewrite Eeq. split; [intros j; rewrite Hcell; apply Hb2|].
    cbn [w_bs w_ph w_up bmv popv set_cell fmap option_fmap option_map bt_state]. fold (popv v i Q).
    destruct Hph as [-> | ->].
    + exists U. split; [done|]. right; right. split; [done|]. intros j. rewrite Hcell. apply Hpre2.
    + right. exists U. split; [done|]. right. split; [done|]. intros j. rewrite Hcell. apply Hpre2.
Qed.
End Handle.
