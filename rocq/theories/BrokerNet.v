(** The broker's system: one ticket's view of it, and the parts a step leaves alone. *)
From stdpp Require Import base option list gmap fin_maps fin_sets.
From Coq Require Import NArith Lia.
From Verif Require Import Base ParsecShardModel ParsecShardSpec ParsecShardProofs ParsecShardSteps ParsecShardRuns
  ParsecShardFinal BrokerModel BrokerSpec BrokerShard BrokerInv BrokerStage BrokerHandle.
Open Scope N_scope.

Definition reqs_of (t : ticket_no) (l : list (breq * cont)) : list breq :=
  omap (fun p : breq * cont => if bool_decide (breq_tn p.1 = Some t) then Some p.1 else None) l.
Definition rsps_of (t : ticket_no) (l : list (cont * rsp)) : list (cont * rsp) :=
  omap (fun p : cont * rsp => if bool_decide (cont_tn p.1 = Some t) then Some p else None) l.

Lemma reqs_of_app t l1 l2 : reqs_of t (l1 ++ l2) = reqs_of t l1 ++ reqs_of t l2.
Proof. apply omap_app. Qed.
Lemma rsps_of_app t l1 l2 : rsps_of t (l1 ++ l2) = rsps_of t l1 ++ rsps_of t l2.
Proof. apply omap_app. Qed.
Lemma elem_rsps_of t l x : x ∈ rsps_of t l <-> x ∈ l /\ cont_tn x.1 = Some t.
Proof.
  unfold rsps_of. rewrite elem_of_list_omap. split.
  - intros (y & Hy & E). case_bool_decide as Hc; [|discriminate]. injection E as ->. auto.
  - intros [H1 H2]. exists x. split; [done|]. now rewrite bool_decide_eq_true_2.
Qed.

Definition vw (b : broker) (s : N -> shard) (req : N -> list (breq * cont)) (rsp : N -> list (cont * rsp))
    (g : memo) (t : ticket_no) : view :=
  View (bt_state <$> b_tk b !! t) (g_ph g !! t) (g_upd g !! t)
    (fun i => Cell (status_of (s i) t) (reqs_of t (req i)) (rsps_of t (rsp i)) (g_done g !! (t, i))
                (b_tk b !! t ≫= (fun x => bt_sh x !! i)) (bool_decide (i ∈ asked g t))).

Lemma vw_has b s req rsp g t : vhas (vw b s req rsp g t) (b_tk b !! t).
Proof. done. Qed.

Lemma upd_eq {A} (f : N -> A) i x : upd f i x i = x.
Proof. unfold upd. now rewrite N.eqb_refl. Qed.
Lemma upd_ne {A} (f : N -> A) i x j : j <> i -> upd f i x j = f j.
Proof. intros H. unfold upd. apply N.eqb_neq in H. now rewrite H. Qed.

(** ** Sending *)

Lemma post_reqs t os : forall req i, reqs_of t (post req os i) = reqs_of t (req i) ++ sent t os i.
Proof.
  induction os as [|[j q c|w r] os IH]; intros req i; cbn [post].
  - now rewrite app_nil_r.
  - rewrite IH. unfold sent. cbn. fold (sent t os i). destruct (decide (j = i)) as [->|Hne].
    + rewrite upd_eq, reqs_of_app, <- app_assoc. f_equal. unfold reqs_of at 1. cbn.
      repeat case_bool_decide; try tauto; done.
    + rewrite upd_ne by done. rewrite bool_decide_eq_false_2 by tauto. done.
  - now rewrite IH, sent_call.
Qed.
Lemma post_in os : forall req i x, x ∈ post req os i -> x ∈ req i \/ OSend i x.1 x.2 ∈ os.
Proof.
  induction os as [|[j q c|w r] os IH]; intros req i x; cbn [post]; [auto| |].
  - intros H. apply IH in H as [H|H]; [|right; now right].
    destruct (decide (j = i)) as [->|Hne].
    + rewrite upd_eq in H. apply elem_of_app in H as [H|H]; [auto|]. apply elem_of_list_singleton in H as ->.
      right. left.
    + rewrite upd_ne in H by done. auto.
  - intros H. apply IH in H as [H|H]; [auto|]. right. now right.
Qed.
Lemma post_app o1 : forall o2 req, post req (o1 ++ o2) = post (post req o1) o2.
Proof. induction o1 as [|[j q c|w r] o1 IH]; intros o2 req; cbn [post app]; auto. Qed.

Lemma vw_post b b' s req rsp g t os i :
  w_c (vw b' s (post req os) rsp g t) i = w_c (bmv (vw b s req rsp g t) (b_tk b' !! t) (sent t os)) i.
Proof. unfold bmv, vw. cbn. now rewrite post_reqs. Qed.

(** The callback of a commit or rollback recovery asked for belongs to the ticket. *)
Definition cb_for (cb : cback) (t : ticket_no) : Prop :=
  match cb with CRecCommit t' | CRecRollback t' => t' = t | _ => True end.
Definition cont_ok (c : cont) : Prop :=
  match c with
  | KLock _ _ _ | KGet => True
  | KPrepare cb t | KCommit cb t | KRollback cb t | KFinish cb t => cb_for cb t
  end.
(** A request and the lambda its answer is handed to. *)
Definition fits (q : breq) (c : cont) : Prop :=
  cont_ok c /\
  match q, c with
  | QLock t _ _ _, KLock _ t' _ => t' = t
  | QPrepare t _, KPrepare _ t' => t' = t
  | QCommit t, KCommit _ t' => t' = t
  | QRollback t, KRollback _ t' => t' = t
  | QFinish t, KFinish _ t' => t' = t
  | QGet, KGet => True
  | _, _ => False
  end.
Lemma fits_tn q c : fits q c -> cont_tn c = breq_tn q.
Proof. intros [_ H]. destruct q, c; cbn in *; subst; done. Qed.

Section Net.
Context (loc : key -> N) (nsh : N) (self : N) (own : ticket_no -> bool).

Record acts (tn : ticket_no) (b b' : broker) (os : list out) : Prop := {
  a_frame : forall t, t <> tn -> b_tk b' !! t = b_tk b !! t;
  a_none : b_tk b !! tn = None -> b_tk b' !! tn = None /\ forall i q c, OSend i q c ∉ os;
  a_send : forall i q c, OSend i q c ∈ os -> breq_tn q = Some tn /\ fits q c /\ i < nsh
}.

Definition quiet (os : list out) : Prop := forall i q c, OSend i q c ∉ os.
Lemma quiet_nil : quiet [].
Proof. intros i q c H. now apply elem_of_nil in H. Qed.
Lemma quiet_call w r : quiet [OCall w r].
Proof. intros i q c H. now apply elem_of_list_singleton in H. Qed.

Lemma acts_refl tn b os : quiet os -> acts tn b b os.
Proof. intros H. split; [done|auto|]. intros i q c Hin. now apply H in Hin. Qed.
Lemma acts_trans tn b b1 b2 o1 o2 : acts tn b b1 o1 -> acts tn b1 b2 o2 -> acts tn b b2 (o1 ++ o2).
Proof.
  intros [A B C] [A' B' C']. split.
  - intros t Ht. rewrite A' by done. now apply A.
  - intros Hn. destruct (B Hn) as [B1 B2]. destruct (B' B1) as [B3 B4]. split; [done|].
    intros i q c Hin. apply elem_of_app in Hin as [Hin|Hin]; [now apply B2 in Hin|now apply B4 in Hin].
  - intros i q c Hin. apply elem_of_app in Hin as [Hin|Hin]; eauto.
Qed.
Lemma acts_set tn b t t' os : b_tk b !! tn = Some t -> quiet os -> acts tn b (set_btk b tn t') os.
Proof.
  intros Et H. split.
  - intros x Hx. cbn. now rewrite lookup_insert_ne by congruence.
  - congruence.
  - intros i q c Hin. now apply H in Hin.
Qed.
Lemma acts_del tn b os : quiet os -> acts tn b (del_btk b tn) os.
Proof.
  intros H. split.
  - intros x Hx. cbn. now rewrite lookup_delete_ne by congruence.
  - intros _. cbn. split; [apply lookup_delete|done].
  - intros i q c Hin. now apply H in Hin.
Qed.
Lemma acts_visit skip busy tn (f : sst -> breq) k b t st shs ord down shs' os r :
  b_tk b !! tn = Some t -> (forall i, i ∈ ord -> i < nsh) -> (forall s, breq_tn (f s) = Some tn /\ fits (f s) k) ->
  visit skip busy (fun _ s => (f s, k)) shs ord down = (shs', os, r) ->
  acts tn b (set_btk b tn (Btk st shs')) os.
Proof.
  intros Et Ho Hf V. apply visit_out in V as (_ & V & _). split.
  - intros x Hx. cbn. now rewrite lookup_insert_ne by congruence.
  - congruence.
  - intros i q c Hin. apply V in Hin as (j & s & Hj & _ & [= -> -> ->]). destruct (Hf s). auto.
Qed.

Lemma finish_acts b tn cb ord down b' os r : an_order nsh ord -> cb_for cb tn ->
  b_finish b tn cb ord down = (b', os, r) -> acts tn b b' os.
Proof.
  intros [_ Ho] Hcb. unfold b_finish. destruct (b_tk b !! tn) as [t|] eqn:Et.
  2: { intros [= <- <- <-]. apply acts_refl, quiet_nil. }
  destruct (bt_state t).
  1, 2: intros [= <- <- <-]; apply acts_refl, quiet_nil.
  - destruct (visit _ _ _ _ _ _) as [[shs o] k] eqn:V. intros [= <- <- <-].
    eapply (acts_visit _ _ tn (fun _ => QFinish tn)); eauto; [intros i; apply Ho|done].
  - intros [= <- <- <-]. apply acts_del, quiet_nil.
Qed.
Lemma docommit_acts b tn t cb ord down b' os r : an_order nsh ord -> cb_for cb tn -> is_Some (b_tk b !! tn) ->
  do_commit b tn t cb ord down = (b', os, r) -> acts tn b b' os.
Proof.
  intros [_ Ho] Hcb [t0 Et]. unfold do_commit.
  destruct (visit _ _ _ _ _ _) as [[shs o] k] eqn:V. intros [= <- <- <-].
  eapply (acts_visit _ _ tn (fun _ => QCommit tn)); eauto; [intros i; apply Ho|done].
Qed.
Lemma commit_acts b tn u cb ord down b' os r : an_order nsh ord -> cb_for cb tn ->
  b_commit b tn u cb ord down = (b', os, r) -> acts tn b b' os.
Proof.
  intros Ho Hcb. unfold b_commit. destruct (commit_check b tn u) as [e|t] eqn:C.
  - intros [= <- <- <-]. apply acts_refl, quiet_nil.
  - apply commit_check_ok in C as (Et & _ & _).
    assert (Hp : do_prepare b tn t u cb ord down = (b', os, r) -> acts tn b b' os).
    { unfold do_prepare. destruct (visit _ _ _ _ _ _) as [[shs o] k] eqn:V. intros [= <- <- <-].
      eapply (acts_visit _ _ tn (fun s => QPrepare tn (for_shard u s))); eauto; [intros i; apply Ho|done]. }
    destruct (bt_state t); auto. apply docommit_acts; eauto.
Qed.
Lemma rollback_acts b tn cb ord down b' os r : an_order nsh ord -> cb_for cb tn ->
  b_rollback b tn cb ord down = (b', os, r) -> acts tn b b' os.
Proof.
  intros [_ Ho] Hcb. unfold b_rollback. destruct (b_tk b !! tn) as [t|] eqn:Et.
  2: { intros [= <- <- <-]. apply acts_refl, quiet_nil. }
  destruct (bt_state t).
  2, 3, 4: intros [= <- <- <-]; apply acts_refl, quiet_nil.
  case_bool_decide.
  - intros [= <- <- <-]. eapply acts_set; eauto using quiet_nil.
  - destruct (visit _ _ _ _ _ _) as [[shs o] k] eqn:V. intros [= <- <- <-].
    eapply (acts_visit _ _ tn (fun _ => QRollback tn)); eauto; [intros i; apply Ho|done].
Qed.
Lemma hprepare_acts b i cb tn r ord down b' os res : an_order nsh ord -> cb_for cb tn ->
  h_prepare b i cb tn r ord down = (b', os, res) -> acts tn b b' os.
Proof.
  intros Ho Hcb. unfold h_prepare. destruct (b_tk b !! tn) as [t|] eqn:Et.
  2: { intros [= <- <- <-]. apply acts_refl, quiet_nil. }
  destruct (bt_state t).
  2, 3, 4: intros [= <- <- <-]; apply acts_refl, quiet_nil.
  case_bool_decide; cbn [negb]; [|intros [= <- <- <-]; eapply acts_set; eauto using quiet_nil].
  destruct r as [[e d]|].
  - destruct e; try (intros [= <- <- <-]; eapply acts_set; eauto using quiet_nil).
    destruct (existsb _ _); intros [= <- <- <-]; eapply acts_set; eauto using quiet_nil.
  - destruct (all_in _ _); [apply docommit_acts; eauto|].
    intros [= <- <- <-]; eapply acts_set; eauto using quiet_nil.
Qed.
Lemma hcommit_acts b i tn r b' os res : h_commit b i tn r = (b', os, res) -> acts tn b b' os.
Proof.
  unfold h_commit. destruct (b_tk b !! tn) as [t|] eqn:Et.
  2: { intros [= <- <- <-]. apply acts_refl, quiet_nil. }
  destruct (bt_state t); try (intros [= <- <- <-]; apply acts_refl, quiet_nil).
  case_bool_decide; cbn [negb]; [|intros [= <- <- <-]; eapply acts_set; eauto using quiet_nil].
  destruct r as [e|]; [intros [= <- <- <-]; eapply acts_set; eauto using quiet_nil|].
  destruct (all_in _ _); intros [= <- <- <-]; eapply acts_set; eauto using quiet_nil.
Qed.
Lemma hrollback_acts b i tn r b' os res : h_rollback b i tn r = (b', os, res) -> acts tn b b' os.
Proof.
  unfold h_rollback. destruct (b_tk b !! tn) as [t|] eqn:Et.
  2: { intros [= <- <- <-]. apply acts_refl, quiet_nil. }
  destruct (bt_state t); try (intros [= <- <- <-]; apply acts_refl, quiet_nil).
  case_bool_decide; cbn [negb]; [|intros [= <- <- <-]; eapply acts_set; eauto using quiet_nil].
  destruct r as [e|]; [intros [= <- <- <-]; eapply acts_set; eauto using quiet_nil|].
  destruct (all_in _ _); intros [= <- <- <-]; eapply acts_set; eauto using quiet_nil.
Qed.
Lemma hfinish_acts b i tn r b' os res : h_finish b i tn r = (b', os, res) -> acts tn b b' os.
Proof.
  unfold h_finish. destruct (b_tk b !! tn) as [t|] eqn:Et.
  2: { intros [= <- <- <-]. apply acts_refl, quiet_nil. }
  destruct (bt_state t); try (intros [= <- <- <-]; apply acts_refl, quiet_nil).
  case_bool_decide; cbn [negb]; [|intros [= <- <- <-]; eapply acts_set; eauto using quiet_nil].
  destruct r as [e|]; [intros [= <- <- <-]; eapply acts_set; eauto using quiet_nil|].
  destruct (all_in _ _); intros [= <- <- <-]; [apply acts_del, quiet_nil|eapply acts_set; eauto using quiet_nil].
Qed.
Lemma lock_acts b cid tn k m up b' os : loc k < nsh ->
  b_lock loc b cid tn k m up = (b', os) -> acts tn b b' os.
Proof.
  intros Hk. unfold b_lock. destruct (b_tk b !! tn) as [t|] eqn:Et.
  2: { intros [= <- <-]. apply acts_refl, quiet_call. }
  assert (Hask : forall t1 ss first, (if up then
      (set_btk b tn t1, [OSend (loc k) (QLock tn k m first) (KLock cid tn k)])
      else (set_btk b tn ss, [OCall (Client cid) (RErr EShardUnreachable)])) = (b', os) -> acts tn b b' os).
  { intros t1 ss first. destruct up; intros [= <- <-].
    - split.
      + intros x Hx. cbn. now rewrite lookup_insert_ne by congruence.
      + congruence.
      + intros i q c Hin. apply elem_of_list_singleton in Hin. injection Hin as -> -> ->. done.
    - eapply acts_set; eauto using quiet_call. }
  assert (Hgo : forall t1, (let i := loc k in
    let ss := sh t1 i in
    let first := bool_decide (ss_keys ss = ∅) in
    let ask :=
      let b' := set_btk b tn (set_sh t1 i (Sst (<[k := KLocking m]> (ss_keys ss)) (ss_state ss))) in
      if up then (b', [OSend i (QLock tn k m first) (KLock cid tn k)])
      else (b', [OCall (Client cid) (RErr EShardUnreachable)]) in
    match ss_keys ss !! k with
    | Some (KLocked m' v) =>
        if lt_ge m' m then (set_btk b tn (touch t1 i), [OCall (Client cid) (RValue v)])
        else ask
    | _ => ask
    end) = (b', os) -> acts tn b b' os).
  { intros t1. cbn zeta. destruct (ss_keys (sh t1 (loc k)) !! k) as [[m'|m' x]|]; try apply Hask.
    destruct (lt_ge m' m); [|apply Hask]. intros [= <- <-]. eapply acts_set; eauto using quiet_call. }
  destruct (bt_state t); try (intros [= <- <-]; apply acts_refl, quiet_call); apply Hgo.
Qed.
Lemma hlock_acts b i cid tn k a b' os : h_lock b i cid tn k a = (b', os) -> acts tn b b' os.
Proof.
  unfold h_lock. destruct a as [x|e]; [|intros [= <- <-]; apply acts_refl, quiet_call].
  destruct (b_tk b !! tn) as [t|] eqn:Et; [|intros [= <- <-]; apply acts_refl, quiet_call].
  destruct (ss_keys (sh t i) !! k) as [[m|m y]|]; intros [= <- <-]; eapply acts_set; eauto using quiet_call.
Qed.

(** ** Calling back *)

Lemma quiet_fin b r : quiet (call_fin b r).
Proof. unfold call_fin. destruct r; try apply quiet_call. case_bool_decide; [apply quiet_call|apply quiet_nil]. Qed.
Lemma quiet_sent os t i : quiet os -> sent t os i = [].
Proof. intros H. apply sent_none. intros j q c Hin. now apply H in Hin. Qed.

Lemma then_finish_acts b tn ord down b' os : an_order nsh ord ->
  then_finish b tn ord down = (b', os) -> acts tn b b' os.
Proof.
  intros Ho. unfold then_finish. destruct (b_finish _ _ _ _ _) as [[b1 o1] r] eqn:E. intros [= <- <-].
  eapply acts_trans; [eapply finish_acts; eauto; done|]. apply acts_refl. destruct r; [apply quiet_fin|apply quiet_nil].
Qed.
Lemma call_acts b cb r tn ord down b' os : an_order nsh ord -> cb_for cb tn ->
  call b cb r ord down = (b', os) -> acts tn b b' os.
Proof.
  intros Ho Hcb. destruct cb as [cid|t|t|]; cbn in Hcb; cbn [call]; subst.
  - intros [= <- <-]. apply acts_refl, quiet_call.
  - destruct r; try (intros [= <- <-]; apply acts_refl, quiet_call). now apply then_finish_acts.
  - destruct r; try (intros [= <- <-]; apply acts_refl, quiet_call). now apply then_finish_acts.
  - intros [= <- <-]. apply acts_refl, quiet_fin.
Qed.
Lemma call_opt_acts b b1 o1 r cb tn ord down b' os : an_order nsh ord -> cb_for cb tn ->
  acts tn b b1 o1 -> call_opt (b1, o1, r) cb ord down = (b', os) -> acts tn b b' os.
Proof.
  intros Ho Hcb A. cbn. destruct r as [r|]; [|now intros [= <- <-]].
  destruct (call b1 cb r ord down) as [b2 o2] eqn:E. intros [= <- <-].
  eapply acts_trans; [exact A|]. eapply call_acts; eauto.
Qed.

Lemma bmv_quiet st v ot S1 o2 tn : quiet o2 -> tinv loc nsh st (bmv v ot S1) ->
  tinv loc nsh st (bmv v ot (fun i => S1 i ++ sent tn o2 i)).
Proof.
  intros Hq. apply tinv_ext; try done. intros i. rewrite !bmv_cell. now rewrite (quiet_sent _ _ _ Hq), app_nil_r.
Qed.
Lemma bmv_ext st v ot S S' : (forall i, S i = S' i) -> tinv loc nsh st (bmv v ot S) -> tinv loc nsh st (bmv v ot S').
Proof. intros H. apply tinv_ext; try done. intros i. now rewrite !bmv_cell, H. Qed.

Lemma then_finish_tinv st v b tn ord down b' os : an_order nsh ord -> vhas v (b_tk b !! tn) ->
  then_finish b tn ord down = (b', os) -> tinv loc nsh st v -> tinv loc nsh st (bmv v (b_tk b' !! tn) (sent tn os)).
Proof.
  intros [Ho _] Hv. unfold then_finish. destruct (b_finish _ _ _ _ _) as [[b1 o1] r] eqn:E. intros [= <- <-] H.
  eapply bmv_ext; [intros i; symmetry; apply sent_app|]. apply bmv_quiet.
  - destruct r; [apply quiet_fin|apply quiet_nil].
  - eapply fin_tinv; eauto.
Qed.
Lemma call_tinv st v b cb r tn ord down b' os : an_order nsh ord -> cb_for cb tn -> vhas v (b_tk b !! tn) ->
  call b cb r ord down = (b', os) -> tinv loc nsh st v -> tinv loc nsh st (bmv v (b_tk b' !! tn) (sent tn os)).
Proof.
  intros Ho Hcb Hv E H.
  assert (Hq : forall os0, quiet os0 -> (b, os0) = (b', os) -> tinv loc nsh st (bmv v (b_tk b' !! tn) (sent tn os))).
  { intros os0 Hq [= <- <-]. apply bmv_same; [done| |done]. intros i. now apply quiet_sent. }
  destruct cb as [cid|t|t|]; cbn in Hcb; cbn [call] in E; subst.
  - eapply Hq; [|exact E]. apply quiet_call.
  - destruct r; try (eapply Hq; [|exact E]; apply quiet_call). eapply then_finish_tinv; eauto.
  - destruct r; try (eapply Hq; [|exact E]; apply quiet_call). eapply then_finish_tinv; eauto.
  - eapply Hq; [|exact E]. apply quiet_fin.
Qed.
Lemma call_opt_tinv st v b1 o1 r cb tn ord down b' os : an_order nsh ord -> cb_for cb tn ->
  tinv loc nsh st (bmv v (b_tk b1 !! tn) (sent tn o1)) ->
  call_opt (b1, o1, r) cb ord down = (b', os) -> tinv loc nsh st (bmv v (b_tk b' !! tn) (sent tn os)).
Proof.
  intros Ho Hcb A. cbn. destruct r as [r|]; [|now intros [= <- <-]].
  destruct (call b1 cb r ord down) as [b2 o2] eqn:E. intros [= <- <-].
  eapply bmv_ext; [intros i; symmetry; apply sent_app|]. eapply bmv_bmv. eapply call_tinv; eauto. apply bmv_has.
Qed.

(** When recovery reports success, the broker has no tickets. *)
Definition rok (os : list out) : Prop := OCall Recovery ROk ∈ os.
Definition mute (os : list out) : Prop := forall w r, OCall w r ∉ os.
Lemma mute_nil : mute [].
Proof. intros w r H. now apply elem_of_nil in H. Qed.
Lemma mute_visit skip busy mk shs ord down shs' os r :
  visit skip busy mk shs ord down = (shs', os, r) -> mute os.
Proof.
  intros V. apply visit_out in V as (_ & V & _). intros w x Hin. apply V in Hin as (i & s & _ & _ & [=]).
Qed.
Ltac mute_tac :=
  repeat match goal with
  | |- context [match ?x with _ => _ end] => destruct x eqn:?
  end; intros; simplify_eq; eauto using mute_nil, mute_visit.
Lemma finish_mute b tn cb ord down b' os r : b_finish b tn cb ord down = (b', os, r) -> mute os.
Proof. unfold b_finish. mute_tac. Qed.
Lemma docommit_mute b tn t cb ord down b' os r : do_commit b tn t cb ord down = (b', os, r) -> mute os.
Proof. unfold do_commit. mute_tac. Qed.
Lemma commit_mute b tn u cb ord down b' os r : b_commit b tn u cb ord down = (b', os, r) -> mute os.
Proof.
  unfold b_commit. destruct (commit_check b tn u); [intros [= <- <- <-]; apply mute_nil|].
  destruct (bt_state _); eauto using docommit_mute; unfold do_prepare; mute_tac.
Qed.
Lemma rollback_mute b tn cb ord down b' os r : b_rollback b tn cb ord down = (b', os, r) -> mute os.
Proof. unfold b_rollback. mute_tac. Qed.
Lemma hprepare_mute b i cb tn r ord down b' os res : h_prepare b i cb tn r ord down = (b', os, res) -> mute os.
Proof.
  unfold h_prepare. destruct (b_tk b !! tn) as [t|]; [|intros [= <- <- <-]; apply mute_nil].
  destruct (bt_state t); try (intros [= <- <- <-]; apply mute_nil).
  case_bool_decide; cbn [negb]; [|intros [= <- <- <-]; apply mute_nil].
  destruct r as [[e d]|].
  - destruct e; try (intros [= <- <- <-]; apply mute_nil). destruct (existsb _ _); intros [= <- <- <-]; apply mute_nil.
  - destruct (all_in _ _); [apply docommit_mute|intros [= <- <- <-]; apply mute_nil].
Qed.
Lemma hcommit_mute b i tn r b' os res : h_commit b i tn r = (b', os, res) -> mute os.
Proof. unfold h_commit. mute_tac. Qed.
Lemma hrollback_mute b i tn r b' os res : h_rollback b i tn r = (b', os, res) -> mute os.
Proof. unfold h_rollback. mute_tac. Qed.
Lemma hfinish_mute b i tn r b' os res : h_finish b i tn r = (b', os, res) -> mute os.
Proof. unfold h_finish. mute_tac. Qed.

Lemma call_rok b cb r ord down b' os : call b cb r ord down = (b', os) -> rok os -> b_tk b' = ∅.
Proof.
  assert (Hf : forall b r, rok (call_fin b r) -> b_tk b = ∅).
  { intros b0 r0. unfold call_fin, rok. destruct r0; try (intros H; apply elem_of_list_singleton in H; discriminate).
    case_bool_decide; [done|]. intros H0. now apply elem_of_nil in H0. }
  assert (Ht : forall tn, then_finish b tn ord down = (b', os) -> rok os -> b_tk b' = ∅).
  { intros tn. unfold then_finish. destruct (b_finish _ _ _ _ _) as [[b1 o1] r1] eqn:E. intros [= <- <-] Hr.
    apply elem_of_app in Hr as [Hr|Hr]; [now apply finish_mute in E; apply E in Hr|].
    destruct r1 as [r1|]; [now apply Hf in Hr|now apply elem_of_nil in Hr]. }
  destruct cb as [cid|t|t|]; cbn [call].
  - intros [= <- <-] Hr. apply elem_of_list_singleton in Hr. discriminate.
  - destruct r; try (intros [= <- <-] Hr; apply elem_of_list_singleton in Hr; discriminate). apply Ht.
  - destruct r; try (intros [= <- <-] Hr; apply elem_of_list_singleton in Hr; discriminate). apply Ht.
  - intros [= <- <-]. apply Hf.
Qed.
Lemma call_opt_rok b1 o1 r cb ord down b' os : mute o1 ->
  call_opt (b1, o1, r) cb ord down = (b', os) -> rok os -> b_tk b' = ∅.
Proof.
  intros M. cbn. destruct r as [r|]; [|intros [= <- <-] H; now apply M in H].
  destruct (call b1 cb r ord down) as [b2 o2] eqn:E. intros [= <- <-] Hr.
  apply elem_of_app in Hr as [Hr|Hr]; [now apply M in Hr|]. eapply call_rok; eauto.
Qed.
End Net.
