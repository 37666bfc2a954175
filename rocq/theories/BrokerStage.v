(** What the broker's methods do to one ticket. *)
From stdpp Require Import base option list gmap fin_maps fin_sets.
From Coq Require Import NArith Lia.
From Verif Require Import Base ParsecShardModel ParsecShardSpec BrokerModel BrokerSpec BrokerShard BrokerInv.
Open Scope N_scope.

Definition breq_tn (q : breq) : option ticket_no :=
  match q with
  | QLock tn _ _ _ | QPrepare tn _ | QCommit tn | QRollback tn | QFinish tn => Some tn
  | QGet => None
  end.
Definition cont_tn (c : cont) : option ticket_no :=
  match c with
  | KLock _ tn _ | KPrepare _ tn | KCommit _ tn | KRollback _ tn | KFinish _ tn => Some tn
  | KGet => None
  end.

(** What a list of outputs sends to a shard for a ticket. *)
Definition sent (t : ticket_no) (os : list out) (i : N) : list breq :=
  omap (fun o => match o with
        | OSend j q _ => if bool_decide (j = i /\ breq_tn q = Some t) then Some q else None
        | OCall _ _ => None end) os.

Lemma sent_app t o1 o2 i : sent t (o1 ++ o2) i = sent t o1 i ++ sent t o2 i.
Proof. apply omap_app. Qed.
Lemma sent_call t w r os i : sent t (OCall w r :: os) i = sent t os i.
Proof. done. Qed.
Lemma sent_none t os i : (forall j q c, OSend j q c ∈ os -> breq_tn q <> Some t \/ j <> i) -> sent t os i = [].
Proof.
  induction os as [|[j q c|w r] os IH]; intros H; [done| |].
  - unfold sent. cbn. rewrite bool_decide_eq_false_2.
    + apply IH. intros j' q' c' Hin. eapply H. right. exact Hin.
    + intros [-> Hq]. destruct (H i q c); [left|congruence|congruence].
  - rewrite sent_call. apply IH. intros j' q' c' Hin. eapply H. right. exact Hin.
Qed.

(** A ticket after the broker changed what it knows and sent requests. *)
Definition bmv (v : view) (ot : option btk) (S : N -> list breq) : view :=
  View (bt_state <$> ot) (w_ph v) (w_up v)
    (fun i => let c := w_c v i in
       Cell (c_st c) (c_R c ++ S i) (c_Q c) (c_dn c) (ot ≫= (fun b => bt_sh b !! i)) (c_as c)).

Definition has (v : view) (t : btk) : Prop :=
  w_bs v = Some (bt_state t) /\ forall i, c_sh (w_c v i) = bt_sh t !! i.

(** ** The loop over the shards *)

Definition vis (skip busy : sstate) (mk : N -> sst -> breq * cont) (shs shs' : gmap N sst)
    (os : list out) (i : N) : Prop :=
  (shs' !! i = shs !! i /\ (forall q c, OSend i q c ∉ os)) \/
  (exists s, shs !! i = Some s /\ ss_state s <> skip /\ shs' !! i = Some (Sst (ss_keys s) busy) /\
     ((forall q c, OSend i q c ∉ os) \/
      (exists o1 o2, os = o1 ++ OSend i (mk i s).1 (mk i s).2 :: o2 /\
         forall q c, OSend i q c ∉ o1 ++ o2))).

Lemma visit_out skip busy mk ord down : forall shs shs' os r,
  visit skip busy mk shs ord down = (shs', os, r) ->
  (forall i, i ∉ ord -> shs' !! i = shs !! i) /\
  (forall o, o ∈ os -> exists i s, i ∈ ord /\ shs !! i <> None /\ o = OSend i (mk i s).1 (mk i s).2) /\
  (forall i, shs' !! i = None <-> shs !! i = None).
Proof.
  induction ord as [|i ord IH]; intros shs shs' os r; cbn [visit].
  - intros [= <- <- <-]. split; [done|]. split; [|done]. intros o Ho. now apply elem_of_nil in Ho.
  - destruct (shs !! i) as [s|] eqn:E.
    + case_bool_decide as Hs.
      * intros H. destruct (IH _ _ _ _ H) as (A & B & C). split; [|split; [|exact C]].
        -- intros j Hj. apply A. set_solver.
        -- intros o Ho. destruct (B o Ho) as (j & s' & Hj & Hn & ->). exists j, s'. split; [set_solver|done].
      * assert (Hd : forall j, <[i:=Sst (ss_keys s) busy]> shs !! j = None <-> shs !! j = None).
        { intros j. destruct (decide (j = i)) as [->|]; [rewrite lookup_insert, E|rewrite lookup_insert_ne by done]; done. }
        case_bool_decide as Hd0.
        -- intros [= <- <- <-]. split; [|split; [|exact Hd]].
           ++ intros j Hj. rewrite lookup_insert_ne; [done|]. set_solver.
           ++ intros o Ho. now apply elem_of_nil in Ho.
        -- destruct (visit skip busy mk _ ord down) as [[shs2 o2] r2] eqn:H. intros [= <- <- <-].
           destruct (IH _ _ _ _ H) as (A & B & C). split; [|split].
           ++ intros j Hj. rewrite A by set_solver. rewrite lookup_insert_ne; [done|]. set_solver.
           ++ intros o Ho. apply elem_of_cons in Ho as [->|Ho].
              ** exists i, s. split; [set_solver|]. split; [congruence|done].
              ** destruct (B o Ho) as (j & s' & Hj & Hn & ->). exists j, s'. split; [set_solver|].
                 split; [|done]. now rewrite Hd in Hn.
           ++ intros j. now rewrite C, Hd.
    + intros H. destruct (IH _ _ _ _ H) as (A & B & C). split; [|split; [|exact C]].
      * intros j Hj. apply A. set_solver.
      * intros o Ho. destruct (B o Ho) as (j & s' & Hj & Hn & ->). exists j, s'. split; [set_solver|done].
Qed.

Lemma visit_vis skip busy mk ord down : forall shs shs' os r,
  base.NoDup ord -> visit skip busy mk shs ord down = (shs', os, r) -> forall i, vis skip busy mk shs shs' os i.
Proof.
  induction ord as [|i ord IH]; intros shs shs' os r Hnd; cbn [visit].
  - intros [= <- <- <-] i. left. split; [done|]. intros q c H. now apply elem_of_nil in H.
  - apply NoDup_cons in Hnd as [Hi Hnd]. destruct (shs !! i) as [s|] eqn:E.
    + case_bool_decide as Hs; [intros H; eapply IH; eauto|].
      case_bool_decide as Hd0.
      * intros [= <- <- <-] j. destruct (decide (j = i)) as [->|Hne].
        -- right. exists s. rewrite lookup_insert. repeat (split; [done|]). left.
           intros q c H. now apply elem_of_nil in H.
        -- left. rewrite lookup_insert_ne by done. split; [done|]. intros q c H. now apply elem_of_nil in H.
      * destruct (visit skip busy mk _ ord down) as [[shs2 o2] r2] eqn:H. intros [= <- <- <-] j.
        destruct (visit_out _ _ _ _ _ _ _ _ _ H) as (A & B & C).
        destruct (decide (j = i)) as [->|Hne].
        -- right. exists s. rewrite A, lookup_insert by done. repeat (split; [done|]). right.
           exists [], o2. split; [done|]. intros q c Hin. cbn in Hin.
           destruct (B _ Hin) as (j & s' & Hj & _ & [= -> _ _]). done.
        -- destruct (IH _ _ _ _ Hnd H j) as [[V1 V2]|(s' & V1 & V2 & V3 & V4)].
           ++ left. rewrite lookup_insert_ne in V1 by done. split; [done|].
              intros q c Hin. apply elem_of_cons in Hin as [[= -> _ _]|Hin]; [done|]. now apply (V2 q c).
           ++ right. exists s'. rewrite lookup_insert_ne in V1 by done. repeat (split; [done|]).
              destruct V4 as [V4|(p1 & p2 & -> & V4)]; [left|right].
              ** intros q c Hin. apply elem_of_cons in Hin as [[= -> _ _]|Hin]; [done|]. now apply (V4 q c).
              ** exists (OSend i (mk i s).1 (mk i s).2 :: p1), p2. split; [done|].
                 intros q c Hin. cbn in Hin. apply elem_of_cons in Hin as [[= -> _ _]|Hin]; [done|]. now apply (V4 q c).
    + intros H. eapply IH; eauto.
Qed.

Lemma visit_some skip busy mk ord down : forall shs shs' os r,
  base.NoDup ord -> visit skip busy mk shs ord down = (shs', os, r) ->
  (exists i, i ∈ ord /\ is_Some (shs !! i)) ->
  exists j s, shs' !! j = Some s /\ (ss_state s = busy \/ ss_state s = skip).
Proof.
  induction ord as [|i ord IH]; intros shs shs' os r Hnd H (j & Hj & Hs); [now apply elem_of_nil in Hj|].
  apply NoDup_cons in Hnd as [Hi Hnd]. cbn [visit] in H. destruct (shs !! i) as [s|] eqn:E.
  - case_bool_decide as Hb.
    + exists i, s. destruct (visit_out _ _ _ _ _ _ _ _ _ H) as (A & _). rewrite A by done. auto.
    + case_bool_decide as Hd.
      * injection H as <- <- <-. exists i. eexists. rewrite lookup_insert. split; [done|]. now left.
      * destruct (visit skip busy mk _ ord down) as [[shs2 o2] r2] eqn:H2. injection H as <- <- <-.
        destruct (visit_out _ _ _ _ _ _ _ _ _ H2) as (A & _).
        exists i. eexists. rewrite A, lookup_insert by done. split; [done|]. now left.
  - apply (IH shs shs' os r Hnd H). exists j. apply elem_of_cons in Hj as [->|Hj]; [|auto].
    rewrite E in Hs. now destruct Hs.
Qed.

(** What the loop does to the cell of shard [i]. *)
Definition moved (skip busy : sstate) (q : sst -> breq) (os' : option sst) (S : list breq) (o : option sst) : Prop :=
  (os' = o /\ S = []) \/
  (exists s, o = Some s /\ ss_state s <> skip /\ os' = Some (Sst (ss_keys s) busy) /\ (S = [] \/ S = [q s])).

Lemma visit_moved skip busy tn (f : sst -> breq) (k : cont) ord down shs shs' os r :
  base.NoDup ord -> (forall s, breq_tn (f s) = Some tn) ->
  visit skip busy (fun _ s => (f s, k)) shs ord down = (shs', os, r) ->
  forall i, moved skip busy f (shs' !! i) (sent tn os i) (shs !! i).
Proof.
  intros Hnd Hf H i. destruct (visit_vis _ _ _ _ _ _ _ _ _ Hnd H i) as [[A B]|(s & A & B & C & D)].
  - left. split; [done|]. apply sent_none. intros j q c Hin. right. intros ->. now apply (B q c).
  - right. exists s. repeat (split; [done|]). destruct D as [D|(o1 & o2 & -> & D)]; [left|right].
    + apply sent_none. intros j q c Hin. right. intros ->. now apply (D q c).
    + rewrite sent_app. unfold sent at 2. cbn. rewrite bool_decide_eq_true_2 by auto.
      rewrite sent_none; [cbn; f_equal; apply sent_none|]; intros j q c Hin; right; intros ->;
        apply (D q c); apply elem_of_app; auto.
Qed.

Section Stage.
Context (loc : key -> N) (nsh : N).

Definition cmv (c : cell) (s : option sst) (qs : list breq) : cell :=
  Cell (c_st c) (c_R c ++ qs) (c_Q c) (c_dn c) s (c_as c).

Lemma bmv_cell v ot S i : w_c (bmv v ot S) i = cmv (w_c v i) (ot ≫= (fun b => bt_sh b !! i)) (S i).
Proof. done. Qed.

Lemma cmv_base c s qs : base c -> (forall q, q ∈ qs -> ~ is_lock q) -> base (cmv c s qs).
Proof.
  intros (A & B & C) H. split; [done|]. split; [|done]. cbn. intros q Hq Hl.
  apply elem_of_app in Hq as [Hq|Hq]; [eauto|]. exfalso. eapply H; eauto.
Qed.
Lemma cmv_clean c s qs : clean c -> (forall q, q ∈ qs -> is_rb q) -> clean (cmv c s qs).
Proof.
  intros (A & B & C) H. split; [done|]. split; [|done]. cbn. intros q Hq.
  apply elem_of_app in Hq as [Hq|Hq]; eauto.
Qed.
Lemma cmv_bystander c s qs : bystander c -> (forall q, q ∈ qs -> ~ is_lock q) -> bystander (cmv c s qs).
Proof.
  intros (A & B & C) H. split; [done|]. split; [|done]. cbn. intros q Hq.
  apply elem_of_app in Hq as [Hq|Hq]; eauto.
Qed.

Lemma one_of {A} (P : A -> Prop) (qs : list A) x : (qs = [] \/ qs = [x]) -> P x -> forall q, q ∈ qs -> P q.
Proof.
  intros [->| ->] H q Hq; [now apply elem_of_nil in Hq|]. apply elem_of_list_singleton in Hq. now subst.
Qed.

Lemma cmv_id c : cmv c (c_sh c) [] = c.
Proof. destruct c. unfold cmv. cbn. now rewrite app_nil_r. Qed.

Lemma beg_more u i c : beg loc nsh None i c -> beg loc nsh (Some u) i c.
Proof.
  intros [A B C D E F G H]. constructor; try assumption.
  - intros x Hx. destruct (B x Hx) as (U & [=] & _).
  - intros q Hq. destruct (C q Hq) as [?|[?|(U & t & [=] & _)]]; auto.
Qed.

Lemma send_prep t U i c f s' qs :
  beg loc nsh (Some U) i c -> (forall s, c_sh c = Some s -> f s = QPrepare t (part loc U i)) ->
  moved SPrepared SPreparing f s' qs (c_sh c) -> beg loc nsh (Some U) i (cmv c s' qs).
Proof.
  intros H Hf [[-> ->]|(s & Hs & Hn & -> & Hq)]; [now rewrite cmv_id|].
  rewrite (Hf s Hs) in Hq. destruct H as [A B C D E F G H].
  assert (Hx : forall q, q ∈ qs -> q = QPrepare t (part loc U i)) by now apply (one_of _ _ _ Hq).
  constructor; cbn; try assumption; try discriminate.
  - intros q Hin. apply elem_of_app in Hin as [Hin|Hin]; [auto|]. apply Hx in Hin. eauto 10.
  - intros r1 q r2 Er Hr. apply app_split in Er as [(r2' & -> & Er)|Hin]; [eapply D; eauto|].
    apply Hx in Hin as ->. destruct Hr.
  - intros s0 [= <-]. destruct (G s Hs) as (G1 & G2 & G3 & G4). cbn. repeat split; auto. discriminate.
Qed.

Lemma send_com t U i c s' qs :
  pre loc U i c -> moved SCommitted SCommitting (fun _ => QCommit t) s' qs (c_sh c) -> pre loc U i (cmv c s' qs).
Proof.
  intros H [[-> ->]|(s & Hs & Hn & -> & Hq)]; [now rewrite cmv_id|].
  destruct H as [(s0 & A & B & C & D & E)|(A & B & C & D)]; [left|right].
  - eexists. split; [done|]. cbn. repeat (split; [done|]).
    split; [|split; [exact D|discriminate]].
    intros q Hin. apply elem_of_app in Hin as [Hin|Hin]; [auto|]. right; right.
    eapply (one_of is_com); eauto. done.
  - split; [|split; [done|split; [done|]]].
    + apply cmv_bystander; [done|]. apply (one_of _ _ _ Hq). tauto.
    + cbn. now intros s1 [= <-].
Qed.

Lemma send_fin t U i c s' qs :
  cmt loc U i c -> moved SFinished SFinishing (fun _ => QFinish t) s' qs (c_sh c) -> cmt loc U i (cmv c s' qs).
Proof.
  intros H [[-> ->]|(s & Hs & Hn & -> & Hq)]; [now rewrite cmv_id|].
  assert (Hx : forall q, q ∈ qs -> is_fin q) by now apply (one_of _ _ _ Hq).
  destruct H as [(s0 & A & B & C & D & E & F & G)|(A & B & C & D)]; [left|right].
  - eexists. split; [done|]. cbn. split; [done|]. split; [|split; [|split; [|split; [exact F|discriminate]]]].
    + destruct C as [C|[C C']]; [now left|right]. split; [done|].
      intros q Hin. apply elem_of_app in Hin as [Hin|Hin]; auto.
    + intros q Hin. apply elem_of_app in Hin as [Hin|Hin]; auto.
    + intros r1 q r2 Er Hr q' Hq'. apply app_split in Er as Er'. destruct Er' as [(r2' & -> & Er')|Hin].
      * apply elem_of_app in Hq' as [Hq'|Hq']; [eapply E; eauto|auto].
      * destruct Hq as [->| ->]; [now apply elem_of_nil in Hin|].
        apply snoc_split in Er as [(-> & _ & _)|(r2' & -> & Er)]; [now apply elem_of_nil in Hq'|].
        apply elem_of_app in Hq' as [Hq'|Hq']; [eapply E; eauto|auto].
  - split; [|split; [done|split; [done|]]].
    + apply cmv_bystander; [done|]. intros q Hin Hl. apply Hx in Hin. destruct q; done.
    + cbn. now intros s1 [= <-].
Qed.

Lemma send_rb t i c s' qs :
  rol nsh i c -> moved SRolledBack SRollingBack (fun _ => QRollback t) s' qs (c_sh c) -> rol nsh i (cmv c s' qs).
Proof.
  intros H [[-> ->]|(s & Hs & Hn & -> & Hq)]; [now rewrite cmv_id|].
  assert (Hx : forall q, q ∈ qs -> is_rb q) by now apply (one_of _ _ _ Hq).
  destruct H as [A B C D E F G H].
  constructor; cbn; try assumption; try discriminate.
  - intros q Hin. apply elem_of_app in Hin as [Hin|Hin]; auto.
  - intros r1 q r2 Er Hr. destruct Hq as [->| ->]; [rewrite app_nil_r in Er; eauto|].
    apply snoc_split in Er as [(-> & _ & _)|(r2' & -> & Er)].
    + left. intros q' Hq'. now apply elem_of_nil in Hq'.
    + destruct (C _ _ _ Er Hr) as [C1|C1]; [left|right; exact C1].
      intros q' Hq'. apply elem_of_app in Hq' as [Hq'|Hq']; auto.
  - intros q1 x q2 Eq Hok. destruct (E _ _ _ Eq Hok) as (E1 & E2 & E3). split; [done|]. split; [|done].
    intros q Hin. apply elem_of_app in Hin as [Hin|Hin]; auto.
  - intros s0 [= <-]. destruct (G s Hs) as (G1 & G2 & G3). cbn. split; [done|]. split; [done|discriminate].
Qed.

Lemma beg_rol uo i c : beg loc nsh uo i c -> rol nsh i c.
Proof.
  intros [A B C D E F G H]. constructor; try assumption.
  - intros q Hq. destruct (C q Hq) as [?|[?|(U & t & _ & ->)]]; cbn; auto.
  - intros r1 q r2 Er Hr. right. eauto.
  - intros x o Hx Ho. left. now destruct (E x o Hx Ho) as [-> _].
  - intros q1 x q2 Eq Ho. destruct (E x OR) as [[=] _]; [rewrite Eq; set_solver|done].
  - intros Hs. now apply F.
  - intros s Hs. destruct (G s Hs) as (G1 & G2 & G3 & G4). split; [done|]. split.
    + now destruct (ss_state s).
    + intros Hr. rewrite Hr in G2. destruct G2.
Qed.

Lemma beg_pre U i c : beg loc nsh (Some U) i c -> base c ->
  (forall s, c_sh c = Some s -> ss_state s = SPrepared) -> pre loc U i c.
Proof.
  intros [A B C D E F G H] Hb Hp. destruct (c_sh c) as [s|] eqn:Es.
  - left. exists s. split; [done|]. destruct (G s eq_refl) as (_ & _ & G3 & _).
    destruct (G3 (Hp s eq_refl)) as [u Hu]. destruct (B u Hu) as (U' & [= <-] & ->).
    split; [auto|]. split; [|split].
    + intros q Hq. destruct (C q Hq) as [Hr|[Hr|(U' & t & _ & ->)]]; cbn; auto.
      apply elem_of_list_split in Hq as (r1 & r2 & Er). destruct (D _ _ _ Er Hr). congruence.
    + intros x o Hx Ho. left. now destruct (E x o Hx Ho) as [-> _].
    + rewrite Hp by done. discriminate.
  - right. destruct (F eq_refl) as [(F1 & F2 & F3) F4]. split; [|split; [done|split; [done|congruence]]].
    split; [done|]. split; [|done]. intros q Hq Hl. specialize (F2 q Hq). destruct q; done.
Qed.

Lemma pre_cmt U i c : pre loc U i c ->
  (forall s, c_sh c = Some s -> ss_state s = SCommitted) -> cmt loc U i c.
Proof.
  intros [(s & A & B & C & D & E)|(A & B & C & D)] Hs; [left|right].
  - specialize (Hs s A). specialize (E Hs). exists s. split; [done|].
    destruct B as [[B _]|[B B']]; [congruence|]. split; [done|]. split; [now left|]. split; [|split; [|split]].
    + intros q Hq. destruct (C q Hq) as [?|[?|?]]; auto.
    + intros r1 q r2 Er Hf. exfalso. destruct (C q) as [?|[?|?]]; [rewrite Er; set_solver|..]; destruct q; done.
    + intros x Hx Ho. destruct (D x OF Hx Ho) as [[=]|[[=] _]].
    + rewrite Hs. discriminate.
  - split; [done|]. split; [congruence|]. split; [congruence|]. intros s E. specialize (Hs s E). exfalso. now apply (D s).
Qed.

Lemma rol_clean i c : rol nsh i c -> (forall s, c_sh c = Some s -> ss_state s = SRolledBack) -> clean c /\ c_dn c = None.
Proof.
  intros H Hs. split; [|apply H]. destruct (c_sh c) as [s|] eqn:E.
  - now apply (g2_sh _ _ _ H s E), Hs.
  - now apply (g2_none _ _ _ H).
Qed.

Lemma clean_gone (c : cell) : clean c -> c_st c = Absent /\ forall q, q ∈ c_R c -> ~ is_lock q.
Proof. intros (A & B & C). split; [done|]. intros q Hq Hl. specialize (B q Hq). destruct q; done. Qed.

Lemma cmt_gone U v : (forall i, cmt loc U i (w_c v i)) -> w_up v = Some U ->
  (forall i s, c_sh (w_c v i) = Some s -> ss_state s = SFinished) -> gone loc v.
Proof.
  intros H HU Hs. split.
  - intros i. destruct (H i) as [(s & A & B & C & D & E & F & G)|((A1 & A2 & A3) & _)]; [|auto].
    specialize (G (Hs i s A)). split; [done|]. destruct C as [C|[_ C]]; [congruence|].
    intros q Hq Hl. specialize (C q Hq). destruct q; done.
  - right. exists U. split; [done|]. intros i.
    destruct (H i) as [(s & A & B & _)|(_ & A & B & _)]; [|auto].
    rewrite B. split; [done|]. now intros x [= <-].
Qed.
(** ** Small changes of what the broker knows about one shard *)

Definition like (c : cell) (s : sst) : Prop :=
  ss_state s = ss_state (default sst0 (c_sh c)) /\
  forall k, is_Some (ss_keys s !! k) -> is_Some (ss_keys (default sst0 (c_sh c)) !! k).

Lemma clean_same c s : clean c -> clean (cmv c (Some s) []).
Proof. intros H. apply cmv_clean; [done|]. intros q Hq. now apply elem_of_nil in Hq. Qed.
Lemma base_same c s : base c -> base (cmv c (Some s) []).
Proof. intros H. apply cmv_base; [done|]. intros q Hq. now apply elem_of_nil in Hq. Qed.
Lemma bystander_same c s : bystander c -> bystander (cmv c (Some s) []).
Proof. intros H. apply cmv_bystander; [done|]. intros q Hq. now apply elem_of_nil in Hq. Qed.

Lemma beg_same uo i c s : beg loc nsh uo i c -> i < nsh -> like c s -> beg loc nsh uo i (cmv c (Some s) []).
Proof.
  intros [A B C D E F G H] Hi [Hl Hk]. constructor; cbn; rewrite ?app_nil_r; try assumption; try discriminate.
  intros s0 [= <-]. split; [done|]. rewrite Hl. destruct (c_sh c) as [s1|] eqn:Es; cbn in *.
  - destruct (G s1 eq_refl) as (_ & G1 & G2 & G3). repeat split; auto.
  - repeat split; [discriminate|]. intros k Hx. apply Hk in Hx. rewrite lookup_empty in Hx. now destruct Hx.
Qed.
Lemma rol_same i c s : rol nsh i c -> i < nsh -> like c s -> rol nsh i (cmv c (Some s) []).
Proof.
  intros [A B C D E F G H] Hi [Hl Hk]. constructor; cbn; rewrite ?app_nil_r; try assumption; try discriminate.
  intros s0 [= <-]. split; [done|]. rewrite Hl. destruct (c_sh c) as [s1|] eqn:Es; cbn in *.
  - destruct (G s1 eq_refl) as (_ & G1 & G2). split; [done|]. intros Hr. apply clean_same. auto.
  - split; [done|discriminate].
Qed.
Lemma pre_same U i c s : pre loc U i c -> like c s -> pre loc U i (cmv c (Some s) []).
Proof.
  intros [(s1 & A & B & C & D & E)|(A & B & C & D)] [Hl Hk]; [left|right].
  - rewrite A in Hl. cbn in Hl. exists s. cbn. rewrite app_nil_r. rewrite Hl. auto.
  - split; [now apply bystander_same|]. split; [done|]. split; [done|]. cbn. intros s0 [= <-]. rewrite Hl.
    destruct (c_sh c) as [s1|]; cbn; auto.
Qed.
Lemma cmt_same U i c s : cmt loc U i c -> like c s -> cmt loc U i (cmv c (Some s) []).
Proof.
  intros [(s1 & A & B & C & D & E & F & G)|(A & B & C & D)] [Hl Hk]; [left|right].
  - rewrite A in Hl. cbn in Hl. exists s. cbn. rewrite app_nil_r, Hl. auto 10.
  - split; [now apply bystander_same|]. split; [done|]. split; [done|]. cbn. intros s0 [= <-]. rewrite Hl.
    destruct (c_sh c) as [s1|]; cbn; auto.
Qed.

Definition put (v : view) (i : N) (s : sst) : view := set_cell v i (cmv (w_c v i) (Some s) []).

Lemma put_all v i s (P : N -> cell -> Prop) :
  (P i (w_c v i) -> P i (cmv (w_c v i) (Some s) [])) -> (forall j, P j (w_c v j)) ->
  forall j, P j (w_c (put v i s) j).
Proof. intros H Hall. apply set_cell_all; auto. Qed.

Lemma same_rolling v i s : rolling nsh v -> i < nsh -> like (w_c v i) s -> rolling nsh (put v i s).
Proof.
  intros [A (j & sj & Hj & Hs)] Hi Hl. split; [apply put_all; [intros; now apply rol_same|done]|].
  destruct (decide (j = i)) as [->|Hne].
  - exists i, s. unfold put. rewrite set_cell_eq. split; [done|].
    destruct Hl as [Hl _]. rewrite Hj in Hl. cbn in Hl. now rewrite Hl.
  - exists j, sj. unfold put. now rewrite set_cell_ne.
Qed.
Lemma same_rollmode b v i s : rollmode nsh b v -> i < nsh -> like (w_c v i) s -> rollmode nsh b (put v i s).
Proof.
  intros [[A B]|[A B]] Hi Hl; [left|right]; (split; [done|]).
  - now apply same_rolling.
  - apply (put_all v i s (fun _ c => clean c /\ c_dn c = None)); [|done].
    intros [C D]. split; [now apply clean_same|done].
Qed.

Lemma same_tinv st v i s : tinv loc nsh st v -> w_bs v <> None -> i < nsh -> like (w_c v i) s ->
  tinv loc nsh st (put v i s).
Proof.
  intros [Hb H] Hn Hi Hl. split.
  { apply (put_all v i s (fun _ c => base c)); [apply base_same|done]. }
  cbn [w_bs w_ph w_up put set_cell]. fold (put v i s).
  destruct (w_bs v) as [b|]; [|done]. destruct (w_ph v) as [[]|]; try done.
  - destruct H as [? H]. split; [done|]. apply put_all; [intros; now apply beg_same|done].
  - destruct H as (U & HU & H). exists U. split; [done|].
    destruct H as [[? H]|[[? H]|[? H]]]; [left|right; left|right; right]; (split; [done|]).
    + apply put_all; [intros; now apply beg_same|done].
    + apply put_all; [intros; now apply pre_same|done].
    + apply put_all; [intros; now apply cmt_same|done].
  - now apply same_rollmode.
  - destruct H as [H|(U & HU & H)]; [left; now apply same_rollmode|right]. exists U. split; [done|].
    destruct H as [[? H]|[? H]]; [left|right]; (split; [done|]).
    + apply put_all; [intros; now apply pre_same|done].
    + apply put_all; [intros; now apply cmt_same|done].
Qed.

Definition vhas (v : view) (ot : option btk) : Prop :=
  w_bs v = bt_state <$> ot /\ forall i, c_sh (w_c v i) = ot ≫= (fun b => bt_sh b !! i).

Lemma bmv_same st v ot S : vhas v ot -> (forall i, S i = []) -> tinv loc nsh st v -> tinv loc nsh st (bmv v ot S).
Proof.
  intros [A B] HS. apply tinv_ext; try done. intros i. rewrite bmv_cell, HS, <- B. apply cmv_id.
Qed.
Lemma bmv_put st v t i s S : vhas v (Some t) -> (forall i, S i = []) ->
  tinv loc nsh st (put v i s) -> tinv loc nsh st (bmv v (Some (set_sh t i s)) S).
Proof.
  intros [A B] HS. apply tinv_ext; try done. intros j. rewrite bmv_cell, HS. cbn.
  unfold put. destruct (N.eqb_spec j i) as [->|Hne].
  - now rewrite lookup_insert.
  - rewrite lookup_insert_ne by done. specialize (B j). cbn in B. rewrite <- B. apply cmv_id.
Qed.
Lemma bmv_bmv st v o1 S1 o2 S2 : tinv loc nsh st (bmv (bmv v o1 S1) o2 S2) ->
  tinv loc nsh st (bmv v o2 (fun i => S1 i ++ S2 i)).
Proof. apply tinv_ext; try done. intros i. rewrite !bmv_cell. unfold cmv. cbn. now rewrite app_assoc. Qed.
Lemma bmv_has v ot S : vhas (bmv v ot S) ot.
Proof. done. Qed.

(** ** The methods *)

Lemma sent_nil t i : sent t [] i = [].
Proof. done. Qed.

(** finish *)
Lemma fin_tinv st v b tn cb ord down b' os r :
  base.NoDup ord -> vhas v (b_tk b !! tn) -> b_finish b tn cb ord down = (b', os, r) ->
  tinv loc nsh st v -> tinv loc nsh st (bmv v (b_tk b' !! tn) (sent tn os)).
Proof.
  intros Hnd Hv E H. unfold b_finish in E. destruct (b_tk b !! tn) as [t|] eqn:Et.
  2: { injection E as <- <- <-. rewrite Et. now apply bmv_same. }
  destruct (bt_state t) eqn:Es.
  1, 2: injection E as <- <- <-; rewrite Et; now apply bmv_same.
  - destruct (visit _ _ _ _ _ _) as [[shs o] k] eqn:V.
    pose proof (visit_moved SFinished SFinishing tn (fun _ => QFinish tn) (KFinish cb tn) _ _ _ _ _ _ Hnd
      (fun _ => eq_refl) V) as M.
    injection E as <- <- <-. cbn [b_tk set_btk]. rewrite lookup_insert.
    destruct Hv as [Hv1 Hv2]. cbn in Hv1. rewrite Es in Hv1.
    destruct H as [Hb H]. split.
    { intros i. rewrite bmv_cell. apply cmv_base; [apply Hb|]. intros q Hq. destruct (M i) as [[_ M1]|(s & _ & _ & _ & M1)].
      - rewrite M1 in Hq. now apply elem_of_nil in Hq.
      - revert q Hq. apply (one_of _ _ _ M1). tauto. }
    assert (Hc : forall U, (forall i, cmt loc U i (w_c v i)) ->
      forall i, cmt loc U i (w_c (bmv v (Some (Btk BCommitted shs)) (sent tn o)) i)).
    { intros U HU i. rewrite bmv_cell. apply (send_fin tn); [done|]. rewrite Hv2. apply M. }
    cbn [w_bs w_ph w_up bmv]. cbn [fmap option_fmap option_map bt_state].
    rewrite Hv1 in H. destruct (w_ph v) as [[]|]; try done.
    + destruct H as [[=] _].
    + destruct H as (U & HU & [[[=] _]|[[[=] _]|[_ H]]]). exists U. split; [done|]. right; right. auto.
    + destruct H as [[[=] _]|[[=] _]].
    + destruct H as [[[[=] _]|[[=] _]]|(U & HU & [[[=] _]|[_ H]])]. right. exists U. split; [done|]. right. auto.
  - injection E as <- <- <-. cbn [b_tk del_btk]. rewrite lookup_delete.
    destruct Hv as [Hv1 Hv2]. cbn in Hv1. rewrite Es in Hv1. destruct H as [Hb H]. split.
    { intros i. rewrite bmv_cell. apply cmv_base; [apply Hb|]. intros q Hq. now apply elem_of_nil in Hq. }
    assert (Hg : (forall i, clean (w_c v i) /\ c_dn (w_c v i) = None) -> gone loc (bmv v None (sent tn []))).
    { intros Hc. split; [|left; intros i; apply Hc]. intros i. apply clean_gone. rewrite bmv_cell.
      apply cmv_clean; [apply Hc|]. intros q Hq. now apply elem_of_nil in Hq. }
    cbn [w_bs w_ph w_up bmv]. cbn [fmap option_fmap option_map].
    rewrite Hv1 in H. destruct (w_ph v) as [[]|]; try done.
    + destruct H as [[=] _].
    + destruct H as (U & HU & [[[=] _]|[[[=] _]|[[=] H]]]).
    + destruct H as [[[=] _]|[_ H]]. auto.
    + destruct H as [[[[=] _]|[_ H]]|(U & HU & [[[=] _]|[[=] _]])]. right. auto.
Qed.

(** The requests to commit *)
Lemma docommit_pre v b tn t cb ord down b' os r U :
  base.NoDup ord -> (forall i, c_sh (w_c v i) = bt_sh t !! i) -> do_commit b tn t cb ord down = (b', os, r) ->
  (forall i, base (w_c v i)) -> (forall i, pre loc U i (w_c v i)) ->
  (exists shs, b_tk b' !! tn = Some (Btk (bt_state t) shs)) /\
  (forall i, base (w_c (bmv v (b_tk b' !! tn) (sent tn os)) i)) /\
  (forall i, pre loc U i (w_c (bmv v (b_tk b' !! tn) (sent tn os)) i)).
Proof.
  intros Hnd Hv E Hb HU. unfold do_commit in E. destruct (visit _ _ _ _ _ _) as [[shs o] k] eqn:V.
  pose proof (visit_moved SCommitted SCommitting tn (fun _ => QCommit tn) (KCommit cb tn) _ _ _ _ _ _ Hnd
    (fun _ => eq_refl) V) as M.
  injection E as <- <- <-. cbn [b_tk set_btk]. rewrite lookup_insert.
  split; [eauto|]. split; intros i; rewrite bmv_cell.
  - apply cmv_base; [apply Hb|]. intros q Hq. destruct (M i) as [[_ M1]|(s & _ & _ & _ & M1)].
    + rewrite M1 in Hq. now apply elem_of_nil in Hq.
    + revert q Hq. apply (one_of _ _ _ M1). tauto.
  - apply (send_com tn); [done|]. rewrite Hv. apply M.
Qed.

(** commit *)
Lemma in_keys_of t k x : (k, x) ∈ keys_of t <-> exists i s, bt_sh t !! i = Some s /\ ss_keys s !! k = Some x.
Proof.
  unfold keys_of. rewrite elem_of_list_In, in_flat_map. split.
  - intros ([i s] & H1 & H2). apply elem_of_list_In, elem_of_map_to_list in H1.
    apply elem_of_list_In, elem_of_map_to_list in H2. eauto.
  - intros (i & s & H1 & H2). exists (i, s). split; apply elem_of_list_In, elem_of_map_to_list; done.
Qed.
Lemma commit_check_ok b tn u t : commit_check b tn u = inr t ->
  b_tk b !! tn = Some t /\ (bt_state t = BBegun \/ bt_state t = BPrepared) /\
  (forall k x, u !! k = Some x -> exists i s, bt_sh t !! i = Some s /\ is_Some (ss_keys s !! k)).
Proof.
  unfold commit_check. destruct (b_tk b !! tn) as [t0|]; [|discriminate].
  assert (Hgo : (if existsb (fun p : key * kstate => match p.2 with KLocking _ => true | _ => false end) (keys_of t0)
     then inl EWaitingForLocks
     else if forallb (fun p : key * bytes => bool_decide (p.1 ∈ (keys_of t0).*1)) (map_to_list u)
          then inr t0 else inl ECommitHazard) = inr t ->
     t0 = t /\ (forall k x, u !! k = Some x -> exists i s, bt_sh t !! i = Some s /\ is_Some (ss_keys s !! k))).
  { destruct (existsb _ _); [discriminate|]. destruct (forallb _ _) eqn:F; [|discriminate].
    intros [= ->]. split; [done|]. intros k x Hk. rewrite forallb_forall in F.
    specialize (F (k, x)). cbn in F. rewrite bool_decide_eq_true in F.
    destruct (proj1 (elem_of_list_fmap _ _ _) (F ltac:(apply elem_of_list_In, elem_of_map_to_list, Hk))) as [[k' y] [Hy1 Hy2]].
    cbn in Hy1. subst k'. apply in_keys_of in Hy2 as (i & s & H1 & H2). eauto. }
  destruct (bt_state t0) eqn:Es; try discriminate; intros H%Hgo; destruct H as [<- Hk]; auto.
Qed.

Lemma commit_tinv st v b tn u cb ord down b' os r t :
  base.NoDup ord -> vhas v (b_tk b !! tn) -> commit_check b tn u = inr t ->
  b_commit b tn u cb ord down = (b', os, r) ->
  w_ph v = Some Work \/ (w_ph v = Some Com /\ w_up v = Some u) ->
  tinv loc nsh st v ->
  tinv loc nsh st (bmv (View (w_bs v) (Some Com) (Some u) (w_c v)) (b_tk b' !! tn) (sent tn os)).
Proof.
  intros Hnd Hv Hcc E Hph [Hb H]. unfold b_commit in E. rewrite Hcc in E.
  destruct (commit_check_ok _ _ _ _ Hcc) as (Et & Est & Hk).
  destruct Hv as [Hv1 Hv2]. rewrite Et in Hv1, Hv2. cbn in Hv1, Hv2.
  set (v1 := View (w_bs v) (Some Com) (Some u) (w_c v)).
  destruct Est as [Est|Est]; rewrite Est in E, Hv1; rewrite Hv1 in H.
  - assert (Hbeg : forall i, beg loc nsh (Some u) i (w_c v1 i)).
    { intros i. cbn. destruct Hph as [Hph|[Hph Hup]]; rewrite Hph in H.
      - destruct H as [_ H]. now apply beg_more.
      - rewrite Hup in H. destruct H as (U & [= <-] & [[_ H]|[[[=] _]|[[=] _]]]). apply H. }
    unfold do_prepare in E. destruct (visit _ _ _ _ _ _) as [[shs o] k] eqn:V.
    pose proof (visit_moved SPrepared SPreparing tn (fun s => QPrepare tn (for_shard u s)) (KPrepare cb tn) _ _ _ _ _ _ Hnd
      (fun _ => eq_refl) V) as M.
    injection E as <- <- <-. cbn [b_tk set_btk]. rewrite lookup_insert. split.
    { intros i. rewrite bmv_cell. apply cmv_base; [apply Hb|]. intros q Hq. destruct (M i) as [[_ M1]|(s & _ & _ & _ & M1)].
      - rewrite M1 in Hq. now apply elem_of_nil in Hq.
      - revert q Hq. apply (one_of _ _ _ M1). tauto. }
    cbn [w_bs w_ph w_up bmv v1]. cbn [fmap option_fmap option_map bt_state]. rewrite Est.
    exists u. split; [done|]. left. split; [done|]. intros i. rewrite bmv_cell.
    apply (send_prep tn) with (f := fun s => QPrepare tn (for_shard u s)); [apply Hbeg| |].
    + intros s Hs. f_equal. unfold for_shard, part. apply map_eq. intros k0. apply option_eq. intros x.
      rewrite !map_filter_lookup_Some. cbn. split; intros [H1 H2]; (split; [done|]).
      * destruct (g1_sh _ _ _ _ _ (Hbeg i) s Hs) as (_ & _ & _ & G). now apply G.
      * destruct (Hk k0 x H1) as (j & sj & Hj & Hkj).
        cbn in Hs. rewrite Hv2 in Hs. enough (j = i) by congruence.
        destruct (g1_sh _ _ _ _ _ (Hbeg j) sj) as (_ & _ & _ & G); [cbn; now rewrite Hv2|].
        rewrite <- H2. symmetry. now apply G.
    + cbn. rewrite Hv2. apply M.
  - destruct Hph as [Hph|[Hph Hup]]; rewrite Hph in H; [destruct H as [[=] _]|].
    rewrite Hup in H. destruct H as (U & [= <-] & [[[=] _]|[[_ H]|[[=] _]]]).
    destruct (docommit_pre v1 b tn t cb ord down b' os r u) as ((shs & Hsh) & H1 & H2); auto.
    split; [exact H1|]. rewrite Hsh in *. cbn [w_bs w_ph w_up bmv v1]. cbn [fmap option_fmap option_map bt_state].
    exists u. split; [done|]. right; left. split; [done|]. exact H2.
Qed.

(** rollback *)
Lemma rollback_rolling v b tn t cb ord down b' os r :
  an_order nsh ord -> b_tk b !! tn = Some t -> (forall i, c_sh (w_c v i) = bt_sh t !! i) -> bt_state t = BBegun ->
  b_rollback b tn cb ord down = (b', os, r) ->
  (forall i, base (w_c v i)) -> (forall i, rol nsh i (w_c v i)) ->
  let v' := bmv v (b_tk b' !! tn) (sent tn os) in
  (exists t', b_tk b' !! tn = Some t' /\ rollmode nsh (bt_state t') v') /\ (forall i, base (w_c v' i)).
Proof.
  intros [Hnd Hord] Et Hv Es E Hb HR. cbn zeta. unfold b_rollback in E. rewrite Et, Es in E.
  case_bool_decide as He.
  - injection E as <- <- <-. cbn [b_tk set_btk]. rewrite lookup_insert. split.
    + eexists. split; [done|]. right. split; [done|]. intros i. rewrite bmv_cell.
      destruct (rol_clean i (w_c v i)) as [Hc Hd]; [done| |].
      * intros s. rewrite Hv, He. rewrite lookup_empty. discriminate.
      * split; [|done]. apply cmv_clean; [done|]. intros q Hq. now apply elem_of_nil in Hq.
    + intros i. rewrite bmv_cell. apply cmv_base; [apply Hb|]. intros q Hq. now apply elem_of_nil in Hq.
  - destruct (visit _ _ _ _ _ _) as [[shs o] k] eqn:V.
    pose proof (visit_moved SRolledBack SRollingBack tn (fun _ => QRollback tn) (KRollback cb tn) _ _ _ _ _ _ Hnd
      (fun _ => eq_refl) V) as M.
    apply visit_some in V; [|done|].
    2: { apply map_choose in He as (i & s & Hi). exists i. split; [|eauto]. apply Hord.
         destruct (g2_sh _ _ _ (HR i) s) as (Hlt & _); [|done]. now rewrite Hv. }
    injection E as <- <- <-. cbn [b_tk set_btk]. rewrite lookup_insert. split.
    + eexists. split; [done|]. left. split; [done|]. split.
      * intros i. rewrite bmv_cell. apply (send_rb tn); [done|]. rewrite Hv. apply M.
      * destruct V as (j & s & Hj & Hs). exists j, s. cbn. auto.
    + intros i. rewrite bmv_cell. apply cmv_base; [apply Hb|]. intros q Hq. destruct (M i) as [[_ M1]|(s & _ & _ & _ & M1)].
      * rewrite M1 in Hq. now apply elem_of_nil in Hq.
      * revert q Hq. apply (one_of _ _ _ M1). tauto.
Qed.

Lemma rollback_tinv st v b tn cb ord down b' os r :
  an_order nsh ord -> vhas v (b_tk b !! tn) -> b_rollback b tn cb ord down = (b', os, r) ->
  w_ph v <> Some Orphan -> tinv loc nsh st v ->
  tinv loc nsh st (bmv (View (w_bs v) (if bool_decide (w_bs v = Some BBegun) then Some Roll else w_ph v) (w_up v) (w_c v))
     (b_tk b' !! tn) (sent tn os)).
Proof.
  intros Hord Hv E Hno H. destruct (b_tk b !! tn) as [t|] eqn:Et.
  2: { unfold b_rollback in E. rewrite Et in E. injection E as <- <- <-. rewrite Et.
       destruct Hv as [Hv1 Hv2]. rewrite Hv1. cbn. apply bmv_same; try done.
       revert H. apply tinv_ext; try done. }
  pose proof Hv as [Hv1 Hv2]. cbn in Hv1, Hv2. destruct (bt_state t) eqn:Es.
  2, 3, 4: unfold b_rollback in E; rewrite Et, Es in E; injection E as <- <- <-; rewrite Et;
       rewrite bool_decide_eq_false_2 by congruence; apply bmv_same; try done;
       revert H; apply tinv_ext; done.
  rewrite bool_decide_eq_true_2 by done. destruct H as [Hb H]. rewrite Hv1 in H.
  assert (HR : forall i, rol nsh i (w_c v i)).
  { destruct (w_ph v) as [[]|]; try done.
    - destruct H as [_ H]. intros i. eapply beg_rol, H.
    - destruct H as (U & HU & [[_ H]|[[[=] _]|[[=] _]]]). intros i. eapply beg_rol, H.
    - destruct H as [[_ [H _]]|[[=] _]]. exact H. }
  destruct (rollback_rolling v b tn t cb ord down b' os r) as [(t' & Ht' & H1) H2]; auto.
  split; [exact H2|]. rewrite Ht' in *. cbn [w_bs w_ph w_up bmv]. cbn [fmap option_fmap option_map]. exact H1.
Qed.

End Stage.
