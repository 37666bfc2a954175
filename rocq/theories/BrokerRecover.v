(** Recovery: the tickets found on the shards, and what the broker does with each. *)
From stdpp Require Import base option list gmap fin_maps fin_sets.
From Coq Require Import NArith Lia.
From Verif Require Import Base ParsecShardModel ParsecShardSpec BrokerModel BrokerSpec BrokerShard BrokerInv BrokerStage
  BrokerHandle BrokerNet.
Open Scope N_scope.

(** ** Merging the answers *)

Definition merged (tk : gmap ticket_no btk) (f : N -> ticket_no -> option ticket_state) : Prop :=
  forall t,
    (forall i, tk !! t ≫= (fun x => bt_sh x !! i) = (fun x => Sst ∅ (found_state x)) <$> f i t) /\
    (forall x, tk !! t = Some x -> bt_state x = BBegun /\ bt_sh x <> ∅) .

Lemma merged_none tk f t : merged tk f -> tk !! t = None <-> forall i, f i t = None.
Proof.
  intros M. destruct (M t) as [A B]. split.
  - intros E i. specialize (A i). rewrite E in A. cbn in A. now destruct (f i t).
  - intros H. destruct (tk !! t) as [x|] eqn:E; [|done]. destruct (B x eq_refl) as [_ C].
    exfalso. apply C. apply map_empty. intros i. specialize (A i). cbn in A. rewrite A, H. done.
Qed.

Lemma merge_one_ok i tk f t x : merged tk f ->
  merged (merge_one i tk (t, x)) (fun j t' => if decide (j = i /\ t' = t) then Some x else f j t').
Proof.
  intros M t'. unfold merge_one. cbn [fst snd]. destruct (decide (t' = t)) as [->|Hne].
  - rewrite lookup_insert. destruct (M t) as [A B]. split.
    + intros j. cbn. destruct (decide (j = i)) as [->|Hj].
      * rewrite lookup_insert, decide_True by done. cbn. f_equal. f_equal.
        unfold sh. specialize (A i). destruct (tk !! t) as [y|]; cbn in *.
        -- rewrite A. now destruct (f i t).
        -- rewrite lookup_empty. done.
      * rewrite lookup_insert_ne by done. rewrite decide_False by tauto. rewrite <- A.
        destruct (tk !! t); cbn; [done|]. now rewrite lookup_empty.
    + intros y [= <-]. cbn. split.
      * destruct (tk !! t) as [y|]; [|done]. now destruct (B y eq_refl).
      * apply insert_non_empty.
  - rewrite lookup_insert_ne by done. destruct (M t') as [A B]. split; [|exact B].
    intros j. rewrite decide_False by tauto. apply A.
Qed.
Lemma merged_ext tk f f' : (forall i t, f i t = f' i t) -> merged tk f -> merged tk f'.
Proof. intros E M t. destruct (M t) as [A B]. split; [|exact B]. intros i. rewrite <- E. apply A. Qed.

Lemma merge_list_ok i l : forall tk f, NoDup l.*1 -> merged tk f ->
  merged (fold_left (merge_one i) l tk)
    (fun j t => if decide (j = i) then match (list_to_map l : gmap ticket_no ticket_state) !! t with
                                       | Some x => Some x | None => f j t end else f j t).
Proof.
  induction l as [|[t x] l IH]; intros tk f Hnd M; cbn [fold_left].
  - revert M. apply merged_ext. intros j t. cbn. try rewrite lookup_empty. now destruct (decide _).
  - cbn in Hnd. apply NoDup_cons in Hnd as [Hx Hnd]. apply (merge_one_ok i _ _ t x) in M.
    apply (IH _ _ Hnd) in M. revert M. apply merged_ext. intros j t'. cbn.
    destruct (decide (j = i)) as [->|Hj]; [|now rewrite decide_False by tauto].
    destruct (decide (t' = t)) as [->|Ht].
    + rewrite lookup_insert. rewrite (not_elem_of_list_to_map_1 _ _ Hx). now rewrite decide_True.
    + rewrite lookup_insert_ne by done. rewrite (decide_False (P := i = i /\ t' = t)) by tauto. done.
Qed.
Lemma merge_all_ok l : forall tk f, NoDup l.*1 -> merged tk f ->
  merged (fold_left (fun tk (p : N * gmap ticket_no ticket_state) => fold_left (merge_one p.1) (map_to_list p.2) tk) l tk)
    (fun j t => match (list_to_map l : gmap N (gmap ticket_no ticket_state)) !! j with
                | Some m => match m !! t with Some x => Some x | None => f j t end
                | None => f j t end).
Proof.
  induction l as [|[i m] l IH]; intros tk f Hnd M; cbn [fold_left].
  - revert M. apply merged_ext. intros j t. done.
  - cbn in Hnd. apply NoDup_cons in Hnd as [Hx Hnd]. cbn [fst snd].
    apply (merge_list_ok i (map_to_list m)) in M; [|apply NoDup_fst_map_to_list].
    apply (IH _ _ Hnd) in M. revert M. apply merged_ext. intros j t. cbn [list_to_map foldr].
    change (list_to_map ((i, m) :: l)) with (<[i := m]> (list_to_map l : gmap N (gmap ticket_no ticket_state))).
    rewrite list_to_map_to_list.
    destruct (decide (j = i)) as [->|Hj].
    + rewrite lookup_insert. now rewrite (not_elem_of_list_to_map_1 _ _ Hx).
    + now rewrite lookup_insert_ne by done.
Qed.
Lemma merge_ok rc : merged (merge ∅ rc) (fun i t => rc !! i ≫= (fun m => m !! t)).
Proof.
  assert (M : merged ∅ (fun _ _ => None)).
  { intros t. rewrite lookup_empty. split; done. }
  apply (merge_all_ok (map_to_list rc)) in M; [|apply NoDup_fst_map_to_list].
  revert M. apply merged_ext. intros i t. rewrite list_to_map_to_list.
  destruct (rc !! i) as [m|]; [|done]. cbn. now destruct (m !! t).
Qed.

(** ** One ticket *)

Section Recover.
Context (loc : key -> N) (nsh : N).

Definition found_as (s : sst) (x : status) : Prop :=
  match ss_state s with
  | SBegun | SWounded => x = Active
  | SPrepared => exists u, x = Ready u
  | SCommitted => x = Applied
  | _ => False
  end.

Record found (v : view) (t : btk) : Prop := {
  f_base : forall i, base (w_c v i);
  f_ph : w_ph v = Some Orphan;
  f_orph : orph loc v;
  f_has : forall i, c_sh (w_c v i) = bt_sh t !! i;
  f_ne : bt_sh t <> ∅;
  f_none : forall i, bt_sh t !! i = None -> c_st (w_c v i) = Absent;
  f_some : forall i s, bt_sh t !! i = Some s -> i < nsh /\ ss_keys s = ∅ /\ found_as s (c_st (w_c v i))
}.

Lemma found_recoverable v t : found v t -> recoverable t = true.
Proof.
  intros F. unfold recoverable. apply forallb_forall. intros [i s] Hi.
  apply elem_of_list_In, elem_of_map_to_list in Hi. destruct (f_some _ _ F i s Hi) as (_ & _ & H).
  unfold found_as in H. cbn. now destruct (ss_state s).
Qed.

Lemma filter_le {A} (f : A -> bool) l : (length (List.filter f l) <= length l)%nat.
Proof. induction l as [|x l IH]; cbn; [lia|]. destruct (f x); cbn; lia. Qed.
Lemma filter_all {A} (f : A -> bool) l : length (List.filter f l) = length l -> forall x, x ∈ l -> f x = true.
Proof.
  induction l as [|y l IH]; cbn; intros H x Hx; [now apply elem_of_nil in Hx|].
  pose proof (filter_le f l). destruct (f y) eqn:E; cbn in H; [|lia].
  apply elem_of_cons in Hx as [->|Hx]; [done|]. apply IH; [lia|done].
Qed.
Lemma filter_some {A} (f : A -> bool) l : (0 < length (List.filter f l))%nat -> exists x, x ∈ l /\ f x = true.
Proof.
  induction l as [|y l IH]; cbn; [lia|]. destruct (f y) eqn:E.
  - intros _. exists y. split; [left|done].
  - intros H. destruct (IH H) as (x & Hx & Hf). exists x. split; [now right|done].
Qed.
Lemma filter_none {A} (f : A -> bool) l : length (List.filter f l) = 0%nat -> forall x, x ∈ l -> f x = false.
Proof.
  induction l as [|y l IH]; cbn; intros H x Hx; [now apply elem_of_nil in Hx|].
  destruct (f y) eqn:E; [discriminate|]. apply elem_of_cons in Hx as [->|Hx]; auto.
Qed.
Lemma filter_notall {A} (f : A -> bool) l : length (List.filter f l) <> length l -> exists x, x ∈ l /\ f x = false.
Proof.
  induction l as [|y l IH]; cbn; [done|]. destruct (f y) eqn:E; intros H.
  - cbn in H. destruct IH as (x & Hx & Hf); [lia|]. exists x. split; [now right|done].
  - exists y. split; [left|done].
Qed.

Lemma count_all t : committed_count t = size (bt_sh t) ->
  forall i s, bt_sh t !! i = Some s -> ss_state s = SCommitted.
Proof.
  unfold committed_count. intros H i s Hi.
  pose proof (filter_all (fun p : N * sst => bool_decide (ss_state p.2 = SCommitted)) (map_to_list (bt_sh t))) as F.
  specialize (F H (i, s)). cbn in F. rewrite bool_decide_eq_true in F. apply F.
  now apply elem_of_map_to_list.
Qed.
Lemma count_notall t : committed_count t <> size (bt_sh t) ->
  exists i s, bt_sh t !! i = Some s /\ ss_state s <> SCommitted.
Proof.
  unfold committed_count. intros H.
  destruct (filter_notall (fun p : N * sst => bool_decide (ss_state p.2 = SCommitted)) (map_to_list (bt_sh t)) H) as ([i s] & Hi & Hf).
  cbn in Hf. apply bool_decide_eq_false in Hf. exists i, s. split; [now apply elem_of_map_to_list|done].
Qed.
Lemma count_some t : (0 < committed_count t)%nat -> exists i s, bt_sh t !! i = Some s /\ ss_state s = SCommitted.
Proof.
  unfold committed_count. intros H. apply filter_some in H as ([i s] & Hi & Hf).
  cbn in Hf. apply bool_decide_eq_true in Hf. exists i, s. split; [now apply elem_of_map_to_list|done].
Qed.
Lemma count_none t : committed_count t = 0%nat -> forall i s, bt_sh t !! i = Some s -> ss_state s <> SCommitted.
Proof.
  unfold committed_count. intros H i s Hi. apply elem_of_map_to_list in Hi.
  eapply filter_none in H; [|exact Hi]. cbn in H. now apply bool_decide_eq_false in H.
Qed.

Definition with_bs (v : view) (b : bstate) : view := View (Some b) (w_ph v) (w_up v) (w_c v).

(** Every shard had committed. *)
Lemma found_cmt v t : found v t -> committed_count t = size (bt_sh t) ->
  exists U, w_up v = Some U /\ forall i, cmt loc U i (w_c v i).
Proof.
  intros F H. pose proof (count_all t H) as Ha.
  assert (Happ : forall i s, bt_sh t !! i = Some s -> c_st (w_c v i) = Applied).
  { intros i s Hi. destruct (f_some _ _ F i s Hi) as (_ & _ & Hf). unfold found_as in Hf.
    now rewrite (Ha i s Hi) in Hf. }
  destruct (f_orph _ _ F) as [O1 O2]. destruct (map_choose _ (f_ne _ _ F)) as (i0 & s0 & Hi0).
  destruct O2 as [O2|(U & HU & O2)]; [exfalso; destruct (O2 i0) as [O3 _]; apply O3; eauto|].
  exists U. split; [done|]. intros i. destruct (O1 i) as [R0 Q0]. destruct (bt_sh t !! i) as [s|] eqn:Ei.
  - left. exists s. rewrite (f_has _ _ F). split; [done|].
    specialize (Happ i s Ei). destruct (O2 i) as [(A & _)|[(A & _)|(A & B)]]; [congruence|congruence|].
    split; [done|]. split; [now left|]. rewrite R0. split; [|split; [|split]].
    + intros q Hq. now apply elem_of_nil in Hq.
    + intros r1 q r2 Er. now destruct r1.
    + intros x Hx Ho. rewrite Q0 in Ho by done. discriminate.
    + rewrite (Ha i s Ei). discriminate.
  - right. pose proof (f_none _ _ F i Ei) as Hab.
    destruct (O2 i) as [(A & B & C)|[(A & _)|(A & _)]]; [|congruence|congruence].
    split; [|split; [|split]].
    + split; [done|]. rewrite R0. split; [|done]. intros q Hq. now apply elem_of_nil in Hq.
    + intros Hx. now apply C.
    + exact B.
    + intros s. rewrite (f_has _ _ F), Ei. discriminate.
Qed.

(** Some shard had committed. *)
Lemma found_pre v t : found v t -> committed_count t <> size (bt_sh t) -> (0 < committed_count t)%nat ->
  exists U, w_up v = Some U /\ forall i, pre loc U i (w_c v i).
Proof.
  intros F Hn Hs. destruct (count_some t Hs) as (i0 & s0 & Hi0 & Hs0).
  destruct (count_notall t Hn) as (i1 & s1 & Hi1 & Hs1).
  destruct (f_orph _ _ F) as [O1 O2].
  assert (Ha0 : c_st (w_c v i0) = Applied).
  { destruct (f_some _ _ F i0 s0 Hi0) as (_ & _ & Hf). unfold found_as in Hf. now rewrite Hs0 in Hf. }
  destruct O2 as [O2|(U & HU & O2)]; [exfalso; destruct (O2 i0) as [O3 _]; now apply O3|].
  exists U. split; [done|].
  assert (Hst : forall i s, bt_sh t !! i = Some s ->
     (c_st (w_c v i) = Ready (part loc U i) /\ c_dn (w_c v i) = None /\ ss_state s = SPrepared) \/
     (c_st (w_c v i) = Applied /\ c_dn (w_c v i) = Some (part loc U i) /\ ss_state s = SCommitted)).
  { intros i s Hi. destruct (f_some _ _ F i s Hi) as (_ & _ & Hf). unfold found_as in Hf.
    destruct (O2 i) as [(A & _)|[(A & B)|(A & B)]]; rewrite A in Hf; destruct (ss_state s); try done;
      try (destruct Hf as [u Hf]; done); auto. }
  assert (Hasked : forall i, c_st (w_c v i) = Absent -> c_as (w_c v i) = false).
  { intros i Ha. destruct (c_as (w_c v i)) eqn:Eas; [|done]. exfalso.
    destruct (Hst i1 s1 Hi1) as [(A & B & _)|(_ & _ & C)]; [|done].
    destruct (O2 i) as [(_ & _ & C)|[(C & _)|(C & _)]]; [|congruence|congruence].
    apply (C Eas i1); [|done]. apply (proj1 (f_base _ _ F i1)). rewrite A. discriminate. }
  intros i. destruct (O1 i) as [R0 Q0]. destruct (bt_sh t !! i) as [s|] eqn:Ei.
  - left. exists s. rewrite (f_has _ _ F). split; [done|]. rewrite R0.
    split; [destruct (Hst i s Ei) as [(A & B & _)|(A & B & _)]; auto|]. split; [|split].
    + intros q Hq. now apply elem_of_nil in Hq.
    + intros x o Hx Ho. rewrite Q0 in Ho by done. discriminate.
    + intros Hc. destruct (Hst i s Ei) as [(_ & _ & A)|(A & _)]; congruence.
  - right. pose proof (f_none _ _ F i Ei) as Hab. pose proof (Hasked i Hab) as Has.
    split; [|split; [|split]].
    + split; [done|]. rewrite R0. split; [|done]. intros q Hq. now apply elem_of_nil in Hq.
    + destruct (c_dn (w_c v i)) eqn:Ed; [|done]. exfalso.
      destruct (f_base _ _ F i) as (_ & _ & B3). rewrite B3 in Has by congruence. discriminate.
    + done.
    + intros s. rewrite (f_has _ _ F), Ei. discriminate.
Qed.

(** No shard had committed. *)
Lemma found_rol v t : found v t -> committed_count t = 0%nat -> forall i, rol nsh i (w_c v i).
Proof.
  intros F Hz. pose proof (count_none t Hz) as Hn.
  destruct (f_orph _ _ F) as [O1 O2].
  assert (Hdn : forall i, c_st (w_c v i) <> Applied /\ c_dn (w_c v i) = None).
  { destruct O2 as [O2|(U & HU & O2)]; [exact O2|].
    assert (Hst : forall i s, bt_sh t !! i = Some s -> c_st (w_c v i) = Ready (part loc U i) /\ c_dn (w_c v i) = None).
    { intros i s Hi. destruct (f_some _ _ F i s Hi) as (_ & _ & Hf). specialize (Hn i s Hi). unfold found_as in Hf.
      destruct (O2 i) as [(A & _)|[(A & B)|(A & B)]]; rewrite A in Hf; [|auto|]; destruct (ss_state s); try done;
        try (destruct Hf as [u Hf]; done). }
    destruct (map_choose _ (f_ne _ _ F)) as (i1 & s1 & Hi1). destruct (Hst i1 s1 Hi1) as [A1 B1].
    intros i. destruct (bt_sh t !! i) as [s|] eqn:Ei.
    - destruct (Hst i s Ei) as [-> ->]. done.
    - pose proof (f_none _ _ F i Ei) as Hab. split; [congruence|].
      destruct (c_dn (w_c v i)) eqn:Ed; [|done]. exfalso.
      assert (Has : c_as (w_c v i) = true) by (apply (proj2 (proj2 (f_base _ _ F i))); congruence).
      destruct (O2 i) as [(_ & _ & C)|[(C & _)|(C & _)]]; [|congruence|congruence].
      apply (C Has i1); [|done]. apply (proj1 (f_base _ _ F i1)). rewrite A1. discriminate. }
  intros i. destruct (O1 i) as [R0 Q0]. destruct (Hdn i) as [D1 D2]. constructor; try done.
  - rewrite R0. intros q Hq. now apply elem_of_nil in Hq.
  - rewrite R0. intros r1 q r2 Er. now destruct r1.
  - intros x o Hx Ho. rewrite Q0 in Ho by done. discriminate.
  - intros q1 x q2 Eq Ho. rewrite Q0 in Ho by (rewrite Eq; set_solver). discriminate.
  - rewrite (f_has _ _ F). intros Ei. split; [now apply (f_none _ _ F)|]. rewrite R0. split; [|done].
    intros q Hq. now apply elem_of_nil in Hq.
  - intros s. rewrite (f_has _ _ F). intros Ei. destruct (f_some _ _ F i s Ei) as (Hi & _ & Hf).
    split; [done|]. unfold found_as in Hf. destruct (ss_state s); try done.
Qed.

Lemma set_lookup b tn t : b_tk (set_btk b tn t) !! tn = Some t.
Proof. apply lookup_insert. Qed.

Lemma acts_after_set tn b t t' b' os :
  b_tk b !! tn = Some t -> acts nsh tn (set_btk b tn t') b' os -> acts nsh tn b b' os.
Proof.
  intros Et [A B C]. split; [|congruence|done].
  intros x Hx. rewrite A by done. cbn. now rewrite lookup_insert_ne by congruence.
Qed.

Lemma recover_one_ok v b o tn t ord down b' os :
  an_order nsh ord -> b_tk b !! tn = Some t -> found v t ->
  recover_one ord down (b, o) tn = (b', os) ->
  exists o', os = o ++ o' /\ acts nsh tn b b' o' /\ tinv loc nsh true (bmv v (b_tk b' !! tn) (sent tn o')) /\
    (rok o' -> b_tk b' = ∅).
Proof.
  intros Hord Et F E. unfold recover_one in E. rewrite Et, (found_recoverable _ _ F) in E. cbn [negb] in E.
  destruct (committed_count t =? size (bt_sh t))%nat eqn:Ec.
  - apply Nat.eqb_eq in Ec. destruct (found_cmt v t F Ec) as (U & HU & Hc).
    destruct (call_opt _ CRecFinish ord down) as [b1 o1] eqn:Eo. injection E as <- <-. exists o1. split; [done|].
    destruct (b_finish _ tn CRecFinish ord down) as [[b2 o2] r2] eqn:Ef.
    assert (A2 : acts nsh tn (set_btk b tn (Btk BCommitted (bt_sh t))) b2 o2) by (eapply finish_acts; eauto; done).
    split; [|split].
    + eapply call_opt_acts in Eo; [|done|done|eapply acts_after_set; eauto]. exact Eo.
    + eapply call_opt_tinv; [done| |  |exact Eo]; [done|].
      assert (Hv : vhas (with_bs v BCommitted) (b_tk (set_btk b tn (Btk BCommitted (bt_sh t))) !! tn)).
      { rewrite set_lookup. split; [done|]. intros i. cbn. apply (f_has _ _ F). }
      pose proof (fin_tinv loc nsh true (with_bs v BCommitted) _ tn CRecFinish ord down b2 o2 r2 (proj1 Hord) Hv Ef) as T.
      apply T. split; [apply (f_base _ _ F)|]. cbn. rewrite (f_ph _ _ F). right. exists U. split; [done|]. right. auto.
    + intros Hr. eapply call_opt_rok; [|exact Eo|exact Hr]. eapply finish_mute; eauto.
  - apply Nat.eqb_neq in Ec. destruct (0 <? committed_count t)%nat eqn:Ez.
    + apply Nat.ltb_lt in Ez. destruct (found_pre v t F Ec Ez) as (U & HU & Hp).
      destruct (call_opt _ (CRecCommit tn) ord down) as [b1 o1] eqn:Eo. injection E as <- <-. exists o1. split; [done|].
      destruct (b_commit _ tn ∅ (CRecCommit tn) ord down) as [[b2 o2] r2] eqn:Ef.
      assert (A2 : acts nsh tn (set_btk b tn (Btk BPrepared (bt_sh t))) b2 o2) by (eapply commit_acts; eauto; done).
      split; [|split].
      * eapply call_opt_acts in Eo; [|done| |eapply acts_after_set; eauto]; [exact Eo|done].
      * eapply call_opt_tinv; [done| |  |exact Eo]; [done|].
        assert (Hcc : commit_check (set_btk b tn (Btk BPrepared (bt_sh t))) tn ∅ = inr (Btk BPrepared (bt_sh t))).
        { unfold commit_check. rewrite set_lookup. cbn [bt_state].
          assert (Hk : keys_of (Btk BPrepared (bt_sh t)) = []).
          { destruct (keys_of _) as [|[k x] l] eqn:Ek; [done|]. exfalso.
            assert (Hin : (k, x) ∈ keys_of (Btk BPrepared (bt_sh t))) by (rewrite Ek; left).
            apply in_keys_of in Hin as (i & s & Hi & Hk). cbn in Hi.
            destruct (f_some _ _ F i s Hi) as (_ & Hke & _). rewrite Hke, lookup_empty in Hk. discriminate. }
          rewrite Hk. cbn [existsb]. rewrite map_to_list_empty. done. }
        unfold b_commit in Ef. rewrite Hcc in Ef. cbn [bt_state] in Ef.
        destruct (docommit_pre loc nsh (with_bs v BPrepared) (set_btk b tn (Btk BPrepared (bt_sh t))) tn
          (Btk BPrepared (bt_sh t)) (CRecCommit tn) ord down b2 o2 r2 U (proj1 Hord) (f_has _ _ F) Ef (f_base _ _ F) Hp)
          as ((shs & Hsh) & D1 & D2).
        split; [exact D1|]. rewrite Hsh in *. cbn. rewrite (f_ph _ _ F). right. exists U. split; [done|]. left.
        split; [done|]. exact D2.
      * intros Hr. eapply call_opt_rok; [|exact Eo|exact Hr]. eapply commit_mute; eauto.
    + apply Nat.ltb_ge in Ez. assert (Hz : committed_count t = 0%nat) by lia.
      destruct (call_opt _ (CRecRollback tn) ord down) as [b1 o1] eqn:Eo. injection E as <- <-. exists o1. split; [done|].
      destruct (b_rollback _ tn (CRecRollback tn) ord down) as [[b2 o2] r2] eqn:Ef.
      assert (A2 : acts nsh tn (set_btk b tn (Btk BBegun (bt_sh t))) b2 o2) by (eapply rollback_acts; eauto; done).
      split; [|split].
      * eapply call_opt_acts in Eo; [|done| |eapply acts_after_set; eauto]; [exact Eo|done].
      * eapply call_opt_tinv; [done| |  |exact Eo]; [done|].
        destruct (rollback_rolling loc nsh (with_bs v BBegun) (set_btk b tn (Btk BBegun (bt_sh t))) tn (Btk BBegun (bt_sh t))
          (CRecRollback tn) ord down b2 o2 r2 Hord (set_lookup _ _ _) (f_has _ _ F) eq_refl Ef (f_base _ _ F)
          (found_rol v t F Hz : forall i, rol nsh i (w_c (with_bs v BBegun) i))) as [(t' & Ht' & D1) D2].
        split; [exact D2|]. rewrite Ht' in *. cbn. rewrite (f_ph _ _ F). left. exact D1.
      * intros Hr. eapply call_opt_rok; [|exact Eo|exact Hr]. eapply rollback_mute; eauto.
Qed.

(** A ticket no shard has. *)
Lemma orph_gone v : orph loc v -> (forall i, c_st (w_c v i) = Absent) -> gone loc v.
Proof.
  intros [O1 O2] Ha. split.
  - intros i. split; [done|]. destruct (O1 i) as [-> _]. intros q Hq. now apply elem_of_nil in Hq.
  - destruct O2 as [O2|(U & HU & O2)]; [left; intros i; apply O2|right]. exists U. split; [done|].
    intros i. destruct (O2 i) as [(_ & B & C)|[(A & _)|(A & _)]]; [|rewrite Ha in A; discriminate..].
    split; [|exact B]. intros Hx. now apply C.
Qed.
End Recover.
