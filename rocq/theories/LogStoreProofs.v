(** Proofs about the Raft log store. *)
From stdpp Require Import base option list gmap fin_maps.
From Coq Require Import NArith Lia.
From Verif Require Import Base LogStoreModel LogStoreSpec.
Open Scope N_scope.

(** ** Iterators *)

Lemma key_in (d : db) k : In k (map_to_list d).*1 <-> is_Some (d !! k).
Proof.
  rewrite <- elem_of_list_In, elem_of_list_fmap. split.
  - intros ([k' v] & -> & I%elem_of_map_to_list). cbn. eauto.
  - intros [v H]. exists (k, v). split; [done|]. by apply elem_of_map_to_list.
Qed.

Lemma seek_some d i k : seek d i = Some k ->
  is_Some (d !! k) /\ i <= k /\ (forall j, is_Some (d !! j) -> i <= j -> k <= j).
Proof.
  unfold seek. intros H.
  cut (In k (map_to_list d).*1 /\ i <= k /\ forall j, In j (map_to_list d).*1 -> i <= j -> k <= j).
  { intros (A & B & C). rewrite key_in in A. repeat split; try done.
    intros j J. apply C. by apply key_in. }
  revert k H. generalize ((map_to_list d).*1). intros l.
  cut (forall m, fold_right (fun k m => if k <? i then m
                         else match m with Some j => Some (N.min k j) | None => Some k end) None l = m ->
        match m with
        | Some k => In k l /\ i <= k /\ forall j, In j l -> i <= j -> k <= j
        | None => forall j, In j l -> j < i
        end).
  { intros C k H. exact (C _ H). }
  induction l as [|x l IH]; intros m <-; [intros ? []|].
  cbn [fold_right]. specialize (IH _ eq_refl).
  destruct (x <? i) eqn:X; [apply N.ltb_lt in X|apply N.ltb_ge in X];
    destruct (fold_right _ None l) as [j|].
  - destruct IH as (A & B & C). split; [by right|split; [done|]].
    intros y [<-|Y] Z; [lia|auto].
  - intros y [<-|Y]; auto.
  - destruct IH as (A & B & C). split; [|split; [lia|]].
    + destruct (N.min_spec x j) as [[_ ->]|[_ ->]]; [by left|by right].
    + intros y [<-|Y] Z; [lia|]. specialize (C y Y Z). lia.
  - split; [by left|split; [done|]]. intros y [<-|Y] Z; [lia|]. specialize (IH y Y). lia.
Qed.

Lemma seek_none d i : seek d i = None -> forall j, i <= j -> d !! j = None.
Proof.
  unfold seek. intros H j J. destruct (d !! j) eqn:E; [|done]. exfalso.
  assert (I : In j (map_to_list d).*1) by (apply key_in; eauto).
  revert H I. generalize ((map_to_list d).*1). intros l.
  induction l as [|x l IH]; [intros _ []|].
  cbn [fold_right]. destruct (x <? i) eqn:X.
  - intros H [->|I]; [apply N.ltb_lt in X; lia|auto].
  - destruct (fold_right _ None l); discriminate.
Qed.

Lemma seek_at d i : is_Some (d !! i) -> seek d i = Some i.
Proof.
  intros I. destruct (seek d i) as [k|] eqn:E.
  - apply seek_some in E as (_ & A & B). specialize (B i I). f_equal. lia.
  - apply seek_none with (j := i) in E; [|lia]. destruct I as [? I]. congruence.
Qed.

Lemma seek_last_some d k : seek_last d = Some k ->
  is_Some (d !! k) /\ (forall j, is_Some (d !! j) -> j <= k).
Proof.
  unfold seek_last. intros H.
  cut (In k (map_to_list d).*1 /\ forall j, In j (map_to_list d).*1 -> j <= k).
  { intros (A & C). rewrite key_in in A. repeat split; try done.
    intros j J. apply C. by apply key_in. }
  revert k H. generalize ((map_to_list d).*1). intros l.
  induction l as [|x l IH]; intros k H; [discriminate|].
  cbn [fold_right] in H. destruct (fold_right _ None l) as [j|] eqn:E; inversion H; subst; clear H.
  - destruct (IH j eq_refl) as [A B]. split.
    + destruct (N.max_spec x j) as [[_ ->]|[_ ->]]; [by right|by left].
    + intros y [<-|Y]; [lia|]. specialize (B y Y). lia.
  - split; [by left|]. intros y [<-|Y]; [lia|]. destruct l as [|z l]; [done|].
    cbn in E. destruct (fold_right _ None l); discriminate.
Qed.

Lemma seek_last_none d : seek_last d = None -> forall j, d !! j = None.
Proof.
  unfold seek_last. intros H j. destruct (d !! j) eqn:E; [|done]. exfalso.
  assert (I : In j (map_to_list d).*1) by (apply key_in; eauto).
  destruct ((map_to_list d).*1) as [|z l]; [done|].
  cbn in H. destruct (fold_right _ None l); discriminate.
Qed.

Lemma delete_range_lookup d a b i :
  delete_range d a b !! i = if decide (a <= i < b) then None else d !! i.
Proof.
  unfold delete_range.
  assert (G : forall l, fold_right (fun i d' => delete (a + N.of_nat i) d') d l !! i
     = if decide (Exists (fun j => a + N.of_nat j = i) l) then None else d !! i).
  { induction l as [|x l IH].
    - cbn. destruct (decide _) as [D|]; [by inversion D|done].
    - cbn [fold_right]. destruct (decide (a + N.of_nat x = i)) as [<-|N].
      + rewrite lookup_delete. rewrite decide_True; [done|]. by left.
      + rewrite lookup_delete_ne by done. rewrite IH.
        apply decide_ext. rewrite Exists_cons. tauto. }
  rewrite G. apply decide_ext. rewrite Exists_exists. split.
  - intros (j & J & <-). apply elem_of_list_In, in_seq in J. lia.
  - intros H. exists (N.to_nat (i - a)). split; [|lia]. apply elem_of_list_In, in_seq. lia.
Qed.

Lemma put_all_lookup es : forall d i j, i + N.of_nat (length es) < two64 ->
  put_all d i es !! j =
    if decide (i <= j < i + N.of_nat (length es)) then es !! N.to_nat (j - i) else d !! j.
Proof.
  induction es as [|e es IH]; intros d i j B.
  - cbn. rewrite decide_False; [done|]. lia.
  - cbn [put_all length] in *.
    assert (E1 : add64 i 1 = i + 1) by (unfold add64, wrap64; rewrite N.mod_small; lia).
    rewrite E1, IH by lia.
    destruct (decide (i + 1 <= j < i + 1 + N.of_nat (length es))) as [D|D].
    + rewrite decide_True by lia.
      replace (N.to_nat (j - i)) with (S (N.to_nat (j - (i + 1)))) by lia. done.
    + destruct (decide (i = j)) as [<-|N].
      * rewrite lookup_insert, decide_True by lia. by rewrite N.sub_diag.
      * rewrite lookup_insert_ne by done. rewrite decide_False by lia. done.
Qed.

(** ** The representation *)

Definition rep (d : db) (a : log) : Prop :=
  1 <= a_first a /\ a_next a < two64 /\ forall i, d !! i = a_at a i.

Definition sim (s : store) (a : logs) : Prop :=
  rep (ls_db s) (a_now a) /\ ls_next s = a_next (a_now a) /\ ls_start s = a_first (a_now a) /\
  Forall2 rep (ls_past s) (a_past a) /\ a_past a <> [].

Lemma a_at_some a i : is_Some (a_at a i) <-> a_first a <= i < a_next a.
Proof.
  unfold a_at, a_next. destruct (N.ltb_spec i (a_first a)) as [H|H].
  - split; [intros [? ?]; discriminate|lia].
  - rewrite lookup_lt_is_Some. lia.
Qed.

Lemma a_at_none a i : a_at a i = None <-> ~ a_first a <= i < a_next a.
Proof. rewrite <- a_at_some, eq_None_not_Some. done. Qed.

Lemma rep_some d a i : rep d a -> is_Some (d !! i) <-> a_first a <= i < a_next a.
Proof. intros (_ & _ & H). rewrite H. apply a_at_some. Qed.

Lemma rep_first d a : rep d a -> first_index d = a_first (reopened a).
Proof.
  intros R. unfold first_index. destruct (seek d 0) as [k|] eqn:E; cbn.
  - apply seek_some in E as (A & _ & B). rewrite (rep_some d a) in A by done.
    assert (P : k <= a_first a).
    { apply B; [|lia]. apply (rep_some d a); [done|lia]. }
    unfold reopened. destruct (a_entries a) eqn:F; [|lia].
    unfold a_next in A. rewrite F in A. cbn in A. lia.
  - destruct (a_entries a) as [|e es] eqn:F; unfold reopened; rewrite F; [done|]. exfalso.
    assert (is_Some (d !! a_first a)) as [? H].
    { apply (rep_some d a); [done|]. unfold a_next. rewrite F. cbn. lia. }
    rewrite (seek_none _ _ E) in H by lia. discriminate.
Qed.

Lemma rep_last_index d a : rep d a -> add64 (last_index d) 1 = a_next (reopened a).
Proof.
  intros R. assert (B : a_next a < two64) by apply R. assert (B1 : 1 <= a_first a) by apply R.
  unfold last_index. destruct (seek_last d) as [k|] eqn:E; cbn [default].
  - apply seek_last_some in E as (A & C). rewrite (rep_some d a) in A by done.
    assert (P : a_next a - 1 <= k).
    { apply C. apply (rep_some d a); [done|lia]. }
    unfold reopened. destruct (a_entries a) eqn:F.
    { unfold a_next in A. rewrite F in A. cbn in A. lia. }
    cbn [id]. unfold add64, wrap64. rewrite N.mod_small; lia.
  - destruct (a_entries a) as [|e es] eqn:F; unfold reopened; rewrite F.
    + reflexivity.
    + exfalso. assert (is_Some (d !! a_first a)) as [? H].
      { apply (rep_some d a); [done|]. unfold a_next. rewrite F. cbn. lia. }
      rewrite (seek_last_none _ E) in H. discriminate.
Qed.

Lemma rep_reopened d a : rep d a -> rep d (reopened a).
Proof.
  intros R. unfold reopened. destruct (a_entries a) eqn:F; [|done].
  destruct R as (A & B & C). split; [cbn; lia|split; [done|]]. intros i. rewrite C.
  unfold a_at. cbn. rewrite F. rewrite !lookup_nil. destruct (_ <? _), (_ <? _); done.
Qed.

Lemma sim_load d a : rep d a -> sim (load d) (Logs (reopened a) [reopened a]).
Proof.
  intros R. unfold load, sim. cbn. rewrite (rep_first d a), (rep_last_index d a) by done.
  split; [by apply rep_reopened|]. repeat split; try done. constructor; [by apply rep_reopened|done].
Qed.

Lemma rep_init : rep ∅ (Log 1 []).
Proof.
  split; [cbn; lia|split; [done|]]. intros i. rewrite lookup_empty. unfold a_at. cbn.
  rewrite lookup_nil. by destruct (_ <? _).
Qed.

Lemma sim_init : sim store0 logs0.
Proof. exact (sim_load _ _ rep_init). Qed.

Lemma sim_written s a d b next start : sim s a -> rep d b -> next = a_next b -> start = a_first b ->
  sim (written s d next start) (a_write a b).
Proof.
  intros (_ & _ & _ & P & _) R -> ->. split; [done|]. repeat split; try done. cbn. by constructor.
Qed.

Lemma read_from_rep d a : rep d a -> forall n i, a_first a <= i -> i + N.of_nat n <= a_next a ->
  read_from d i n = Done (take n (drop (N.to_nat (i - a_first a)) (a_entries a))).
Proof.
  intros R. induction n as [|n IH]; intros i A B; [done|].
  cbn [read_from].
  assert (I : is_Some (d !! i)) by (apply (rep_some d a); [done|lia]).
  rewrite (seek_at d i I), IH by lia. cbn [bind].
  destruct I as [e E]. pose proof E as E'. destruct R as (_ & _ & R). rewrite R in E'.
  unfold a_at in E'. destruct (N.ltb_spec i (a_first a)); [lia|].
  rewrite (drop_S _ e _ E'). rewrite E. cbn [default id take]. do 3 f_equal. f_equal. lia.
Qed.

Lemma l_step_sim s a o : sim s a -> allowed (a_now a) o ->
  exists s', l_step s o = Done (s', snd (a_step a o)) /\ sim s' (fst (a_step a o)).
Proof.
  intros M OK. pose proof M as (R & NX & ST & P & NE). pose proof R as (F1 & B64 & L).
  destruct o; cbn [allowed] in OK.
  - (* append *)
    eexists. split; [cbn; rewrite NX; reflexivity|]. cbn [a_step fst].
    apply sim_written; [done| | |done].
    + split; [done|]. split.
      { unfold a_next in *. cbn. rewrite app_length. cbn. lia. }
      intros i. destruct (decide (i = a_next (a_now a))) as [->|D].
      * rewrite lookup_insert. unfold a_at, a_next. cbn.
        destruct (N.ltb_spec (a_first (a_now a) + N.of_nat (length (a_entries (a_now a))))
                    (a_first (a_now a))); [lia|].
        rewrite lookup_app_r by lia.
        replace (N.to_nat _ - _)%nat with O by lia. done.
      * rewrite lookup_insert_ne by done. rewrite L. unfold a_at. cbn.
        destruct (N.ltb_spec i (a_first (a_now a))) as [|H]; [done|].
        destruct (decide (i < a_next (a_now a))) as [J|J]; unfold a_next in *.
        -- rewrite lookup_app_l by lia. done.
        -- rewrite !lookup_ge_None_2; [done|rewrite app_length; cbn; lia|lia].
    + unfold a_next in *. cbn. rewrite app_length. cbn. unfold add64, wrap64.
      rewrite N.mod_small; lia.
  - (* write_at *)
    destruct OK as ([A1 A2] & A3).
    cbn [l_step]. unfold write_at. rewrite NX.
    destruct (N.ltb_spec (a_next (a_now a)) i); [lia|].
    cbn [bind]. eexists. split; [reflexivity|]. cbn [a_step fst].
    assert (E1 : add64 i 1 = i + 1) by (unfold add64, wrap64; rewrite N.mod_small; lia).
    assert (LEN : length (take (N.to_nat (i - a_first (a_now a))) (a_entries (a_now a)))
                  = N.to_nat (i - a_first (a_now a))).
    { rewrite take_length. unfold a_next in *. lia. }
    rewrite E1. apply sim_written; [done| | |done].
    + split; [done|]. split.
      { unfold a_next in *. cbn. rewrite app_length, LEN. cbn. lia. }
      intros j. rewrite delete_range_lookup. unfold a_at. cbn.
      destruct (N.ltb_spec j (a_first (a_now a))) as [J|J].
      * rewrite decide_False by lia. rewrite lookup_insert_ne by lia. rewrite L. apply a_at_none. lia.
      * destruct (decide (j < i)) as [K|K].
        -- rewrite decide_False by lia. rewrite lookup_insert_ne by lia.
           rewrite lookup_app_l by lia. rewrite lookup_take by lia. rewrite L. unfold a_at.
           destruct (N.ltb_spec j (a_first (a_now a))); [lia|done].
        -- rewrite lookup_app_r by lia. rewrite LEN. destruct (decide (i = j)) as [<-|D].
           ++ rewrite decide_False by lia. rewrite lookup_insert.
              replace (_ - _)%nat with O by lia. done.
           ++ rewrite (lookup_ge_None_2 [e]) by (cbn; lia).
              destruct (decide _) as [|D2]; [done|]. rewrite lookup_insert_ne by done.
              rewrite L. apply a_at_none. lia.
    + unfold a_next. cbn. rewrite app_length, LEN. cbn. lia.
  - (* apply_pack *)
    destruct OK as (N0 & I1 & I2 & C).
    cbn [l_step]. eexists. split; [destruct (a_entries (a_now a)) eqn:EE; cbn; rewrite EE; reflexivity|].
    set (b := match a_entries (a_now a) with
              | [] => Log i es
              | _ => Log (a_first (a_now a))
                   (take (N.to_nat (i - a_first (a_now a))) (a_entries (a_now a)) ++ es ++
                    drop (N.to_nat (i - a_first (a_now a)) + length es) (a_entries (a_now a)))
              end).
    assert (X : fst (a_step a (LApplyPack i es)) = a_write a b).
    { unfold b. cbn. by destruct (a_entries (a_now a)). }
    rewrite X. clear X.
    assert (NB : reopened b = b).
    { unfold b, reopened. destruct (a_entries (a_now a)) eqn:EE; cbn.
      - destruct es; [done|reflexivity].
      - destruct (take _ _ ++ es ++ _) eqn:Z; [|done].
        apply app_eq_nil in Z as [_ Z]. apply app_eq_nil in Z as [Z _]. done. }
    assert (RB : rep (put_all (ls_db s) i es) b).
    { unfold b. destruct (a_entries (a_now a)) as [|x xs] eqn:EE.
      - split; [done|]. split; [done|].
        intros j. rewrite put_all_lookup by done. unfold a_at. cbn.
        destruct (N.ltb_spec j i) as [J|J].
        + rewrite decide_False by lia. rewrite L. apply a_at_none. unfold a_next. rewrite EE. cbn. lia.
        + destruct (decide _) as [D|D]; [done|]. rewrite lookup_ge_None_2 by lia.
          rewrite L. apply a_at_none. unfold a_next. rewrite EE. cbn. lia.
      - destruct C as [C|C]; [|discriminate]. clear b NB. rewrite <- EE. clear x xs EE.
        assert (LEN : length (take (N.to_nat (i - a_first (a_now a))) (a_entries (a_now a)))
                      = N.to_nat (i - a_first (a_now a))).
        { rewrite take_length. unfold a_next in *. lia. }
        split; [done|]. split.
        { unfold a_next in *. cbn. rewrite !app_length, LEN, drop_length. lia. }
        intros j. rewrite put_all_lookup by done. unfold a_at. cbn.
        destruct (N.ltb_spec j (a_first (a_now a))) as [J|J].
        + rewrite decide_False by lia. rewrite L. apply a_at_none. lia.
        + destruct (decide (j < i)) as [K|K].
          * rewrite decide_False by lia. rewrite lookup_app_l by lia. rewrite lookup_take by lia.
            rewrite L. unfold a_at. destruct (N.ltb_spec j (a_first (a_now a))); [lia|done].
          * rewrite lookup_app_r by lia. rewrite LEN. destruct (decide _) as [D|D].
            -- rewrite lookup_app_l by lia. f_equal. lia.
            -- rewrite lookup_app_r by lia. rewrite lookup_drop. rewrite L. unfold a_at.
               destruct (N.ltb_spec j (a_first (a_now a))); [lia|]. f_equal. lia. }
    unfold apply_pack. apply sim_written; [done|done| |].
    + rewrite (rep_last_index _ b RB). by rewrite NB.
    + rewrite (rep_first _ b RB). by rewrite NB.
  - (* compact *)
    destruct OK as (A1 & A2).
    cbn [l_step]. unfold compact. rewrite ST, NX.
    assert (E1 : add64 last 1 = last + 1) by (unfold add64, wrap64; rewrite N.mod_small; lia). rewrite E1.
    destruct (N.ltb_spec (last + 1) (a_first (a_now a))); [lia|].
    cbn [bind]. eexists. split; [reflexivity|]. cbn [a_step fst].
    apply sim_written; [done| | |done].
    + split; [cbn; lia|]. split.
      { unfold a_next in *. cbn. rewrite drop_length. lia. }
      intros j. rewrite delete_range_lookup. unfold a_at. cbn.
      destruct (N.ltb_spec j (last + 1)) as [J|J].
      * destruct (decide _) as [|D]; [done|]. rewrite L. apply a_at_none. lia.
      * rewrite decide_False by lia. rewrite lookup_drop. rewrite L. unfold a_at.
        destruct (N.ltb_spec j (a_first (a_now a))); [lia|]. f_equal. lia.
    + unfold a_next in *. cbn. rewrite drop_length. lia.
  - (* flush *)
    eexists. split; [reflexivity|]. cbn [a_step fst].
    assert (R' : rep (delete 0 (ls_db s)) (a_now a)).
    { split; [done|split; [done|]]. intros i. destruct (decide (i = 0)) as [->|D].
      - rewrite lookup_delete. symmetry. apply a_at_none. lia.
      - by rewrite lookup_delete_ne. }
    split; [done|]. repeat split; try done. cbn. by constructor.
  - (* crash *)
    eexists. split; [reflexivity|]. cbn [a_step fst]. unfold crash. apply sim_load.
    rewrite (Forall2_length _ _ _ P).
    destruct (lookup_lt_is_Some_2 (a_past a) (k `min` (length (a_past a) - 1))) as [b B].
    { destruct (a_past a); [done|]. cbn. lia. }
    rewrite B. destruct (Forall2_lookup_r _ _ _ _ _ P B) as (d & D & RD). rewrite D. done.
  - eexists. split; [cbn; unfold next_slot; rewrite NX; reflexivity|done].
  - eexists. split; [cbn; unfold start_index; rewrite ST; reflexivity|done].
  - (* last entry *)
    eexists. split; [|done]. cbn. unfold last_entry.
    destruct (seek_last (ls_db s)) as [k|] eqn:E.
    + apply seek_last_some in E as (A & C). pose proof A as A'.
      rewrite (rep_some _ (a_now a)) in A by done.
      assert (G : k = a_next (a_now a) - 1).
      { assert (a_next (a_now a) - 1 <= k); [|lia]. apply C. apply (rep_some _ (a_now a)); [done|lia]. }
      rewrite L. unfold a_at. destruct (N.ltb_spec k (a_first (a_now a))); [lia|].
      rewrite last_lookup. replace (N.to_nat (k - a_first (a_now a))) with (Init.Nat.pred (length (a_entries (a_now a)))); [done|]. subst k. unfold a_next in *. lia.
    + assert (Z : a_entries (a_now a) = []).
      { destruct (a_entries (a_now a)) as [|x xs] eqn:EE; [done|]. exfalso.
        assert (is_Some (ls_db s !! a_first (a_now a))) as [? H].
        { apply (rep_some _ (a_now a)); [done|]. unfold a_next. rewrite EE. cbn. lia. }
        rewrite (seek_last_none _ E) in H. discriminate. }
      rewrite Z. done.
  - eexists. split; [|done]. cbn. unfold entry_at. by rewrite L.
  - eexists. split; [|done]. cbn. unfold term_at, entry_at. by rewrite L.
  - (* log_entries *)
    destruct OK as ([A1 A2] & A3). eexists. split; [|done]. cbn [l_step]. unfold log_entries.
    destruct (N.ltb_spec to from); [lia|]. rewrite (read_from_rep _ _ R) by lia. done.
  - (* pack *)
    destruct OK as (A1 & A2). eexists. split; [|done]. cbn [l_step]. unfold pack, log_entries.
    assert (E1 : add64 i cnt = i + cnt) by (unfold add64, wrap64; rewrite N.mod_small; lia). rewrite E1.
    destruct (N.ltb_spec (i + cnt) i); [lia|]. rewrite (read_from_rep _ _ R) by lia.
    cbn. replace (i + cnt - i) with cnt by lia. done.
Qed.

Lemma l_run_sim l : forall s a, sim s a -> all_allowed a l ->
  exists s', l_run s l = Done (s', snd (a_run a l)) /\ sim s' (fst (a_run a l)).
Proof.
  induction l as [|o l IH]; intros s a M OK.
  - exists s. done.
  - cbn [all_allowed] in OK. destruct OK as [O1 O2].
    destruct (l_step_sim s a o M O1) as (s1 & E1 & M1).
    destruct (IH s1 _ M1 O2) as (s2 & E2 & M2). exists s2.
    cbn [l_run a_run]. rewrite E1. destruct (a_step a o) as [a1 x]. cbn in *.
    rewrite E2. destruct (a_run a1 l) as [a2 xs]. done.
Qed.

Lemma refines l : all_allowed logs0 l ->
  exists s, l_run store0 l = Done (s, snd (a_run logs0 l)).
Proof. intros OK. destruct (l_run_sim l _ _ sim_init OK) as (s & E & _). eauto. Qed.

(** ** What a flush keeps *)

Lemma a_run_app l1 l2 a :
  fst (a_run a (l1 ++ l2)) = fst (a_run (fst (a_run a l1)) l2).
Proof.
  revert a. induction l1 as [|o l1 IH]; intros a; [done|].
  cbn [app a_run]. destruct (a_step a o) as [a1 x]. specialize (IH a1).
  destruct (a_run a1 (l1 ++ l2)), (a_run a1 l1). cbn in *. done.
Qed.

Definition extends (x : log) (y : log) : Prop :=
  a_first y = a_first x /\ exists r, a_entries y = a_entries x ++ r.

Lemma appends_extend es : forall x a, extends x (a_now a) -> Forall (extends x) (a_past a) ->
  a_past a <> [] ->
  let a' := fst (a_run a (map LAppend es)) in
  extends x (a_now a') /\ Forall (extends x) (a_past a') /\ a_past a' <> [].
Proof.
  induction es as [|e es IH]; intros x a E F N; [done|].
  cbn [map a_run a_step].
  set (b := a_write a (Log (a_first (a_now a)) (a_entries (a_now a) ++ [e]))).
  assert (EB : extends x (a_now b)).
  { destruct E as (E1 & r & E2). split; [done|]. exists (r ++ [e]). cbn. rewrite E2. by rewrite app_assoc. }
  specialize (IH x b EB). destruct (a_run b (map LAppend es)). cbn in *. apply IH.
  - by constructor.
  - done.
Qed.

Lemma flushed_survives l es k i :
  let before := a_now (fst (a_run logs0 l)) in
  let after := a_now (fst (a_run logs0 (l ++ LFlush :: map LAppend es ++ [LCrash k]))) in
  a_first before <= i < a_next before -> a_at after i = a_at before i.
Proof.
  intros before after I. unfold after. rewrite a_run_app.
  change (LFlush :: map LAppend es ++ [LCrash k]) with ([LFlush] ++ map LAppend es ++ [LCrash k]).
  rewrite !a_run_app. cbn [a_run a_step fst].
  fold before.
  destruct (appends_extend es before (Logs before [before])) as (A & B & C).
  { split; [done|]. exists []. by rewrite app_nil_r. }
  { constructor; [|constructor]. split; [done|]. exists []. by rewrite app_nil_r. }
  { done. }
  set (a := fst (a_run (Logs before [before]) (map LAppend es))) in *.
  cbn [a_now].
  destruct (lookup_lt_is_Some_2 (a_past a) (k `min` (length (a_past a) - 1))) as [b H].
  { destruct (a_past a); [done|]. cbn. lia. }
  rewrite H. cbn [default id].
  assert (E : extends before b) by (eapply Forall_lookup_1; [apply B|eassumption]).
  destruct E as (E1 & r & E2).
  assert (R : reopened b = b).
  { unfold reopened. destruct (a_entries b) eqn:Z; [|done].
    symmetry in E2. apply app_eq_nil in E2 as [E2 _]. unfold a_next in I. rewrite E2 in I. cbn in I. lia. }
  rewrite R. unfold a_at. rewrite E1, E2.
  destruct (N.ltb_spec i (a_first before)); [lia|]. apply lookup_app_l. unfold a_next in I. lia.
Qed.

(** ** Cases *)

Definition ent (t : N) : entry := Entry t (Some [t]).

Lemma reopen_case : exists l s outs,
  all_allowed logs0 l /\ l_run store0 (l ++ [LNextSlot; LCrash 0; LNextSlot]) = Done (s, outs) /\
  drop (length l) outs = [OIndex 3; OUnit; OIndex 1].
Proof.
  exists [LAppend (ent 1); LAppend (ent 1); LFlush; LCompact 2; LFlush].
  eexists _, _. split; [|split; vm_compute; reflexivity].
  cbn. repeat split; unfold a_next; cbn; lia.
Qed.

Lemma append_lost_case : exists s,
  l_run store0 [LAppend (ent 7); LNextSlot; LCrash 1; LNextSlot; LEntryAt 1] =
    Done (s, [OIndex 1; OIndex 2; OUnit; OIndex 1; OEntry null_entry]).
Proof. eexists. vm_compute. reflexivity. Qed.

Lemma beyond_case : l_run store0 [LAppend (ent 1); LWriteAt 3 (ent 2)] = Throws.
Proof. vm_compute. reflexivity. Qed.

Lemma gap_case : exists s,
  l_run store0 [LAppend (ent 1); LApplyPack 4 [ent 4]; LEntries 1 3] =
    Done (s, [OIndex 1; OUnit; OEntries [ent 1; ent 4]]).
Proof. eexists. vm_compute. reflexivity. Qed.

Lemma read_beyond_case : l_run store0 [LAppend (ent 1); LEntries 1 3] = Undefined.
Proof. vm_compute. reflexivity. Qed.

Definition sample : list lop :=
  [LAppend (ent 1); LAppend (ent 2); LAppend (ent 3); LFlush; LWriteAt 3 (ent 4); LAppend (ent 5);
   LCompact 1; LPack 2 2; LApplyPack 4 [ent 6; ent 7]; LEntries 2 6; LStartIndex; LLastEntry;
   LTermAt 3; LEntryAt 1; LCrash 2; LNextSlot; LEntries 2 5].

Lemma sample_allowed : all_allowed logs0 sample.
Proof.
  vm_compute. repeat split; try discriminate; try reflexivity; left; split; discriminate.
Qed.

Lemma sample_outs : snd (a_run logs0 sample) =
  [OIndex 1; OIndex 2; OIndex 3; OUnit; OUnit; OIndex 4; OUnit; OEntries [ent 2; ent 4]; OUnit;
   OEntries [ent 2; ent 4; ent 6; ent 7]; OIndex 2; OEntry (ent 7); OIndex 4; OEntry null_entry;
   OUnit; OIndex 5; OEntries [ent 2; ent 4; ent 5]].
Proof. vm_compute. reflexivity. Qed.
