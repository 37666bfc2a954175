(** Payments that run at the same time, for property C96. *)
From Coq Require Import NArith List Lia.
From stdpp Require Import base option list gmap.
From Verif Require Import Base LuaModel LuaPayModel LuaPaySpec LuaPayProofs LuaPayRuns ParsecShardModel
  ParsecShardSpec LuaShardSpec LuaShardProofs.
Import ListNotations.
Open Scope N_scope.

(** What a contract asks for and reports depends on the values only. *)
Section runs.
  Context {L : Type} (resume : L -> bytes -> resumed L) (fuel : nat) (db : bytes -> bytes).
  Notation answers ks := (map (fun k => (Value (db k), true)) ks).

  Lemma on_locks_over (s : rstate L) l : (forall st, s <> Waiting st) -> on_locks resume fuel s l = (s, []).
  Proof.
    intros H. induction l as [|a l IH]; [done|]. cbn. destruct s; [by destruct (H st)|..]; cbn; by rewrite IH.
  Qed.

  Definition go (st : L) (i : bytes) (l : list (lock_answer * bool)) : rstate L * list act :=
    let (s1, a1) := schedule resume fuel st i true in
    let (s2, a2) := on_locks resume fuel s1 l in (s2, a1 ++ a2).

  Lemma schedule_cases st i :
    (exists st' k, schedule resume fuel st i true = (Waiting st', [ALock k])) \/
    (exists s r, schedule resume fuel st i true = (s, r) /\ (forall st', s <> Waiting st') /\
       (r = [] \/ exists x, r = [AReport x])).
  Proof.
    assert (E : forall vs, exists s r, epilogue fuel vs = (s, r) /\ (forall st' : L, s <> Waiting st') /\
              (r = [] \/ exists x, r = [AReport x])).
    { intros vs. unfold epilogue. destruct vs as [|[] [|]]; try (eexists _, _; split; [reflexivity|]; split; [done|]; eauto).
      destruct (walk _ _ _ _); eexists _, _; (split; [reflexivity|]); (split; [done|]); eauto. }
    unfold schedule. destruct (resume st i) as [vs st'|vs| | |].
    - destruct vs as [|v [|]]; try (right; eexists _, _; split; [reflexivity|]; split; [done|]; eauto).
      destruct (to_text v); [left; eauto|]. right; eexists _, _; split; [reflexivity|]; split; [done|]; eauto.
    - right. apply E.
    - right; eexists _, _; split; [reflexivity|]; split; [done|]; eauto.
    - right; eexists _, _; split; [reflexivity|]; split; [done|]; eauto.
    - right; eexists _, _; split; [reflexivity|]; split; [done|]; eauto.
  Qed.

  Lemma go_det ks : forall ks' st i r r',
    go st i (answers ks) = (Finished, map ALock ks ++ [AReport r]) ->
    go st i (answers ks') = (Finished, map ALock ks' ++ [AReport r']) -> ks = ks' /\ r = r'.
  Proof.
    induction ks as [|k ks IH]; intros ks' st i r r' H H'; unfold go in H, H';
      destruct (schedule_cases st i) as [(st1 & k1 & E)|(s1 & a & E & Hw & Ha)]; rewrite E in H, H'.
    - cbn in H. discriminate.
    - rewrite on_locks_over in H, H' by done. rewrite app_nil_r in H, H'. cbn in H.
      injection H as -> ->. destruct ks' as [|k' ks']; cbn in H'; [|discriminate].
      by injection H' as ->.
    - destruct ks' as [|k' ks']; [cbn in H'; discriminate|]. cbn [map on_locks on_lock fst snd] in H, H'.
      fold (go st1 (db k) (answers ks)) in H. fold (go st1 (db k') (answers ks')) in H'.
      assert (K : k1 = k /\ go st1 (db k) (answers ks) = (Finished, map ALock ks ++ [AReport r])).
      { destruct (go st1 (db k) (answers ks)) as [z w]. cbn in H. by injection H as -> -> ->. }
      assert (K' : k1 = k' /\ go st1 (db k') (answers ks') = (Finished, map ALock ks' ++ [AReport r'])).
      { destruct (go st1 (db k') (answers ks')) as [z w]. cbn in H'. by injection H' as -> -> ->. }
      destruct K as [<- K], K' as [<- K']. by destruct (IH ks' st1 (db k1) r r' K K') as [-> ->].
    - rewrite on_locks_over in H by done. rewrite app_nil_r in H. cbn in H.
      injection H as _ ->. destruct Ha as [|[x Ha]]; discriminate.
  Qed.
End runs.

Section pay.
  Context (parse : bytes -> bool) (verify : bytes -> bytes -> bytes -> bool)
    (sha256 : bytes -> bytes) (req : ticket_no -> bytes) (name : bytes -> key).
  Hypothesis name_inj : forall a b, name a = name b -> a = b.
  Notation resume := (pay_resume parse verify sha256).
  Notation pay := (pay parse verify sha256).
  Notation pay_steps := (pay_steps parse verify sha256).
  Notation alone := (alone resume 3 (fun _ => PStart) req).
  Notation serial := (serial resume 3 (fun _ => PStart) req).

  Lemma alone_pay db tn ks u : alone db tn ks u -> pay db (req tn) = Updates u.
  Proof.
    intros H. pose proof (pay_runs parse verify sha256 db (req tn)) as H'.
    unfold LuaShardSpec.alone in H. unfold LuaModel.run in H, H'.
    destruct (go_det resume 3 db ks (fst (pay_run parse verify sha256 db (req tn))) PStart (req tn) (Updates u)
      (pay db (req tn)) H H') as [_ E]. done.
  Qed.

  Lemma steps_snoc db l p : pay_steps db (l ++ [p]) = pay_step parse verify sha256 (pay_steps db l) p.
  Proof. unfold LuaPayModel.pay_steps. by rewrite fold_left_app. Qed.

  Lemma steps_app db l l' : pay_steps db (l ++ l') = pay_steps (pay_steps db l) l'.
  Proof. apply fold_left_app. Qed.
  Lemma steps_cons db p l : pay_steps db (p :: l) = pay_steps (pay_step parse verify sha256 db p) l.
  Proof. done. Qed.
  Lemma step_updates db p u : pay db p = Updates u -> pay_step parse verify sha256 db p = store db u.
  Proof. intros H. unfold pay_step. by rewrite H. Qed.

  Lemma serial_pay db0 l db : serial db0 l db ->
    (forall k, db k = pay_steps db0 (map req l) k) /\
    (forall a tn b, l = a ++ tn :: b -> exists u, pay (pay_steps db0 (map req a)) (req tn) = Updates u).
  Proof.
    induction 1 as [db H|l db tn ks u db' HS [IH1 IH2] A E].
    - split; [exact H|]. by intros [|] ? ?.
    - assert (P : pay (pay_steps db0 (map req l)) (req tn) = Updates u).
      { apply (alone_pay _ tn ks). eapply alone_ext; [|exact A]. intros k _. by rewrite IH1. }
      split.
      + intros k. rewrite E, map_app. cbn [map]. rewrite steps_snoc. unfold pay_step. rewrite P.
        unfold store. destruct (find _ u); [done|apply IH1].
      + intros a tn' b Hl. destruct b as [|x b _] using rev_ind.
        * apply app_inj_tail in Hl as [-> ->]. by exists u.
        * rewrite app_comm_cons, app_assoc in Hl. apply app_inj_tail in Hl as [-> _]. by apply (IH2 a tn' b).
  Qed.

  Notation follow := (agents_follow resume 3 (fun _ => PStart) req name).

  Lemma concurrent_pay state os s tr :
    NoDup (issued os) -> executes state ∅ os s tr -> follow state tr ->
    forall k, in_shard name s k = pay_steps (at_start name state) (map req (committed tr)) k.
  Proof.
    intros A B C. apply serial_pay. by eapply contracts_serial.
  Qed.

  Lemma balance_ext db db' a : (forall k, db' k = db k) -> balance db' a = balance db a.
  Proof. intros E. unfold balance. by rewrite E. Qed.
  Lemma sound_ext db db' a : (forall k, db' k = db k) -> sound db a -> sound db' a.
  Proof. intros E. unfold sound, balance, sequence. by rewrite E. Qed.

  Lemma concurrent_money state os s tr l :
    NoDup (issued os) -> executes state ∅ os s tr -> follow state tr ->
    NoDup l -> Forall (sound (at_start name state)) l -> money (at_start name state) l < 2 ^ 63 ->
    Forall (among l) (map req (committed tr)) ->
    money (in_shard name s) l = money (at_start name state) l /\ Forall (sound (in_shard name s)) l.
  Proof.
    intros A B C ND S M Hl. pose proof (concurrent_pay state os s tr A B C) as E.
    destruct (steps_money parse verify sha256 l _ ND _ S M Hl) as [M' S']. split.
    - rewrite <- M'. apply money_ext. intros a _. by apply balance_ext.
    - eapply Forall_impl; [exact S'|]. intros a. by apply sound_ext.
  Qed.

  Lemma concurrent_once state os s tr :
    NoDup (issued os) -> executes state ∅ os s tr -> follow state tr ->
    Forall (fun p => fresh p /\ payer p <> payee p) (map req (committed tr)) ->
    NoDup (map req (committed tr)).
  Proof.
    intros A B C F. pose proof (contracts_serial resume 3 (fun _ => PStart) req name name_inj state os s tr A B C) as HS.
    apply serial_pay in HS as [_ HS]. revert HS F. generalize (committed tr) as l.
    induction l as [|tn l IH] using rev_ind; intros HS F; [constructor|].
    rewrite map_app in F |- *. apply Forall_app in F as [F1 F2]. cbn [map] in *.
    apply NoDup_app. split; [apply IH; [|done]|split; [|apply NoDup_singleton]].
    - intros a t b ->. apply (HS a t (b ++ [tn])). by rewrite <- app_assoc.
    - intros p Hp ->%elem_of_list_singleton. apply elem_of_list_In, in_map_iff in Hp as (t & Et & Ht).
      apply in_split in Ht as (a & b & ->).
      destruct (HS a t (b ++ [tn])) as [u Hu]; [by rewrite <- app_assoc|].
      destruct (HS (a ++ t :: b) tn [] eq_refl) as [u' Hu'].
      rewrite map_app in Hu'. cbn [map] in Hu'. rewrite <- Et in Hu'.
      rewrite map_app in F1. apply Forall_app in F1 as [_ F1]. cbn [map] in F1.
      apply Forall_cons in F1 as [[Fr Ne] F1].
      replace (pay_steps (at_start name state) (map req a ++ req t :: map req b))
        with (pay_steps (store (pay_steps (at_start name state) (map req a)) u) (map req b)) in Hu'.
      + eapply (no_replay parse verify sha256); [exact Fr|exact Hu|by left| |exact Hu'].
        eapply Forall_impl; [exact F1|]. by intros p [].
      + by rewrite steps_app, steps_cons, (step_updates _ _ _ Hu).
  Qed.
End pay.
