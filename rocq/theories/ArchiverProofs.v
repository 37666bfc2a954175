(** Proofs about the archiver. *)
From Coq Require Import NArith List Bool Lia.
From stdpp Require Import base decidable list gmap.
From Verif Require Import Base CodecModel CodecProofs TxModel MsgModel MsgProofs ArchiverModel ArchiverSpec.
Import ListNotations.
Open Scope N_scope.

(** [chain]: what is stored. [since]: received since the start. [ms]: sent since then. *)
Record Stored (rcv chain : list block) (s : archiver) : Prop := {
  st_best : ar_best s = len chain;
  st_db : ad_best (ar_db s) = Some (len chain);
  st_blocks : forall h, ad_blocks (ar_db s) !! h =
     if h =? 0 then None else enc c_block <$> chain !! N.to_nat (h - 1);
  st_heights : forall i b, chain !! i = Some b -> blk_height b = N.of_nat i + 1;
  st_rcv : forall b, b ∈ chain -> b ∈ rcv }.

Record Pending (since chain : list block) (ms : list ar_msg) (s : archiver) (cur : option block) : Prop := {
  pe_keys : base.NoDup (map fst (ar_deferred s));
  pe_def : forall h x, (h, x) ∈ ar_deferred s ->
     h = blk_height x /\ x ∈ since /\ len chain < h /\ (h = len chain + 1 -> cur = Some x) /\
     ((exists y, y ∈ since /\ blk_height y + 1 = h) \/ MGetBlock (h - 1) ∈ ms);
  pe_since : forall x, x ∈ since -> blk_height x <= len chain \/ blk_height x ∈ map fst (ar_deferred s) \/
     (exists c, cur = Some c /\ blk_height x = blk_height c) }.

Lemma df_find_in m h b : df_find m h = Some b -> (h, b) ∈ m.
Proof.
  unfold df_find. destruct (List.find _ m) as [p|] eqn:E; [|discriminate]. intro H. injection H as <-.
  apply find_some in E. destruct E as [A B]. apply N.eqb_eq in B. subst h.
  apply elem_of_list_In. destruct p. exact A.
Qed.
Lemma df_find_none m h : df_find m h = None -> h ∉ map fst m.
Proof.
  unfold df_find. destruct (List.find _ m) as [p|] eqn:E; [discriminate|]. intros _ Hin.
  apply elem_of_list_In, in_map_iff in Hin. destruct Hin as [p [<- Hp]].
  eapply find_none in E; [|exact Hp]. cbn in E. rewrite N.eqb_refl in E. discriminate.
Qed.
Lemma df_erase_in m h p : p ∈ df_erase m h <-> p ∈ m /\ fst p <> h.
Proof.
  unfold df_erase. rewrite !elem_of_list_In, List.filter_In.
  destruct (N.eqb_spec (fst p) h); cbn [negb]; intuition congruence.
Qed.
Lemma df_erase_keys m h : base.NoDup (map fst m) -> base.NoDup (map fst (df_erase m h)).
Proof.
  induction m as [|p m IH]; intro H; [exact H|]. inversion H as [|? ? A B]; subst.
  unfold df_erase in *. cbn [List.filter]. destruct (negb (fst p =? h)); [|apply IH; exact B].
  cbn [map]. constructor; [|apply IH; exact B]. intro Hin. apply A.
  apply elem_of_list_In, in_map_iff in Hin. destruct Hin as [q [Hq Hin]]. apply List.filter_In in Hin.
  apply elem_of_list_In, in_map_iff. exists q. tauto.
Qed.
Lemma df_erase_len m h : (length (df_erase m h) <= length m)%nat.
Proof. unfold df_erase. induction m as [|p m IH]; cbn; [lia|]. destruct (negb _); cbn; lia. Qed.
Lemma df_erase_lt m h b : (h, b) ∈ m -> (length (df_erase m h) < length m)%nat.
Proof.
  induction m as [|p m IH]; intro H; [inversion H|]. unfold df_erase in *. cbn [List.filter length].
  apply elem_of_cons in H. destruct H as [<-|H].
  - cbn [fst]. rewrite N.eqb_refl. cbn [negb]. pose proof (df_erase_len m h). unfold df_erase in *. lia.
  - specialize (IH H). destruct (negb _); cbn [length]; lia.
Qed.

Lemma add64_small a b : a + b < two64 -> add64 a b = a + b.
Proof. intro H. unfold add64, wrap64. apply N.mod_small. exact H. Qed.

Lemma stored_grow rcv chain s b defr :
  Stored rcv chain s -> b ∈ rcv -> blk_height b = len chain + 1 ->
  Stored rcv (chain ++ [b])
    (Archiver (len chain + 1) defr
       (ArchDb (Some (blk_height b)) (<[blk_height b := enc c_block b]> (ad_blocks (ar_db s))))).
Proof.
  intros [H1 H2 H3 H4 H5] Hr Hb.
  assert (Hl : len (chain ++ [b]) = len chain + 1) by (unfold len; rewrite app_length; cbn; lia).
  constructor; cbn [ar_best ar_db ad_best ad_blocks].
  - rewrite Hl. reflexivity.
  - rewrite Hl, Hb. reflexivity.
  - intro h. destruct (N.eq_dec h (blk_height b)) as [->|Hn].
    + rewrite lookup_insert. destruct (N.eqb_spec (blk_height b) 0); [lia|].
      replace (N.to_nat (blk_height b - 1)) with (length chain) by (unfold len in *; lia).
      rewrite list_lookup_middle by reflexivity. reflexivity.
    + rewrite lookup_insert_ne by congruence. rewrite H3. destruct (N.eqb_spec h 0); [reflexivity|].
      destruct (decide (N.to_nat (h - 1) < length chain)%nat) as [Hlt|Hge].
      * rewrite lookup_app_l by exact Hlt. reflexivity.
      * rewrite (lookup_ge_None_2 chain) by lia.
        rewrite (lookup_ge_None_2 (chain ++ [b])); [reflexivity|].
        rewrite app_length. cbn. unfold len in *. lia.
  - intros i x Hi. apply lookup_app_Some in Hi. destruct Hi as [Hi|[Hi Hx]]; [exact (H4 i x Hi)|].
    destruct (i - length chain)%nat as [|k] eqn:Ek; [|destruct k; discriminate].
    injection Hx as <-. unfold len in *. lia.
  - intros x Hx. apply elem_of_app in Hx. destruct Hx as [Hx|Hx]; [exact (H5 x Hx)|].
    apply elem_of_list_singleton in Hx. subst. exact Hr.
Qed.

Lemma step_inv rcv since chain ms s cur s1 m1 next :
  Stored rcv chain s -> Pending since chain ms s (Some cur) ->
  cur ∈ rcv -> cur ∈ since -> len chain + 2 < two64 -> blk_height cur < two64 ->
  ar_step true s cur = (s1, m1, next) ->
  exists chain1, (chain1 = chain \/ chain1 = chain ++ [cur] /\ blk_height cur = len chain + 1) /\
    Stored rcv chain1 s1 /\ Pending since chain1 (ms ++ m1) s1 next /\
    (forall b, next = Some b -> b ∈ since /\ chain1 = chain ++ [cur] /\
        ar_deferred s1 = df_erase (ar_deferred s) (blk_height cur) /\ (blk_height b, b) ∈ ar_deferred s1) /\
    (forall h, MPrune h ∈ m1 -> h <= len chain1).
Proof.
  intros St Pe Hr Hs Hlen Hcur H. unfold ar_step in H.
  assert (Hbest : (if ar_best s =? 0 then match ad_best (ar_db s) with Some h => h | None => 0 end
                   else ar_best s) = len chain).
  { rewrite (st_db _ _ _ St), (st_best _ _ _ St). case (len chain =? 0); reflexivity. }
  rewrite Hbest in H. cbn [ar_deferred ar_db] in H.
  assert (Hs0 : Archiver (len chain) (ar_deferred s) (ar_db s) = s).
  { rewrite <- (st_best _ _ _ St). destruct s; reflexivity. }
  rewrite Hs0 in H. rewrite add64_small in H by lia.
  destruct Pe as [P1 P2 P3].
  destruct (N.leb_spec (blk_height cur) (len chain)) as [Hle|Hgt].
  - injection H as <- <- <-. exists chain. split; [left; reflexivity|]. split; [exact St|].
    split; [|split; [intros b Hb; discriminate|intros h Hh; inversion Hh]].
    rewrite app_nil_r. constructor; [exact P1| |].
    + intros h x Hx. destruct (P2 h x Hx) as [A [B [C [D E]]]]. repeat split; try assumption.
      intro Hh. specialize (D Hh). injection D as ->. lia.
    + intros x Hx. destruct (P3 x Hx) as [A|[A|[c [A B]]]]; [tauto|tauto|].
      injection A as <-. left. lia.
  - destruct (N.eqb_spec (blk_height cur) (len chain + 1)) as [Heq|Hne]; cbn [negb] in H.
    + (* stored *)
      rewrite (add64_small (blk_height cur) 1) in H by lia.
      injection H as <- <- <-. exists (chain ++ [cur]). split; [right; tauto|].
      assert (Hl : len (chain ++ [cur]) = len chain + 1) by (unfold len; rewrite app_length; cbn; lia).
      split; [apply stored_grow; assumption|]. split; [|split].
      * constructor; cbn [ar_deferred].
        -- apply df_erase_keys. exact P1.
        -- intros h x Hx. apply df_erase_in in Hx. destruct Hx as [Hx Hn]. cbn [fst] in Hn.
           destruct (P2 h x Hx) as [A [B [C [D E]]]]. split; [exact A|]. split; [exact B|].
           split; [lia|]. split.
           ++ intro Hh. rewrite Hl in Hh.
              assert (Hf : df_find (ar_deferred s) (blk_height cur + 1) <> None).
              { intro Hf. apply df_find_none in Hf. apply Hf. apply elem_of_list_In, in_map_iff.
                exists (h, x). split; [cbn; lia|]. apply elem_of_list_In. exact Hx. }
              destruct (df_find (ar_deferred s) (blk_height cur + 1)) as [y|] eqn:Ef; [|contradiction].
              apply df_find_in in Ef. f_equal.
              assert (Hhy : h = blk_height cur + 1) by lia. subst h.
              rewrite Hhy in Hx. clear -P1 Hx Ef. revert P1 Hx Ef.
              generalize (blk_height cur + 1). intros k P1 Hx Ef.
              apply elem_of_list_lookup_1 in Hx, Ef. destruct Hx as [i Hi]. destruct Ef as [j Hj].
              assert (i = j).
              { eapply NoDup_lookup; [exact P1| |].
                - rewrite list_lookup_fmap, Hi. reflexivity.
                - rewrite list_lookup_fmap, Hj. reflexivity. }
              subst j. rewrite Hi in Hj. injection Hj as ->. reflexivity.
           ++ destruct E as [E|E]; [left; exact E|right]. apply elem_of_app. left. exact E.
        -- intros x Hx. rewrite Hl. destruct (P3 x Hx) as [A|[A|[c [A B]]]].
           ++ left. lia.
           ++ destruct (N.eq_dec (blk_height x) (blk_height cur)) as [Hq|Hq]; [left; lia|].
              right. left. apply elem_of_list_In, in_map_iff in A. destruct A as [p [A1 A2]].
              apply elem_of_list_In, in_map_iff. exists p. split; [exact A1|].
              apply elem_of_list_In, df_erase_in. split; [apply elem_of_list_In; exact A2|congruence].
           ++ injection A as <-. left. lia.
      * intros b Hb. cbn [ar_deferred]. apply df_find_in in Hb.
        destruct (P2 _ _ Hb) as [A [B _]]. split; [exact B|]. split; [reflexivity|]. split; [reflexivity|].
        apply df_erase_in. rewrite <- A. split; [exact Hb|]. cbn. lia.
      * intros h Hh. apply elem_of_list_singleton in Hh. injection Hh as ->. lia.
    + (* deferred *)
      injection H as <- <- <-. exists chain. split; [left; reflexivity|].
      assert (St' : Stored rcv chain (Archiver (len chain) (emplace_map (ar_deferred s) (blk_height cur) cur) (ar_db s))).
      { destruct St as [Q1 Q2 Q3 Q4 Q5]. constructor; cbn [ar_best ar_db]; try assumption. reflexivity. }
      split; [exact St'|]. split; [|split; [intros b Hb; discriminate|]].
      2:{ intros h Hh. destruct (df_find _ _); [inversion Hh|]. apply elem_of_list_singleton in Hh. discriminate. }
      assert (Hsub : sub64 (blk_height cur) 1 = blk_height cur - 1).
      { unfold sub64, wrap64. destruct (N.le_gt_cases two64 (blk_height cur + two64 - 1)) as [Hq|Hq]; [|lia].
        replace (blk_height cur + (two64 - 1)) with (blk_height cur - 1 + 1 * two64) by lia.
        replace (blk_height cur + two64 - 1) with (blk_height cur - 1 + 1 * two64) by lia.
        rewrite N.mod_add by discriminate. apply N.mod_small. lia. }
      rewrite Hsub.
      unfold emplace_map. constructor; cbn [ar_deferred].
      * destruct (decide _) as [Hin|Hin]; [exact P1|]. rewrite map_app. apply NoDup_app.
        split; [exact P1|]. split; [|apply NoDup_singleton]. intros y Hy Hy2. cbn in Hy2.
        apply elem_of_list_singleton in Hy2. subst. contradiction.
      * assert (Old : forall h x, (h, x) ∈ ar_deferred s ->
          h = blk_height x /\ x ∈ since /\ len chain < h /\ (h = len chain + 1 -> None = Some x) /\
          ((exists y, y ∈ since /\ blk_height y + 1 = h) \/ MGetBlock (h - 1) ∈ ms ++
             match df_find (ar_deferred s) (blk_height cur - 1) with
             | Some _ => [] | None => [MGetBlock (blk_height cur - 1)] end)).
        { intros h x Hx. destruct (P2 h x Hx) as [A [B [C [D E]]]]. repeat split; try assumption.
          - intro Hh. specialize (D Hh). injection D as ->. lia.
          - destruct E as [E|E]; [left; exact E|right; apply elem_of_app; left; exact E]. }
        destruct (decide _) as [Hin|Hin]; [exact Old|].
        intros h x Hx. apply elem_of_app in Hx. destruct Hx as [Hx|Hx]; [exact (Old h x Hx)|].
        apply elem_of_list_singleton in Hx. injection Hx as -> ->.
        split; [reflexivity|]. split; [exact Hs|]. split; [exact Hgt|]. split; [intro Hh; contradiction|].
        destruct (df_find (ar_deferred s) (blk_height cur - 1)) as [y|] eqn:Ef.
        -- left. apply df_find_in in Ef. destruct (P2 _ _ Ef) as [A [B _]]. exists y. split; [exact B|]. lia.
        -- right. apply elem_of_app. right. apply elem_of_list_here.
      * intros x Hx. destruct (P3 x Hx) as [A|[A|[c [A B]]]].
        -- left. exact A.
        -- right. left. destruct (decide _); [exact A|]. rewrite map_app. apply elem_of_app. left. exact A.
        -- injection A as <-. right. left. rewrite B. destruct (decide _) as [Hin|Hin]; [exact Hin|].
           rewrite map_app. apply elem_of_app. right. apply elem_of_list_here.
Qed.

(** A gapless chain of received blocks is not longer than what was received. *)
Lemma chain_len rcv chain s : Stored rcv chain s -> len chain <= len rcv.
Proof.
  intros [_ _ _ H4 H5].
  assert (Hn : base.NoDup chain).
  { apply NoDup_alt. intros i j x Hi Hj. apply H4 in Hi, Hj. lia. }
  assert (Hs : chain ⊆+ rcv) by (apply NoDup_submseteq; [exact Hn|exact H5]).
  apply submseteq_length in Hs. unfold len. lia.
Qed.

Lemma stored_more rcv chain s b : Stored rcv chain s -> Stored (rcv ++ [b]) chain s.
Proof.
  intros [H1 H2 H3 H4 H5]. constructor; try assumption. intros x Hx. apply elem_of_app. left. exact (H5 x Hx).
Qed.

Lemma loop_inv fuel : forall rcv since chain ms s cur,
  Stored rcv chain s -> Pending since chain ms s (Some cur) ->
  cur ∈ rcv -> cur ∈ since -> (forall b, b ∈ since -> b ∈ rcv /\ blk_height b < two64) ->
  len rcv + 2 < two64 -> (length (df_erase (ar_deferred s) (blk_height cur)) < fuel)%nat ->
  exists s' ms', ar_digest_loop fuel s cur = Some (s', ms') /\
    exists more, Stored rcv (chain ++ more) s' /\ Pending since (chain ++ more) (ms ++ ms') s' None /\
      (forall h, MPrune h ∈ ms' -> h <= len (chain ++ more)).
Proof.
  induction fuel as [|f IH]; intros rcv since chain ms s cur St Pe Hr Hs Hsub Hlen Hf; [lia|].
  cbn [ar_digest_loop]. destruct (ar_step true s cur) as [[s1 m1] next] eqn:E.
  pose proof (chain_len _ _ _ St) as Hcl.
  destruct (step_inv rcv since chain ms s cur s1 m1 next St Pe Hr Hs ltac:(lia) (proj2 (Hsub _ Hs)) E)
    as [chain1 [Hc [St1 [Pe1 [Hnext Hpr]]]]].
  destruct next as [b'|].
  - destruct (Hnext b' eq_refl) as [A [B [C D]]]. subst chain1.
    destruct (IH rcv since (chain ++ [cur]) (ms ++ m1) s1 b' St1 Pe1 (proj1 (Hsub _ A)) A Hsub Hlen)
      as [s' [ms' [E' [more [St2 [Pe2 Hp2]]]]]].
    { pose proof (df_erase_lt _ _ _ D). rewrite C in *. lia. }
    rewrite E'. eexists. eexists. split; [reflexivity|]. exists (cur :: more).
    rewrite <- app_assoc in St2, Pe2. rewrite <- !app_assoc in Pe2. cbn [app] in St2, Pe2.
    split; [exact St2|]. split; [exact Pe2|].
    intros h Hh. apply elem_of_app in Hh. destruct Hh as [Hh|Hh].
    + specialize (Hpr h Hh). unfold len in *. rewrite !app_length in *. cbn [length] in *. lia.
    + specialize (Hp2 h Hh). rewrite <- app_assoc in Hp2. exact Hp2.
  - eexists. eexists. split; [reflexivity|].
    destruct Hc as [->|[-> Hh]].
    + exists []. rewrite app_nil_r. tauto.
    + exists [cur]. tauto.
Qed.

Lemma crash_inv n : forall rcv since chain ms s cur,
  Stored rcv chain s -> Pending since chain ms s (Some cur) ->
  cur ∈ rcv -> cur ∈ since -> (forall b, b ∈ since -> b ∈ rcv /\ blk_height b < two64) ->
  len rcv + 2 < two64 ->
  exists more, Stored rcv (chain ++ more) (ar_open (ar_crash_in n s cur)).
Proof.
  assert (Open : forall rcv chain s, Stored rcv chain s -> Stored rcv chain (ar_open (ar_db s))).
  { intros rcv chain s [H1 H2 H3 H4 H5]. unfold ar_open. rewrite H2.
    constructor; cbn [ar_best ar_db ad_best ad_blocks]; try assumption; reflexivity. }
  induction n as [|n IH]; intros rcv since chain ms s cur St Pe Hr Hs Hsub Hlen; cbn [ar_crash_in].
  - exists []. rewrite app_nil_r. apply Open. exact St.
  - destruct (ar_step true s cur) as [[s1 m1] next] eqn:E.
    pose proof (chain_len _ _ _ St) as Hcl.
    destruct (step_inv rcv since chain ms s cur s1 m1 next St Pe Hr Hs ltac:(lia) (proj2 (Hsub _ Hs)) E)
      as [chain1 [Hc [St1 [Pe1 [Hnext Hpr]]]]].
    destruct next as [b'|].
    + destruct (Hnext b' eq_refl) as [A [B [C D]]]. subst chain1.
      destruct (IH rcv since (chain ++ [cur]) (ms ++ m1) s1 b' St1 Pe1 (proj1 (Hsub _ A)) A Hsub Hlen) as [more St2].
      exists (cur :: more). rewrite <- app_assoc in St2. exact St2.
    + destruct Hc as [->|[-> _]]; [exists []; rewrite app_nil_r|exists [cur]]; apply Open; exact St1.
Qed.

(** Between events. *)
Definition VInv (rcv since chain : list block) (ms : list ar_msg) (s : archiver) : Prop :=
  Stored rcv chain s /\ Pending since chain ms s None /\
  (forall b, b ∈ since -> b ∈ rcv) /\ (forall h, MPrune h ∈ ms -> h <= len chain).

Lemma VInv_new : VInv [] [] [] [] arch_new.
Proof.
  split; [|split; [|split]].
  - constructor; try reflexivity.
    + intro h. cbn. destruct (h =? 0); [apply lookup_empty|]. rewrite lookup_empty.
      destruct (N.to_nat (h - 1)); reflexivity.
    + intros i b H. destruct i; discriminate.
    + intros b H. inversion H.
  - constructor; cbn; [constructor| |]; intros; exfalso.
    + inversion H.
    + inversion H.
  - intros b H. inversion H.
  - intros h H. inversion H.
Qed.

Lemma pending_cur rcv since chain ms s b : VInv rcv since chain ms s ->
  Pending (since ++ [b]) chain ms s (Some b).
Proof.
  intros [_ [[P1 P2 P3] _]]. constructor; [exact P1| |].
  - intros h x Hx. destruct (P2 h x Hx) as [A [B [C [D E]]]].
    split; [exact A|]. split; [apply elem_of_app; left; exact B|]. split; [exact C|].
    split; [intro Hh; specialize (D Hh); discriminate|].
    destruct E as [[y [E1 E2]]|E]; [left; exists y; split; [apply elem_of_app; left; exact E1|exact E2]|right; exact E].
  - intros x Hx. apply elem_of_app in Hx. destruct Hx as [Hx|Hx].
    + destruct (P3 x Hx) as [A|[A|[c [A B]]]]; [tauto|tauto|discriminate].
    + apply elem_of_list_singleton in Hx. subst. right. right. exists b. tauto.
Qed.

Lemma VInv_event rcv since chain ms s e :
  VInv rcv since chain ms s -> (forall b, b ∈ rcv ++ ev_block e -> blk_height b < two64) ->
  len (rcv ++ ev_block e) + 2 < two64 ->
  exists s' m1 more, arch_do s e = Some (s', m1) /\
    VInv (rcv ++ ev_block e)
      (match e with AvBlock b => since ++ [b] | _ => [] end)
      (chain ++ more) (ms ++ m1) s'.
Proof.
  intros V Hd Hlen. destruct e as [b| |n b]; cbn [ev_block arch_do] in *.
  - pose proof (pending_cur _ _ _ _ _ b V) as Pc. destruct V as [St [Pe [Hsub Hpr]]].
    assert (Hsub' : forall x, x ∈ since ++ [b] -> x ∈ rcv ++ [b] /\ blk_height x < two64).
    { intros x Hx. assert (Hx2 : x ∈ rcv ++ [b]).
      { apply elem_of_app in Hx. apply elem_of_app. destruct Hx as [Hx|Hx]; [left; apply Hsub; exact Hx|right; exact Hx]. }
      split; [exact Hx2|apply Hd; exact Hx2]. }
    assert (Hb : forall l : list block, b ∈ l ++ [b]) by (intro l; apply elem_of_app; right; apply elem_of_list_here).
    destruct (loop_inv (S (length (ar_deferred s))) (rcv ++ [b]) (since ++ [b]) chain ms s b
                (stored_more _ _ _ b St) Pc (Hb _) (Hb _) Hsub' Hlen) as [s' [m1 [E [more [S1 [P1 Q1]]]]]].
    { pose proof (df_erase_len (ar_deferred s) (blk_height b)). lia. }
    exists s', m1, more. split; [exact E|]. split; [exact S1|]. split; [exact P1|].
    split; [intros x Hx; apply Hsub'; exact Hx|].
    intros h Hh. apply elem_of_app in Hh. destruct Hh as [Hh|Hh]; [|exact (Q1 h Hh)].
    specialize (Hpr h Hh). unfold len in *. rewrite app_length. lia.
  - destruct V as [[H1 H2 H3 H4 H5] [Pe [Hsub Hpr]]]. exists (ar_open (ar_db s)), [], [].
    rewrite !app_nil_r. split; [reflexivity|]. unfold ar_open. rewrite H2. split; [|split; [|split]].
    + constructor; cbn [ar_best ar_db ad_best ad_blocks]; try assumption; reflexivity.
    + constructor; cbn [ar_deferred]; [constructor| |]; intros; exfalso.
      * inversion H.
      * inversion H.
    + intros b Hb. inversion Hb.
    + exact Hpr.
  - pose proof (pending_cur _ _ _ _ _ b V) as Pc. destruct V as [St [Pe [Hsub Hpr]]].
    assert (Hsub' : forall x, x ∈ since ++ [b] -> x ∈ rcv ++ [b] /\ blk_height x < two64).
    { intros x Hx. assert (Hx2 : x ∈ rcv ++ [b]).
      { apply elem_of_app in Hx. apply elem_of_app. destruct Hx as [Hx|Hx]; [left; apply Hsub; exact Hx|right; exact Hx]. }
      split; [exact Hx2|apply Hd; exact Hx2]. }
    assert (Hb : forall l : list block, b ∈ l ++ [b]) by (intro l; apply elem_of_app; right; apply elem_of_list_here).
    destruct (crash_inv n (rcv ++ [b]) (since ++ [b]) chain ms s b
                (stored_more _ _ _ b St) Pc (Hb _) (Hb _) Hsub' Hlen) as [more S1].
    exists (ar_open (ar_crash_in n s b)), [], more. split; [reflexivity|]. rewrite app_nil_r.
    split; [exact S1|]. split; [|split].
    + constructor; cbn [ar_deferred ar_open]; [constructor| |]; intros; exfalso.
      * inversion H.
      * inversion H.
    + intros x Hx. inversion Hx.
    + intros h Hh. specialize (Hpr h Hh). unfold len in *. rewrite app_length. lia.
Qed.

Lemma VInv_run es : forall rcv since chain ms s,
  VInv rcv since chain ms s -> (forall b, b ∈ rcv ++ ev_blocks es -> blk_height b < two64) ->
  len (rcv ++ ev_blocks es) + 2 < two64 ->
  exists s' m1 more, arch_run s es = Some (s', m1) /\
    VInv (rcv ++ ev_blocks es)
      (fold_left (fun l e => match e with AvBlock b => l ++ [b] | _ => [] end) es since)
      (chain ++ more) (ms ++ m1) s'.
Proof.
  induction es as [|e es IH]; intros rcv since chain ms s V Hd Hlen.
  - exists s, [], []. cbn. rewrite !app_nil_r. split; [reflexivity|exact V].
  - unfold ev_blocks in *. cbn [map concat] in *. rewrite app_assoc in *.
    destruct (VInv_event rcv since chain ms s e V) as [s1 [m1 [more [E V1]]]].
    { intros b Hb. apply Hd. apply elem_of_app. left. exact Hb. }
    { unfold len in *. rewrite app_length in Hlen. lia. }
    destruct (IH _ _ _ _ _ V1 Hd Hlen) as [s2 [m2 [more2 [E2 V2]]]].
    exists s2, (m1 ++ m2), (more ++ more2). cbn [arch_run]. rewrite E, E2.
    split; [reflexivity|]. cbn [fold_left]. rewrite !app_assoc in *. exact V2.
Qed.

Lemma stores_of rcv chain s : Stored rcv chain s -> (forall b, b ∈ rcv -> dom c_block b) ->
  stores rcv s (len chain).
Proof.
  intros St Hd h. unfold ar_get_block. rewrite (st_blocks _ _ _ St). split; intro Hh.
  - destruct (N.eqb_spec h 0); [lia|].
    destruct (chain !! N.to_nat (h - 1)) as [b|] eqn:E.
    + exists b. cbn [fmap option_fmap option_map].
      assert (Hb : b ∈ rcv) by (apply (st_rcv _ _ _ St); eapply elem_of_list_lookup_2; exact E).
      pose proof (l_rt _ lawful_block b [] (Hd b Hb)) as R. rewrite app_nil_r in R.
      unfold from_buffer. rewrite R. cbn [valid]. split; [reflexivity|].
      split; [apply (st_heights _ _ _ St) in E; lia|exact Hb].
    + apply lookup_ge_None_1 in E. unfold len in *. lia.
  - destruct (N.eqb_spec h 0); [reflexivity|].
    rewrite lookup_ge_None_2; [reflexivity|]. unfold len in *. lia.
Qed.

Lemma dom_height b : dom c_block b -> blk_height b < two64.
Proof. intros [H _]. exact H. Qed.

(** ** Statements *)

Theorem archive_gapless es : blocks_fit es ->
  exists s ms, arch_run arch_new es = Some (s, ms) /\ stores (ev_blocks es) s (ar_best s) /\
    (forall b, b ∈ since_start es -> blk_height b <> ar_best s + 1) /\
    (forall b, b ∈ since_start es -> ar_best s < blk_height b ->
       (exists b', b' ∈ since_start es /\ blk_height b' + 1 = blk_height b) \/
       MGetBlock (blk_height b - 1) ∈ ms) /\
    (forall h, MPrune h ∈ ms -> h <= ar_best s).
Proof.
  intros [Hd Hl].
  destruct (VInv_run es [] [] [] [] arch_new VInv_new) as [s [ms [chain [E V]]]].
  { intros b Hb. apply dom_height, Hd. exact Hb. }
  { exact Hl. }
  cbn [app] in V. destruct V as [St [Pe [Hsub Hpr]]]. exists s, ms. split; [exact E|].
  rewrite (st_best _ _ _ St). split; [apply stores_of; assumption|].
  fold (since_start es) in *. destruct Pe as [P1 P2 P3]. split; [|split].
  - intros b Hb Hh. destruct (P3 b Hb) as [A|[A|[c [A _]]]]; [lia| |discriminate].
    apply elem_of_list_In, in_map_iff in A. destruct A as [[h x] [A1 A2]]. cbn in A1. subst h.
    apply elem_of_list_In in A2. destruct (P2 _ _ A2) as [_ [_ [_ [D _]]]]. specialize (D Hh). discriminate.
  - intros b Hb Hh. destruct (P3 b Hb) as [A|[A|[c [A _]]]]; [lia| |discriminate].
    apply elem_of_list_In, in_map_iff in A. destruct A as [[h x] [A1 A2]]. cbn in A1. subst h.
    apply elem_of_list_In in A2. destruct (P2 _ _ A2) as [_ [_ [_ [_ F]]]]. exact F.
  - exact Hpr.
Qed.

Lemma arch_run_app es1 : forall es2 s, arch_run s (es1 ++ es2) =
  match arch_run s es1 with
  | None => None
  | Some (s1, m1) => match arch_run s1 es2 with None => None | Some (s2, m2) => Some (s2, m1 ++ m2) end
  end.
Proof.
  induction es1 as [|e es1 IH]; intros es2 s; cbn [app arch_run].
  - destruct (arch_run s es2) as [[s2 m2]|]; reflexivity.
  - destruct (arch_do s e) as [[s1 m1]|]; [|reflexivity]. rewrite IH.
    destruct (arch_run s1 es1) as [[s2 m2]|]; [|reflexivity].
    destruct (arch_run s2 es2) as [[s3 m3]|]; [|reflexivity]. rewrite app_assoc. reflexivity.
Qed.

(** What was stored stays, whatever comes. *)
Theorem archive_immutable es1 es2 s1 m1 s2 m2 h b : blocks_fit (es1 ++ es2) ->
  arch_run arch_new es1 = Some (s1, m1) -> arch_run s1 es2 = Some (s2, m2) ->
  ar_get_block s1 h = GBlock b -> ar_get_block s2 h = GBlock b.
Proof.
  intros [Hd Hl] E1 E2 Hg.
  assert (Happ : ev_blocks (es1 ++ es2) = ev_blocks es1 ++ ev_blocks es2).
  { unfold ev_blocks. rewrite map_app, concat_app. reflexivity. }
  rewrite Happ in Hd, Hl.
  destruct (VInv_run es1 [] [] [] [] arch_new VInv_new) as [s [ms [chain [E V]]]].
  { intros x Hx. apply dom_height, Hd, elem_of_app. left. exact Hx. }
  { unfold len in *. cbn [app]. rewrite app_length in Hl. lia. }
  rewrite E1 in E. injection E as <- <-. cbn [app] in V.
  destruct (VInv_run es2 _ _ _ _ _ V) as [s' [ms' [more [E' V']]]].
  { intros x Hx. apply dom_height, Hd. exact Hx. }
  { exact Hl. }
  rewrite E2 in E'. injection E' as <- <-.
  destruct V as [St _]. destruct V' as [St' _].
  unfold ar_get_block in *. rewrite (st_blocks _ _ _ St) in Hg. rewrite (st_blocks _ _ _ St').
  destruct (h =? 0); [discriminate|].
  destruct (chain !! N.to_nat (h - 1)) as [x|] eqn:Ex; [|discriminate].
  rewrite lookup_app_l by (eapply lookup_lt_Some; exact Ex). rewrite Ex. exact Hg.
Qed.
